(** Proofs about bytes taken as compressed frames. *)
From Verif Require Import Base Bytes Reader Wire ReaderProofs SpecWire WireProofs CityHash Types TypeNames
  Columns Casts Block Compress SpecCompress CompressProofs SpecFrames.
Open Scope nat_scope.

Section Proofs.
Variable lz4_decompress : bytes -> N -> option bytes.
Notation read_frame := (read_frame lz4_decompress).
Notation gather := (gather lz4_decompress).
Notation gather_step := (gather_step lz4_decompress).
Notation through := (through lz4_decompress).
Notation front_of := (front_of lz4_decompress).
Notation unpacks := (unpacks lz4_decompress).

Definition as_read (f : front) : res (bytes * bytes) :=
  match f with Missing => Err EWouldBlock | Wrong => Err EOther | Fatal => Panic PArith | Holds d r => Ok (d, r) end.

Lemma sized_resize n d : sized n d = resize n d.
Proof.
  unfold sized, resize. rewrite firstn_app. f_equal.
  destruct (Nat.le_gt_cases (length d) n).
  - replace n with (n - length d + length d) at 2 by lia.
    rewrite repeat_app, firstn_app, repeat_length, Nat.sub_diag. cbn [firstn].
    rewrite app_nil_r, firstn_all2; [reflexivity|rewrite repeat_length; lia].
  - replace (n - length d) with 0 by lia. reflexivity.
Qed.

Lemma part_split i n (a b c : bytes) : length a = i -> length b = n -> part i n (a ++ b ++ c) = b.
Proof.
  intros <- <-. unfold part. rewrite skipn_app, skipn_all, Nat.sub_diag. cbn [app skipn].
  rewrite firstn_app, firstn_all, Nat.sub_diag. cbn [firstn]. apply app_nil_r.
Qed.

Lemma short_scalar t (u : bytes) : length u < width t -> run (read_scalar t) u = Err EWouldBlock.
Proof.
  intros Hu. unfold read_scalar. cbn [run]. rewrite (proj2 (N.leb_gt _ _)) by (unfold lenN; lia). reflexivity.
Qed.

Lemma positional_nonneg l : (0 <= positional l)%Z.
Proof. rewrite <- le_dec_positional. lia. Qed.

Lemma read_front s : bytes_ok s -> run read_frame s = as_read (front_of s).
Proof.
  intros B. unfold SpecFrames.front_of.
  destruct (Nat.ltb_spec (length s) 17) as [L|L].
  { unfold Compress.read_frame.
    destruct (Nat.le_gt_cases 8 (length s)) as [L1|L1]; [|rewrite run_bind, short_scalar by exact L1; reflexivity].
    destruct (take_some 8 s L1) as (lo & s1 & -> & Llo). rewrite app_length in L.
    rewrite run_bind, (scalar_take lz4_decompress) by exact Llo. cbv beta iota.
    destruct (Nat.le_gt_cases 8 (length s1)) as [L2|L2]; [|rewrite run_bind, short_scalar by exact L2; reflexivity].
    destruct (take_some 8 s1 L2) as (hi & s2 & -> & Lhi). rewrite app_length in L.
    rewrite run_bind, (scalar_take lz4_decompress) by exact Lhi. cbv beta iota.
    rewrite run_bind, short_scalar by (cbn; lia). reflexivity. }
  destruct (take_some 8 s ltac:(lia)) as (lo & s1 & -> & Llo). rewrite app_length in L.
  destruct (take_some 8 s1 ltac:(lia)) as (hi & s2 & -> & Lhi). rewrite app_length in L.
  destruct s2 as [|m s3]; [cbn in L; lia|].
  replace (nth 16 (lo ++ hi ++ m :: s3) 0%N) with m.
  2:{ rewrite app_nth2, app_nth2 by lia. rewrite Llo, Lhi. reflexivity. }
  destruct (Nat.ltb_spec (length (lo ++ hi ++ m :: s3)) 25) as [L25|L25].
  { unfold Compress.read_frame.
    rewrite run_bind, (scalar_take lz4_decompress) by exact Llo. cbv beta iota.
    rewrite run_bind, (scalar_take lz4_decompress) by exact Lhi. cbv beta iota.
    change (m :: s3) with ([m] ++ s3). rewrite run_bind, (scalar_take lz4_decompress U8 [m]) by reflexivity. cbv beta iota.
    rewrite unmarshal_unsigned by (reflexivity || discriminate).
    cbn [positional]. replace (Z.of_N m + 256 * 0)%Z with (Z.of_N m) by lia.
    replace (Z.of_N m =? 130)%Z with (m =? 130)%N.
    2:{ destruct (N.eqb_spec m 130), (Z.eqb_spec (Z.of_N m) 130); lia. }
    destruct (negb (m =? 130)%N); [reflexivity|].
    destruct (Nat.le_gt_cases 4 (length s3)) as [L3|L3]; [|rewrite run_bind, short_scalar by exact L3; reflexivity].
    destruct (take_some 4 s3 L3) as (c & s4 & -> & Lc).
    rewrite !app_length in L25. cbn [length] in L25. rewrite app_length in L25.
    rewrite run_bind, (scalar_take lz4_decompress) by exact Lc. cbv beta iota.
    rewrite run_bind, short_scalar by (cbn; lia). reflexivity. }
  rewrite !app_length in L25. cbn [length] in L25.
  destruct (take_some 4 s3 ltac:(lia)) as (c & s4 & -> & Lc). rewrite app_length in L25.
  destruct (take_some 4 s4 ltac:(lia)) as (o & rest & -> & Lo).
  assert (Bc : bytes_ok c /\ bytes_ok o).
  { change (m :: c ++ o ++ rest) with ([m] ++ c ++ o ++ rest) in B. rewrite !bytes_ok_app in B. tauto. }
  destruct Bc as [Bc Bo].
  rewrite (read_frame_head lz4_decompress _ lo hi m c o rest) by (reflexivity || assumption).
  replace (part 17 4 (lo ++ hi ++ m :: c ++ o ++ rest)) with c.
  2:{ symmetry. replace (lo ++ hi ++ m :: c ++ o ++ rest) with ((lo ++ hi ++ [m]) ++ c ++ (o ++ rest))
        by (rewrite <- !app_assoc; reflexivity).
      apply part_split; [rewrite !app_length; cbn [length]; lia|exact Lc]. }
  replace (part 21 4 (lo ++ hi ++ m :: c ++ o ++ rest)) with o.
  2:{ symmetry. replace (lo ++ hi ++ m :: c ++ o ++ rest) with ((lo ++ hi ++ [m] ++ c) ++ o ++ rest)
        by (rewrite <- !app_assoc; reflexivity).
      apply part_split; [rewrite !app_length; cbn [length]; lia|exact Lo]. }
  replace (part 0 8 (lo ++ hi ++ m :: c ++ o ++ rest)) with lo
    by (symmetry; apply (part_split 0 8 [] lo); [reflexivity|exact Llo]).
  replace (part 8 8 (lo ++ hi ++ m :: c ++ o ++ rest)) with hi by (symmetry; apply part_split; assumption).
  destruct (N.eqb_spec m 130) as [->|]; [|reflexivity]. cbn [negb].
  rewrite <- !le_dec_positional. rewrite !N2Z.id.
  destruct (N.ltb_spec max_compressed (le_dec c)) as [M|M];
    (change max_compressed with (2 ^ 30)%N in M).
  { rewrite (proj2 (Z.ltb_lt _ _)) by lia. reflexivity. }
  rewrite (proj2 (Z.ltb_ge _ _)) by lia.
  set (k := N.to_nat (le_dec c - 9)).
  replace (16 + Z.to_nat (Z.max 9 (Z.of_N (le_dec c)))) with (25 + k) by (unfold k; lia).
  replace (length (lo ++ hi ++ 130%N :: c ++ o ++ rest)) with (25 + length rest)
    by (rewrite !app_length; cbn [length]; rewrite !app_length; lia).
  destruct (N.ltb_spec (lenN rest) (le_dec c - 9)) as [K|K].
  { rewrite (proj2 (Nat.ltb_lt _ _)) by (unfold lenN, k in *; lia). reflexivity. }
  rewrite (proj2 (Nat.ltb_ge _ _)) by (unfold lenN, k in *; lia).
  assert (Ek : length (firstn k rest) = k) by (rewrite firstn_length; unfold lenN, k in *; lia).
  cbv zeta.
  replace (part 16 (25 + k - 16) (lo ++ hi ++ 130%N :: c ++ o ++ rest)) with ([130%N] ++ c ++ o ++ firstn k rest).
  2:{ symmetry. rewrite <- (firstn_skipn k rest) at 1.
      replace (lo ++ hi ++ 130%N :: c ++ o ++ firstn k rest ++ skipn k rest)
        with ((lo ++ hi) ++ ([130%N] ++ c ++ o ++ firstn k rest) ++ skipn k rest)
        by (rewrite <- !app_assoc; reflexivity).
      apply part_split; rewrite !app_length; cbn [length]; lia. }
  set (h := city_hash_128 _).
  rewrite (Z.eqb_sym (Z.of_N (fst h))), (Z.eqb_sym (Z.of_N (snd h))). fold k. fold h.
  destruct (negb _); [reflexivity|].
  replace (Z.of_N (le_dec c) <? 9)%Z with (le_dec c <? 9)%N
    by (destruct (N.ltb_spec (le_dec c) 9), (Z.ltb_spec (Z.of_N (le_dec c)) 9); lia).
  destruct (le_dec c <? 9)%N; [reflexivity|].
  replace (2 ^ 31 <=? Z.of_N (le_dec o))%Z with (2 ^ 31 <=? le_dec o)%N
    by (destruct (N.leb_spec (2 ^ 31) (le_dec o)), (Z.leb_spec (2 ^ 31) (Z.of_N (le_dec o))); lia).
  destruct (2 ^ 31 <=? le_dec o)%N; [reflexivity|].
  replace (part 25 (25 + k - 25) (lo ++ hi ++ 130%N :: c ++ o ++ rest)) with (firstn k rest).
  2:{ symmetry. rewrite <- (firstn_skipn k rest) at 1.
      replace (lo ++ hi ++ 130%N :: c ++ o ++ firstn k rest ++ skipn k rest)
        with ((lo ++ hi ++ [130%N] ++ c ++ o) ++ firstn k rest ++ skipn k rest)
        by (rewrite <- !app_assoc; reflexivity).
      apply part_split; [rewrite !app_length; cbn [length]; lia|lia]. }
  destruct (lz4_decompress _ _) as [d|]; [|reflexivity]. cbn [as_read].
  rewrite sized_resize. replace (Z.to_nat (Z.of_N (le_dec o))) with (N.to_nat (le_dec o)) by lia.
  replace (skipn (25 + k) (lo ++ hi ++ 130%N :: c ++ o ++ rest)) with (skipn k rest); [reflexivity|].
  replace (lo ++ hi ++ 130%N :: c ++ o ++ rest) with ((lo ++ hi ++ [130%N] ++ c ++ o) ++ rest)
    by (rewrite <- !app_assoc; reflexivity).
  rewrite skipn_app, (skipn_all2 (lo ++ hi ++ [130%N] ++ c ++ o)) by (rewrite !app_length; cbn [length]; lia).
  match goal with |- _ = [] ++ skipn ?x _ => replace x with k; [reflexivity|] end.
  rewrite !app_length. cbn [length]. lia.
Qed.

Lemma front_shorter s d r : front_of s = Holds d r -> length r < length s.
Proof.
  unfold SpecFrames.front_of.
  destruct (_ <? 17); [discriminate|]. destruct (negb _); [discriminate|].
  destruct (Nat.ltb_spec (length s) 25); [discriminate|].
  destruct (_ <? _)%Z; [discriminate|]. destruct (_ <? _); [discriminate|].
  destruct (negb _); [discriminate|]. destruct (_ <? _)%Z; [discriminate|]. destruct (_ <=? _)%Z; [discriminate|].
  destruct (lz4_decompress _ _); [|discriminate]. intros E.
  apply (f_equal (fun f => match f with Holds _ r => r | _ => [] end)) in E. cbv beta iota in E. rewrite <- E. rewrite skipn_length. lia.
Qed.
Lemma front_ok s d r : bytes_ok s -> front_of s = Holds d r -> bytes_ok r.
Proof.
  unfold SpecFrames.front_of. intros B.
  destruct (_ <? 17); [discriminate|]. destruct (negb _); [discriminate|].
  destruct (Nat.ltb_spec (length s) 25); [discriminate|].
  destruct (_ <? _)%Z; [discriminate|]. destruct (_ <? _); [discriminate|].
  destruct (negb _); [discriminate|]. destruct (_ <? _)%Z; [discriminate|]. destruct (_ <=? _)%Z; [discriminate|].
  destruct (lz4_decompress _ _); [|discriminate]. intros E.
  apply (f_equal (fun f => match f with Holds _ r => r | _ => [] end)) in E. cbv beta iota in E. rewrite <- E.
  apply Forall_skipn, B.
Qed.

Lemma unpacks_total s : exists l e, unpacks s l e.
Proof.
  remember (length s) as n eqn:E. revert s E.
  induction n as [n IH] using lt_wf_ind. intros s ->.
  destruct (front_of s) as [| | |d r] eqn:F.
  - exists [], Blocked. constructor. exact F.
  - exists [], Garbled. constructor. exact F.
  - exists [], Crashing. constructor. exact F.
  - destruct d as [|x d]; [exists [], Blocked; econstructor; exact F|].
    destruct (IH (length r) (front_shorter _ _ _ F) r eq_refl) as (l & e & U).
    exists ((x :: d, r) :: l), e. econstructor; [exact F|discriminate|exact U].
Qed.
Lemma unpacks_unique s l e : unpacks s l e -> forall l' e', unpacks s l' e' -> l' = l /\ e' = e.
Proof.
  induction 1 as [s F|s r F|s F|s F|s d r l e F N U IH]; intros l' e' U';
    inversion U' as [s0 F'|s0 r0 F'|s0 F'|s0 F'|s0 d0 r0 l0 e0 F' N' U'']; subst;
    rewrite F in F'; try discriminate F'; auto; injection F'; intros; subst; try congruence.
  destruct (IH _ _ U'') as [-> ->]. auto.
Qed.

(** A step of the collecting loop needs the state and the frames still to come. *)
Definition left_over (cur s : bytes) (l : list (bytes * bytes)) (used : nat) : bytes :=
  after s l (used - length cur).

Lemma gather_exact n e : forall k acc cur s l, bytes_ok s -> unpacks s l e ->
  (lenN acc <= n)%N -> length (cur ++ all_data l) < k ->
  let m := N.to_nat (n - lenN acc) in
  if (n - lenN acc <=? lenN (cur ++ all_data l))%N then
    exists cur' s' l', run (iter_nat (gather_step n) k (acc, cur)) s =
        Ok (inr (acc ++ firstn m (cur ++ all_data l), cur'), s') /\
      bytes_ok s' /\ unpacks s' l' e /\ cur' ++ all_data l' = skipn m (cur ++ all_data l) /\
      (forall more, left_over cur' s' l' more = left_over cur s l (m + more))
  else run (iter_nat (gather_step n) k (acc, cur)) s = reported e.
Proof.
  induction k as [|k IH]; intros acc cur s l B U La Lk; [lia|]. cbv zeta.
  cbn [iter_nat]. rewrite run_bind. unfold Compress.gather_step at 1 3.
  destruct (N.leb_spec n (lenN acc)) as [Hn|Hn].
  { replace (n - lenN acc)%N with 0%N by lia. cbn [N.leb N.to_nat firstn skipn].
    rewrite (proj2 (N.leb_le 0 _)) by lia.
    exists cur, s, l. rewrite app_nil_r. cbn [run Nat.add]. auto. }
  (* taking from a part that is at hand *)
  assert (step : forall cur1 s1 l1, cur1 <> [] -> bytes_ok s1 -> unpacks s1 l1 e ->
    length (cur1 ++ all_data l1) < S k ->
    let m := N.to_nat (n - lenN acc) in
    let j := N.to_nat (N.min (n - lenN acc) (lenN cur1)) in
    if (n - lenN acc <=? lenN (cur1 ++ all_data l1))%N then
      exists cur' s' l', run (iter_nat (gather_step n) k (acc ++ firstn j cur1, skipn j cur1)) s1 =
          Ok (inr (acc ++ firstn m (cur1 ++ all_data l1), cur'), s') /\
        bytes_ok s' /\ unpacks s' l' e /\ cur' ++ all_data l' = skipn m (cur1 ++ all_data l1) /\
        (forall more, left_over cur' s' l' more = left_over cur1 s1 l1 (m + more))
    else run (iter_nat (gather_step n) k (acc ++ firstn j cur1, skipn j cur1)) s1 = reported e).
  { intros cur1 s1 l1 N1 B1 U1 Lk1 m j.
    assert (j1 : 1 <= j <= length cur1).
    { unfold j, lenN in *. destruct cur1; [congruence|]. cbn [length] in *. lia. }
    assert (jm : j <= m) by (unfold j, m; lia).
    assert (Lacc : lenN (acc ++ firstn j cur1) = (lenN acc + N.of_nat j)%N).
    { unfold lenN. rewrite app_length, firstn_length. lia. }
    specialize (IH (acc ++ firstn j cur1) (skipn j cur1) s1 l1 B1 U1).
    rewrite Lacc in IH.
    assert (X1 : (lenN acc + N.of_nat j <= n)%N) by (unfold j; lia).
    assert (X2 : length (skipn j cur1 ++ all_data l1) < k).
    { rewrite app_length, skipn_length in *. lia. }
    specialize (IH X1 X2). cbv zeta in IH.
    replace (n - (lenN acc + N.of_nat j) <=? lenN (skipn j cur1 ++ all_data l1))%N
      with (n - lenN acc <=? lenN (cur1 ++ all_data l1))%N in IH.
    2:{ unfold lenN in *. rewrite !app_length, skipn_length.
        match goal with |- ((?a <=? ?b)%N = (?c <=? ?d)%N) => destruct (N.leb_spec a b), (N.leb_spec c d) end; lia. }
    destruct (n - lenN acc <=? lenN (cur1 ++ all_data l1))%N; [|exact IH].
    destruct IH as (cur' & s' & l' & R & B' & U' & E' & A').
    replace (N.to_nat (n - (lenN acc + N.of_nat j))) with (m - j) in * by (unfold m; lia).
    exists cur', s', l'. rewrite R. split; [|split; [exact B'|split; [exact U'|split]]].
    - rewrite <- app_assoc. do 4 f_equal.
      rewrite <- (firstn_skipn j cur1) at 3. rewrite <- app_assoc.
      rewrite (firstn_app m (firstn j cur1)), firstn_length, (Nat.min_l j) by lia.
      rewrite (firstn_all2 (firstn j cur1) (n:=m)) by (rewrite firstn_length; lia). reflexivity.
    - rewrite E'. rewrite <- (firstn_skipn j cur1) at 2. rewrite <- app_assoc.
      rewrite (skipn_app m (firstn j cur1)), firstn_length, (Nat.min_l j) by lia.
      rewrite (skipn_all2 (firstn j cur1) (n:=m)) by (rewrite firstn_length; lia). reflexivity.
    - intros more. rewrite A'. unfold left_over. rewrite skipn_length. f_equal. lia. }
  destruct cur as [|c0 cur].
  2:{ cbn [pbind run]. apply (step (c0 :: cur) s l); auto. discriminate. }
  cbn [app] in *.
  rewrite run_bind, run_via_io, read_front by exact B.
  destruct U as [s F|s r F|s F|s F|s d r l e F N U]; rewrite F; cbn [as_read].
  1-4: change (all_data []) with (@nil N); change (lenN []) with 0%N;
       rewrite (proj2 (N.leb_gt _ _)) by lia; reflexivity.
  assert (Br := front_ok _ _ _ B F).
  destruct d as [|x d]; [congruence|]. cbv beta iota. cbn [run].
  change (all_data ((x :: d, r) :: l)) with ((x :: d) ++ all_data l) in *.
  specialize (step (x :: d) r l ltac:(discriminate) Br U Lk). cbv zeta in step.
  destruct (n - lenN acc <=? lenN ((x :: d) ++ all_data l))%N; [|exact step].
  destruct step as (cur' & s' & l' & R & B' & U' & E' & A').
  exists cur', s', l'. split; [exact R|]. split; [exact B'|]. split; [exact U'|]. split; [exact E'|].
  intros more. rewrite A'. unfold left_over. rewrite Nat.sub_0_r.
  replace (N.to_nat (n - lenN acc) + more) with (S (N.to_nat (n - lenN acc) + more - 1)) at 2 by lia.
  cbn [after]. f_equal. lia.
Qed.

Lemma through_exact {A} (p : P A) e : forall cur s l u, bytes_ok s -> unpacks s l e ->
  (lenN (cur ++ all_data l) < 2 ^ 64)%N ->
  run (through p cur) s =
  match fed p (cur ++ all_data l) u with
  | Done a used => Ok (a, left_over cur s l (used - u))
  | Failed e' => Err e'
  | Crashed q => Panic q
  | Short => reported e
  end /\ match fed p (cur ++ all_data l) u with Done _ used => u <= used | _ => True end.
Proof.
  induction p as [a|e'|q|n k IH]; intros cur s l u B U L; [| | |].
  - cbn [fed Compress.through run]. rewrite Nat.sub_diag. unfold left_over. cbn [Nat.sub].
    destruct l as [|[d r] l]; auto.
  - cbn [fed Compress.through run]. auto.
  - cbn [fed Compress.through run]. auto.
  - assert (T : through (Get n k) cur = pbind (gather n cur) (fun x => through (k (fst x)) (snd x))) by reflexivity.
    rewrite T. clear T. cbn [fed].
    assert (Lb : length (cur ++ all_data l) < bound_nat).
    { apply (bound_nat_spec (S (length (cur ++ all_data l)))). unfold lenN in L. lia. }
    pose proof (gather_exact n e bound_nat [] cur s l B U ltac:(cbn; unfold lenN; cbn; lia) Lb) as G. cbv zeta in G.
    replace (n - lenN [])%N with n in G by (unfold lenN; cbn; lia). cbn [app] in G.
    assert (G' : gather n cur = ploop (gather_step n) ([], cur)) by reflexivity.
    rewrite run_bind, G'. clear G'. rewrite ploop_run.
    destruct (N.leb_spec n (lenN (cur ++ all_data l))) as [H|H].
    + destruct G as (cur' & s' & l' & R & B' & U' & E' & A'). rewrite R. cbv beta iota. cbn [fst snd].
      rewrite <- E'.
      destruct (IH (firstn (N.to_nat n) (cur ++ all_data l)) cur' s' l' (u + N.to_nat n) B' U') as [R' M'].
      { rewrite E'. unfold lenN in *. rewrite skipn_length. lia. }
      rewrite R'. clear R'.
      destruct (fed _ _ _) as [a used|e'|q|]; auto. split; [|lia].
      rewrite A'. do 3 f_equal. lia.
    + rewrite G. split; [|exact I]. destruct e; reflexivity.
Qed.
End Proofs.
