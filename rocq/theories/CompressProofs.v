(** Proofs about compressed frames. *)
From Verif Require Import Base Bytes Reader Wire ReaderProofs SpecWire WireProofs CityHash Types TypeNames
  Columns Casts Block Compress SpecCompress.
Open Scope nat_scope.

Section Proofs.
Variable lz4_decompress : bytes -> N -> option bytes.
Notation read_frame := (read_frame lz4_decompress).
Notation gather := (gather lz4_decompress).
Notation gather_step := (gather_step lz4_decompress).
Notation through := (through lz4_decompress).
Notation carries := (carries lz4_decompress).

Lemma resize_exact d : resize (N.to_nat (lenN d)) d = d.
Proof.
  unfold resize, lenN. rewrite Nat2N.id, firstn_all, Nat.sub_diag. apply app_nil_r.
Qed.

Lemma scalar_take t (l r : bytes) : length l = width t ->
  run (read_scalar t) (l ++ r) = Ok (unmarshal t l, r).
Proof.
  intros L. unfold read_scalar. cbn [run]. unfold lenN.
  rewrite app_length, Nat2N.id, <- L, firstn_app, skipn_app, Nat.sub_diag, firstn_all, skipn_all.
  rewrite (proj2 (N.leb_le _ _)) by lia. cbn [firstn skipn]. rewrite app_nil_r. reflexivity.
Qed.
Lemma unmarshal_unsigned t l : is_signed t = false -> t <> SBool -> unmarshal t l = positional l.
Proof.
  intros U B. rewrite <- le_dec_positional. unfold unmarshal. rewrite U. destruct t; congruence.
Qed.

Lemma head_bytes c o : bytes_ok c -> bytes_ok o -> length c = 4 -> length o = 4 ->
  frame_head (le_dec c) (le_dec o) = 130%N :: c ++ o.
Proof.
  intros Bc Bo Lc Lo. unfold frame_head.
  rewrite !le_dec_positional, <- (unmarshal_unsigned U32 c), <- (unmarshal_unsigned U32 o) by (reflexivity || discriminate).
  rewrite !marshal_unmarshal by (assumption || discriminate). reflexivity.
Qed.
Lemma bytes_ok_app (a b : bytes) : bytes_ok (a ++ b) <-> bytes_ok a /\ bytes_ok b.
Proof. apply Forall_app. Qed.

(** Reading the five fields of the head, on any input that has them. *)
Lemma read_frame_head s lo hi m c o rest :
  s = lo ++ hi ++ [m] ++ c ++ o ++ rest ->
  length lo = 8 -> length hi = 8 -> length c = 4 -> length o = 4 -> bytes_ok c -> bytes_ok o ->
  run read_frame s =
  if negb (m =? 130)%N then Err EOther
  else if (max_compressed <? le_dec c)%N then Err EOther
  else if (lenN rest <? le_dec c - 9)%N then Err EWouldBlock
  else
    let body := firstn (N.to_nat (le_dec c - 9)) rest in
    let r := skipn (N.to_nat (le_dec c - 9)) rest in
    let h := city_hash_128 ([130%N] ++ c ++ o ++ body) in
    if negb ((Z.of_N (fst h) =? positional lo)%Z && (Z.of_N (snd h) =? positional hi)%Z) then Err EOther
    else if (le_dec c <? 9)%N then Panic PArith
    else if (2 ^ 31 <=? le_dec o)%N then Err EOther
    else match lz4_decompress body (le_dec o) with
         | None => Err EOther
         | Some d => Ok (resize (N.to_nat (le_dec o)) d, r)
         end.
Proof.
  intros -> Llo Lhi Lc Lo Bc Bo. unfold Compress.read_frame.
  rewrite run_bind, scalar_take by exact Llo. cbv beta iota.
  rewrite run_bind, scalar_take by exact Lhi. cbv beta iota.
  rewrite run_bind, (scalar_take U8 [m]) by reflexivity. cbv beta iota.
  rewrite !unmarshal_unsigned by (reflexivity || discriminate).
  cbn [positional]. replace (Z.of_N m + 256 * 0)%Z with (Z.of_N m) by lia.
  replace (Z.of_N m =? 130)%Z with (m =? 130)%N.
  2:{ destruct (N.eqb_spec m 130), (Z.eqb_spec (Z.of_N m) 130); lia. }
  destruct (negb (m =? 130)%N); [reflexivity|].
  rewrite run_bind, scalar_take by exact Lc. cbv beta iota.
  rewrite run_bind, scalar_take by exact Lo. cbv beta iota.
  rewrite !unmarshal_unsigned by (reflexivity || discriminate).
  rewrite <- !le_dec_positional, !N2Z.id. cbv zeta.
  destruct (max_compressed <? le_dec c)%N; [reflexivity|].
  cbn [run].
  destruct (N.leb_spec (le_dec c - 9) (lenN rest)) as [H|H];
    [rewrite (proj2 (N.ltb_ge (lenN rest) (le_dec c - 9)) H)
    |rewrite (proj2 (N.ltb_lt (lenN rest) (le_dec c - 9)) H); reflexivity].
  rewrite head_bytes by assumption. rewrite <- app_comm_cons, <- app_assoc.
  change (130%N :: ?x) with ([130%N] ++ x).
  destruct (negb _); [reflexivity|].
  destruct (le_dec c <? 9)%N; [reflexivity|].
  destruct (2 ^ 31 <=? le_dec o)%N; [reflexivity|].
  destruct (lz4_decompress _ _); reflexivity.
Qed.

Lemma take_some {A} n (l : list A) : n <= length l -> exists a b, l = a ++ b /\ length a = n.
Proof.
  intros H. exists (firstn n l), (skipn n l).
  rewrite firstn_skipn, firstn_length. split; [reflexivity|lia].
Qed.

(** Any input either has the whole head or is too short for it. *)
Lemma frame_cases s : bytes_ok s ->
  (length s < 25 /\ (run read_frame s = Err EWouldBlock \/ run read_frame s = Err EOther)) \/
  exists lo hi m c o rest, s = lo ++ hi ++ [m] ++ c ++ o ++ rest /\
    length lo = 8 /\ length hi = 8 /\ length c = 4 /\ length o = 4 /\ bytes_ok c /\ bytes_ok o.
Proof.
  intros B.
  destruct (Nat.le_gt_cases 25 (length s)) as [L|L].
  - right.
    destruct (take_some 8 s ltac:(lia)) as (lo & s1 & -> & Llo). rewrite app_length in L.
    destruct (take_some 8 s1 ltac:(lia)) as (hi & s2 & -> & Lhi). rewrite app_length in L.
    destruct s2 as [|m s3]; [cbn in L; lia|]. cbn [length] in L.
    destruct (take_some 4 s3 ltac:(lia)) as (c & s4 & -> & Lc). rewrite app_length in L.
    destruct (take_some 4 s4 ltac:(lia)) as (o & s5 & -> & Lo).
    exists lo, hi, m, c, o, s5. change (m :: c ++ o ++ s5) with ([m] ++ c ++ o ++ s5) in *.
    rewrite !bytes_ok_app in B. tauto.
  - left. split; [exact L|].
    assert (short : forall t (u : bytes), length u < width t -> run (read_scalar t) u = Err EWouldBlock).
    { intros t u Hu. unfold read_scalar. cbn [run]. rewrite (proj2 (N.leb_gt _ _)) by (unfold lenN; lia).
      reflexivity. }
    unfold Compress.read_frame.
    destruct (Nat.le_gt_cases 8 (length s)) as [L1|L1];
      [|left; rewrite run_bind, short by exact L1; reflexivity].
    destruct (take_some 8 s L1) as (lo & s1 & -> & Llo). rewrite app_length in L.
    rewrite run_bind, scalar_take by exact Llo. cbv beta iota.
    destruct (Nat.le_gt_cases 8 (length s1)) as [L2|L2];
      [|left; rewrite run_bind, short by exact L2; reflexivity].
    destruct (take_some 8 s1 L2) as (hi & s2 & -> & Lhi). rewrite app_length in L.
    rewrite run_bind, scalar_take by exact Lhi. cbv beta iota.
    destruct s2 as [|m s3]; [left; reflexivity|]. cbn [length] in L.
    change (m :: s3) with ([m] ++ s3).
    rewrite run_bind, scalar_take by reflexivity. cbv beta iota.
    destruct (negb _); [right; reflexivity|].
    destruct (Nat.le_gt_cases 4 (length s3)) as [L3|L3];
      [|left; rewrite run_bind, short by exact L3; reflexivity].
    destruct (take_some 4 s3 L3) as (c & s4 & -> & Lc). rewrite app_length in L.
    rewrite run_bind, scalar_take by exact Lc. cbv beta iota.
    left. rewrite run_bind, short by (cbn; lia). reflexivity.
Qed.

Lemma frame_read_back d f r : carries d f -> run read_frame (f ++ r) = Ok (d, r).
Proof.
  intros (B & Ld & body & (lo & hi & c & o & -> & Llo & Lhi & Lc & Lo & Pc & Mc & Po & H) & D).
  rewrite !bytes_ok_app in B. destruct B as (_ & _ & _ & Bc & Bo & _).
  rewrite (read_frame_head _ lo hi 130%N c o (body ++ r))
    by (assumption || (rewrite <- !app_assoc; reflexivity)).
  rewrite <- le_dec_positional in Pc, Mc, Po. apply N2Z.inj in Po.
  assert (Ec : le_dec c = (9 + lenN body)%N) by (unfold lenN; lia).
  rewrite (proj2 (N.ltb_ge _ _)) by (change max_compressed with (2 ^ 30)%N; lia).
  rewrite Ec. replace (9 + lenN body - 9)%N with (lenN body) by lia.
  rewrite (proj2 (N.ltb_ge _ _)) by (unfold lenN; rewrite app_length; lia).
  rewrite firstn_lenN_app, skipn_lenN_app. cbv zeta in H |- *.
  destruct H as [-> ->]. rewrite !Z.eqb_refl. cbn [negb andb].
  rewrite (proj2 (N.ltb_ge _ _)) by lia. rewrite Po.
  rewrite (proj2 (N.leb_gt _ _)) by exact Ld.
  rewrite D, resize_exact. reflexivity.
Qed.

(** The converse: whatever is handed out came from a frame that checks. *)
Lemma frame_checked s d r : bytes_ok s -> run read_frame s = Ok (d, r) ->
  exists f body original x, s = f ++ r /\ frame_parts f body original /\
    lz4_decompress body original = Some x /\ d = resize (N.to_nat original) x.
Proof.
  intros B H.
  destruct (frame_cases s B) as [[_ [E|E]]|(lo & hi & m & c & o & rest & Es & Llo & Lhi & Lc & Lo & Bc & Bo)];
    [congruence|congruence|].
  rewrite (read_frame_head _ _ _ _ _ _ _ Es) in H by assumption.
  destruct (N.eqb_spec m 130) as [->|]; [|discriminate H]. cbn [negb] in H.
  destruct (N.ltb_spec max_compressed (le_dec c)) as [|Mc]; [discriminate H|].
  destruct (N.ltb_spec (lenN rest) (le_dec c - 9)) as [|Lr]; [discriminate H|].
  cbv zeta in H. destruct (split_avail rest _ Lr) as [Lb Sb].
  set (body := firstn _ rest) in *. set (r' := skipn _ rest) in *.
  destruct (Z.eqb_spec (Z.of_N (fst (city_hash_128 ([130%N] ++ c ++ o ++ body)))) (positional lo)) as [E1|];
    [|discriminate H].
  destruct (Z.eqb_spec (Z.of_N (snd (city_hash_128 ([130%N] ++ c ++ o ++ body)))) (positional hi)) as [E2|];
    [|discriminate H].
  cbn [negb andb] in H.
  destruct (N.ltb_spec (le_dec c) 9) as [|C9]; [discriminate H|].
  destruct (2 ^ 31 <=? le_dec o)%N; [discriminate H|].
  destruct (lz4_decompress body (le_dec o)) as [x|] eqn:D; [|discriminate H].
  injection H as <- <-.
  exists (lo ++ hi ++ [130%N] ++ c ++ o ++ body), body, (le_dec o), x.
  split; [rewrite Es, Sb, <- !app_assoc; reflexivity|].
  split; [|split; [exact D|reflexivity]].
  exists lo, hi, c, o. split; [reflexivity|]. do 4 (split; [assumption|]).
  split; [rewrite <- le_dec_positional; unfold lenN in Lb; lia|].
  split; [rewrite <- le_dec_positional; change max_compressed with (2 ^ 30)%N in Mc; lia|].
  split; [symmetry; apply le_dec_positional|].
  cbv zeta. split; symmetry; assumption.
Qed.

(** The only panic. *)
Lemma frame_panic s q : bytes_ok s -> run read_frame s = Panic q -> q = PArith /\
  exists lo hi c o rest, s = lo ++ hi ++ [130%N] ++ c ++ o ++ rest /\
    length lo = 8 /\ length hi = 8 /\ length c = 4 /\ length o = 4 /\ (positional c < 9)%Z /\
    city_hash_128 ([130%N] ++ c ++ o) = (le_dec lo, le_dec hi).
Proof.
  intros B H.
  destruct (frame_cases s B) as [[_ [E|E]]|(lo & hi & m & c & o & rest & Es & Llo & Lhi & Lc & Lo & Bc & Bo)];
    [congruence|congruence|].
  rewrite (read_frame_head _ _ _ _ _ _ _ Es) in H by assumption.
  destruct (N.eqb_spec m 130) as [->|]; [|discriminate H]. cbn [negb] in H.
  destruct (max_compressed <? le_dec c)%N; [discriminate H|].
  destruct (lenN rest <? le_dec c - 9)%N; [discriminate H|].
  cbv zeta in H. 
  destruct (N.ltb_spec (le_dec c) 9) as [C9|C9].
  - replace (le_dec c - 9)%N with 0%N in H by lia. cbn [N.to_nat firstn] in H. rewrite app_nil_r in H.
    destruct (Z.eqb_spec (Z.of_N (fst (city_hash_128 ([130%N] ++ c ++ o)))) (positional lo)) as [E1|];
      [|discriminate H].
    destruct (Z.eqb_spec (Z.of_N (snd (city_hash_128 ([130%N] ++ c ++ o)))) (positional hi)) as [E2|];
      [|discriminate H].
    cbn [negb andb] in H. split; [congruence|].
    exists lo, hi, c, o, rest. repeat (split; [assumption|]).
    split; [rewrite <- le_dec_positional; lia|].
    rewrite <- le_dec_positional in E1, E2. apply N2Z.inj in E1, E2. rewrite <- E1, <- E2.
    apply surjective_pairing.
  - exfalso. destruct (negb _) in H; [discriminate H|].
    destruct (2 ^ 31 <=? le_dec o)%N; [discriminate H|].
    destruct (lz4_decompress _ _); discriminate H.
Qed.

(** Errors that cross [io::Read]. *)
Lemma run_via_io {A} (p : P A) s : run (via_io p) s =
  match run p s with
  | Ok x => Ok x
  | Err EWouldBlock => Err EWouldBlock
  | Err _ => Err EIo
  | Panic q => Panic q
  end.
Proof.
  revert s. induction p as [a|e|q|n k IH]; intros s; cbn [via_io run]; try reflexivity.
  - destruct e; reflexivity.
  - destruct (n <=? lenN s)%N; [apply IH|reflexivity].
Qed.

(** [gather]: collecting bytes across frames. *)
Lemma gather_iter n r : forall k acc cur ps fs (u v : bytes),
  Forall2 carries ps fs -> Forall (fun p => p <> []) ps ->
  cur ++ concat ps = u ++ v -> (lenN acc + lenN u)%N = n -> length u <= k ->
  exists i cur',
    run (iter_nat (gather_step n) (S k) (acc, cur)) (concat fs ++ r) =
      Ok (inr (acc ++ u, cur'), concat (skipn i fs) ++ r) /\
    v = cur' ++ concat (skipn i ps) /\ i <= length fs.
Proof.
  induction k as [|k IH]; intros acc cur ps fs u v F NE E Hn Hk.
  - destruct u; [|cbn in Hk; lia]. exists 0, cur.
    cbn [iter_nat]. rewrite run_bind. unfold Compress.gather_step.
    rewrite (proj2 (N.leb_le _ _)) by (unfold lenN in *; cbn in Hn; lia).
    rewrite app_nil_r. cbn [run skipn]. split; [reflexivity|].
    split; [symmetry; exact E|lia].
  - destruct u as [|x u].
    { exists 0, cur. cbn [iter_nat]. rewrite run_bind. unfold Compress.gather_step.
      rewrite (proj2 (N.leb_le _ _)) by (unfold lenN in *; cbn in Hn; lia).
      rewrite app_nil_r. cbn [run skipn]. split; [reflexivity|].
      split; [symmetry; exact E|lia]. }
    assert (step : forall cur1 ps1 fs1, cur1 <> [] -> Forall2 carries ps1 fs1 -> Forall (fun p => p <> []) ps1 ->
      cur1 ++ concat ps1 = (x :: u) ++ v ->
      let j := N.to_nat (N.min (n - lenN acc) (lenN cur1)) in
      exists i cur',
        run (iter_nat (gather_step n) (S k) (acc ++ firstn j cur1, skipn j cur1)) (concat fs1 ++ r) =
          Ok (inr (acc ++ x :: u, cur'), concat (skipn i fs1) ++ r) /\
        v = cur' ++ concat (skipn i ps1) /\ i <= length fs1).
    { intros cur1 ps1 fs1 N1 F1 NE1 E1 j.
      assert (Hj : j = Nat.min (length (x :: u)) (length cur1)).
      { unfold j, lenN in *. cbn [length] in *. lia. }
      assert (j1 : 1 <= j <= length cur1) by (rewrite Hj; destruct cur1; [congruence|cbn [length]; lia]).
      assert (Eu : firstn j cur1 = firstn j (x :: u)).
      { assert (X : firstn j (cur1 ++ concat ps1) = firstn j ((x :: u) ++ v)) by congruence.
        rewrite !firstn_app in X.
        replace (j - length cur1) with 0 in X by lia.
        replace (j - length (x :: u)) with 0 in X by lia.
        cbn [firstn] in X. rewrite !app_nil_r in X. exact X. }
      destruct (IH (acc ++ firstn j cur1) (skipn j cur1) ps1 fs1 (skipn j (x :: u)) v) as (i & cur' & R & V & I);
        try assumption.
      - apply (app_inv_head (firstn j cur1)).
        rewrite app_assoc, firstn_skipn, E1, Eu, app_assoc, firstn_skipn. reflexivity.
      - unfold lenN in *. rewrite app_length, skipn_length, firstn_length. cbn [length] in *. lia.
      - rewrite skipn_length. cbn [length] in *. lia.
      - exists i, cur'. rewrite R, <- app_assoc, Eu, firstn_skipn. auto. }
    assert (Lt : (n <=? lenN acc)%N = false) by (apply N.leb_gt; unfold lenN in *; cbn in Hn; lia).
    cbn [iter_nat]. rewrite run_bind. unfold Compress.gather_step at 1. rewrite Lt.
    destruct cur as [|c0 cur].
    + destruct F as [|p1 f1 ps fs C F]; [discriminate E|].
      inversion NE as [|? ? N1 NE']; subst.
      destruct p1 as [|y p1]; [congruence|].
      rewrite run_bind, run_via_io. cbn [concat]. rewrite <- app_assoc, (frame_read_back (y :: p1)) by exact C.
      cbv beta iota. cbn [run].
      destruct (step (y :: p1) ps fs N1 F NE' E) as (i & cur' & R & V & I).
      exists (S i), cur'. cbv zeta in R. cbn [iter_nat] in R. rewrite R.
      cbn [skipn length]. split; [reflexivity|]. split; [exact V|lia].
    + cbn [pbind run].
      destruct (step (c0 :: cur) ps fs ltac:(discriminate) F NE E) as (i & cur' & R & V & I).
      exists i, cur'. auto.
Qed.

Lemma gather_ok n cur ps fs r u v :
  Forall2 carries ps fs -> Forall (fun p => p <> []) ps -> (n < 2 ^ 64)%N ->
  cur ++ concat ps = u ++ v -> lenN u = n ->
  exists i cur', run (gather n cur) (concat fs ++ r) = Ok ((u, cur'), concat (skipn i fs) ++ r) /\
    v = cur' ++ concat (skipn i ps) /\ i <= length fs.
Proof.
  intros F NE Hn E L.
  destruct (gather_iter n r (length u) [] cur ps fs u v F NE E) as (i & cur' & R & V & I); [exact L|lia|].
  exists i, cur'. split; [|auto]. unfold Compress.gather.
  apply (ploop_ok _ _ _ _ _ _ R). unfold lenN in L. lia.
Qed.

Lemma Forall_skipn {A} (Q : A -> Prop) i (l : list A) : Forall Q l -> Forall Q (skipn i l).
Proof.
  rewrite !Forall_forall. intros H x Hx. apply H. rewrite <- (firstn_skipn i l). apply in_or_app. auto.
Qed.
Lemma Forall2_skipn {A B} (Q : A -> B -> Prop) i l l' : Forall2 Q l l' -> Forall2 Q (skipn i l) (skipn i l').
Proof.
  intros F. revert i. induction F as [|a b l l' q F IH]; intros [|i]; cbn [skipn]; auto.
Qed.
Lemma skipn_add {A} i j (l : list A) : skipn j (skipn i l) = skipn (i + j) l.
Proof. revert l. induction i; intros [|x l]; cbn; auto. apply skipn_nil. Qed.
Lemma concat_skipn_length {A} i (l : list (list A)) : length (concat (skipn i l)) <= length (concat l).
Proof. rewrite <- (firstn_skipn i l) at 2. rewrite concat_app, app_length. lia. Qed.

(** Reading a list of frames is reading what they carry. *)
Lemma through_ok {A} (p : P A) : forall cur ps fs r,
  Forall2 carries ps fs -> Forall (fun p => p <> []) ps -> (lenN (cur ++ concat ps) < 2 ^ 64)%N ->
  match run p (cur ++ concat ps) with
  | Ok (a, lft) =>
      exists i cur', run (through p cur) (concat fs ++ r) = Ok (a, concat (skipn i fs) ++ r) /\
        lft = cur' ++ concat (skipn i ps) /\ i <= length fs
  | Err EWouldBlock => True
  | Err e => run (through p cur) (concat fs ++ r) = Err e
  | Panic q => run (through p cur) (concat fs ++ r) = Panic q
  end.
Proof.
  induction p as [a|e|q|n k IH]; intros cur ps fs r F NE L; cbn [run Compress.through].
  - exists 0, cur. auto with arith.
  - destruct e; auto.
  - reflexivity.
  - destruct (N.leb_spec n (lenN (cur ++ concat ps))) as [H|H]; [|exact I].
    destruct (split_avail _ _ H) as [Lu E].
    set (u := firstn _ _) in *. set (v := skipn _ _) in *.
    destruct (gather_ok n cur ps fs r u v F NE ltac:(lia) E Lu) as (i & cur' & R & V & I).
    specialize (IH u cur' (skipn i ps) (skipn i fs) r (Forall2_skipn _ _ _ _ F) (Forall_skipn _ _ _ NE)).
    rewrite <- V in IH.
    assert (L' : (lenN v < 2 ^ 64)%N).
    { apply (f_equal lenN) in E. unfold lenN in *. rewrite (app_length u v) in E. lia. }
    specialize (IH L'). rewrite run_bind, R. cbn [fst snd].
    destruct (run (k u) v) as [[a lft]|e|q]; [|exact IH|exact IH].
    destruct IH as (j & cur'' & R' & V' & J). exists (i + j), cur''.
    rewrite skipn_add in R', V'. rewrite R', V'. split; [reflexivity|]. split; [reflexivity|].
    rewrite skipn_length in J. lia.
Qed.

(** The converse. *)
Definition checked (d f : bytes) : Prop :=
  exists body original x, frame_parts f body original /\ lz4_decompress body original = Some x /\
    d = resize (N.to_nat original) x.

Lemma gather_checked_iter n : forall k acc cur s acc' cur' r, bytes_ok s ->
  (lenN acc <= n)%N ->
  run (iter_nat (gather_step n) k (acc, cur)) s = Ok (inr (acc', cur'), r) ->
  exists ds fs, s = concat fs ++ r /\ Forall2 checked ds fs /\ acc ++ cur ++ concat ds = acc' ++ cur' /\
    lenN acc' = n.
Proof.
  induction k as [|k IH]; intros acc cur s acc' cur' r B La H; [discriminate H|].
  cbn [iter_nat] in H. rewrite run_bind in H. unfold Compress.gather_step at 1 in H.
  destruct (N.leb_spec n (lenN acc)) as [Hn|Hn].
  { cbn [run] in H. injection H as <- <- <-. exists [], []. cbn. rewrite app_nil_r.
    repeat split; auto. lia. }
  assert (step : forall cur1 s1, cur1 <> [] -> bytes_ok s1 ->
    let j := N.to_nat (N.min (n - lenN acc) (lenN cur1)) in
    run (iter_nat (gather_step n) k (acc ++ firstn j cur1, skipn j cur1)) s1 = Ok (inr (acc', cur'), r) ->
    exists ds fs, s1 = concat fs ++ r /\ Forall2 checked ds fs /\ acc ++ cur1 ++ concat ds = acc' ++ cur' /\
      lenN acc' = n).
  { intros cur1 s1 N1 B1 j R. apply IH in R; [|exact B1|].
    - destruct R as (ds & fs & E1 & F & E2 & L). exists ds, fs. repeat split; auto.
      rewrite <- E2, <- (firstn_skipn j cur1) at 1. rewrite <- !app_assoc. reflexivity.
    - unfold j, lenN in *. rewrite app_length, firstn_length. lia. }
  destruct cur as [|c0 cur].
  - rewrite run_bind, run_via_io in H.
    destruct (run read_frame s) as [[d s1]|e|q] eqn:R; [|destruct e; discriminate H|discriminate H].
    cbv beta iota in H.
    destruct (frame_checked s d s1 B R) as (f & body & o & x & Es & Fp & Dx & Ed).
    destruct d as [|y d']; [discriminate H|]. cbn [run] in H.
    assert (B1 : bytes_ok s1) by (subst s; apply bytes_ok_app in B; tauto).
    destruct (step (y :: d') s1 ltac:(discriminate) B1 H) as (ds & fs & E1 & F & E2 & L).
    exists ((y :: d') :: ds), (f :: fs). cbn [concat]. rewrite Es, E1, <- app_assoc.
    repeat split; auto. constructor; [|exact F]. exists body, o, x. auto.
  - cbn [pbind run] in H. exact (step (c0 :: cur) s ltac:(discriminate) B H).
Qed.

Lemma gather_checked n cur s acc' cur' r : bytes_ok s ->
  run (gather n cur) s = Ok ((acc', cur'), r) ->
  exists ds fs, s = concat fs ++ r /\ Forall2 checked ds fs /\ cur ++ concat ds = acc' ++ cur' /\
    lenN acc' = n.
Proof.
  intros B H.
  assert (G : gather n cur = ploop (gather_step n) ([], cur)) by reflexivity.
  rewrite G in H. clear G. rewrite ploop_run in H.
  revert H. generalize bound_nat as k. intros k H.
  destruct (run (iter_nat (gather_step n) k ([], cur)) s) as [[[st|[a c]] r']|e|q] eqn:E;
    try discriminate H.
  injection H as -> -> ->.
  apply (gather_checked_iter n) in E; [exact E|exact B|unfold lenN; cbn; lia].
Qed.

Lemma through_checked {A} (p : P A) : forall cur s a r, bytes_ok s ->
  run (through p cur) s = Ok (a, r) ->
  exists ds fs lft, s = concat fs ++ r /\ Forall2 checked ds fs /\
    run p (cur ++ concat ds) = Ok (a, lft).
Proof.
  induction p as [a0|e|q|n k IH]; intros cur s a r B H; try discriminate H.
  - cbn in H. injection H as -> ->. exists [], [], (cur ++ []). repeat split; auto.
  - assert (T : through (Get n k) cur = pbind (gather n cur) (fun x => through (k (fst x)) (snd x))) by reflexivity.
    rewrite T, run_bind in H. clear T.
    destruct (run (gather n cur) s) as [[[u cur'] s']|e|q] eqn:G; try discriminate H.
    cbn [fst snd] in H.
    destruct (gather_checked _ _ _ _ _ _ B G) as (ds & fs & E1 & F1 & E2 & L).
    assert (B1 : bytes_ok s') by (rewrite E1 in B; apply bytes_ok_app in B; tauto).
    destruct (IH u cur' s' a r B1 H) as (ds' & fs' & lft & E3 & F3 & R).
    exists (ds ++ ds'), (fs ++ fs'), lft. rewrite !concat_app, <- app_assoc, <- E3.
    split; [exact E1|]. split; [apply Forall2_app; assumption|].
    rewrite app_assoc, E2, <- app_assoc. cbn [run].
    rewrite (proj2 (N.leb_le _ _)) by (unfold lenN in *; rewrite app_length; lia).
    rewrite <- L, firstn_lenN_app, skipn_lenN_app. exact R.
Qed.

(** The frame the client writes. *)
Lemma w64_bound x : (w64 x < 2 ^ 64)%N.
Proof. unfold w64. apply N.mod_lt. discriminate. Qed.
Lemma log2_bound a : (a < 2 ^ 64)%N -> (N.log2 a < 64)%N.
Proof.
  intros H. destruct (N.eq_dec a 0) as [->|Z]; [reflexivity|]. apply N.log2_lt_pow2; lia.
Qed.
Lemma lxor_bound a b : (a < 2 ^ 64)%N -> (b < 2 ^ 64)%N -> (N.lxor a b < 2 ^ 64)%N.
Proof.
  intros Ha Hb. destruct (N.eq_dec (N.lxor a b) 0) as [->|Z]; [lia|].
  apply N.log2_lt_pow2; [lia|].
  pose proof (N.log2_lxor a b). pose proof (log2_bound a Ha). pose proof (log2_bound b Hb). lia.
Qed.
Lemma hash_len16_bound a b : (hash_len16 a b < 2 ^ 64)%N.
Proof. unfold hash_len16, mul64. apply w64_bound. Qed.
Lemma city_seed_bound s n seed : (fst (city128_seed s n seed) < 2 ^ 64)%N /\ (snd (city128_seed s n seed) < 2 ^ 64)%N.
Proof.
  unfold city128_seed. destruct (n <? 128).
  - unfold city_murmur. destruct seed as [a b].
    match goal with |- context [match ?x with pair _ _ => _ end] => destruct x as [[[a' b'] c'] d'] end.
    cbn [fst snd]. split; [apply lxor_bound|]; apply hash_len16_bound.
  - destruct seed as [x y].
    match goal with |- context [match ?x with pair _ _ => _ end] => destruct x as [[st o] rest] end.
    destruct st as [x1 y1 z1 v1 w1].
    match goal with |- context [match ?x with mk_city _ _ _ _ _ => _ end] => destruct x as [x2 y2 z2 v2 w2] end.
    cbn [fst snd]. split; [apply w64_bound|apply hash_len16_bound].
Qed.
Lemma city_bound s : (fst (city_hash_128 s) < 2 ^ 64)%N /\ (snd (city_hash_128 s) < 2 ^ 64)%N.
Proof.
  unfold city_hash_128. destruct (16 <=? length s); [apply city_seed_bound|].
  destruct (8 <=? length s); apply city_seed_bound.
Qed.

Lemma positional_marshal_u t n : is_signed t = false -> t <> SBool -> (n < 2 ^ (8 * N.of_nat (width t)))%N ->
  positional (marshal t (Z.of_N n)) = Z.of_N n.
Proof.
  intros U B H. rewrite <- le_dec_positional, le_dec_marshal.
  apply to_unsigned_small. split; [lia|].
  apply N2Z.inj_lt in H. rewrite N2Z.inj_pow, N2Z.inj_mul, nat_N_Z in H. exact H.
Qed.

Lemma frame_written lz4_compress d : bytes_ok (lz4_compress d) ->
  (9 + lenN (lz4_compress d) <= 2 ^ 30)%N -> (lenN d < 2 ^ 31)%N ->
  lz4_decompress (lz4_compress d) (lenN d) = Some d ->
  carries d (compress_frame lz4_compress d).
Proof.
  intros B Hb Hd D. unfold compress_frame. cbv zeta.
  rewrite !N.mod_small by lia.
  set (body := lz4_compress d) in *.
  assert (E : frame_head (9 + lenN body) (lenN d) ++ body =
    [130%N] ++ marshal U32 (Z.of_N (9 + lenN body)) ++ marshal U32 (Z.of_N (lenN d)) ++ body).
  { unfold frame_head. cbn [app]. rewrite <- app_assoc. reflexivity. }
  rewrite E. destruct (city_bound ([130%N] ++ marshal U32 (Z.of_N (9 + lenN body)) ++ marshal U32 (Z.of_N (lenN d)) ++ body)) as [B1 B2].
  split; [|split; [exact Hd|]].
  - rewrite !bytes_ok_app. repeat split; try apply marshal_bytes; [|exact B].
    constructor; [reflexivity|constructor].
  - exists body. split; [|exact D].
    eexists _, _, _, _. split; [reflexivity|].
    rewrite !marshal_length. repeat (split; [reflexivity|]).
    assert (Pc : positional (marshal U32 (Z.of_N (9 + lenN body))) = Z.of_N (9 + lenN body)).
    { apply positional_marshal_u; [reflexivity|discriminate|]. cbn [width]. lia. }
    rewrite Pc.
    split; [unfold lenN; lia|]. split; [lia|].
    split; [apply positional_marshal_u; [reflexivity|discriminate|cbn [width]; lia]|].
    cbv zeta. split; apply positional_marshal_u; try reflexivity; try discriminate; assumption.
Qed.
End Proofs.
