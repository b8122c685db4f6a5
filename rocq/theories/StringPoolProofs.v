(** The string pool holds the list of the strings put into it. *)
From Verif Require Import Base Bytes Reader Wire StringPool ReaderProofs.
Open Scope nat_scope.

(** [p] holds the strings [bs]; strings of the last chunk lie before [sl_position]. *)
Record pool_ok (p : spool) (bs : list bytes) : Prop := {
  po_len : length (sl_ptrs p) = length bs;
  po_get : forall i q b, nth_error (sl_ptrs p) i = Some q -> nth_error bs i = Some b ->
           get_by_pointer p q = Some b /\ sp_len q = length b /\
           (S (sp_chunk q) < length (sl_chunks p) \/
            S (sp_chunk q) = length (sl_chunks p) /\ sp_shift q + sp_len q <= sl_position p);
  po_pos : forall c l, rev (sl_chunks p) = c :: l -> sl_position p <= length c;
  po_empty : sl_chunks p = [] -> sl_position p = 0
}.

Lemma pool_new_ok k p : pool_new k = Ok p -> pool_ok p [] /\ sl_capacity p = k.
Proof.
  unfold pool_new. destruct (_ <=? _)%N; [|discriminate]. intros E. injection E as <-.
  split; [|reflexivity]. constructor; cbn; auto.
  - intros [|i] q b; discriminate.
  - discriminate.
Qed.

Lemma rev_snoc {A} (l : list A) x r : rev l = x :: r -> l = rev r ++ [x].
Proof. intros H. rewrite <- (rev_involutive l), H. reflexivity. Qed.

Lemma slice_some {A} (l r m : list A) : slice (l ++ r ++ m) (length l) (length l + length r) = Some r.
Proof.
  unfold slice. rewrite !app_length.
  destruct (Nat.leb_spec (length l) (length l + length r)); [|lia].
  destruct (Nat.leb_spec (length l + length r) (length l + (length r + length m))); [|lia]. cbn [andb].
  f_equal. replace (length l + length r - length l) with (length r) by lia.
  rewrite skipn_app, skipn_all, Nat.sub_diag. cbn [skipn app].
  rewrite firstn_app, firstn_all, Nat.sub_diag. cbn. apply app_nil_r.
Qed.

Lemma slice_overwrite pos b c a e : pos + length b <= length c -> e <= pos ->
  slice (overwrite pos b c) a e = slice c a e.
Proof.
  intros Hb He. unfold slice, overwrite.
  assert (length (firstn pos c ++ b ++ skipn (pos + length b) c) = length c) as ->
    by (rewrite !app_length, firstn_length, skipn_length; lia).
  destruct (Nat.leb_spec a e); cbn [andb]; [|reflexivity].
  destruct (Nat.leb_spec e (length c)); [|reflexivity]. f_equal.
  rewrite skipn_app, firstn_app, skipn_length, firstn_length.
  replace (e - a - (Nat.min pos (length c) - a)) with 0 by lia. cbn [firstn]. rewrite app_nil_r.
  rewrite skipn_firstn_comm, firstn_firstn. f_equal. lia.
Qed.

Lemma set_last_app l x y : set_last y (l ++ [x]) = l ++ [y].
Proof. unfold set_last. rewrite removelast_last. reflexivity. Qed.

Lemma try_put_ok b p bs c l : pool_ok p bs -> rev (sl_chunks p) = c :: l ->
  sl_position p + length b <= length c ->
  exists p', try_put b p = Ok p' /\ pool_ok p' (bs ++ [b]) /\ sl_capacity p' = sl_capacity p.
Proof.
  intros [H1 H2 H3 H4] Hc Hb. unfold try_put. rewrite Hc.
  destruct (Nat.ltb_spec (length c) (sl_position p + length b)); [lia|].
  eexists; split; [reflexivity|]. split; [|reflexivity].
  apply rev_snoc in Hc. rewrite Hc, set_last_app, app_length. cbn [length].
  rewrite Nat.add_sub. set (n := length (rev l)) in *.
  constructor; cbn [sl_ptrs sl_chunks sl_position sl_capacity].
  - rewrite !app_length, H1. reflexivity.
  - intros i q x Hq Hx. rewrite app_length. cbn [length].
    destruct (Nat.lt_ge_cases i (length bs)) as [L|L].
    + rewrite nth_error_app1 in Hq, Hx by lia.
      destruct (H2 i q x Hq Hx) as (G1 & G2 & G3). rewrite Hc, app_length in G3. cbn [length] in G3. fold n in G3.
      split; [|split; [exact G2|lia]].
      unfold get_by_pointer in *. cbn [sl_chunks]. rewrite Hc in G1.
      destruct G3 as [G3|[G3 G4]].
      * rewrite nth_error_app1 in * by lia. exact G1.
      * rewrite nth_error_app2 in * by lia. replace (sp_chunk q - length (rev l)) with 0 in * by lia.
        cbn [nth_error] in *. rewrite slice_overwrite by lia. exact G1.
    + rewrite nth_error_app2 in Hq, Hx by lia. rewrite H1 in Hq.
      assert (i - length bs = 0) as E. { destruct (i - length bs) as [|[|k]]; [reflexivity|discriminate|discriminate]. }
      rewrite E in *. injection Hq as <-. injection Hx as <-. cbn [sp_chunk sp_shift sp_len].
      split; [|split; [reflexivity|right; lia]].
      unfold get_by_pointer. cbn [sl_chunks sp_chunk sp_shift sp_len].
      rewrite nth_error_app2 by lia. unfold n. rewrite Nat.sub_diag. cbn [nth_error].
      unfold overwrite. assert (length (firstn (sl_position p) c) = sl_position p) as E' by (rewrite firstn_length; lia).
      rewrite <- E' at 3 4. apply slice_some.
  - intros c' l' H'. rewrite rev_app_distr in H'. cbn in H'. injection H' as <- <-.
    unfold overwrite. rewrite !app_length, firstn_length, skipn_length. lia.
  - intros H'. destruct (rev l); discriminate H'.
Qed.

Lemma reserve_ok size p bs p' : pool_ok p bs -> pool_reserve size p = Ok p' ->
  pool_ok p' bs /\ sl_capacity p' = sl_capacity p /\ sl_position p' = 0 /\
  exists c l, rev (sl_chunks p') = c :: l /\ size <= length c.
Proof.
  intros [H1 H2 H3 H4] H. unfold pool_reserve in H.
  destruct (_ <? _)%N; [|discriminate H]. destruct (_ <=? _)%N; [|discriminate H]. injection H as <-.
  split; [|split; [reflexivity|split; [reflexivity|]]].
  - constructor; cbn [sl_ptrs sl_chunks sl_position sl_capacity]; auto.
    + intros i q b Hq Hb. destruct (H2 i q b Hq Hb) as (G1 & G2 & G3).
      rewrite app_length. cbn [length]. split; [|split; [exact G2|lia]].
      unfold get_by_pointer in *. cbn [sl_chunks]. rewrite nth_error_app1 by lia. exact G1.
    + intros. lia.
  - cbn [sl_chunks]. rewrite rev_app_distr. do 2 eexists; split; [reflexivity|].
    rewrite repeat_length. lia.
Qed.

(** Putting a string: it either is held afterwards, or the memory request was refused. *)
Definition room (capacity : nat) (b : bytes) : Prop :=
  (N.of_nat capacity * 80 < 2 ^ 64)%N /\ (N.of_nat (Nat.max (capacity * 80) (length b)) <= isize_max)%N.

Lemma pool_put_ok b p bs : pool_ok p bs ->
  (exists p', pool_put b p = Ok p' /\ pool_ok p' (bs ++ [b]) /\ sl_capacity p' = sl_capacity p) \/
  ((pool_put b p = Panic PArith \/ pool_put b p = Panic PCapacity) /\ ~ room (sl_capacity p) b).
Proof.
  intros H. unfold pool_put. cbn [pool_put_loop].
  assert (exists f, free_space p = Ok f /\
            (forall c l, rev (sl_chunks p) = c :: l -> f = length c - sl_position p)) as (f & Ef & Hf).
  { unfold free_space. destruct (rev (sl_chunks p)) as [|c l] eqn:E; [exists 0; split; [reflexivity|discriminate]|].
    pose proof (po_pos _ _ H _ _ E). destruct (Nat.ltb_spec (length c) (sl_position p)); [lia|].
    eexists; split; [reflexivity|]. intros c' l' E'. injection E' as -> ->. reflexivity. }
  rewrite Ef. cbn [rbind].
  destruct ((f <? length b) || match sl_chunks p with [] => true | _ => false end) eqn:B.
  - destruct (pool_reserve (length b) p) as [p1| |q] eqn:R.
    + left. cbn [rbind]. destruct (reserve_ok _ _ _ _ H R) as (O1 & O2 & O3 & c & l & O4 & O5).
      unfold free_space. rewrite O4, O3. change (length c <? 0) with false. cbn [rbind].
      destruct (sl_chunks p1) eqn:C1; [discriminate O4|]. rewrite Nat.sub_0_r.
      destruct (Nat.ltb_spec (length c) (length b)); [lia|]. cbn [orb]. rewrite <- C1 in O4.
      destruct (try_put_ok b p1 bs c l O1 O4) as (p' & E & G1 & G2); [lia|].
      exists p'. split; [exact E|]. split; [exact G1|congruence].
    + exfalso. unfold pool_reserve in R. destruct (_ <? _)%N; [|discriminate]. destruct (_ <=? _)%N; discriminate.
    + right. cbn [rbind]. unfold pool_reserve in R. unfold room.
      destruct (N.ltb_spec (N.of_nat (sl_capacity p) * 80) (2 ^ 64)).
      * destruct (N.leb_spec (N.of_nat (Nat.max (sl_capacity p * 80) (length b))) isize_max); [discriminate R|].
        injection R as <-. split; [right; reflexivity|]. lia.
      * injection R as <-. split; [left; reflexivity|]. lia.
  - left. apply orb_false_iff in B. destruct B as [B1 B2]. apply Nat.ltb_ge in B1.
    destruct (rev (sl_chunks p)) as [|c l] eqn:E.
    { exfalso. apply (f_equal (@rev _)) in E. rewrite rev_involutive in E. rewrite E in B2. discriminate. }
    specialize (Hf c l eq_refl). pose proof (po_pos _ _ H _ _ E).
    apply (try_put_ok b p bs c l H E). lia.
Qed.

Lemma pool_put_all_ok bs : forall p as_ p', pool_ok p as_ -> pool_put_all bs p = Ok p' -> pool_ok p' (as_ ++ bs).
Proof.
  induction bs as [|b bs IH]; intros p a p' H E; cbn [pool_put_all] in E.
  - injection E as <-. rewrite app_nil_r. exact H.
  - destruct (pool_put_ok b p a H) as [(p1 & E1 & G1 & _)|[[E1|E1] _]]; rewrite E1 in E; try discriminate E.
    cbn [rbind] in E. change (b :: bs) with ([b] ++ bs). rewrite app_assoc. eapply IH; eassumption.
Qed.

Lemma pool_put_all_room bs : forall p as_, pool_ok p as_ -> Forall (room (sl_capacity p)) bs ->
  exists p', pool_put_all bs p = Ok p'.
Proof.
  induction bs as [|b bs IH]; intros p a H R; [exists p; reflexivity|].
  inversion_clear R as [|? ? R1 R2]. cbn [pool_put_all].
  destruct (pool_put_ok b p a H) as [(p1 & E1 & G1 & G2)|[_ G]]; [|contradiction].
  rewrite E1. cbn [rbind]. apply (IH p1 (a ++ [b]) G1). rewrite G2. exact R2.
Qed.

Lemma pool_ok_get p bs i b : pool_ok p bs -> nth_error bs i = Some b ->
  pool_get p i = Ok (Some b) /\ pool_get_unchecked p i = Some b.
Proof.
  intros H Hb. unfold pool_get, pool_get_unchecked.
  destruct (nth_error (sl_ptrs p) i) as [q|] eqn:Hq.
  - destruct (po_get _ _ H i q b Hq Hb) as (-> & _). auto.
  - exfalso. apply nth_error_None in Hq. rewrite (po_len _ _ H) in Hq.
    assert (i < length bs) by (apply nth_error_Some; congruence). lia.
Qed.

Lemma pool_ok_beyond p bs i : pool_ok p bs -> length bs <= i -> pool_get p i = Panic PIndex.
Proof.
  intros H Hi. unfold pool_get. assert (nth_error (sl_ptrs p) i = None) as ->; [|reflexivity].
  apply nth_error_None. rewrite (po_len _ _ H). exact Hi.
Qed.

Lemma nth_error_ext {A} (l l' : list A) : (forall i, nth_error l i = nth_error l' i) -> l = l'.
Proof.
  revert l'. induction l as [|x l IH]; intros [|y l'] H.
  - reflexivity.
  - discriminate (H 0).
  - discriminate (H 0).
  - pose proof (H 0) as E. injection E as <-. f_equal. apply IH. intros i. apply (H (S i)).
Qed.

Lemma pool_ok_strings p bs : pool_ok p bs -> pool_strings p = map Some bs.
Proof.
  intros H. unfold pool_strings. rewrite (po_len _ _ H).
  apply nth_error_ext. intros i. rewrite !nth_error_map.
  destruct (Nat.lt_ge_cases i (length bs)) as [L|L].
  - destruct (nth_error bs i) as [b|] eqn:E.
    + rewrite (nth_error_nth' (seq 0 (length bs)) 0) by (rewrite seq_length; exact L).
      rewrite seq_nth by exact L. cbn [option_map plus]. f_equal. apply (pool_ok_get p bs i b H E).
    + apply nth_error_None in E. lia.
  - assert (nth_error bs i = None) as -> by (apply nth_error_None; exact L).
    assert (nth_error (seq 0 (length bs)) i = None) as -> by (apply nth_error_None; rewrite seq_length; exact L).
    reflexivity.
Qed.

(** Loading. [a_string] is one length-prefixed byte string. *)
Definition a_string : P bytes := let! n := read_uvarint in Get n (fun l => Ret l).

Lemma pool_load_loop_ok k : forall p bs s p' r, pool_ok p bs -> run (pool_load_loop k p) s = Ok (p', r) ->
  exists l, run (prepeat k a_string) s = Ok (l, r) /\ pool_ok p' (bs ++ l).
Proof.
  induction k as [|k IH]; intros p bs s p' r H E; cbn [pool_load_loop prepeat] in *.
  - cbn [run] in E. injection E as <- <-. exists []. rewrite app_nil_r. split; [reflexivity|exact H].
  - rewrite run_bind in E. unfold a_string at 1. rewrite run_bind, run_bind.
    destruct (run read_uvarint s) as [[n s1]| |] eqn:E1; try discriminate E.
    rewrite run_bind in E.
    destruct (pool_put (repeat 0%N (N.to_nat n)) p) as [p0| |]; try discriminate E.
    cbn [lift run] in E. cbn [run].
    destruct (n <=? lenN s1)%N; [|discriminate E]. rewrite run_bind in E.
    set (b := firstn (N.to_nat n) s1) in *.
    destruct (pool_put_ok b p bs H) as [(p1 & F1 & G1 & _)|[[F1|F1] _]]; rewrite F1 in E; try discriminate E.
    cbn [lift run] in E. destruct (IH p1 (bs ++ [b]) _ p' r G1 E) as (l & L1 & L2).
    exists (b :: l). rewrite run_bind, L1. cbn [run]. split; [reflexivity|].
    rewrite <- app_assoc in L2. exact L2.
Qed.
