(** The piece lookup of concatenated columns. *)
From Verif Require Import Base Types Columns.

Definition sum (l : list nat) : nat := fold_right plus 0 l.

Lemma sum_app a b : sum (a ++ b) = sum a + sum b.
Proof. unfold sum. induction a; cbn; lia. Qed.

Lemma build_index_length acc l : length (build_index acc l) = S (length l).
Proof. revert acc. induction l; intros acc; cbn; [reflexivity|]. rewrite IHl. reflexivity. Qed.

Lemma build_index_nth l : forall acc i, i <= length l ->
  nth_error (build_index acc l) i = Some (acc + sum (firstn i l)).
Proof.
  induction l as [|n l IH]; intros acc i Hi; cbn [length] in Hi.
  - assert (i = 0) as -> by lia. cbn. f_equal. lia.
  - destruct i as [|i]; cbn [build_index nth_error firstn].
    + f_equal. cbn. lia.
    + rewrite IH by lia. f_equal. cbn. fold (sum (firstn i l)). lia.
Qed.

Lemma index_build l i : i <= length l -> index (build_index 0 l) i = Ok (sum (firstn i l)).
Proof. intros H. unfold index. rewrite build_index_nth by exact H. reflexivity. Qed.

Lemma sum_firstn_S l i : sum (firstn (S i) l) = sum (firstn i l) + nth i l 0.
Proof.
  revert i. induction l as [|x l IH]; intros i.
  - destruct i; reflexivity.
  - destruct i as [|i]; [cbn; lia|]. rewrite firstn_cons. cbn [sum fold_right]. fold (sum (firstn (S i) l)).
    rewrite IH. cbn. fold (sum (firstn i l)). lia.
Qed.

Lemma sum_firstn_mono l i j : i <= j -> sum (firstn i l) <= sum (firstn j l).
Proof.
  intros H. induction H; [lia|]. rewrite sum_firstn_S. lia.
Qed.

Lemma find_chunk_loop_found l ix t : t < length l ->
  sum (firstn t l) <= ix < sum (firstn (S t) l) ->
  forall fuel lo hi, lo <= t < hi -> hi <= length l -> hi - lo < fuel ->
  find_chunk_loop fuel (build_index 0 l) ix lo hi = Ok t.
Proof.
  intros Ht Hix. induction fuel as [|fuel IH]; intros lo hi Hl Hh Hf; [lia|].
  cbn [find_chunk_loop]. destruct (Nat.ltb_spec lo hi) as [_|]; [|lia].
  set (mid := lo + (hi - lo) / 2).
  assert (Hm : lo <= mid < hi). { unfold mid. pose proof (Nat.div_lt (hi - lo) 2). lia. }
  rewrite !index_build by lia. cbn [rbind].
  destruct (Nat.eqb_spec (sum (firstn lo l)) (sum (firstn (lo + 1) l))) as [E|E].
  { apply IH; [|lia|lia]. split; [|lia].
    destruct (Nat.eq_dec lo t) as [->|]; [|lia]. rewrite Nat.add_1_r in E. lia. }
  rewrite ?index_build by lia. cbn [rbind].
  destruct (Nat.ltb_spec ix (sum (firstn mid l))) as [L|L].
  { apply IH; [|lia|lia]. split; [lia|].
    destruct (Nat.le_gt_cases mid t) as [M|M]; [|lia].
    pose proof (sum_firstn_mono l mid t M). lia. }
  rewrite ?index_build by lia. cbn [rbind].
  destruct (Nat.leb_spec (sum (firstn (mid + 1) l)) ix) as [G|G].
  { apply IH; [|lia|lia]. split; [|lia].
    destruct (Nat.le_gt_cases (mid + 1) t) as [M|M]; [lia|].
    pose proof (sum_firstn_mono l (S t) (mid + 1) ltac:(lia)). lia. }
  f_equal. destruct (Nat.lt_trichotomy mid t) as [M|[M|M]]; [|exact M|].
  - pose proof (sum_firstn_mono l (mid + 1) t ltac:(lia)). lia.
  - pose proof (sum_firstn_mono l (S t) mid ltac:(lia)). lia.
Qed.

Lemma find_chunk_loop_beyond l ix : sum l <= ix ->
  forall fuel lo hi, lo <= hi -> hi <= length l -> hi - lo < fuel ->
  find_chunk_loop fuel (build_index 0 l) ix lo hi = Ok 0.
Proof.
  intros Hix. assert (B : forall i, sum (firstn i l) <= ix).
  { intros i. rewrite <- (firstn_skipn i l) in Hix. rewrite sum_app in Hix. lia. }
  induction fuel as [|fuel IH]; intros lo hi Hl Hh Hf; [lia|].
  cbn [find_chunk_loop]. destruct (Nat.ltb_spec lo hi) as [H|]; [|reflexivity].
  set (mid := lo + (hi - lo) / 2).
  assert (Hm : lo <= mid < hi). { unfold mid. pose proof (Nat.div_lt (hi - lo) 2). lia. }
  rewrite !index_build by lia. cbn [rbind].
  destruct (Nat.eqb_spec (sum (firstn lo l)) (sum (firstn (lo + 1) l))) as [E|E].
  { apply IH; lia. }
  rewrite ?index_build by lia. cbn [rbind].
  destruct (Nat.ltb_spec ix (sum (firstn mid l))) as [L|L]; [specialize (B mid); lia|].
  rewrite ?index_build by lia. cbn [rbind].
  destruct (Nat.leb_spec (sum (firstn (mid + 1) l)) ix) as [G|G]; [|specialize (B (mid + 1)); lia].
  apply IH; lia.
Qed.

Lemma find_chunk_found l t j : t < length l -> j < nth t l 0 ->
  find_chunk (build_index 0 l) (sum (firstn t l) + j) = Ok t.
Proof.
  intros Ht Hj. unfold find_chunk. rewrite build_index_length. cbn [Nat.sub]. rewrite Nat.sub_0_r.
  apply find_chunk_loop_found; try lia. rewrite sum_firstn_S. lia.
Qed.

Lemma find_chunk_beyond l ix : sum l <= ix -> find_chunk (build_index 0 l) ix = Ok 0.
Proof.
  intros H. unfold find_chunk. rewrite build_index_length. cbn [Nat.sub]. rewrite Nat.sub_0_r.
  apply find_chunk_loop_beyond; lia.
Qed.

(** The inner loops of the definitions, named. *)
Fixpoint pick_at (i : nat) (cs : list col) (k : nat) : res value :=
  match cs, k with
  | c :: _, O => at_ c i
  | _ :: cs', S k' => pick_at i cs' k'
  | [], _ => Panic PIndex
  end.
Lemma at_concat c0 cs i : at_ (CConcat c0 cs) i =
  (do n0 <- clen c0; do ns <- mapM clen cs;
   let ixs := build_index 0 (n0 :: ns) in
   do k <- find_chunk ixs i; do s <- index ixs k;
   if (i <? s) then Panic PArith else pick_at (i - s) (c0 :: cs) k).
Proof.
  cbn [at_]. destruct (clen c0) as [n0| |]; try reflexivity. cbn [rbind].
  destruct (mapM clen cs) as [ns| |]; try reflexivity. cbn [rbind]. cbv zeta.
  destruct (find_chunk _ i) as [k| |]; try reflexivity. cbn [rbind].
  destruct (index _ k) as [s| |]; try reflexivity. cbn [rbind].
  destruct (i <? s); [reflexivity|]. destruct k as [|k]; [reflexivity|]. cbn [pick_at].
  revert k. induction cs as [|c cs IH]; intros k; [reflexivity|]. destruct k; [reflexivity|]. cbn. apply IH.
Qed.

Lemma clen_concat c0 cs : clen (CConcat c0 cs) = rmap sum (mapM clen (c0 :: cs)).
Proof.
  cbn [clen mapM]. destruct (clen c0) as [n0| |]; try reflexivity. cbn [rbind].
  assert (H : (fix sum (cs0 : list col) : res nat :=
     match cs0 with
     | [] => Ok 0
     | c :: cs' => do x <- clen c; do y <- sum cs'; Ok (x + y)
     end) cs = rmap sum (mapM clen cs)).
  { induction cs as [|c cs IH]; [reflexivity|]. cbn [mapM]. destruct (clen c) as [x| |]; try reflexivity.
    cbn [rbind]. rewrite IH. destruct (mapM clen cs); reflexivity. }
  rewrite H. destruct (mapM clen cs); reflexivity.
Qed.

Lemma pick_at_nth i cs k c : nth_error cs k = Some c -> pick_at i cs k = at_ c i.
Proof.
  revert k. induction cs as [|x cs IH]; intros k H; [destruct k; discriminate|].
  destruct k; cbn in *; [congruence|]. apply IH, H.
Qed.

Lemma mapM_length {A B} (f : A -> res B) l r : mapM f l = Ok r -> length r = length l.
Proof.
  revert r. induction l as [|x l IH]; intros r H; cbn in H.
  - injection H as <-. reflexivity.
  - destruct (f x); try discriminate. cbn in H. destruct (mapM f l) eqn:E; try discriminate.
    injection H as <-. cbn. f_equal. apply IH. reflexivity.
Qed.
