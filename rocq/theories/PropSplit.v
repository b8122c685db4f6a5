(** C63, where it fails: arrays in more than one piece. *)
From Coq Require Import String Lia.
From Verif Require Import Base Bytes Reader Wire Types Text TypeNames Values Columns Casts Block Client.
From Verif Require Import SpecColumns SpecTypes SpecBlock SpecPieces Utf8Proofs ReaderProofs SendProofs BlockProofs EqualityProofs PiecesProofs PropPieces.
Open Scope list_scope. Open Scope nat_scope.

(** [m] rows, each the array of one seven. *)
Definition sevens (m : nat) : col := CArray (CVec U8 (repeat 7%Z m)) (map N.of_nat (seq 1 m)).
Definition seven_block (m : nat) : block := mk_block info_default [(str "x", sevens m)].
Definition seven_array (m : nat) : value := VArray (TNum U8) (repeat (VNum U8 7) m).

Lemma sevens_index m i : i < m -> index (map N.of_nat (seq 1 m)) i = Ok (N.of_nat (S i)).
Proof.
  intros H. unfold index. rewrite nth_error_map.
  rewrite (nth_error_nth' (seq 1 m) 0) by (rewrite seq_length; lia). rewrite seq_nth by lia. reflexivity.
Qed.
Lemma sevens_at m i : i < m -> at_ (sevens m) i = Ok (seven_array 1).
Proof.
  intros H. unfold sevens. cbn [at_]. unfold row_bounds. rewrite (sevens_index m i H).
  assert (match i with O => Ok 0%N | S j => index (map N.of_nat (seq 1 m)) j end = Ok (N.of_nat i)) as ->.
  { destruct i as [|i]; [reflexivity|]. apply sevens_index. lia. }
  cbn [rbind]. destruct (N.ltb_spec (N.of_nat (S i)) (N.of_nat i)) as [L|L]; [lia|]. cbn [rbind fst snd].
  rewrite !Nat2N.id. replace (S i - i) with 1 by lia. cbn [seq mapM at_]. unfold index.
  rewrite (nth_error_nth' (repeat 7%Z m) 7%Z) by (rewrite repeat_length; exact H). rewrite nth_repeat. reflexivity.
Qed.
Lemma sevens_climb a n : climbs (N.of_nat a) (map N.of_nat (seq (S a) n)).
Proof. revert a. induction n as [|n IH]; intros a; cbn [seq map climbs]; [exact I|]. split; [lia|apply IH]. Qed.
Lemma sevens_last m : 0 < m -> last (map N.of_nat (seq 1 m)) 0%N = N.of_nat m.
Proof. intros H. destruct m as [|m]; [lia|]. rewrite seq_S, map_app. cbn [map]. rewrite last_last. reflexivity. Qed.
Lemma sevens_ok tz_known m : 0 < m -> (8 * N.of_nat m <= isize_max)%N -> block_ok tz_known m (seven_block m).
Proof.
  intros Hm B. assert (N.of_nat m < 2 ^ 64)%N as M by (unfold isize_max in B; lia).
  split; [vm_compute; split; [discriminate|reflexivity]|]. split; [exact M|]. split; [vm_compute; reflexivity|].
  constructor; [|constructor]. unfold column_ok. cbn [fst snd].
  split; [apply utf8_valid_spec; vm_compute; reflexivity|]. split; [vm_compute; discriminate|].
  split.
  { unfold sevens. cbn [sound]. rewrite sevens_last by exact Hm. split; [split|].
    - apply Forall_forall. intros z Hz. apply repeat_spec in Hz. subst z. reflexivity.
    - unfold lenN. rewrite repeat_length. change (N.of_nat (width U8)) with 1%N. lia.
    - split; [cbn [clen]; rewrite repeat_length, Nat2N.id; reflexivity|]. split; [exact (sevens_climb 0 m)|]. split; [exact M|].
      unfold lenN. rewrite map_length, seq_length. exact B. }
  split; [unfold sevens; cbn [clen]; rewrite map_length, seq_length; reflexivity|].
  split; [exact I|]. split; [apply utf8_valid_spec; vm_compute; reflexivity|vm_compute; discriminate].
Qed.
Lemma sevens_rows m k : k <= m -> mapM (at_ (sevens m)) (seq 0 k) = Ok (repeat (seven_array 1) k).
Proof.
  induction k as [|k IH]; intros H; [reflexivity|]. rewrite seq_S, mapM_two, IH by lia. cbn [Nat.add mapM rbind].
  rewrite sevens_at by lia. cbn [rbind]. change [seven_array 1] with (repeat (seven_array 1) 1). rewrite <- repeat_app. f_equal. f_equal. lia.
Qed.

(** C63 is false of arrays, whatever the piece size: of size + 1 rows, each the array [7], which the
    table takes as they are, the last arrives as an array of size + 1 sevens. Nothing is reported.
    (With the 1048576 rows to a piece of the client's inserts it takes 1048577 rows.) *)
Theorem c63_arrays_refuted tz_known tz parse_ipv4 parse_ipv6 size :
  0 < size -> (8 * N.of_nat (S size) <= isize_max)%N ->
  let b := seven_block (S size) in
  (forall i, i <= size -> at_ (sevens (S size)) i = Ok (seven_array 1)) /\
  block_cast parse_ipv4 parse_ipv6 b b = Ok b /\
  exists p1 p2 bs d, block_chunks size b = Ok [p1; p2] /\ write_block p2 = Ok bs /\
    (forall r, run (raw_load tz_known tz) (bs ++ r) = Ok (mk_block info_default [(str "x", d)], r)) /\
    clen d = Ok 1 /\ at_ d 0 = Ok (seven_array (S size)) /\ seven_array (S size) <> seven_array 1.
Proof.
  intros Hs B b. set (m := S size) in *. assert (0 < m) as Hm by (unfold m; lia).
  split; [intros i Hi; apply sevens_at; unfold m; lia|]. split; [reflexivity|].
  destruct (c102_pieces tz_known tz size m b Hs Hm (sevens_ok tz_known m Hm B)) as (ps & E & L & Q).
  { discriminate. }
  { constructor; [right; reflexivity|constructor]. }
  replace ((m + size - 1) / size) with 2 in L.
  2: { unfold m. replace (S size + size - 1) with (2 * size) by lia. rewrite Nat.div_mul by lia. reflexivity. }
  destruct ps as [|p1 [|p2 [|]]]; try discriminate L.
  destruct (Q 1 p2 eq_refl) as (_ & bs & q & W & A & I & R).
  replace (Nat.min size (m - 1 * size)) with 1 in A by (unfold m; lia). rewrite Nat.mul_1_l in A.
  inversion A as [|[x c] [x' d] l l' [N D] F]; subst. inversion F; subst. cbn [fst snd] in N, D. subst x'.
  destruct D as (T & C & _ & D0). specialize (D0 ltac:(lia)). cbn [heaped sevens] in D0. fold (sevens m) in D0.
  rewrite sevens_rows in D0 by (unfold m; lia). fold m in D0. cbn [rbind rmap] in D0.
  exists p1, p2, bs, d. split; [exact E|]. split; [exact W|].
  split. { intros r. rewrite R. destruct q as [qi qc]. cbn [b_cols b_info] in *. subst. reflexivity. }
  split; [exact C|]. split.
  - rewrite D0. f_equal. unfold m at 1. cbn [repeat joined]. change (seven_array 1 :: repeat (seven_array 1) size) with (repeat (seven_array 1) m).
    assert (forall k, concat (map elements (repeat (seven_array 1) k)) = repeat (VNum U8 7) k) as G.
    { induction k as [|k IH]; [reflexivity|]. cbn [repeat map concat]. rewrite IH. reflexivity. }
    unfold seven_array at 1. cbn [joined]. fold (seven_array 1). rewrite G. unfold zoned, seven_array. f_equal.
    clear. induction m as [|m IH]; [reflexivity|]. cbn [repeat map]. f_equal. exact IH.
  - unfold seven_array, m. intros X. injection X as X. apply (f_equal (@length value)) in X. rewrite repeat_length in X. cbn in X. lia.
Qed.
Print Assumptions c63_arrays_refuted.

(** The size of the client's pieces is such a size. *)
Example c63_arrays_case : 0 < insert_block_size /\ (8 * N.of_nat (S insert_block_size) <= isize_max)%N.
Proof.
  unfold insert_block_size. split.
  - change 0 with (N.to_nat 0). apply Nat.compare_lt_iff. rewrite <- N2Nat.inj_compare. reflexivity.
  - rewrite Nat2N.inj_succ, N2Nat.id. vm_compute. discriminate.
Qed.
