(** Property C102. *)
From Coq Require Import String Lia.
From Verif Require Import Base Bytes Reader Wire Types Text TypeNames Values Columns Block.
From Verif Require Import SpecColumns SpecTypes SpecBlock SpecPieces Utf8Proofs ReaderProofs SendProofs BlockProofs EqualityProofs PiecesProofs.
Open Scope list_scope. Open Scope nat_scope.

(** C102. A block is split for an insert. Every piece can be written, and what is read from its bytes
    has the rows of the piece, but in columns of arrays or maps its first row is all rows of the
    column up to there, made into one. The columns are those without arrays and maps inside, and
    arrays and maps of anything. *)
Theorem c102_pieces tz_known tz n m b :
  0 < n -> 0 < m -> block_ok tz_known m b -> b_cols b <> [] ->
  Forall (fun x => flat (snd x) = true \/ heaped (snd x) = true) (b_cols b) ->
  exists ps, block_chunks n b = Ok ps /\ length ps = (m + n - 1) / n /\
    forall i p, nth_error ps i = Some p -> i * n < m /\
      exists bs q, write_block p = Ok bs /\
        block_arrives tz b q (i * n) (Nat.min n (m - i * n)) /\ b_info q = info_default /\
        forall r, run (raw_load tz_known tz) (bs ++ r) = Ok (q, r).
Proof.
  intros Hn Hm HB Hne Hc.
  assert (rectangular m b) as Hr.
  { destruct HB as (_ & _ & _ & HF). eapply Forall_impl; [|exact HF]. intros x (_ & _ & _ & X & _). exact X. }
  assert (row_count b = Ok m) as RC.
  { unfold row_count. unfold rectangular in Hr. destruct (b_cols b) as [|[x c] cs]; [congruence|].
    inversion Hr as [|? ? H0 _]. exact H0. }
  unfold block_chunks. rewrite RC. cbn [rbind].
  rewrite (chunk_cuts n m b Hn Hm Hr Hne (m + 2) 0) by lia.
  destruct (pieces_spec n m Hn (m + 2) 0 ltac:(lia)) as [P1 P2].
  eexists. split; [reflexivity|]. rewrite map_length, P2, Nat.sub_0_r. split; [reflexivity|].
  intros i p Hp. rewrite nth_error_map in Hp. destruct (nth_error (pieces (m + 2) n 0 m) i) as [[a k]|] eqn:E; [|discriminate Hp].
  injection Hp as <-. destruct (P1 i a k E) as (-> & -> & L). cbn [fst snd Nat.add] in *. split; [exact L|].
  apply (write_cut tz_known tz m b); auto. lia.
Qed.
Print Assumptions c102_pieces.

(** So a piece of arrays is what it should be exactly if all arrays before it are empty. *)
Theorem c102_right_exactly tz c offs c' a n :
  arrives tz (CArray c offs) c' a n -> 0 < n -> (forall j, j <= a -> exists l, at_ (CArray c offs) j = Ok (VArray (ctype c) l)) ->
  (forall i, i < n -> at_ c' i = rmap (zoned tz) (at_ (CArray c offs) (a + i))) <->
  (forall j, j < a -> at_ (CArray c offs) j = Ok (VArray (ctype c) [])).
Proof.
  set (f := at_ (CArray c offs)). intros (_ & _ & R & R0) Hn Hf. specialize (R0 Hn). cbn [heaped] in R0. fold f in R, R0.
  assert (forall k, k <= S a -> exists ls, mapM f (seq 0 k) = Ok (map (VArray (ctype c)) ls) /\ length ls = k /\
    forall j l, nth_error ls j = Some l -> f j = Ok (VArray (ctype c) l)) as G.
  { induction k as [|k IH]; intros Hk; [exists []; repeat split; intros [|j] l; discriminate|].
    destruct (IH ltac:(lia)) as (ls & E & L & N). destruct (Hf k ltac:(lia)) as [l El].
    exists (ls ++ [l]). rewrite seq_S, mapM_two, E. cbn [Nat.add mapM rbind]. rewrite El. cbn [rbind]. rewrite map_app.
    split; [reflexivity|]. rewrite app_length. cbn [length]. split; [lia|]. intros j x Hj.
    destruct (Nat.lt_ge_cases j (length ls)) as [H|H].
    - rewrite nth_error_app1 in Hj by exact H. apply N, Hj.
    - rewrite nth_error_app2 in Hj by exact H. assert (j = k) as ->; [|].
      { destruct (j - length ls) as [|z] eqn:Z; [lia|]. destruct z; discriminate Hj. }
      replace (k - length ls) with 0 in Hj by lia. injection Hj as <-. exact El. }
  destruct (G a ltac:(lia)) as (ls & E & L & N). destruct (Hf a ltac:(lia)) as [l El].
  assert (at_ c' 0 = Ok (zoned tz (VArray (ctype c) (concat ls ++ l)))) as Q.
  { rewrite R0, seq_S, mapM_two, E. cbn [Nat.add mapM rbind]. rewrite El. cbn [rbind rmap].
    destruct ls as [|l0 ls]; cbn [map app joined elements concat]; [rewrite app_nil_r; reflexivity|].
    rewrite map_app, concat_app, map_map. cbn [elements map concat]. rewrite map_id, app_nil_r, <- app_assoc. reflexivity. }
  split.
  - intros H. specialize (H 0 Hn). rewrite Q, Nat.add_0_r, El in H. cbn [rmap zoned] in H. injection H as H.
    apply (f_equal (@length value)) in H. rewrite !map_length, app_length in H.
    assert (concat ls = []) as C by (destruct (concat ls); [reflexivity|cbn in H; lia]).
    intros j Hj. destruct (nth_error ls j) as [x|] eqn:X; [|apply nth_error_None in X; lia].
    rewrite (N j x X). assert (x = []) as ->; [|reflexivity]. apply nth_error_In in X. apply in_split in X as (u & v & ->).
    rewrite concat_app in C. cbn [concat] in C. apply app_eq_nil in C as [_ C]. apply app_eq_nil in C as [C _]. exact C.
  - intros H [|i] Hi; [|apply R; lia]. rewrite Q, Nat.add_0_r, El. cbn [rmap].
    assert (concat ls = []) as ->; [|reflexivity]. clear -H N L.
    assert (forall x, In x ls -> x = []) as Z.
    { intros x X. apply In_nth_error in X as [j X]. assert (j < length ls) as Hj by (apply nth_error_Some; congruence).
      specialize (H j ltac:(lia)). rewrite (N j x X) in H. injection H as ->. reflexivity. }
    clear -Z. induction ls as [|x ls IH]; [reflexivity|]. cbn [concat]. rewrite (Z x) by (left; reflexivity).
    apply IH. intros y Y. apply Z. right. exact Y.
Qed.
Print Assumptions c102_right_exactly.

Example c102_case :
  let b := mk_block info_default
    [(str "n", CVec U8 [1; 2; 3; 4]%Z);
     (str "a", CArray (CVec U8 [10; 11; 20; 30; 40; 41]%Z) [2; 3; 4; 6]%N);
     (str "m", CMap (CVec U8 [1; 2; 1; 3]%Z) (CVec U8 [5; 6; 7; 8]%Z) [2; 3; 3; 4]%N)] in
  let u l := VArray (TNum U8) (map (VNum U8) l) in
  let g l := VMap (TNum U8) (TNum U8) (map (fun kv => (VNum U8 (fst kv), VNum U8 (snd kv))) l) in
  block_ok (fun _ => true) 4 b /\ Forall (fun x => flat (snd x) = true \/ heaped (snd x) = true) (b_cols b) /\
  (do ps <- block_chunks 2 b;
   do q <- (do p <- index ps 1; do bs <- write_block p; run (raw_load (fun _ => true) (str "UTC")) bs);
   Ok (map (fun x => mapM (at_ (snd x)) [0; 1]) (b_cols (fst q)))) =
  Ok [Ok [VNum U8 3; VNum U8 4];
      Ok [u [10; 11; 20; 30]%Z; u [40; 41]%Z];
      Ok [g [(1, 7); (2, 6)]%Z; g [(3, 8)]%Z]].
Proof.
  split; [|split; [|vm_compute; reflexivity]].
  - split; [vm_compute; split; [discriminate|reflexivity]|]. split; [vm_compute; reflexivity|]. split; [vm_compute; reflexivity|].
    repeat apply Forall_cons; try apply Forall_nil; unfold column_ok; cbn [fst snd];
      (split; [apply utf8_valid_spec; vm_compute; reflexivity|]); (split; [vm_compute; discriminate|]).
    + split; [|split; [reflexivity|split; [exact I|split; [apply utf8_valid_spec; vm_compute; reflexivity|vm_compute; discriminate]]]].
      split; [repeat constructor; vm_compute; intuition discriminate|vm_compute; discriminate].
    + split; [|split; [reflexivity|split; [exact I|split; [apply utf8_valid_spec; vm_compute; reflexivity|vm_compute; discriminate]]]].
      split; [split; [repeat constructor; vm_compute; intuition discriminate|vm_compute; discriminate]|].
      split; [reflexivity|]. split; [cbn; repeat split; lia|]. split; [vm_compute; reflexivity|vm_compute; discriminate].
    + split; [|split; [reflexivity|split; [|split; [apply utf8_valid_spec; vm_compute; reflexivity|vm_compute; discriminate]]]].
      * split; [split; [repeat constructor; vm_compute; intuition discriminate|vm_compute; discriminate]|].
        split; [split; [repeat constructor; vm_compute; intuition discriminate|vm_compute; discriminate]|].
        split; [reflexivity|]. split; [reflexivity|]. split; [cbn; repeat split; lia|]. split; [vm_compute; reflexivity|vm_compute; discriminate].
      * cbn. auto.
  - repeat apply Forall_cons; try apply Forall_nil; cbn; auto.
Qed.
