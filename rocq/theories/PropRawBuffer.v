(** Property C113. *)
From Coq Require Import Lia.
From Verif Require Import Base Bytes Transport RawBuffer SpecRawBuffer.
Open Scope list_scope.
Open Scope nat_scope.

Definition inv (v : vec) (g : nat) (b : bytes) : Prop := g <= v_len v /\ v_len v <= length (v_cells v) /\ firstn g (v_cells v) = map Some b /\ length b = g.

Lemma grown more v g b : inv v g b -> inv (if g =? v_len v then let w := reserve more v 32 in mk_vec (v_cells w) (length (v_cells w)) else v) g b /\
  g < v_len (if g =? v_len v then let w := reserve more v 32 in mk_vec (v_cells w) (length (v_cells w)) else v).
Proof.
  intros (A & B & C & D). destruct (Nat.eqb_spec g (v_len v)) as [E|E]; [|split; [repeat split; auto|lia]].
  unfold reserve. cbv zeta. destruct (Nat.leb_spec (v_len v + 32) (length (v_cells v))) as [L|L]; cbn [v_cells v_len].
  - split; [|lia]. unfold inv. cbn [v_cells v_len]. repeat split; auto; lia.
  - rewrite app_length, firstn_length, repeat_length. split; [|lia]. unfold inv. cbn [v_cells v_len]. rewrite app_length, firstn_length, repeat_length.
    repeat split; auto; try lia. rewrite E, firstn_app, firstn_firstn, firstn_length, Nat.min_id, Nat.min_l by lia. rewrite Nat.sub_diag, app_nil_r. rewrite <- E. exact C.
Qed.

Lemma write_inv v g b d : inv v g b -> g + length d <= v_len v -> inv (mk_vec (write (v_cells v) g d) (v_len v)) (g + length d) (b ++ d).
Proof.
  intros (A & B & C & D) L. unfold inv, write. cbn [v_cells v_len].
  assert (G : length (firstn g (v_cells v)) = g) by (rewrite firstn_length; lia).
  rewrite 2 app_length, map_length, skipn_length, G. repeat split; try lia.
  - rewrite <- G at 1. rewrite firstn_app_2, C. replace (length d) with (length (map Some d) + 0) at 1 by (rewrite map_length; lia).
    rewrite firstn_app_2. cbn [firstn]. rewrite app_nil_r, map_app. reflexivity.
  - rewrite app_length. lia.
Qed.

Lemma raw_read_is more start : forall fuel evs v g b, inv v g b -> start <= g -> enough evs <= fuel ->
  exists v' b', fst (fst (raw_read more fuel evs v start g)) = fst (fst (read_to_end evs b (g - start))) /\
    snd (raw_read more fuel evs v start g) = snd (read_to_end evs b (g - start)) /\
    snd (fst (raw_read more fuel evs v start g)) = v' /\ snd (fst (read_to_end evs b (g - start))) = b' /\ holds v' b'.
Proof.
  induction fuel as [|fuel IH]; intros evs v g b I S F; [destruct evs as [|[]]; cbn [enough] in F; lia|].
  cbn [raw_read]. destruct (grown more v g b I) as [J L].
  set (v1 := if g =? v_len v then let w := reserve more v 32 in mk_vec (v_cells w) (length (v_cells w)) else v) in *. cbv zeta.
  assert (H : holds (mk_vec (v_cells v1) g) b).
  { destruct J as (A & B & C & D). split; cbn [v_cells v_len]; [lia|exact C]. }
  destruct (Nat.ltb_spec (v_len v1) g) as [N|_]; [lia|].
  destruct evs as [|[d| | |] evs]; cbn [poll_read read_to_end]; try (eexists; eexists; repeat split; try reflexivity; exact (proj1 H) || exact (proj2 H)).
  destruct d as [|x d].
  - rewrite firstn_nil. cbn [length Nat.eqb]. eexists. eexists. repeat split; try reflexivity; apply H.
  - set (room := v_len v1 - g) in *. assert (P : 1 <= room) by (unfold room; lia). remember room as rm eqn:R. destruct rm as [|rm]; [lia|]. clear P. cbn [firstn skipn length Nat.eqb].
    set (d1 := firstn rm d). assert (L1 : length d1 <= rm) by (unfold d1; rewrite firstn_length; lia).
    assert (W : inv (mk_vec (write (v_cells v1) g (x :: d1)) (v_len v1)) (g + Datatypes.S (length d1)) (b ++ x :: d1)).
    { apply (write_inv v1 g b (x :: d1)); [exact J|cbn [length]; unfold d1 in *; lia]. }
    assert (E : d = d1 ++ skipn rm d) by (symmetry; apply firstn_skipn).
    destruct (skipn rm d) as [|y d2] eqn:K.
    + rewrite app_nil_r in E. cbn [enough length] in F.
      destruct (IH evs _ _ _ W) as (v' & b' & Q); [lia|lia|]. exists v', b'. rewrite <- E in Q |- *.
      replace (g + Datatypes.S (length d) - start) with (g - start + Datatypes.S (length d)) in Q by lia. exact Q.
    + cbn [enough length] in F. assert (F' : enough (RData (y :: d2) :: evs) <= fuel).
      { cbn [enough length]. rewrite E in F. rewrite app_length in F. cbn [length] in F. lia. }
      destruct (IH (RData (y :: d2) :: evs) _ _ _ W) as (v' & b' & Q); [lia|exact F'|]. exists v', b'. cbn [read_to_end length Nat.eqb] in Q.
      replace (g + Datatypes.S (length d1) - start + Datatypes.S (length d2)) with (g - start + Datatypes.S (length d)) in Q
        by (rewrite E, app_length; cbn [length]; lia).
      replace ((b ++ x :: d1) ++ y :: d2) with (b ++ x :: d) in Q by (rewrite E, <- app_assoc; reflexivity). exact Q.
Qed.

(** C113. *)
Theorem c113_read : forall more evs v b fuel, holds v b -> enough evs <= fuel ->
  exists v' b' r rest, read_into more fuel evs v = (r, v', rest) /\ read_to_end evs b 0 = (r, b', rest) /\ holds v' b'.
Proof.
  intros more evs v b fuel [A B] F. unfold read_into.
  assert (L : length b = v_len v) by (apply (f_equal (@length _)) in B; rewrite firstn_length, map_length in B; lia).
  destruct (raw_read_is more (v_len v) fuel evs v (v_len v) b) as (v' & b' & E1 & E2 & E3 & E4 & H); [repeat split; auto|lia|exact F|].
  rewrite Nat.sub_diag in *. destruct (raw_read more fuel evs v (v_len v) (v_len v)) as [[r w] rest]. destruct (read_to_end evs b 0) as [[r2 b2] rest2].
  cbn [fst snd] in *. subst. exists v', b', r2, rest2. auto.
Qed.
Print Assumptions c113_read.

(** So an end that is reported is one: the vector's room, however much the allocator gives, is never taken for the end of the stream. *)
Theorem c113_end : forall more evs v b fuel n v' rest, holds v b -> enough evs <= fuel -> (forall l d l', evs = l ++ RData d :: l' -> d <> []) ->
  read_into more fuel evs v = (PReady (Ok n), v', rest) ->
  exists ds rest', evs = map RData ds ++ REof :: rest' /\ rest = REof :: rest' /\ n = length (concat ds) /\ holds v' (b ++ concat ds).
Proof.
  intros more evs v b fuel n v' rest H F D R. destruct (c113_read more evs v b fuel H F) as (w & b' & r & rest2 & E1 & E2 & H2).
  rewrite R in E1. injection E1 as <- <- <-. clear R F H.
  assert (G : forall evs b m, (forall l d l', evs = l ++ RData d :: l' -> d <> []) -> read_to_end evs b m = (PReady (Ok n), b', rest) ->
    exists ds rest', evs = map RData ds ++ REof :: rest' /\ rest = REof :: rest' /\ n = m + length (concat ds) /\ b' = b ++ concat ds).
  { clear. induction evs as [|[d| | |] evs IH]; intros b m D E; cbn [read_to_end] in E; try discriminate E.
    - destruct d as [|x d]; [destruct (D [] [] evs eq_refl eq_refl)|]. cbn [length Nat.eqb] in E.
      destruct (IH _ _ (fun l d' l' Q => D (RData (x :: d) :: l) d' l' (f_equal (cons _) Q)) E) as (ds & rest' & -> & -> & -> & ->).
      exists ((x :: d) :: ds), rest'. cbn [map concat app length]. rewrite app_length, <- app_assoc. cbn [app]. repeat split. lia.
    - injection E as <- <- <-. exists [], evs. cbn [map concat app length]. rewrite app_nil_r, Nat.add_0_r. auto. }
  destruct (G evs b 0 D E2) as (ds & rest' & -> & -> & -> & ->). exists ds, rest'. auto.
Qed.
Print Assumptions c113_end.

(** Nothing is written outside of the memory that the vector had or was given when it was enlarged, which happens at no more bytes than there are. *)
Theorem c113_room : forall more evs v b fuel room, holds v b -> length (v_cells v) <= room ->
  (forall n, n <= length b + announced evs -> n + (32 + more n) <= room) ->
  length (v_cells (snd (fst (read_into more fuel evs v)))) <= room.
Proof.
  intros more evs v b fuel room [A B] C M. unfold read_into. generalize (v_len v) at 1 as start.
  assert (L : length b = v_len v) by (apply (f_equal (@length _)) in B; rewrite firstn_length, map_length in B; lia). rewrite L in M. clear L B.
  assert (I : v_len v <= v_len v) by lia. revert I M. generalize (v_len v) at 1 3 4 as g. revert evs v A C.
  induction fuel as [|fuel IH]; intros evs v A C g I M start; [exact C|]. cbn [raw_read].
  set (v1 := if g =? v_len v then let w := reserve more v 32 in mk_vec (v_cells w) (length (v_cells w)) else v).
  assert (V : g <= v_len v1 /\ v_len v1 <= length (v_cells v1) /\ length (v_cells v1) <= room).
  { unfold v1. destruct (Nat.eqb_spec g (v_len v)) as [E|E]; [|lia]. cbv zeta. cbn [v_len v_cells]. unfold reserve.
    destruct (Nat.leb_spec (v_len v + 32) (length (v_cells v))); [lia|]. cbn [v_cells].
    rewrite app_length, firstn_length, repeat_length. specialize (M (v_len v)). lia. }
  destruct V as (V1 & V2 & V3). destruct (Nat.ltb_spec (v_len v1) g) as [N|_]; [lia|].
  destruct evs as [|[d| | |] evs]; cbn [poll_read snd fst v_cells]; try exact V3.
  set (d1 := firstn (v_len v1 - g) d). assert (L1 : length d1 <= v_len v1 - g) by (unfold d1; rewrite firstn_length; lia).
  destruct (Nat.eqb_spec (length d1) 0) as [Z|Z]; [exact V3|].
  assert (W : length (write (v_cells v1) g d1) = length (v_cells v1)) by (unfold write; rewrite !app_length, firstn_length, map_length, skipn_length; lia).
  apply IH; cbn [v_len v_cells]; rewrite ?W; try lia.
  intros n Hn. apply M. revert Hn. cbn [announced].
  assert (S : length d = length d1 + length (skipn (v_len v1 - g) d)) by (unfold d1; rewrite <- app_length, firstn_skipn; reflexivity).
  destruct d as [|x d]; [unfold d1 in Z; rewrite firstn_nil in Z; cbn in Z; lia|].
  destruct (skipn (v_len v1 - g) (x :: d)) as [|y r]; cbn [announced length] in *; lia.
Qed.
Print Assumptions c113_room.
Example c113_room_case : (* the vector of the case below: at most 43 + 32 cells *)
  holds (mk_vec (map Some [1; 2; 3]%N) 3) [1; 2; 3]%N /\ 3 <= 75 /\ (forall n, n <= 3 + announced [RData (repeat 7%N 40); REof] -> n + (32 + 0) <= 75).
Proof. split; [split; [cbn; lia|reflexivity]|]. split; [lia|]. intros n. cbn [announced]. rewrite repeat_length. lia. Qed.

(** A vector of three bytes, full, reads forty at once, then the end: it grows twice, and has 43 bytes. Unwritten cells are beyond its length. *)
Example c113_case :
  let d := repeat 7%N 40 in
  let v := mk_vec (map Some [1; 2; 3]%N) 3 in
  holds v [1; 2; 3]%N /\ enough [RData d; REof] <= 50 /\
  exists v', read_into (fun _ => 0) 50 [RData d; REof] v = (PReady (Ok 40), v', [REof]) /\ v_len v' = 43 /\ length (v_cells v') = 67 /\ nth 50 (v_cells v') (Some 0%N) = None.
Proof. cbv zeta. split; [split; [cbn; lia|reflexivity]|]. split; [cbn; lia|]. eexists. split; [reflexivity|]. repeat split. Qed.
