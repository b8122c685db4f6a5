(** Property C70: rows that are refused. *)
From Coq Require Import String Lia.
From Verif Require Import Base Bytes Reader Types Text Values Columns Block Refuse SureProofs.
Open Scope list_scope. Open Scope nat_scope.

Lemma bytes_iff a b : bytes_eqb a b = true <-> a = b.
Proof. unfold bytes_eqb. destruct (bytes_eq_dec a b); split; congruence. Qed.
Lemma find_name_in k cs : forall i, In k (map fst cs) <-> find_name k cs i <> None.
Proof.
  induction cs as [|[n c] cs IH]; intros i; cbn [find_name map fst In]; [split; [intros []|congruence]|].
  destruct (bytes_eqb n k) eqn:E.
  - apply bytes_iff in E. split; [discriminate|auto].
  - rewrite <- (IH (S i)). split; [intros [->|H]; [rewrite (proj2 (bytes_iff k k) eq_refl) in E; discriminate|exact H]|auto].
Qed.
Lemma sure_push_at cs : forall i v, sure (push_at cs i v).
Proof.
  induction cs as [|[n c] cs IH]; intros i v; destruct i as [|i]; cbn [push_at]; try exact I.
  - apply sure_bind; [apply sure_push|intros; exact I].
  - apply sure_bind; [apply IH|intros; exact I].
Qed.
(** Only a column that is not there, in a block of two rows or more, makes a field refused. *)
Lemma put_param_err k v b e : put_param k v b = Err e ->
  e = EOutOfRange /\ ~ In k (map fst (b_cols b)) /\ exists n, row_count b = Ok n /\ 2 <= n.
Proof.
  unfold put_param. destruct (find_name k (b_cols b) 0) as [i|] eqn:F.
  - intros H. exfalso. pose proof (sure_push_at (b_cols b) i v) as S. destruct (push_at _ _ _); cbn [rbind] in H; [discriminate|exact S|discriminate].
  - intros H. assert (sure (row_count b)) as R.
    { unfold row_count. destruct (b_cols b) as [|[? c] ?]; [exact I|apply sure_clen]. }
    destruct (row_count b) as [n|e'|p]; [|destruct R|discriminate H]. cbn [rbind] in H. destruct (Nat.leb_spec n 1) as [L|L].
    + exfalso. pose proof (sure_from_type (type_of_value v) (extract_timezone v)) as S. destruct (from_type _ _) as [c|e'|p]; cbn [rbind] in H; [|exact S|discriminate].
      pose proof (sure_push_at (b_cols b ++ [(k, c)]) (length (b_cols b)) v) as S'. destruct (push_at _ _ _); cbn [rbind] in H; [discriminate|exact S'|discriminate].
    + injection H as <-. split; [reflexivity|]. split; [rewrite (find_name_in k (b_cols b) 0), F; congruence|]. exists n. split; [reflexivity|lia].
Qed.

(** C70, what holds: a row is refused only because of a field whose column the block has not,
    when the block has two rows already; and the block then holds what it held and the fields
    before that one, as if they had been a row of their own. So nothing has changed if that
    field comes first, and a row of known columns is never refused. Missing: the fields
    before it, which stay. *)
Theorem c70_refused_partial row b b' e :
  push_row_kept row b = (b', Err e) ->
  e = EOutOfRange /\
  exists before k v after, row = before ++ (k, v) :: after /\ push_row before b = Ok b' /\
    ~ In k (map fst (b_cols b')) /\ exists n, row_count b' = Ok n /\ 2 <= n.
Proof.
  revert b. induction row as [|[k v] row IH]; intros b H; cbn [push_row_kept] in H; [discriminate|].
  destruct (put_param k v b) as [b1|e1|p] eqn:P; [|injection H as <- <-|discriminate].
  - destruct (IH b1 H) as (E & before & k' & v' & after & -> & B & N & R). split; [exact E|].
    exists ((k, v) :: before), k', v', after. split; [reflexivity|]. cbn [push_row]. rewrite P. auto.
  - destruct (put_param_err k v b e1 P) as (-> & N & R). split; [reflexivity|]. exists [], k, v, row. auto.
Qed.
Print Assumptions c70_refused_partial.

(** Keeping the block changes nothing for rows that are accepted. *)
Theorem c70_accepted row b b' : push_row_kept row b = (b', Ok tt) <-> push_row row b = Ok b'.
Proof.
  revert b. induction row as [|[k v] row IH]; intros b; cbn [push_row_kept push_row]; [split; congruence|].
  destruct (put_param k v b) as [b1|e1|p]; cbn [rbind]; [apply IH|split; discriminate|split; discriminate].
Qed.
Print Assumptions c70_accepted.

Lemma push_at_names cs : forall i v cs', push_at cs i v = Ok cs' -> map fst cs' = map fst cs.
Proof.
  induction cs as [|[n c] cs IH]; intros i v cs' H; destruct i as [|i]; cbn [push_at] in H; try discriminate.
  - destruct (push c v); try discriminate. injection H as <-. reflexivity.
  - destruct (push_at cs i v) as [x|e|p] eqn:E; try discriminate. injection H as <-. cbn [map]. rewrite (IH i v x E). reflexivity.
Qed.
Lemma put_param_names k v b b' : put_param k v b = Ok b' -> forall x, In x (map fst (b_cols b)) -> In x (map fst (b_cols b')).
Proof.
  unfold put_param. destruct (find_name _ _ _) as [i|].
  - destruct (push_at _ _ _) as [cs|e|p] eqn:E; try discriminate. intros H. injection H as <-. cbn [b_cols]. rewrite (push_at_names _ _ _ _ E). auto.
  - destruct (row_count b) as [n|e|p]; try discriminate. cbn [rbind]. destruct (_ <=? _); [|discriminate].
    destruct (from_type _ _) as [c|e|p]; try discriminate. cbn [rbind]. destruct (push_at _ _ _) as [cs|e|p] eqn:E; try discriminate.
    intros H. injection H as <-. cbn [b_cols]. rewrite (push_at_names _ _ _ _ E), map_app. intros x I. apply in_or_app. auto.
Qed.
(** A row of columns that the block has is never refused. *)
Theorem c70_known row b b' e :
  Forall (fun f => In (fst f) (map fst (b_cols b))) row -> push_row_kept row b <> (b', Err e).
Proof.
  revert b. induction row as [|[k v] row IH]; intros b F H; cbn [push_row_kept] in H; [discriminate|].
  inversion_clear F as [|? ? K F']. cbn [fst] in K. destruct (put_param k v b) as [b1|e1|p] eqn:P; [|injection H as <- <-|discriminate].
  - apply (IH b1); [|exact H]. apply (Forall_impl _ (fun f => put_param_names k v b b1 P (fst f)) F').
  - destruct (put_param_err _ _ _ _ P) as (_ & N & _). exact (N K).
Qed.
Print Assumptions c70_known.

(** C70 is false of the code: the third row is refused because of its misspelt second field, its
    first field stays in the block. The row is pushed again, right this time: the columns have
    four and three cells. What is sent then announces four rows, and whoever reads it
    finds one cell too few. *)
Theorem c70_kept_refuted :
  let row i := [(str "id", VNum U32 i); (str "name", VString (str "x"))] in
  let wrong := [(str "id", VNum U32 3); (str "nmae", VString (str "x"))] in
  exists b, push_rows_kept [row 1%Z; row 2%Z; wrong; row 3%Z] block_default = (b, [Ok tt; Ok tt; Err EOutOfRange; Ok tt]) /\
    map (fun x => clen (snd x)) (b_cols b) = [Ok 4; Ok 3] /\
    (exists c, nth_error (b_cols b) 0 = Some (str "id", c) /\ map (at_ c) [0; 1; 2; 3] = map (fun i => Ok (VNum U32 i)) [1; 2; 3; 3]%Z) /\
    exists s, write_block b = Ok s /\ run (raw_load (fun _ => true) (str "UTC")) s = Err EWouldBlock.
Proof.
  cbv zeta. eexists. split; [vm_compute; reflexivity|]. split; [vm_compute; reflexivity|].
  split; [eexists; split; [vm_compute; reflexivity|vm_compute; reflexivity]|].
  eexists. split; [vm_compute; reflexivity|vm_compute; reflexivity].
Qed.
Print Assumptions c70_kept_refuted.

(** The hypotheses are met: a row refused at its second field, one at its first, and one not refused. *)
Example c70_case :
  let row i := [(str "id", VNum U32 i); (str "name", VString (str "x"))] in
  exists b, push_row_kept (row 2%Z) (fst (push_row_kept (row 1%Z) block_default)) = (b, Ok tt) /\
    snd (push_row_kept [(str "id", VNum U32 3); (str "nmae", VString [])] b) = Err EOutOfRange /\
    push_row_kept [(str "nmae", VString []); (str "id", VNum U32 3)] b = (b, Err EOutOfRange) /\
    Forall (fun f => In (fst f) (map fst (b_cols b))) (row 3%Z).
Proof.
  eexists. split; [vm_compute; reflexivity|]. split; [vm_compute; reflexivity|]. split; [vm_compute; reflexivity|].
  repeat constructor; cbn; tauto.
Qed.
