(** Reading a block reports that bytes are missing only when they are: no step of it does so by itself. *)
From Verif Require Import Base Bytes Utf8 Reader Wire Types Text TypeNames Values Columns Casts Block NamesProofs SureProofs.
Open Scope list_scope. Open Scope nat_scope.

Fixpoint patient {A} (p : P A) : Prop :=
  match p with
  | Ret _ | Crash _ => True
  | Fail e => e <> EWouldBlock
  | Get _ k => forall l, patient (k l)
  end.
Lemma patient_bind {A B} (p : P A) (f : A -> P B) : patient p -> (forall a, patient (f a)) -> patient (pbind p f).
Proof. intros Hp Hf. induction p; cbn in *; auto. Qed.
Lemma patient_lift {A} (r : res A) : (forall e, r <> Err e) -> patient (lift r).
Proof. destruct r as [a|e|q]; cbn; auto. intros H. destruct (H e eq_refl). Qed.
Lemma patient_alloc n : patient (alloc n).
Proof. unfold alloc. destruct (_ <=? _)%N; exact I. Qed.
Lemma patient_mul a b : patient (mul_usize a b).
Proof. unfold mul_usize. destruct (_ <? _)%N; exact I. Qed.
Lemma patient_scalar t : patient (read_scalar t).
Proof. intros l. exact I. Qed.
Lemma patient_u8 : patient read_u8.
Proof. exact (fun _ => I). Qed.
Lemma patient_shl a s : patient (lift (shl64 a s)).
Proof. unfold shl64. destruct (_ <? _)%N; exact I. Qed.
Ltac calm := repeat
  match goal with
  | |- patient (Ret _) => exact I
  | |- patient (Crash _) => exact I
  | |- patient (Fail _) => discriminate
  | |- patient (Get _ _) => intros ?
  | |- patient (pbind _ _) => apply patient_bind; [|intros ?]
  | |- patient (alloc _) => apply patient_alloc
  | |- patient (mul_usize _ _) => apply patient_mul
  | |- patient (read_scalar _) => apply patient_scalar
  | |- patient (lift (shl64 _ _)) => apply patient_shl
  | |- patient (if ?b then _ else _) => destruct b
  | |- patient (match ?x with _ => _ end) => destruct x
  end.
Lemma patient_uvarint : patient read_uvarint.
Proof.
  unfold read_uvarint. generalize 12 as fuel. intros fuel. generalize 0%N at 1 as x. generalize 0%N at 1 as s. generalize 0%N as i.
  induction fuel as [|fuel IH]; intros i s x; cbn [read_uvarint_loop]; [exact I|]. apply patient_bind; [apply patient_u8|intros b]. calm. apply IH.
Qed.
Lemma patient_string : patient read_string.
Proof. unfold read_string. apply patient_bind; [apply patient_uvarint|intros n]. calm. Qed.
Lemma patient_iter {S A} (body : S -> P (S + A)) : (forall s, patient (body s)) -> forall p s, patient (iter_pos body p s).
Proof. intros H. induction p as [p IH|p IH|]; intros s; cbn [iter_pos]; calm; auto. Qed.
Lemma patient_loop {S A} (body : S -> P (S + A)) s : (forall s, patient (body s)) -> patient (ploop body s).
Proof. intros H. unfold ploop. apply patient_bind; [apply patient_iter, H|intros r]. calm. Qed.
Lemma patient_repeat {A} n (p : P A) : patient p -> patient (prepeatN n p).
Proof. intros H. destruct n as [|q]; [exact I|]. cbn [prepeatN]. induction q as [q IH|q IH|]; cbn [prepeat_pos]; calm; auto. Qed.
Lemma patient_fold {S} n (f : S -> P S) s : (forall s, patient (f s)) -> patient (pfoldN n f s).
Proof. intros H. destruct n as [|q]; [exact I|]. cbn [pfoldN]. revert s. induction q as [q IH|q IH|]; intros s; cbn [pfold_pos]; calm; auto. Qed.
Lemma patient_vec s n : patient (read_vec s n).
Proof. unfold read_vec. calm. Qed.
Lemma patient_strings n : patient (read_strings n).
Proof. unfold read_strings. calm. apply patient_repeat. calm. apply patient_uvarint. Qed.
Lemma patient_offsets n : patient (read_offsets n).
Proof. unfold read_offsets. calm. apply patient_vec. Qed.
Lemma patient_u64 : patient read_u64.
Proof. unfold read_u64. calm. Qed.
Lemma patient_low load n : (forall m, patient (load m)) -> patient (load_low load n).
Proof.
  intros H. unfold load_low. destruct (n =? 0)%N; repeat (first [apply patient_u64|apply patient_vec|apply H|progress calm]).
Qed.
Section Load.
Variable tz_known : bytes -> bool.
Lemma patient_zone o tz : patient (get_timezone tz_known o tz).
Proof. unfold get_timezone. calm. Qed.
Lemma patient_data fuel : forall name size tz, patient (load_data tz_known fuel name size tz).
Proof.
  induction fuel as [|fuel IH]; intros name size tz; [exact I|]. cbn [load_data].
  apply patient_bind; [apply patient_lift; intros e; apply classify_no_err|intros [k|]; [|discriminate]].
  destruct k; repeat (first [apply patient_vec|apply patient_strings|apply patient_offsets|apply patient_zone|apply IH
    |apply patient_low; intros m; apply IH|apply patient_repeat|progress calm]).
Qed.
Lemma patient_append b c : patient (lift (append_column b c)).
Proof.
  apply patient_lift. assert (S : sure (append_column b c)).
  { unfold append_column, row_count. apply sure_bind; [apply sure_clen|intros n]. destruct (b_cols b) as [|[? d] ?]; [exact I|].
    apply sure_bind; [apply sure_clen|intros m]. destruct (m =? n); exact I. }
  intros e E. rewrite E in S. exact S.
Qed.
Lemma patient_load tz : patient (raw_load tz_known tz).
Proof.
  unfold raw_load. apply patient_bind; [|intros i; apply patient_bind; [apply patient_uvarint|intros nc; apply patient_bind; [apply patient_uvarint|intros nr]]].
  - unfold read_info. apply patient_loop. intros s. unfold info_step. apply patient_bind; [apply patient_uvarint|intros t]. calm.
  - apply patient_fold. intros b. apply patient_bind; [|intros c; apply patient_append].
    unfold read_column. repeat (apply patient_bind; [first [apply patient_string|unfold load_column; apply patient_data]|intros ?]). exact I.
Qed.
End Load.
