(** Property C112. *)
From Coq Require Import String Lia.
From Verif Require Import Base Bytes Types Text Options Deadlines SpecDeadlines.
Open Scope list_scope.
Open Scope N_scope.

Lemma within_keeps {A} d (x : eventually (res A)) : keeps (Some d) x (within d x).
Proof.
  destruct x as [t r|]; cbn [within].
  - destruct (N.leb_spec t d) as [L|L].
    + apply KEnds; [reflexivity|]. intros d' E. injection E as <-. exact L.
    + apply KCut; [reflexivity|]. intros t' r' E. injection E as -> _. exact L.
  - apply KCut; [reflexivity|]. discriminate.
Qed.

(** C112, the part that holds. *)
Theorem c112_in_time_partial : forall A o (body : eventually (res A)),
  keeps (Some (op_connection_timeout o)) body (open_in o body) /\
  keeps (Some (op_ping_timeout o)) body (ping_in o body) /\
  keeps (Some (op_query_timeout o)) body (fetch_all_in o body) /\
  (forall d, op_execute_timeout o = Some d -> keeps (Some d) body (execute_in o body)) /\
  (forall d, op_insert_timeout o = Some d -> keeps (Some d) body (insert_in o body)).
Proof.
  intros A o body. unfold open_in, ping_in, fetch_all_in, execute_in, insert_in.
  split; [|split; [|split; [|split]]]; try apply within_keeps; intros d ->; apply within_keeps.
Qed.
Print Assumptions c112_in_time_partial.

(** With [none] the operation is not left to end: it is cut off at once. *)
Theorem c112_none_refuted : forall A o t (r : res A), 0 < t ->
  (op_execute_timeout o = None -> execute_in o (After t r) = After 0 (Err ETimeout) /\ ~ keeps None (After t r) (execute_in o (After t r))) /\
  (op_insert_timeout o = None -> insert_in o (After t r) = After 0 (Err ETimeout) /\ ~ keeps None (After t r) (insert_in o (After t r))).
Proof.
  intros A o t r P. assert (W : within 0 (After t r) = After 0 (Err ETimeout)).
  { cbn [within]. destruct (N.leb_spec t 0) as [L|L]; [lia|reflexivity]. }
  assert (K : ~ keeps None (After t r) (After 0 (Err ETimeout))).
  { intros K. inversion K as [t' r' E Q E2|d E Q E2|E1 E2 E3]; [|discriminate E]. injection E as E' _. lia. }
  split; intros N; unfold execute_in, insert_in; rewrite N, W; split; auto.
Qed.
Print Assumptions c112_none_refuted.
Example c112_none_case parse_url tls : exists o, set_param parse_url tls opts_default (str "execute_timeout") (str "none") = Ok o /\ op_execute_timeout o = None /\
  forall r : res unit, execute_in o (After 5 r) = After 0 (Err ETimeout).
Proof. eexists. split; [destruct tls; reflexivity|]. split; [reflexivity|]. intros r. reflexivity. Qed.

Lemma ping_bound o (x : eventually (res unit)) : exists u r, ping_in o x = After u r /\ u <= op_ping_timeout o.
Proof.
  unfold ping_in. destruct x as [t r|]; cbn [within]; [destruct (N.leb_spec t (op_ping_timeout o)) as [L|L]|]; eexists; eexists; split; try reflexivity; lia.
Qed.
Lemma open_bound o (x : eventually (res unit)) : exists u r, open_in o x = After u r /\ u <= op_connection_timeout o.
Proof.
  unfold open_in. destruct x as [t r|]; cbn [within]; [destruct (N.leb_spec t (op_connection_timeout o)) as [L|L]|]; eexists; eexists; split; try reflexivity; lia.
Qed.

(** The loop once a ping has failed. *)
Lemma retry_bound o ping_ get_ (A : answers o ping_) : forall fuel attempt j t, attempt <= op_send_retries o ->
  (N.to_nat (op_send_retries o - attempt) + 2 <= fuel)%nat ->
  exists u r, retry o false ping_ get_ fuel attempt true 1 j t = inl (After u r) /\
    u <= t + (op_send_retries o - attempt) * (op_connection_timeout o + op_retry_timeout o) + op_connection_timeout o + op_ping_timeout o.
Proof.
  induction fuel as [|fuel IH]; intros attempt j t L F; [lia|]. cbn [retry]. unfold get_in. cbv iota.
  destruct (open_bound o (get_ j)) as (u & r & -> & U). destruct r as [[]|e|p].
  - destruct fuel as [|fuel]; [lia|]. cbn [retry]. destruct A as (v & E & V). rewrite E. unfold ping_in. cbn [within].
    destruct (N.leb_spec v (op_ping_timeout o)) as [_|N]; [|lia]. exists (t + u + v), (Ok tt). split; [reflexivity|]. nia.
  - destruct (N.leb_spec (op_send_retries o) attempt) as [G|G].
    + exists (t + u), (Err e). split; [reflexivity|]. nia.
    + destruct (IH (attempt + 1) (S j) (t + u + op_retry_timeout o)) as (w & r & E & W); [lia|lia|]. exists w, r. split; [exact E|].
      eapply N.le_trans; [exact W|]. replace (op_send_retries o - attempt) with (op_send_retries o - (attempt + 1) + 1) by lia. nia.
  - exists (t + u), (Panic p). split; [reflexivity|]. nia.
Qed.

(** The check of a connection without a pool ends in this time, if a connection that is got answers. *)
Theorem c112_check_partial : forall o ping_ get_, answers o ping_ -> exists fuel u r,
  check_in o false ping_ get_ fuel = inl (After u r) /\
  u <= 2 * op_ping_timeout o + (op_send_retries o + 1) * op_connection_timeout o + op_send_retries o * op_retry_timeout o.
Proof.
  intros o ping_ get_ A. set (n := (N.to_nat (op_send_retries o) + 2)%nat). exists (S n). unfold check_in. cbn [retry].
  destruct (ping_bound o (ping_ 0%nat)) as (u & r & -> & U). destruct r as [[]|e|p].
  - exists (0 + u), (Ok tt). split; [reflexivity|]. nia.
  - destruct (N.leb_spec (op_send_retries o) 0) as [G|G]; [exists (0 + u), (Err e); split; [reflexivity|nia]|].
    destruct (retry_bound o ping_ get_ A (S n) 0 0 (0 + u)) as (w & r & E & W); [lia|lia|]. exists w, r. cbn [retry] in E. rewrite (proj2 (N.leb_gt _ _) G) in E. split; [exact E|].
    rewrite N.sub_0_r in W. nia.
  - exists (0 + u), (Panic p). split; [reflexivity|]. nia.
Qed.
Print Assumptions c112_check_partial.
(** Three attempts fail after 500 ms each, with five seconds in between; the fourth brings a connection. *)
Example c112_check_case :
  let ping_ i := match i with O => Never | _ => After 1000000 (Ok tt) end in
  let get_ j := match j with 3%nat => After 2000000 (Ok tt) | _ => Never end in
  answers opts_default ping_ /\
  check_in opts_default false ping_ get_ 9 = inl (After (500000000 + 3 * 5500000000 + 2000000 + 1000000) (Ok tt)).
Proof. cbv zeta. split; [exists 1000000; split; [reflexivity|vm_compute; discriminate]|vm_compute; reflexivity]. Qed.

(** It need not end otherwise: a server that takes connections but answers no ping; a pool that has no connection to give. *)
Theorem c112_check_refuted : forall o, 1 <= op_send_retries o -> op_connection_timeout o <> 0 -> op_ping_timeout o <> 0 ->
  (forall n, check_in o false (fun _ => Never) (fun _ => After 1 (Ok tt)) n = inr (N.of_nat n * (op_ping_timeout o + 1))) /\
  (forall n, (1 <= n)%nat -> check_in o true (fun _ => Never) (fun _ => Never) n = inl Never).
Proof.
  intros o R C P. split.
  - unfold check_in. assert (G : forall n i j t, retry o false (fun _ => Never) (fun _ => After 1 (Ok tt)) n 0 false i j t = inr (t + N.of_nat n * (op_ping_timeout o + 1))).
    { induction n as [|n IH]; intros i j t; [cbn [retry]; f_equal; lia|]. cbn [retry]. unfold ping_in, get_in, open_in. cbn [within].
      destruct (N.leb_spec (op_send_retries o) 0) as [L|L]; [lia|]. destruct (N.leb_spec 1 (op_connection_timeout o)) as [L1|L1]; [|lia].
      rewrite IH. f_equal. lia. }
    intros n. rewrite G. f_equal.
  - intros n L. destruct n as [|n]; [lia|]. unfold check_in. cbn [retry]. unfold ping_in, get_in. cbn [within].
    destruct (N.leb_spec (op_send_retries o) 0) as [L1|L1]; [lia|]. reflexivity.
Qed.
Print Assumptions c112_check_refuted.
Example c112_check_refuted_case : 1 <= op_send_retries opts_default /\ op_connection_timeout opts_default <> 0 /\ op_ping_timeout opts_default <> 0.
Proof. repeat split; vm_compute; discriminate. Qed.
