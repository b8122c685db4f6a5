(** C97: the client sends nothing that a server does not expect.

    Said without looking at what is sent: two servers that answer alike whatever is expected cannot be
    told apart by a client, since it never sends them anything else. *)
From Coq Require Import String.
From Verif Require Import Base Bytes Types Text Values Columns Casts Block Packets Client SpecClient SpecBlock SpecProtocol.
From Verif Require Import ClientProofs CastLenProofs PropClient.
Open Scope list_scope. Open Scope nat_scope.

Section Protocol.
Variable takes : query -> bool.
Notation phase_after := (phase_after takes).
Notation messages := (messages takes).

(** A connection between two operations: the server expects a query, and what is still queued (a query
    whose stream was dropped before it was sent) leaves it so. *)
Definition stays (m : cmd) : Prop := expects_all Idle (messages m) = Some Idle.
Definition settled (c : conn) : Prop := phase_after (cn_log c) = Some Idle /\ Forall stays (cn_queue c).
Definition handle_ok (k : client) : Prop := match k_inner k with Some c => settled c | None => True end.

Lemma expects_app s l1 l2 : expects_all s (l1 ++ l2) = match expects_all s l1 with Some s' => expects_all s' l2 | None => None end.
Proof. revert s. induction l1 as [|m l1 IH]; intros s; [reflexivity|]. cbn [app expects_all]. destruct (expects s m); [apply IH|reflexivity]. Qed.
Lemma phase_app log m s : phase_after log = Some s -> phase_after (log ++ [m]) = expects_all s (messages m).
Proof. unfold SpecProtocol.phase_after. intros H. rewrite flat_map_app, expects_app, H. cbn [flat_map]. rewrite app_nil_r. reflexivity. Qed.

Lemma settled_set_in c l : settled c -> settled (set_in c l). Proof. exact (fun H => H). Qed.

Section Two.
Variable lz4_compress : bytes -> bytes.
Variable show_float : Z -> bytes.
Variable parse_ipv4 parse_ipv6 : bytes -> option bytes.
Variable server1 server2 : nat -> list cmd -> reply.
Variable fresh : nat -> res client.
Variable opts : copts.
Hypothesis alike : forall id log, expected takes log -> server1 id log = server2 id log.
Hypothesis fresh_ok : forall n k, fresh n = Ok k -> handle_ok k.
Notation deliver1 := (deliver lz4_compress show_float server1).
Notation deliver2 := (deliver lz4_compress show_float server2).
Notation flush1 := (flush lz4_compress show_float server1).
Notation flush2 := (flush lz4_compress show_float server2).

Lemma deliver_two c m q s ph : phase_after (cn_log c) = Some s -> expects_all s (messages m) = Some ph ->
  deliver1 c m q = deliver2 c m q /\
  match deliver1 c m q with
  | (Ok _, c') => phase_after (cn_log c') = Some ph /\ cn_queue c' = q
  | (_, c') => (phase_after (cn_log c') = Some s \/ phase_after (cn_log c') = Some ph) /\ cn_queue c' = q
  end.
Proof.
  intros P E. assert (X : phase_after (cn_log c ++ [m]) = Some ph) by (rewrite (phase_app _ _ _ P); exact E).
  unfold deliver. rewrite <- (alike (cn_id c) (cn_log c ++ [m])) by (unfold expected; rewrite X; discriminate).
  split; [reflexivity|]. destruct (encode_command lz4_compress show_float m).
  - destruct (server1 (cn_id c) (cn_log c ++ [m])); [split; [right; exact X|reflexivity]|].
    destruct (cn_closed c); (split; [exact X|reflexivity]).
  - split; [left; exact P|reflexivity].
  - split; [left; exact P|reflexivity].
Qed.

Lemma flush_last c m s ph : phase_after (cn_log c) = Some s -> expects_all s (messages m) = Some ph ->
  flush1 c [m] = flush2 c [m] /\
  match flush1 c [m] with
  | (Ok _, c') => phase_after (cn_log c') = Some ph /\ cn_queue c' = []
  | (_, c') => (phase_after (cn_log c') = Some s \/ phase_after (cn_log c') = Some ph) /\ cn_queue c' = []
  end.
Proof.
  intros P E. destruct (deliver_two c m [] s ph P E) as [D H]. cbn [flush]. rewrite <- D. destruct (deliver1 c m []) as [[x|e|p] c'].
  - split; [reflexivity|]. cbn [flush]. exact (conj (proj1 H) eq_refl).
  - split; [reflexivity|exact H].
  - split; [reflexivity|exact H].
Qed.

Lemma flush_stays q : Forall stays q -> forall c, phase_after (cn_log c) = Some Idle ->
  flush1 c q = flush2 c q /\ settled (snd (flush1 c q)).
Proof.
  induction 1 as [|m q E F IH]; intros c P; cbn [flush].
  - split; [reflexivity|]. split; [exact P|constructor].
  - destruct (deliver_two c m q Idle Idle P E) as [D H]. rewrite <- D. destruct (deliver1 c m q) as [[x|e|p] c'].
    + apply IH, H.
    + split; [reflexivity|]. cbn [snd]. split; [tauto|]. rewrite (proj2 H). exact F.
    + split; [reflexivity|]. cbn [snd]. split; [tauto|]. rewrite (proj2 H). exact F.
Qed.

Lemma flush_app q : Forall stays q -> forall c m ph, phase_after (cn_log c) = Some Idle -> expects_all Idle (messages m) = Some ph ->
  flush1 c (q ++ [m]) = flush2 c (q ++ [m]) /\
  match flush1 c (q ++ [m]) with (Ok _, c') => phase_after (cn_log c') = Some ph /\ cn_queue c' = [] | _ => True end.
Proof.
  induction 1 as [|m q E F IH]; intros c m' ph P E'; cbn [app].
  - destruct (flush_last c m' Idle ph P E') as [D H]. split; [exact D|]. destruct (flush1 c [m']) as [[x|e|p] c']; [exact H|exact I|exact I].
  - cbn [flush]. destruct (deliver_two c m (q ++ [m']) Idle Idle P E) as [D H]. rewrite <- D. destruct (deliver1 c m (q ++ [m'])) as [[x|e|p] c'].
    + apply IH; [apply H|exact E'].
    + auto.
    + auto.
Qed.

(** ** Loops over the messages of an answer *)
Lemma feed_keeps {A} (on : A -> packet -> option conn -> A + error) rb c (Q : A -> Prop) :
  (forall a p l a', Q a -> on a p (Some (set_in c l)) = inl a' -> Q a') ->
  (forall a p a', Q a -> on a p None = inl a' -> Q a') ->
  forall l a a', Q a -> feed on rb c l a = Ok a' -> Q a'.
Proof.
  intros H1 H2. induction l as [|x l IH]; intros a a' Ha H; cbn [feed] in H.
  - destruct (cn_late c); [destruct (cn_closed c)|]; try discriminate H. injection H as <-. exact Ha.
  - destruct x as [p|e|p]; try discriminate H. destruct (carries p).
    + destruct (on a p (Some (set_in c l))) as [x|e] eqn:O; [|discriminate H]. injection H as <-. eauto.
    + destruct (on a p None) as [x|e] eqn:O; [|discriminate H]. apply H2 in O; [|exact Ha].
      destruct (rb && is_block p).
      * destruct (on x PkEof (Some (set_in c l))) as [y|e] eqn:O2; [|discriminate H]. injection H as <-. eauto.
      * eauto.
Qed.

(** A connection in phase [ph] with nothing queued. *)
Definition at_phase (ph : phase) (c : conn) : Prop := phase_after (cn_log c) = Some ph /\ cn_queue c = [].
Lemma at_idle c : at_phase Idle c -> settled c.
Proof. intros [H Q]. split; [exact H|]. rewrite Q. constructor. Qed.
Definition held ph (o : option conn) : Prop := match o with Some c => at_phase ph c | None => True end.

Notation drain1 := (drain lz4_compress show_float server1).
Notation drain2 := (drain lz4_compress show_float server2).
Lemma drain_two {A} (on : A -> packet -> option conn -> A + error) (Q : conn -> A -> Prop) rb c m a ph :
  settled c -> expects_all Idle (messages m) = Some ph ->
  (forall c', at_phase ph c' -> Q c' a) ->
  (forall c' a p l a', at_phase ph c' -> Q c' a -> on a p (Some (set_in c' l)) = inl a' -> Q c' a') ->
  (forall c' a p a', at_phase ph c' -> Q c' a -> on a p None = inl a' -> Q c' a') ->
  let s := mk_pstream (ps_inner (call c m)) (ps_state (call c m)) rb in
  drain1 on s a = drain2 on s a /\
  forall a', drain1 on s a = Ok a' -> exists c', at_phase ph c' /\ Q c' a'.
Proof.
  intros [P F] E H0 H1 H2 s. unfold s. rewrite !drain_call.
  destruct (flush_app (cn_queue c) F (set_queue c (cn_queue c ++ [m])) m ph P E) as [D H]. rewrite <- D.
  split; [reflexivity|]. intros a' R. destruct (flush1 _ _) as [[x|e|p] c']; try discriminate R. exists c'. split; [exact H|].
  revert R. apply (feed_keeps on rb c' (Q c')); [intros ? ? ? ? ? ?; eapply H1; eauto|intros ? ? ? ? ?; eapply H2; eauto|apply H0; exact H].
Qed.
Lemma drain_from {A} (on : A -> packet -> option conn -> A + error) (Q : conn -> A -> Prop) rb c m a s ph :
  at_phase s c -> expects_all s (messages m) = Some ph ->
  (forall c', at_phase ph c' -> Q c' a) ->
  (forall c' a p l a', at_phase ph c' -> Q c' a -> on a p (Some (set_in c' l)) = inl a' -> Q c' a') ->
  (forall c' a p a', at_phase ph c' -> Q c' a -> on a p None = inl a' -> Q c' a') ->
  let s := mk_pstream (ps_inner (call c m)) (ps_state (call c m)) rb in
  drain1 on s a = drain2 on s a /\
  forall a', drain1 on s a = Ok a' -> exists c', at_phase ph c' /\ Q c' a'.
Proof.
  intros [P F] E H0 H1 H2 st. unfold st. rewrite !drain_call, F. cbn [app].
  destruct (flush_last (set_queue c [m]) m s ph P E) as [D H]. rewrite <- D.
  split; [reflexivity|]. intros a' R. destruct (flush1 _ _) as [[x|e|p] c']; try discriminate R. exists c'. split; [exact H|].
  revert R. apply (feed_keeps on rb c' (Q c')); [intros ? ? ? ? ? ?; eapply H1; eauto|intros ? ? ? ? ?; eapply H2; eauto|apply H0; exact H].
Qed.

(** ** The operations *)
Notation clear1 := (clear lz4_compress show_float server1).
Notation clear2 := (clear lz4_compress show_float server2).
Lemma clear_two c : settled c -> clear1 c = clear2 c /\ forall c', clear1 c = Ok c' -> settled c'.
Proof.
  intros S. unfold clear. destruct (negb (cn_inconsistent c)); [split; [reflexivity|]; intros c' H; injection H as <-; exact S|].
  destruct (drain_two on_clear (fun _ h => held Idle h) false c CmdCancel None Idle S eq_refl) as [D H].
  - intros; exact I.
  - intros c' a p l a' Hc Ha O. destruct p; cbn [on_clear] in O; try discriminate O; injection O as <-; try exact Ha; exact Hc.
  - intros c' a p a' Hc Ha O. destruct p; cbn [on_clear] in O; try discriminate O; injection O as <-; try exact Ha; exact I.
  - change (mk_pstream (ps_inner (call c CmdCancel)) (ps_state (call c CmdCancel)) false) with (call c CmdCancel) in D, H.
    rewrite <- D. split; [reflexivity|]. intros c' R. destruct (drain1 on_clear (call c CmdCancel) None) as [h|e|p]; try discriminate R.
    destruct (H h eq_refl) as (_ & _ & K). destruct h as [t|]; [|discriminate R]. cbn [rbind or_panic] in R. injection R as <-. exact (at_idle t K).
Qed.

Notation ping1 := (ping lz4_compress show_float server1).
Notation ping2 := (ping lz4_compress show_float server2).
Theorem c97_ping k : handle_ok k -> ping1 k = ping2 k /\ handle_ok (snd (ping1 k)).
Proof.
  intros K. unfold ping, get_inner. unfold handle_ok in K. destruct (k_inner k) as [c|]; cbn [rbind]; [|split; [reflexivity|exact I]].
  destruct (clear_two c K) as [C1 C2]. rewrite <- C1. destruct (clear1 c) as [c'|e|p]; cbn [rbind]; try (split; [reflexivity|exact I]).
  destruct (drain_two on_ping (fun _ h => held Idle h) false c' CmdPing None Idle (C2 c' eq_refl) eq_refl) as [D H].
  - intros; exact I.
  - intros x a p l a' Hc Ha O. destruct p; cbn [on_ping] in O; try discriminate O; injection O as <-; exact Hc.
  - intros x a p a' Hc Ha O. destruct p; cbn [on_ping] in O; try discriminate O; injection O as <-; exact I.
  - change (mk_pstream (ps_inner (call c' CmdPing)) (ps_state (call c' CmdPing)) false) with (call c' CmdPing) in D, H. rewrite <- D.
    split; [reflexivity|]. destruct (drain1 on_ping (call c' CmdPing) None) as [h|e|p]; cbn [rbind]; try exact I.
    destruct (H h eq_refl) as (_ & _ & X). destruct h as [t|]; [|exact I]. exact (at_idle t X).
Qed.

Notation retry1 := (retry_guard lz4_compress show_float server1 fresh opts).
Notation retry2 := (retry_guard lz4_compress show_float server2 fresh opts).
Lemma reconnect_ok k : handle_ok k -> handle_ok (snd (reconnect fresh k)).
Proof.
  intros K. unfold reconnect. destruct (fresh (k_tries k)) as [n|e|p] eqn:F; [|exact K|exact K]. exact (fresh_ok _ _ F).
Qed.
Lemma retry_two fuel : forall attempt skip k, handle_ok k ->
  retry1 fuel attempt skip k = retry2 fuel attempt skip k /\ handle_ok (snd (retry1 fuel attempt skip k)).
Proof.
  induction fuel as [|n IH]; intros attempt skip k K; cbn [retry_guard]; [split; [reflexivity|exact K]|].
  assert (G : forall k, handle_ok k ->
    match reconnect fresh k with
    | (Ok _, k') => retry1 n attempt false k'
    | (Err e, k') => if co_retries opts <=? attempt then (Err e, k') else retry1 n (S attempt) true k'
    | (Panic p, k') => (Panic p, k')
    end = match reconnect fresh k with
    | (Ok _, k') => retry2 n attempt false k'
    | (Err e, k') => if co_retries opts <=? attempt then (Err e, k') else retry2 n (S attempt) true k'
    | (Panic p, k') => (Panic p, k')
    end /\ handle_ok (snd match reconnect fresh k with
    | (Ok _, k') => retry1 n attempt false k'
    | (Err e, k') => if co_retries opts <=? attempt then (Err e, k') else retry1 n (S attempt) true k'
    | (Panic p, k') => (Panic p, k')
    end)).
  { intros k0 K0. pose proof (reconnect_ok k0 K0) as R. destruct (reconnect fresh k0) as [[x|e|p] k']; cbn [snd] in R.
    - apply IH, R.
    - destruct (co_retries opts <=? attempt); [split; [reflexivity|exact R]|apply IH, R].
    - split; [reflexivity|exact R]. }
  destruct skip; [apply G, K|]. destruct (c97_ping k K) as [P1 P2]. rewrite <- P1. destruct (ping1 k) as [[x|e|p] k']; cbn [snd] in P2.
  - split; [reflexivity|exact P2].
  - destruct (co_retries opts <=? attempt); [split; [reflexivity|exact P2]|apply G, P2].
  - split; [reflexivity|exact P2].
Qed.

Lemma attach_ok k : handle_ok k -> handle_ok (snd (attach k)).
Proof. intros K. unfold attach. destruct (k_pool k); exact K. Qed.
Lemma detach_ok k : handle_ok k -> handle_ok (snd (detach k)).
Proof. intros K. unfold detach. destruct (k_pool k); exact K. Qed.

Notation before1 := (before lz4_compress show_float server1 fresh opts).
Notation before2 := (before lz4_compress show_float server2 fresh opts).
Theorem c97_check fuel k : handle_ok k -> before1 fuel k = before2 fuel k /\ handle_ok (snd (before1 fuel k)).
Proof.
  intros K. unfold before. destruct (co_ping opts); [|split; [reflexivity|exact K]]. unfold check_connection.
  pose proof (detach_ok k K) as D. destruct (detach k) as [[x|e|p] k1]; cbn [snd] in D; try (split; [reflexivity|exact D]).
  destruct (retry_two fuel 0 false k1 D) as [R1 R2]. rewrite <- R1. destruct (retry1 fuel 0 false k1) as [[y|e|p] k2]; cbn [snd] in R2; try (split; [reflexivity|exact R2]).
  split; [reflexivity|]. destruct (k_pool k2); try exact R2. apply attach_ok, R2.
Qed.

Notation execute1 := (execute lz4_compress show_float server1 fresh opts).
Notation execute2 := (execute lz4_compress show_float server2 fresh opts).
Theorem c97_execute fuel q k : takes q = false -> handle_ok k ->
  execute1 fuel q k = execute2 fuel q k /\ handle_ok (snd (execute1 fuel q k)).
Proof.
  intros T K. unfold execute. destruct (c97_check fuel k K) as [B1 B2]. rewrite <- B1. destruct (before1 fuel k) as [[x|e|p] k1]; cbn [snd] in B2; try (split; [reflexivity|exact B2]).
  unfold get_inner. unfold handle_ok in B2. destruct (k_inner k1) as [c|]; cbn [rbind]; [|split; [reflexivity|exact I]].
  destruct (clear_two c B2) as [C1 C2]. rewrite <- C1. destruct (clear1 c) as [c'|e|p]; cbn [rbind]; try (split; [reflexivity|exact I]).
  set (m := CmdQuery q (k_context k)).
  destruct (drain_two on_execute (fun _ h => held Idle h) false c' m None Idle (C2 c' eq_refl)) as [D H].
  - cbn [m SpecProtocol.messages expects_all expects]. rewrite T. reflexivity.
  - intros; exact I.
  - intros y a p l a' Hc Ha O. destruct p; cbn [on_execute] in O; try discriminate O; injection O as <-; try exact Ha; exact Hc.
  - intros y a p a' Hc Ha O. destruct p; cbn [on_execute] in O; try discriminate O; injection O as <-; try exact Ha; exact I.
  - change (mk_pstream (ps_inner (call c' m)) (ps_state (call c' m)) false) with (call c' m) in D, H. rewrite <- D.
    split; [reflexivity|]. destruct (drain1 on_execute (call c' m) None) as [h|e|p]; cbn [rbind]; try exact I.
    destruct (H h eq_refl) as (_ & _ & X). destruct h as [t|]; [|exact I]. exact (at_idle t X).
Qed.

Notation hello1 := (hello lz4_compress show_float server1).
Notation hello2 := (hello lz4_compress show_float server2).
Theorem c97_hello k c : k_inner k = Some c -> cn_log c = [] -> cn_queue c = [] ->
  hello1 k = hello2 k /\ (fst (hello1 k) = Ok tt -> handle_ok (snd (hello1 k))).
Proof.
  intros E L Q. unfold hello. rewrite E. set (m := CmdHello (k_context k)).
  destruct (drain_from on_hello (fun _ a => held Idle (fst a)) false c m (None, None) New Idle) as [D H].
  - split; [rewrite L; reflexivity|exact Q].
  - reflexivity.
  - intros; exact I.
  - intros y a p l a' Hc Ha O. destruct p; cbn [on_hello] in O; try discriminate O; injection O as <-; exact Hc.
  - intros y a p a' Hc Ha O. destruct p; cbn [on_hello] in O; try discriminate O; injection O as <-; exact I.
  - change (mk_pstream (ps_inner (call c m)) (ps_state (call c m)) false) with (call c m) in D, H. rewrite <- D.
    split; [reflexivity|]. destruct (drain1 on_hello (call c m) (None, None)) as [[h [i|]]|e|p]; cbn [fst snd]; try discriminate.
    intros _. destruct (H _ eq_refl) as (_ & _ & X). cbn [fst] in X. destruct h as [t|]; [exact (at_idle t X)|exact I].
Qed.

(** ** Inserts *)
Notation send1 := (send_insert_query lz4_compress show_float server1).
Notation send2 := (send_insert_query lz4_compress show_float server2).
Notation block1 := (insert_block lz4_compress show_float server1).
Notation block2 := (insert_block lz4_compress show_float server2).
Lemma read_ok c' a p l a' ph : at_phase ph c' -> held ph (fst a) -> on_read_block a p (Some (set_in c' l)) = inl a' -> held ph (fst a').
Proof. intros Hc Ha O. destruct p; cbn [on_read_block] in O; try discriminate O; injection O as <-; try exact Ha; exact Hc. Qed.
Lemma read_ok' a p a' ph : held ph (fst a) -> on_read_block a p None = inl a' -> held ph (fst a').
Proof. intros Ha O. destruct p; cbn [on_read_block] in O; try discriminate O; injection O as <-; try exact Ha; exact I. Qed.

Lemma send_two c cx q : takes q = true -> settled c ->
  send1 c cx q = send2 c cx q /\ forall x, send1 c cx q = Ok x -> at_phase Data (fst x).
Proof.
  intros T S. unfold send_insert_query, read_block. set (m := CmdQuery q cx).
  destruct (drain_two on_read_block (fun _ a => held Data (fst a)) true c m (None, None) Data S) as [D H].
  - cbn [m SpecProtocol.messages expects_all expects]. rewrite T. reflexivity.
  - intros; exact I.
  - intros; eapply read_ok; eauto.
  - intros; eapply read_ok'; eauto.
  - rewrite <- D. split; [reflexivity|]. intros x R. destruct (drain1 on_read_block _ _) as [[h o]|e|p]; try discriminate R. cbn [rbind fst snd] in R.
    destruct (H _ eq_refl) as (_ & _ & X). cbn [fst] in X. destruct h as [t|]; [|discriminate R]. cbn [or_panic rbind snd fst] in R.
    destruct o; [|discriminate R]. injection R as <-. exact X.
Qed.
Lemma block_two c cx b : b_cols b <> [] -> at_phase Data c ->
  block1 c cx b = block2 c cx b /\ forall c', block1 c cx b = Ok c' -> settled c'.
Proof.
  intros B S. unfold insert_block, read_block. set (m := CmdUnion (CmdData b cx) (CmdData block_default cx)).
  destruct (drain_from on_read_block (fun _ a => held Idle (fst a)) true c m (None, None) Data Idle S) as [D H].
  - cbn [m SpecProtocol.messages app]. destruct (b_cols b); [congruence|]. reflexivity.
  - intros; exact I.
  - intros; eapply read_ok; eauto.
  - intros; eapply read_ok'; eauto.
  - rewrite <- D. split; [reflexivity|]. intros x R. destruct (drain1 on_read_block _ _) as [[h o]|e|p]; try discriminate R. cbn [rbind fst snd] in R.
    destruct (H _ eq_refl) as (_ & _ & X). cbn [fst] in X. destruct h as [t|]; [|discriminate R]. cbn [or_panic rbind snd fst] in R.
    injection R as <-. exact (at_idle t X).
Qed.
Notation tail1 := (insert_tail lz4_compress show_float server1).
Notation tail2 := (insert_tail lz4_compress show_float server2).
Lemma tail_two cx q : takes q = true -> forall chunks c, Forall (fun b => b_cols b <> []) chunks -> settled c ->
  tail1 c cx q chunks = tail2 c cx q chunks /\ forall c', tail1 c cx q chunks = Ok c' -> settled c'.
Proof.
  intros T. induction chunks as [|b l IH]; intros c F S; cbn [insert_tail].
  - split; [reflexivity|]. intros c' H. injection H as <-. exact S.
  - inversion_clear F as [|? ? Fb Fl]. destruct (send_two c cx q T S) as [S1 S2]. rewrite <- S1.
    destruct (send1 c cx q) as [x|e|p]; cbn [rbind]; try (split; [reflexivity|discriminate]).
    destruct (block_two (fst x) cx b Fb (S2 x eq_refl)) as [B1 B2]. rewrite <- B1.
    destruct (block1 (fst x) cx b) as [c1|e|p]; cbn [rbind]; try (split; [reflexivity|discriminate]).
    apply IH; [exact Fl|]. apply B2. reflexivity.
Qed.

Notation insert1 := (insert_ lz4_compress show_float parse_ipv4 parse_ipv6 server1 fresh opts).
Notation insert2 := (insert_ lz4_compress show_float parse_ipv4 parse_ipv6 server2 fresh opts).
(** Of a block with rows. What is missing: blocks without rows, of which it is false ([c97_refuted]). *)
Theorem c97_insert_partial fuel q b k n : takes q = true -> handle_ok k ->
  (forall s o, parse_ipv4 s = Some o -> length o = 4) -> (forall s o, parse_ipv6 s = Some o -> length o = 16) ->
  row_count b = Ok (S n) ->
  insert1 fuel q b k = insert2 fuel q b k /\ handle_ok (snd (insert1 fuel q b k)).
Proof.
  intros T K P4 P6 Rb. unfold insert_. destruct (c97_check fuel k K) as [B1 B2]. rewrite <- B1.
  destruct (before1 fuel k) as [[x|e|p] k1]; cbn [snd] in B2; try (split; [reflexivity|exact B2]).
  unfold get_inner. unfold handle_ok in B2. destruct (k_inner k1) as [c|]; cbn [rbind]; [|split; [reflexivity|exact I]].
  destruct (clear_two c B2) as [C1 C2]. rewrite <- C1. destruct (clear1 c) as [c'|e|p]; cbn [rbind]; try (split; [reflexivity|exact I]).
  destruct (send_two c' (k_context k) q T (C2 c' eq_refl)) as [S1 S2]. rewrite <- S1.
  destruct (send1 c' (k_context k) q) as [[t h]|e|p]; cbn [rbind fst snd]; try (split; [reflexivity|exact I]).
  specialize (S2 _ eq_refl). cbn [fst] in S2.
  destruct (block_cast parse_ipv4 parse_ipv6 b h) as [b'|e|p] eqn:Ca; cbn [rbind]; try (split; [reflexivity|exact I]).
  destruct (block_chunks insert_block_size b') as [ps|e|p] eqn:Ch; cbn [rbind]; try (split; [reflexivity|exact I]).
  assert (F : Forall (fun p => b_cols p <> []) ps).
  { apply (pieces_have_columns _ _ _ Ch). assert (Nb : b_cols b <> []) by (intros C; unfold row_count in Rb; rewrite C in Rb; discriminate Rb).
    destruct (cast_rows parse_ipv4 parse_ipv6 P4 P6 _ _ _ _ Ca Rb Nb) as [R' _]. rewrite R'. discriminate. }
  destruct ps as [|b0 l]; [split; [reflexivity|exact I]|]. inversion_clear F as [|? ? F0 Fl].
  destruct (block_two t (k_context k) b0 F0 S2) as [D1 D2]. rewrite <- D1.
  destruct (block1 t (k_context k) b0) as [c1|e|p]; cbn [rbind]; try (split; [reflexivity|exact I]).
  destruct (tail_two (k_context k) q T l c1 Fl (D2 c1 eq_refl)) as [E1 E2]. rewrite <- E1. split; [reflexivity|].
  destruct (tail1 c1 (k_context k) q l) as [c2|e|p]; [|exact I|exact I]. exact (E2 c2 eq_refl).
Qed.

(** ** Queries *)
Definition stream_ok (s : pstream) : Prop :=
  match ps_inner s with Some c => settled c /\ match ps_state s with Ask => True | _ => cn_queue c = [] end | None => True end.
Notation next1 := (next lz4_compress show_float server1).
Notation next2 := (next lz4_compress show_float server2).
Lemma receive_ok c rb : settled c -> cn_queue c = [] ->
  stream_ok (snd (receive c rb)) /\ match fst (receive c rb) with GItem _ (Some t) => settled t | _ => True end.
Proof.
  intros S Q. unfold receive. destruct (cn_in c) as [|[p|e|p] l].
  - destruct (cn_late c); [destruct (cn_closed c)|]; cbn [fst snd]; (split; [split; assumption|exact I]).
  - destruct (carries p); cbn [fst snd]; (split; [|try exact I]).
    + exact I.
    + exact S.
    + destruct (rb && is_block p); split; assumption.
  - split; [split; assumption|exact I].
  - split; [split; assumption|exact I].
Qed.
Lemma next_two s : stream_ok s ->
  next1 s = next2 s /\ stream_ok (snd (next1 s)) /\ match fst (next1 s) with GItem _ (Some t) => settled t | _ => True end.
Proof.
  intros S. unfold next. unfold stream_ok in S. destruct (ps_inner s) as [c|]; [|destruct (ps_state s); (split; [reflexivity|split; exact I])].
  destruct S as [S Q]. destruct (ps_state s).
  - destruct (flush_stays (cn_queue c) (proj2 S) c (proj1 S)) as [D H]. rewrite <- D. split; [reflexivity|].
    destruct (flush1 c (cn_queue c)) as [[x|e|p] c'] eqn:F; cbn [snd] in H.
    + apply receive_ok; [exact H|]. destruct x. exact (flush_queue lz4_compress show_float server1 _ _ _ F).
    + split; [split; [exact H|exact I]|exact I].
    + split; [split; [exact H|exact I]|exact I].
  - split; [reflexivity|]. apply receive_ok; assumption.
  - split; [reflexivity|]. split; [exact I|exact S].
Qed.

Notation poll1 := (poll_blocks lz4_compress show_float server1).
Notation poll2 := (poll_blocks lz4_compress show_float server2).
Lemma reattach_ok k : handle_ok k -> handle_ok (snd (reattach k)).
Proof. intros K. unfold reattach. destruct (k_pool k); [apply attach_ok, K|exact K|apply attach_ok, K]. Qed.
Definition both_ok (x : streamed * bstream * client) : Prop := stream_ok (bs_inner (snd (fst x))) /\ handle_ok (snd x).
Lemma poll_two fuel : forall s k, stream_ok (bs_inner s) -> handle_ok k -> poll1 fuel s k = poll2 fuel s k /\ both_ok (poll1 fuel s k).
Proof.
  induction fuel as [|n IH]; intros s k S K; cbn [poll_blocks]; [split; [reflexivity|split; assumption]|].
  destruct (bs_state s); try (split; [reflexivity|split; assumption]).
  destruct (next_two (bs_inner s) S) as (N1 & N2 & N3). rewrite <- N1. destruct (next1 (bs_inner s)) as [g i]. cbn [fst snd] in N2, N3.
  destruct g as [p t|e| | |p]; try (split; [reflexivity|split; [exact N2|exact K]]).
  destruct p; try (split; [reflexivity|split; [exact N2|exact K]]); try (apply IH; [exact N2|exact K]).
  - destruct (_ && _); [split; [reflexivity|split; [exact N2|exact K]]|apply IH; [exact N2|exact K]].
  - assert (K' : handle_ok (set_inner k t)) by (destruct t; exact N3 || exact I). apply reattach_ok in K'.
    destruct (reattach (set_inner k t)) as [[x|e|p] k']; cbn [snd] in K'; try (split; [reflexivity|split; [exact N2|exact K']]).
    apply IH; [exact N2|exact K'].
Qed.

Lemma fuel_two s : stream_ok s -> stream_fuel lz4_compress show_float server1 s = stream_fuel lz4_compress show_float server2 s.
Proof.
  unfold stream_ok, stream_fuel. destruct (ps_inner s) as [c|]; [|reflexivity]. intros [[P F] _].
  destruct (flush_stays (cn_queue c) F c P) as [-> _]. reflexivity.
Qed.
(** Each poll of a stream. *)
Theorem c97_poll s k : stream_ok (bs_inner s) -> handle_ok k ->
  poll_stream lz4_compress show_float server1 s k = poll_stream lz4_compress show_float server2 s k /\
  both_ok (poll_stream lz4_compress show_float server1 s k).
Proof. intros S K. unfold poll_stream. rewrite <- (fuel_two _ S). apply poll_two; assumption. Qed.

(** Beginning a query. *)
Theorem c97_stream fuel skip q k : takes q = false -> handle_ok k ->
  stream_blocks lz4_compress show_float server1 fresh opts fuel skip q k = stream_blocks lz4_compress show_float server2 fresh opts fuel skip q k /\
  handle_ok (snd (stream_blocks lz4_compress show_float server1 fresh opts fuel skip q k)) /\
  forall s, fst (stream_blocks lz4_compress show_float server1 fresh opts fuel skip q k) = Ok s -> stream_ok (bs_inner s).
Proof.
  intros T K. unfold stream_blocks. destruct (c97_check fuel k K) as [B1 B2]. rewrite <- B1.
  destruct (before1 fuel k) as [[x|e|p] k1]; cbn [snd] in B2; try (split; [reflexivity|split; [exact B2|discriminate]]).
  split; [reflexivity|]. pose proof (detach_ok k1 B2) as D. destruct (detach k1) as [[y|e|p] k2]; cbn [snd] in D; try (split; [exact D|discriminate]).
  unfold get_inner. unfold handle_ok in D. destruct (k_inner k2) as [c|] eqn:E; [|split; [cbn [snd]; unfold handle_ok; rewrite E; exact I|discriminate]].
  split; [exact I|]. cbn [fst]. intros s H. injection H as <-. cbn [bs_inner]. unfold stream_ok, call. cbn [ps_inner ps_state].
  split; [|exact I]. destruct D as [P F]. split; [exact P|]. cbn [set_queue cn_queue]. apply Forall_app. split; [exact F|]. constructor; [|constructor].
  unfold stays. cbn [SpecProtocol.messages expects_all expects]. rewrite T. reflexivity.
Qed.

(** Dropping a stream, wherever it is. *)
Theorem c97_drop s k : stream_ok (bs_inner s) -> handle_ok k -> handle_ok (snd (drop_stream s k)).
Proof.
  intros S K. unfold drop_stream. destruct (bs_state s); try exact K. pose proof (reattach_ok k K) as R.
  destruct (reattach k) as [[x|e|p] k']; cbn [snd] in R; try exact R. cbn [snd]. unfold stream_ok in S. destruct (ps_inner (bs_inner s)) as [c|]; [|exact R].
  exact (proj1 S).
Qed.

Notation collect1 := (collect lz4_compress show_float server1).
Notation collect2 := (collect lz4_compress show_float server2).
Lemma collect_two fuel : forall s k acc, stream_ok (bs_inner s) -> handle_ok k -> collect1 fuel s k acc = collect2 fuel s k acc /\
  (stream_ok (bs_inner (snd (fst (collect1 fuel s k acc)))) /\ handle_ok (snd (collect1 fuel s k acc))).
Proof.
  induction fuel as [|n IH]; intros s k acc S K; cbn [collect]; [split; [reflexivity|split; assumption]|].
  destruct (c97_poll s k S K) as [P1 P2]. rewrite <- P1. destruct (poll_stream lz4_compress show_float server1 s k) as [[g s'] k']. destruct P2 as [Q1 Q2]. cbn [fst snd] in Q1, Q2.
  destruct g as [[b|e|p]| | |p]; try (split; [reflexivity|split; assumption]). apply IH; assumption.
Qed.
Theorem c97_fetch_all fuel q k : takes q = false -> handle_ok k ->
  fetch_all lz4_compress show_float server1 fresh opts fuel q k = fetch_all lz4_compress show_float server2 fresh opts fuel q k /\
  handle_ok (snd (fetch_all lz4_compress show_float server1 fresh opts fuel q k)).
Proof.
  intros T K. unfold fetch_all. destruct (c97_stream fuel false q k T K) as (S1 & S2 & S3). rewrite <- S1.
  destruct (stream_blocks lz4_compress show_float server1 fresh opts fuel false q k) as [[s|e|p] k1]; cbn [fst snd] in S2, S3; try (split; [reflexivity|exact S2]).
  specialize (S3 s eq_refl). rewrite <- (fuel_two _ S3).
  destruct (collect_two (S (stream_fuel lz4_compress show_float server1 (bs_inner s))) s k1 [] S3 S2) as [C1 [C2 C3]]. rewrite <- C1.
  destruct (collect1 _ s k1 []) as [[r s'] k2]. cbn [fst snd] in C2, C3. split; [reflexivity|].
  pose proof (c97_drop s' k2 C2 C3) as D. destruct (drop_stream s' k2) as [[x|e|p] k3]; exact D.
Qed.
End Two.
End Protocol.
Print Assumptions c97_hello.
Print Assumptions c97_ping.
Print Assumptions c97_check.
Print Assumptions c97_execute.
Print Assumptions c97_insert_partial.
Print Assumptions c97_stream.
Print Assumptions c97_poll.
Print Assumptions c97_drop.
Print Assumptions c97_fetch_all.

(** The claim is false of the code: inserting a block without rows sends the block without columns that
    ends the data twice ([ChunkIterator] replaces the block by such a one). The server takes the
    first for the end and the second for something unexpected; the insert succeeds, and the
    exception is there for the next operation. *)
Definition inserts (q : query) : bool := bytes_eqb (firstn 6 (q_sql q)) (str "INSERT").
Definition insert_query : query := mk_query (str "INSERT INTO t (a) VALUES") [].
Definition watching (_ : nat) (log : list cmd) : reply :=
  match phase_after inserts log with
  | None => RAnswers [Ok PkEof; Ok (PkException ex_exception)] [] true
  | Some Data => RAnswers [Ok (PkBlock ex_insert_header)] [] false
  | Some _ => match last log CmdPing with
              | CmdPing => RAnswers [Ok PkPong] [] false
              | _ => RAnswers [Ok PkEof] [] false
              end
  end.
Theorem c97_refuted : exists k2 c2,
  let b := mk_block info_default [(str "a", CString [])] in
  handle_ok inserts ex_client /\ inserts insert_query = true /\
  insert_ ex_lz4 ex_show ex_parse ex_parse watching ex_fresh ex_opts 5 insert_query b ex_client = (Ok tt, k2) /\
  k_inner k2 = Some c2 /\ phase_after inserts (cn_log c2) = None /\
  fst (ping ex_lz4 ex_show watching k2) = Err (EServer ex_exception).
Proof.
  do 2 eexists. cbv zeta. split; [split; [vm_compute; reflexivity|constructor]|]. split; [vm_compute; reflexivity|].
  split; [vm_compute; reflexivity|]. split; [reflexivity|]. split; vm_compute; reflexivity.
Qed.
Print Assumptions c97_refuted.

(** The hypotheses are met, and the servers that cannot be told apart do differ. *)
Definition careless (id : nat) (log : list cmd) : reply :=
  match phase_after inserts log with None => RFails | Some _ => watching id log end.
Example c97_case :
  (forall id log, expected inserts log -> watching id log = careless id log) /\
  watching 7 [CmdPing] <> careless 7 [CmdPing] /\
  (forall n k, ex_fresh n = Ok k -> handle_ok inserts k) /\ handle_ok inserts ex_client /\
  inserts ex_query = false /\ row_count ex_block = Ok 2 /\
  fst (insert_ ex_lz4 ex_show ex_parse ex_parse careless ex_fresh ex_opts 5 insert_query ex_block ex_client) = Ok tt /\
  fst (execute ex_lz4 ex_show careless ex_fresh ex_opts 5 ex_query ex_client) = Ok tt.
Proof.
  split; [|split; [vm_compute; discriminate|split; [discriminate|split; [split; [vm_compute; reflexivity|constructor]|repeat split; vm_compute; reflexivity]]]].
  intros id log E. unfold careless. unfold expected in E. destruct (phase_after inserts log); [reflexivity|congruence].
Qed.
