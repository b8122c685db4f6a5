(** C76, C77, C78: opening a connection, TLS, and errors under a timeout. *)
From Verif Require Import Base Connect SpecConnect ConnectProofs.
Open Scope nat_scope.

Section Opened.
Variable tls_build : tls_setup -> outcome unit N.
Variable handshake : tls_setup -> tcp -> future unit N.
Variable connect : N -> future tcp io_error.
Variables (tls secure skip_verify : bool) (certificate host : option bytes).

Let open_ (addresses : outcome (list N) io_error) : state :=
  connecting tls secure skip_verify certificate host addresses connect.

Lemma open_plain l : tls && secure = false -> l <> [] ->
  open_ (Done l) = TcpWait (map (fun a => (0, wrapped connect a)) l).
Proof. intros T NE. unfold open_, connecting. rewrite T. destruct l; [contradiction|reflexivity]. Qed.
Lemma open_tls l h : tls && secure = true -> l <> [] -> host = Some h ->
  open_ (Done l) = TlsWait (map (fun a => (0, wrapped connect a)) l) (mk_tls_setup h skip_verify certificate).
Proof. intros T NE H. unfold open_, connecting. rewrite T, H. destruct l; [contradiction|reflexivity]. Qed.

(** C76: however the attempts interleave, a connection comes from an address that accepted it, a failure
    means that every address failed, and as long as neither is known, no address has accepted. *)
Theorem c76_sound l n : tls && secure = false -> l <> [] ->
  exists x st, polls tls_build handshake n (open_ (Done l)) = Ok (x, st) /\
  match x with
  | Ready (Done y) => exists a k s, In a l /\ settles (connect a) k (Done s) /\ y = Plain s
  | Ready (Failed e) => (forall a, In a l -> fails (connect a)) /\
                        exists a k e', In a l /\ settles (connect a) k (Failed e') /\ e = ConnIo e'
  | Pending => (forall a, In a l -> fails (connect a) \/ forall i, i < n -> connect a i = Pending) /\
               exists a, In a l /\ forall i, i < n -> connect a i = Pending
  end.
Proof.
  intros T NE. destruct (plain_polls tls_build handshake l connect n 0 _ (started handshake l connect NE)) as (x & st & Q & X).
  exists x, st. split; [rewrite (open_plain l T NE); exact Q|]. destruct x as [|[y|e]]; [|exact X|exact X].
  destruct X as (fs & _ & NE' & U1 & U2). rewrite Forall_forall in U1, U2. split.
  - intros a Ia. destruct (U2 a Ia) as [F|(k & Lk & _ & P)]; [left; exact F|right]. intros i Hi. apply P. lia.
  - destruct fs as [|p fs]; [contradiction|]. destruct (U1 p (or_introl eq_refl)) as (a & Ia & L & _ & P).
    exists a. split; [exact Ia|]. intros i Hi. apply P. lia.
Qed.

(** An address that accepts is enough, whatever the others do. *)
Theorem c76_one_is_enough l a k s : tls && secure = false -> In a l -> settles (connect a) k (Done s) ->
  exists y st, polls tls_build handshake (S k) (open_ (Done l)) = Ok (Ready (Done y), st).
Proof.
  intros T Ia Q. assert (l <> []) as NE by (destruct l; [contradiction|discriminate]).
  destruct (c76_sound l (S k) T NE) as (x & st & P & X).
  assert (fails (connect a) -> False) as NF.
  { intros (k' & e & F). destruct (settle_once _ _ _ _ _ Q F) as [_ D]. discriminate D. }
  destruct x as [|[y|e]].
  - destruct X as [X _]. destruct (X a Ia) as [F|F]; [destruct (NF F)|]. destruct Q as [R _]. rewrite (F k) in R by lia. discriminate R.
  - exists y, st. exact P.
  - destruct (NF (proj1 X a Ia)).
Qed.
(** When all fail, the failure is reported as soon as the last one is known. *)
Theorem c76_all_fail l n : tls && secure = false -> l <> [] ->
  (forall a, In a l -> exists k e, k < n /\ settles (connect a) k (Failed e)) ->
  exists e st, polls tls_build handshake n (open_ (Done l)) = Ok (Ready (Failed e), st).
Proof.
  intros T NE F. destruct (c76_sound l n T NE) as (x & st & P & X). destruct x as [|[y|e]].
  - destruct X as [_ (a & Ia & W)]. destruct (F a Ia) as (k & e & L & [R _]). rewrite (W k L) in R. discriminate R.
  - destruct X as (a & k & s & Ia & Q & _). destruct (F a Ia) as (k' & e & _ & Q'). destruct (settle_once _ _ _ _ _ Q Q') as [_ D]. discriminate D.
  - exists e, st. exact P.
Qed.
(** A name without addresses, or one that cannot be resolved, is an error at once. *)
Theorem c76_no_address : exists st, poll tls_build handshake (open_ (Done [])) = Ok (Ready (Failed (ConnIo IoNoAddress)), st).
Proof. eexists. reflexivity. Qed.
Theorem c76_unresolved e : exists st, poll tls_build handshake (open_ (Failed e)) = Ok (Ready (Failed (ConnIo e)), st).
Proof. eexists. reflexivity. Qed.

(** C77: with TLS asked for, what is handed out is encrypted, over a connection that some address
    accepted, and its handshake has succeeded under the name of the URL and with the options of the
    URL; a TLS error is that of building the connector or of that handshake. *)
Theorem c77_secure l h n : tls && secure = true -> l <> [] -> host = Some h ->
  let how := mk_tls_setup h skip_verify certificate in
  exists x st, polls tls_build handshake n (open_ (Done l)) = Ok (x, st) /\
  match x with
  | Pending => True
  | Ready (Done y) => exists s a j k, y = Secure s how /\ In a l /\ settles (connect a) j (Done s) /\
                        settles (handshake how s) k (Done tt) /\ (exists u, tls_build how = Done u)
  | Ready (Failed e) =>
      (forall a, In a l -> fails (connect a)) /\ (exists a k e', In a l /\ settles (connect a) k (Failed e') /\ e = ConnIo e') \/
      (exists s a j t, In a l /\ settles (connect a) j (Done s) /\ e = ConnTls t /\
         (tls_build how = Failed t \/ exists k, settles (handshake how s) k (Failed t)))
  end.
Proof.
  intros T NE H how. destruct (tls_polls tls_build handshake l connect n how 0 _ (started handshake l connect NE)) as (x & st & Q & X).
  exists x, st. split; [rewrite (open_tls l h T NE H); exact Q|]. destruct x as [|[y|e]]; [exact I| |exact X].
  destruct X as (s & a & j & k & -> & Ia & C & B & S). exists s, a, j, k. auto.
Qed.
(** It gets there, too. *)
Theorem c77_gets_there l h a k s m : tls && secure = true -> host = Some h -> In a l -> settles (connect a) k (Done s) ->
  let how := mk_tls_setup h skip_verify certificate in
  tls_build how = Done tt -> (forall s', exists j, j < m /\ settles (handshake how s') j (Done tt)) ->
  exists s' st, polls tls_build handshake (S k + m) (open_ (Done l)) = Ok (Ready (Done (Secure s' how)), st).
Proof.
  intros T H Ia Q how B HS. assert (l <> []) as NE by (destruct l; [contradiction|discriminate]).
  assert (fails (connect a) -> False) as NF.
  { intros (k' & e & F). destruct (settle_once _ _ _ _ _ Q F) as [_ D]. discriminate D. }
  assert (forall s' j t, settles (handshake how s') j (Failed t) -> False) as NH.
  { intros s' j t F. destruct (HS s') as (j' & _ & G). destruct (settle_once _ _ _ _ _ G F) as [_ D]. discriminate D. }
  rewrite (open_tls l h T NE H).
  destruct (c77_secure l h (S k + m) T NE H) as (x & st & P & X). rewrite (open_tls l h T NE H) in P. fold how in P, X.
  destruct x as [|[y|e]].
  - exfalso. destruct (tls_polls tls_build handshake l connect (S k) how 0 _ (started handshake l connect NE)) as (x1 & st1 & P1 & X1).
    destruct x1 as [|r].
    + rewrite (polls_more tls_build handshake _ m _ _ P1) in P. destruct X1 as [(fs & -> & _ & _ & U2)|(s' & a' & j & k' & -> & _ & _ & _ & W)].
      * rewrite Forall_forall in U2. destruct (U2 a Ia) as [F|(k' & Lk & _ & F)]; [exact (NF F)|].
        destruct Q as [R _]. rewrite (F k) in R by lia. discriminate R.
      * destruct (shake_polls tls_build handshake connect m k' s' how W) as (x2 & st2 & P2 & X2). rewrite P2 in P. injection P as -> ->.
        destruct X2 as [_ X2]. destruct (HS s') as (j' & L' & [R _]). rewrite (X2 j') in R by lia. discriminate R.
    + clear - P P1. revert P P1. generalize (S k) as n. intros n. generalize (TlsWait (map (fun a => (0, wrapped connect a)) l) how) as st0.
      induction n as [|n IH]; intros st0 P P1; cbn [polls Nat.add] in *; [discriminate P1|].
      destruct (poll tls_build handshake st0) as [[[|r'] st2]| |]; cbn [rbind] in *; try discriminate.
      exact (IH _ P P1).
  - destruct X as (s' & a' & j & k' & -> & _). exists s', st. exact P.
  - exfalso. destruct X as [[F _]|(s' & a' & j & t & _ & _ & _ & [F|(k' & F)])].
    + exact (NF (F a Ia)).
    + rewrite B in F. discriminate F.
    + exact (NH _ _ _ F).
Qed.
(** Without a host name nothing is tried; without TLS nothing is encrypted (C76). *)
Theorem c77_no_host l : tls && secure = true -> l <> [] -> host = None ->
  exists st, poll tls_build handshake (open_ (Done l)) = Ok (Ready (Failed ConnTlsHost), st).
Proof. intros T NE H. unfold open_, connecting. rewrite T, H. destruct l; [contradiction|]. eexists. reflexivity. Qed.
End Opened.
Print Assumptions c76_sound.
Print Assumptions c76_one_is_enough.
Print Assumptions c76_all_fail.
Print Assumptions c76_no_address.
Print Assumptions c76_unresolved.
Print Assumptions c77_secure.
Print Assumptions c77_gets_there.
Print Assumptions c77_no_host.

(** Three addresses: the first fails at once, the second never answers, the third accepts when it is
    asked for the third time. *)
Definition sample_connect (a : N) : future tcp io_error := fun k =>
  if N.eqb a 1 then Ready (Failed (IoOs 111))
  else if N.eqb a 2 then Pending
  else if k <? 2 then Pending else Ready (Done 7%N).
Definition sample_build (_ : tls_setup) : outcome unit N := Done tt.
Definition sample_shake (h : tls_setup) (s : tcp) : future unit N := fun k =>
  if k <? 1 then Pending else if tls_accept_invalid h then Ready (Done tt) else Ready (Failed 5%N).
Definition sample_open tls skip := connecting tls true skip None (Some [104; 49]%N) (Done [1; 2; 3]%N) sample_connect.
Example c76_case :
  (exists st, polls sample_build sample_shake 2 (sample_open false true) = Ok (Pending, st)) /\
  (exists st, polls sample_build sample_shake 3 (sample_open false true) = Ok (Ready (Done (Plain 7%N)), st)).
Proof. split; eexists; reflexivity. Qed.
Example c76_case_hyps : fails (sample_connect 1) /\ settles (sample_connect 3) 2 (Done 7%N).
Proof.
  split.
  - exists 0, (IoOs 111). split; [reflexivity|intros; lia].
  - split; [reflexivity|]. intros [|[|j]] Hj; [reflexivity|reflexivity|lia].
Qed.
Example c77_case :
  (exists st, polls sample_build sample_shake 4 (sample_open true true) =
     Ok (Ready (Done (Secure 7%N (mk_tls_setup [104; 49]%N true None))), st)) /\
  (exists st, polls sample_build sample_shake 4 (sample_open true false) = Ok (Ready (Failed (ConnTls 5)), st)).
Proof. split; eexists; reflexivity. Qed.

(** C78: an operation under a timeout gives its own result, or the timeout error of the driver when
    it is too late. With tokio that holds. *)
Theorem c78_tokio A (x : timed A) :
  (forall r, x = InTime r -> with_timeout_tokio x = r) /\ (x = TooLate -> with_timeout_tokio x = Failed ErrTimeout).
Proof. split; [intros r ->|intros ->]; reflexivity. Qed.
Print Assumptions c78_tokio.
(** With async-std: results and I/O errors arrive as they are; ... *)
Theorem c78_async_std_partial A text (x : timed A) :
  (forall a, x = InTime (Done a) <-> with_timeout_async_std text x = Done a) /\
  (forall e, x = InTime (Failed (ErrIo e)) -> with_timeout_async_std text x = Failed (ErrIo e)).
Proof.
  split; [|intros e ->; reflexivity]. intros a. split; [intros ->; reflexivity|].
  destruct x as [[b|e]|]; intros H; try discriminate H. injection H as ->. reflexivity.
Qed.
Print Assumptions c78_async_std_partial.
(** ... but every other error becomes an I/O error: the exception of a server keeps its text and
    loses its code, and a timeout is not reported as one. *)
Theorem c78_async_std_refuted : forall A text (s : server_error),
  with_timeout_async_std text (@InTime A (Failed (ErrServer s))) <> Failed (ErrServer s) /\
  with_timeout_async_std text (@TooLate A) <> Failed ErrTimeout /\
  forall x e, with_timeout_async_std text x = @Failed A err e -> exists i, e = ErrIo i.
Proof.
  intros A text s. split; [discriminate|]. split; [discriminate|]. intros x e H.
  destruct x as [[a|e']|]; try discriminate H; injection H as <-; eexists; reflexivity.
Qed.
Print Assumptions c78_async_std_refuted.
