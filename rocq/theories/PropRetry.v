(** C38, exactly: which attempts are made before an operation, and with what result. *)
From Coq Require Import String.
From Verif Require Import Base Bytes Utf8 Types Text Values Columns Block Casts Packets Client SpecRetry SpecClient ClientProofs PropClient.
Open Scope list_scope.
Open Scope nat_scope.

Section Retry.
Variable lz4_compress : bytes -> bytes.
Variable show_float : Z -> bytes.
Variable server : nat -> list cmd -> reply.
Variable fresh : nat -> res client.
Variable opts : copts.
Notation retry_guard := (retry_guard lz4_compress show_float server fresh opts).
Notation ping := (ping lz4_compress show_float server).
Notation reconnect := (reconnect fresh).
Notation happened := (happened ping reconnect).

Definition result_fits (max fuel : nat) (t : list attempt) (r : res unit) : Prop :=
  match r with
  | Ok _ => last_was t (Checked (Ok tt)) /\ refused t <= max
  | Err e => (last_was t (Checked (Err e)) /\ refused t = max) \/ (last_was t (Connected (Err e)) /\ refused t = S max)
  | Panic p => (last_was t (Checked (Panic p)) \/ last_was t (Connected (Panic p)) \/ (p = PFuel /\ connections t = fuel)) /\ refused t <= max
  end.
Lemma last_cons a t b : last_was t b -> last_was (a :: t) b.
Proof. intros (t0 & ->). exists (a :: t0). reflexivity. Qed.
Lemma last_one a : last_was [a] a.
Proof. exists []. reflexivity. Qed.

Lemma guard_run fuel : forall attempt skip k r k', attempt <= co_retries opts -> retry_guard fuel attempt skip k = (r, k') ->
  exists t, happened k t k' /\ orderly (negb skip) t /\ result_fits (co_retries opts - attempt) fuel t r.
Proof.
  induction fuel as [|n IH]; intros attempt skip k r k' Ha E.
  { injection E as <- <-. exists []. split; [constructor|]. split; [constructor|]. split; [right; right; split; reflexivity|cbn; lia]. }
  assert (A : forall k1 r1 k1', attempt < co_retries opts \/ skip = true ->
    match reconnect k1 with
    | (Ok _, k') => retry_guard n attempt false k'
    | (Err e, k') => if co_retries opts <=? attempt then (Err e, k') else retry_guard n (S attempt) true k'
    | (Panic p, k') => (Panic p, k')
    end = (r1, k1') ->
    exists t, happened k1 t k1' /\ orderly false t /\ result_fits (co_retries opts - attempt) (S n) t r1).
  { intros k1 r1 k1' _ R. destruct (reconnect k1) as [[[]|e|p] k2] eqn:C.
    - destruct (IH attempt false k2 r1 k1' Ha R) as (t & H & O & F). exists (Connected (Ok tt) :: t).
      split; [eapply h_connect; eassumption|]. split; [constructor; exact O|].
      destruct r1 as [[]|e|p]; cbn [result_fits refused connections] in *.
      + destruct F as [F1 F2]. split; [apply last_cons, F1|exact F2].
      + destruct F as [[F1 F2]|[F1 F2]]; [left|right]; (split; [apply last_cons, F1|exact F2]).
      + destruct F as [[F|[F|[F1 F2]]] F3]; (split; [|exact F3]); [left; apply last_cons, F|right; left; apply last_cons, F|right; right; split; [exact F1|lia]].
    - destruct (Nat.leb_spec (co_retries opts) attempt) as [L|L].
      + injection R as <- <-. exists [Connected (Err e)]. split; [eapply h_connect; [eassumption|constructor]|].
        split; [repeat constructor|]. right. split; [apply last_one|cbn; lia].
      + destruct (IH (S attempt) true k2 r1 k1' L R) as (t & H & O & F). exists (Connected (Err e) :: t).
        split; [eapply h_connect; eassumption|]. split; [constructor; exact O|].
        destruct r1 as [[]|e1|p]; cbn [result_fits refused connections] in *.
        * destruct F as [F1 F2]. split; [apply last_cons, F1|lia].
        * destruct F as [[F1 F2]|[F1 F2]]; [left|right]; (split; [apply last_cons, F1|lia]).
        * destruct F as [[F|[F|[F1 F2]]] F3]; (split; [|lia]); [left; apply last_cons, F|right; left; apply last_cons, F|right; right; split; [exact F1|lia]].
    - injection R as <- <-. exists [Connected (Panic p)]. split; [eapply h_connect; [eassumption|constructor]|].
      split; [constructor|]. split; [right; left; apply last_one|cbn; lia]. }
  cbn [Client.retry_guard] in E. destruct skip.
  { exact (A k r k' (or_intror eq_refl) E). }
  cbn [negb]. destruct (ping k) as [[[]|e|p] k1] eqn:C.
  - injection E as <- <-. exists [Checked (Ok tt)]. split; [eapply h_check; [eassumption|constructor]|].
    split; [constructor|]. split; [apply last_one|cbn; lia].
  - destruct (Nat.leb_spec (co_retries opts) attempt) as [L|L].
    + injection E as <- <-. exists [Checked (Err e)]. split; [eapply h_check; [eassumption|constructor]|].
      split; [repeat constructor|]. left. split; [apply last_one|cbn; lia].
    + destruct (A k1 r k' (or_introl L) E) as (t & H & O & F). exists (Checked (Err e) :: t).
      split; [eapply h_check; eassumption|]. split; [constructor; exact O|].
      destruct r as [[]|e1|p]; cbn [result_fits refused connections] in *.
      * destruct F as [F1 F2]. split; [apply last_cons, F1|exact F2].
      * destruct F as [[F1 F2]|[F1 F2]]; [left|right]; (split; [apply last_cons, F1|exact F2]).
      * destruct F as [[F|[F|[F1 F2]]] F3]; (split; [|exact F3]); [left; apply last_cons, F|right; left; apply last_cons, F|right; right; split; [exact F1|lia]].
  - injection E as <- <-. exists [Checked (Panic p)]. split; [eapply h_check; [eassumption|constructor]|].
    split; [constructor|]. split; [left; apply last_one|cbn; lia].
Qed.

(** C38. Which attempts are made is decided by their outcomes alone: a first check, another connection after each failure, a check of each
    connection had. It succeeds with the first check that does; it fails with the error of the last attempt, and only when as many attempts to
    connect as are configured have failed before it; it goes on for longer only by getting connections that do not pass the check. *)
Theorem c38_exact fuel k r k' : retry_guard fuel 0 false k = (r, k') ->
  exists t, happened k t k' /\ orderly true t /\
  match r with
  | Ok _ => last_was t (Checked (Ok tt)) /\ refused t <= co_retries opts
  | Err e => (last_was t (Checked (Err e)) /\ refused t = co_retries opts) \/ (last_was t (Connected (Err e)) /\ refused t = S (co_retries opts))
  | Panic p => (last_was t (Checked (Panic p)) \/ last_was t (Connected (Panic p)) \/ (p = PFuel /\ connections t = fuel)) /\
               refused t <= co_retries opts
  end.
Proof.
  intros E. destruct (guard_run fuel 0 false k r k' (Nat.le_0_l _) E) as (t & H & O & F). rewrite Nat.sub_0_r in F. exists t. auto.
Qed.

(** C38. It comes to an end if no connection that is had fails its check. *)
Theorem c38_ends fuel k k' : retry_guard fuel 0 false k = (Panic PFuel, k') ->
  (forall k k1, ping k <> (Panic PFuel, k1)) -> (forall n, fresh n <> Panic PFuel) ->
  (forall k k1 e k2, reconnect k = (Ok tt, k1) -> ping k1 <> (Err e, k2)) ->
  fuel <= co_retries opts + 1.
Proof.
  intros E P1 P2 G. destruct (c38_exact fuel k _ k' E) as (t & H & O & [F N]).
  assert (L : forall due k0, happened k0 t k' -> orderly due t -> connections t <= refused t + 1 /\ 
    (due = true -> (forall e k2, ping k0 <> (Err e, k2)) -> connections t = 0)).
  { clear H O F N E. induction t as [|a t IH]; intros due k0 H O; [cbn; split; [lia|reflexivity]|].
    inversion O; subst; inversion H; subst; cbn [connections refused].
    all: try match goal with Hh : SpecRetry.happened _ _ _ ?l _, Ho : orderly _ ?l |- _ => destruct (IH _ _ Hh Ho) as [I J] end.
    - split; [lia|reflexivity].
    - split; [exact I|]. intros _ Q. match goal with X : ping k0 = _ |- _ => destruct (Q _ _ X) end.
    - split; [|discriminate]. rewrite J; [lia|reflexivity|]. intros ? ?. match goal with X : reconnect k0 = _ |- _ => apply (G _ _ _ _ X) end.
    - split; [lia|discriminate].
    - split; [lia|reflexivity].
    - split; [lia|discriminate]. }
  destruct (L true k H O) as [L1 _].
  destruct F as [F|[F|[_ F]]]; [exfalso|exfalso|lia].
  - destruct F as (t0 & ->). clear - H P1. revert k H. induction t0 as [|a t0 IH]; intros k H; inversion H; subst; eauto.
    match goal with X : ping _ = _ |- _ => destruct (P1 _ _ X) end.
  - destruct F as (t0 & ->). clear - H P2. revert k H. induction t0 as [|a t0 IH]; intros k H; inversion H; subst; eauto.
    match goal with X : reconnect _ = _ |- _ => unfold Client.reconnect in X; destruct (fresh (k_tries k)) eqn:Q; inversion X; subst end. destruct (P2 _ Q).
Qed.
End Retry.
Print Assumptions c38_exact.
Print Assumptions c38_ends.

(** Two connections are refused, the third is had and passes its check. *)
Definition ex_third (n : nat) : res client := if n <? 2 then Err EIo else Ok (mk_client (Some (mk_conn 8 [] [] false [] [] false)) (k_context ex_client) BAttached 0).
Definition ex_alive (id : nat) (l : list cmd) : reply := if id =? 8 then RAnswers [Ok PkPong] [] false else RAnswers [] [] true.
Example c38_exact_case : exists k',
  retry_guard ex_lz4 ex_show ex_alive ex_third ex_opts 9 0 false ex_client = (Ok tt, k') /\ 
  happened (ping ex_lz4 ex_show ex_alive) (reconnect ex_third) ex_client
    [Checked (Err EBroken); Connected (Err EIo); Connected (Err EIo); Connected (Ok tt); Checked (Ok tt)] k'.
Proof.
  eexists. split; [vm_compute; reflexivity|].
  eapply h_check; [vm_compute; reflexivity|]. do 3 (eapply h_connect; [vm_compute; reflexivity|]). eapply h_check; [vm_compute; reflexivity|]. constructor.
Qed.
