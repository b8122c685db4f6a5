(** Opening a connection: proofs. *)
From Verif Require Import Base Connect SpecConnect.
Open Scope nat_scope.

Section Select.
Context {A E : Type}.
Implicit Types fs : list (asked A E).

Definition ends (p : asked A E) (r : outcome A E) : Prop :=
  exists j, fst p <= j /\ snd p j = Ready r /\ forall i, fst p <= i < j -> snd p i = Pending.
Definition bump (p : asked A E) : asked A E := (S (fst p), snd p).
Definition waits (p : asked A E) : Prop := snd p (fst p) = Pending.

Lemma first_ready_spec fs : match first_ready fs with
  | (None, fs') => Forall waits fs /\ fs' = map bump fs
  | (Some r, fs') => exists l1 p l2, fs = l1 ++ p :: l2 /\ Forall waits l1 /\ snd p (fst p) = Ready r /\ fs' = map bump l1 ++ l2
  end.
Proof.
  induction fs as [|[k f] fs IH]; cbn [first_ready]; [split; constructor|].
  destruct (f k) as [|r] eqn:K.
  - destruct (first_ready fs) as [[r|] fs'].
    + destruct IH as (l1 & p & l2 & -> & W & R & ->). exists ((k, f) :: l1), p, l2. repeat split; auto.
    + destruct IH as [W ->]. split; [|reflexivity]. constructor; assumption.
  - exists [], (k, f), fs. repeat split; auto.
Qed.

Lemma ends_bump p r : waits p -> ends (bump p) r -> ends p r.
Proof.
  intros W (j & L & R & P). exists j. cbn [bump fst snd] in *. split; [lia|]. split; [exact R|]. intros i Hi.
  destruct (Nat.eq_dec i (fst p)) as [->|]; [exact W|apply P; lia].
Qed.
Lemma ends_now p r : snd p (fst p) = Ready r -> ends p r.
Proof. intros H. destruct p as [k f]. cbn [fst snd] in H. exists k. cbn [fst snd]. split; [lia|]. split; [exact H|]. intros i Hi. lia. Qed.

(** What is left of [p] after a round in which it did not get ready. *)
Definition goes_on fs' (p : asked A E) : Prop :=
  exists k, fst p < k /\ In (k, snd p) fs' /\ forall i, fst p <= i < k -> snd p i = Pending.

Lemma select_spec fuel : forall fs, length fs < fuel -> fs <> [] -> exists x fs', select_ok fuel fs = Ok (x, fs') /\
  match x with
  | Pending => Forall (fun p => (exists e, ends p (Failed e)) \/ goes_on fs' p) fs /\
               Forall (fun q => exists k, k < fst q /\ In (k, snd q) fs /\ forall i, k <= i < fst q -> snd q i = Pending) fs' /\ fs' <> []
  | Ready (Done a) => Exists (fun p => ends p (Done a)) fs
  | Ready (Failed e) => Forall (fun p => exists e, ends p (Failed e)) fs /\ Exists (fun p => ends p (Failed e)) fs
  end.
Proof.
  induction fuel as [|fuel IH]; intros fs L NE; [lia|]. cbn [select_ok].
  pose proof (first_ready_spec fs) as F. destruct (first_ready fs) as [[[a|e]|] fs'].
  - destruct F as (l1 & p & l2 & -> & W & R & ->). do 2 eexists. split; [reflexivity|].
    apply Exists_app. right. constructor. apply ends_now, R.
  - destruct F as (l1 & p & l2 & -> & W & R & EQ). destruct fs' as [|q fs'].
    + symmetry in EQ. apply app_eq_nil in EQ as [E1 ->]. destruct l1; [|discriminate E1].
      do 2 eexists. split; [reflexivity|]. split; repeat constructor; [exists e|]; apply ends_now, R.
    + destruct (IH (q :: fs')) as (x & fs2 & SE & X).
      { rewrite EQ. rewrite app_length in *. rewrite map_length. cbn [length] in L. lia. }
      { discriminate. }
      exists x, fs2. split; [exact SE|]. rewrite EQ in X. clear SE EQ.
      assert (G : forall r, Exists (fun p => ends p r) (map bump l1 ++ l2) -> Exists (fun p => ends p r) (l1 ++ p :: l2)).
      { intros r H. apply Exists_app in H as [H|H]; apply Exists_app; [left|right; right; exact H].
        apply Exists_exists in H as (y & I & H). apply in_map_iff in I as (z & <- & I). apply Exists_exists. exists z. split; [exact I|].
        apply ends_bump; [|exact H]. eapply Forall_forall in W; [exact W|exact I]. }
      assert (K : forall (P Q : asked A E -> Prop), Q p -> (forall y, P y -> Q y) -> (forall y, waits y -> P (bump y) -> Q y) ->
        Forall P (map bump l1 ++ l2) -> Forall Q (l1 ++ p :: l2)).
      { intros P Q HP H1 H2 H. apply Forall_app in H as [Ha Hb]. apply Forall_app. split; [|constructor; [exact HP|]].
        - apply Forall_forall. intros y Iy. apply H2.
          + eapply Forall_forall in W; [exact W|exact Iy].
          + eapply Forall_forall in Ha; [exact Ha|]. apply in_map, Iy.
        - eapply Forall_impl; [|exact Hb]. exact H1. }
      destruct x as [|[a|e']].
      * destruct X as (X1 & X2 & X3). split; [|split; [|exact X3]].
        -- eapply K; [left; exists e; apply ends_now, R| | |exact X1]; [auto|].
           intros y Wy [(e' & H)|(k & Lk & Ik & Pk)]; [left; exists e'; apply ends_bump; assumption|right].
           exists k. cbn [bump fst snd] in *. split; [lia|]. split; [exact Ik|]. intros i Hi.
           destruct (Nat.eq_dec i (fst y)) as [->|]; [exact Wy|apply Pk; lia].
        -- eapply Forall_impl; [|exact X2]. intros y (k & Lk & Ik & Pk). apply in_app_or in Ik as [Ik|Ik].
           ++ apply in_map_iff in Ik as ([kz fz] & Ez & Iz). injection Ez as <- EZ. exists kz. split; [lia|]. split.
              ** rewrite <- EZ. apply in_or_app. left. exact Iz.
              ** intros i Hi. destruct (Nat.eq_dec i kz) as [->|]; [|apply Pk; lia]. rewrite <- EZ.
                 apply (proj1 (Forall_forall _ _) W _ Iz).
           ++ exists k. split; [exact Lk|]. split; [|exact Pk]. apply in_or_app. right. right. exact Ik.
      * apply G, X.
      * destruct X as [X1 X2]. split; [|apply G, X2].
        eapply K; [exists e; apply ends_now, R| | |exact X1]; [auto|]. intros y Wy (e2 & H). exists e2. apply ends_bump; assumption.
  - destruct F as [W ->]. do 2 eexists. split; [reflexivity|]. split; [|split].
    + rewrite Forall_forall in *. intros p Ip. right. exists (S (fst p)). split; [lia|]. split.
      * apply (in_map bump) in Ip. exact Ip.
      * intros i Hi. replace i with (fst p) by lia. apply (W p Ip).
    + apply Forall_map. apply Forall_forall. intros [k f] Ip. exists k. cbn [bump fst snd]. split; [lia|]. split; [exact Ip|].
      intros i Hi. replace i with k by lia. apply (proj1 (Forall_forall _ _) W _ Ip).
    + destruct fs; [contradiction|discriminate].
Qed.
End Select.

Section Open.
Variable tls_build : tls_setup -> outcome unit N.
Variable handshake : tls_setup -> tcp -> future unit N.
Variable l : list N.
Variable connect : N -> future tcp io_error.

Definition wrapped (a : N) : future tcp conn_error :=
  fun k => match connect a k with
           | Pending => Pending
           | Ready (Done s) => Ready (Done s)
           | Ready (Failed e) => Ready (Failed (ConnIo e))
           end.

(** After [n] rounds. *)
Definition under_way (n : nat) (fs : list (asked tcp conn_error)) : Prop :=
  fs <> [] /\
  Forall (fun p => exists a, In a l /\ n <= fst p /\ snd p = wrapped a /\ forall i, i < fst p -> connect a i = Pending) fs /\
  Forall (fun a => fails (connect a) \/ exists k, n <= k /\ In (k, wrapped a) fs /\ forall i, i < k -> connect a i = Pending) l.

Lemma wrapped_pending a i : wrapped a i = Pending -> connect a i = Pending.
Proof. unfold wrapped. destruct (connect a i) as [|[|]]; congruence. Qed.
Lemma wrapped_done a i s : wrapped a i = Ready (Done s) -> connect a i = Ready (Done s).
Proof. unfold wrapped. destruct (connect a i) as [|[|]]; congruence. Qed.
Lemma wrapped_failed a i e : wrapped a i = Ready (Failed e) -> exists e', e = ConnIo e' /\ connect a i = Ready (Failed e').
Proof. unfold wrapped. destruct (connect a i) as [|[|]]; try discriminate. intros H. injection H as <-. eauto. Qed.

Lemma ends_settles a k r : (forall i, i < k -> connect a i = Pending) -> ends (k, wrapped a) r ->
  match r with Done s => exists j, settles (connect a) j (Done s)
             | Failed e => exists j e', e = ConnIo e' /\ settles (connect a) j (Failed e') end.
Proof.
  intros P (j & L & R & B). cbn [fst snd] in *.
  assert (forall i, i < j -> connect a i = Pending) as Q.
  { intros i Hi. destruct (Nat.lt_ge_cases i k); [auto|]. apply wrapped_pending, B. lia. }
  destruct r as [s|e].
  - exists j. split; [apply wrapped_done, R|exact Q].
  - apply wrapped_failed in R as (e' & -> & R). exists j, e'. split; [reflexivity|]. split; assumption.
Qed.

Lemma round n fs : under_way n fs -> exists x fs', poll_select fs = Ok (x, fs') /\
  match x with
  | Pending => under_way (S n) fs'
  | Ready (Done s) => exists a k, In a l /\ settles (connect a) k (Done s)
  | Ready (Failed e) => (forall a, In a l -> fails (connect a)) /\ exists a k e', In a l /\ settles (connect a) k (Failed e') /\ e = ConnIo e'
  end.
Proof.
  intros (NE & U1 & U2). destruct (select_spec (S (length fs)) fs ltac:(lia) NE) as (x & fs' & SE & X).
  exists x, fs'. split; [exact SE|]. rewrite Forall_forall in U1, U2. destruct x as [|[s|e]].
  - destruct X as (X1 & X2 & X3). rewrite Forall_forall in X1, X2.
    assert (forall a, In a l -> fails (connect a) \/ exists k, S n <= k /\ In (k, wrapped a) fs' /\ forall i, i < k -> connect a i = Pending) as V2.
    { intros a Ia. destruct (U2 a Ia) as [F|(k & Lk & Ik & Pk)]; [left; exact F|].
      destruct (X1 _ Ik) as [(e & H)|(k' & Lk' & Ik' & Pk')]; cbn [fst snd] in *.
      - left. destruct (ends_settles a k _ Pk H) as (j & e' & _ & Q). exists j, e'. exact Q.
      - right. exists k'. split; [lia|]. split; [exact Ik'|]. intros i Hi. destruct (Nat.lt_ge_cases i k); [auto|]. apply wrapped_pending, Pk'. lia. }
    split; [exact X3|]. split; [|apply Forall_forall; exact V2]. apply Forall_forall. intros q Iq.
    destruct (X2 q Iq) as (k & Lk & Ik & Pk). destruct (U1 _ Ik) as (a & Ia & La & Ea & Pa). cbn [fst snd] in *.
    exists a. split; [exact Ia|]. split; [lia|]. split; [exact Ea|]. intros i Hi. destruct (Nat.lt_ge_cases i k); [auto|].
    apply wrapped_pending. rewrite <- Ea. apply Pk. lia.
  - apply Exists_exists in X as ([k f] & Ip & H). destruct (U1 _ Ip) as (a & Ia & La & Ea & Pa). cbn [fst snd] in *. subst f.
    destruct (ends_settles a k _ Pa H) as (j & Q). exists a, j. auto.
  - destruct X as [X1 X2]. rewrite Forall_forall in X1. split.
    + intros a Ia. destruct (U2 a Ia) as [F|(k & _ & Ik & Pk)]; [exact F|]. destruct (X1 _ Ik) as (e2 & H).
      destruct (ends_settles a k _ Pk H) as (j & e' & _ & Q). exists j, e'. exact Q.
    + apply Exists_exists in X2 as ([k f] & Ip & H). destruct (U1 _ Ip) as (a & Ia & La & Ea & Pa). cbn [fst snd] in *. subst f.
      destruct (ends_settles a k _ Pa H) as (j & e' & -> & Q). exists a, j, e'. auto.
Qed.

Lemma started : l <> [] -> under_way 0 (map (fun a => (0, wrapped a)) l).
Proof.
  intros NE. split; [destruct l; [contradiction|discriminate]|]. split.
  - apply Forall_map, Forall_forall. intros a Ia. exists a. cbn [fst snd]. split; [exact Ia|]. split; [lia|]. split; [reflexivity|]. intros; lia.
  - apply Forall_forall. intros a Ia. right. exists 0. split; [lia|]. split; [|intros; lia]. apply in_map_iff. eauto.
Qed.

Lemma settle_once {A E} (f : future A E) k r k' r' : settles f k r -> settles f k' r' -> k = k' /\ r = r'.
Proof.
  intros [R P] [R' P']. destruct (Nat.lt_trichotomy k k') as [H|[H|H]].
  - rewrite (P' _ H) in R. discriminate R.
  - subst. split; congruence.
  - rewrite (P _ H) in R'. discriminate R'.
Qed.

Lemma plain_polls n : forall m fs, under_way m fs -> exists x st, polls tls_build handshake n (TcpWait fs) = Ok (x, st) /\
  match x with
  | Pending => exists fs', st = TcpWait fs' /\ under_way (m + n) fs'
  | Ready (Done s) => exists a k s0, In a l /\ settles (connect a) k (Done s0) /\ s = Plain s0
  | Ready (Failed e) => (forall a, In a l -> fails (connect a)) /\ exists a k e', In a l /\ settles (connect a) k (Failed e') /\ e = ConnIo e'
  end.
Proof.
  induction n as [|n IH]; intros m fs U; cbn [polls].
  - do 2 eexists. split; [reflexivity|]. exists fs. rewrite Nat.add_0_r. auto.
  - destruct (round m fs U) as (x & fs' & SE & X). cbn [poll]. unfold poll_select in SE |- *; rewrite SE. cbn [rbind].
    destruct x as [|[s|e]]; cbn [rbind].
    + destruct (IH _ _ X) as (y & st & Q & Y). exists y, st. split; [exact Q|]. replace (m + S n) with (S m + n) by lia. exact Y.
    + do 2 eexists. split; [reflexivity|]. destruct X as (a & k & Ia & Q). exists a, k, s. auto.
    + do 2 eexists. split; [reflexivity|]. exact X.
Qed.

(** Waiting for the handshake over [s], with the first [k] answers given. *)
Lemma shake_polls n : forall k s how, (forall i, i < k -> handshake how s i = Pending) ->
  exists x st, polls tls_build handshake n (TlsShake s how (k, handshake how s)) = Ok (x, st) /\
  match x with
  | Pending => st = TlsShake s how (k + n, handshake how s) /\ forall i, i < k + n -> handshake how s i = Pending
  | Ready (Done y) => y = Secure s how /\ exists j, settles (handshake how s) j (Done tt)
  | Ready (Failed e) => exists j t, settles (handshake how s) j (Failed t) /\ e = ConnTls t
  end.
Proof.
  induction n as [|n IH]; intros k s how P; cbn [polls].
  - do 2 eexists. rewrite Nat.add_0_r. split; [reflexivity|]. split; [reflexivity|exact P].
  - cbn [poll]. unfold poll_shake. cbn [fst snd]. destruct (handshake how s k) as [|[[]|t]] eqn:K; cbn [rbind].
    + destruct (IH (S k) s how) as (x & st & Q & X).
      { intros i Hi. destruct (Nat.eq_dec i k) as [->|]; [exact K|apply P; lia]. }
      exists x, st. split; [exact Q|]. replace (k + S n) with (S k + n) by lia. exact X.
    + do 2 eexists. split; [reflexivity|]. split; [reflexivity|]. exists k. split; assumption.
    + do 2 eexists. split; [reflexivity|]. exists k, t. split; [split; assumption|reflexivity].
Qed.

Lemma tls_polls n how : forall m fs, under_way m fs -> exists x st, polls tls_build handshake n (TlsWait fs how) = Ok (x, st) /\
  match x with
  | Pending => (exists fs', st = TlsWait fs' how /\ under_way (m + n) fs') \/
               (exists s a j k, st = TlsShake s how (k, handshake how s) /\ In a l /\ settles (connect a) j (Done s) /\
                  (exists u, tls_build how = Done u) /\ forall i, i < k -> handshake how s i = Pending)
  | Ready (Done y) => exists s a j k, y = Secure s how /\ In a l /\ settles (connect a) j (Done s) /\
                  (exists u, tls_build how = Done u) /\ settles (handshake how s) k (Done tt)
  | Ready (Failed e) =>
      (forall a, In a l -> fails (connect a)) /\ (exists a k e', In a l /\ settles (connect a) k (Failed e') /\ e = ConnIo e') \/
      (exists s a j t, In a l /\ settles (connect a) j (Done s) /\ e = ConnTls t /\
         (tls_build how = Failed t \/ exists k, settles (handshake how s) k (Failed t)))
  end.
Proof.
  induction n as [|n IH]; intros m fs U.
  - do 2 eexists. split; [reflexivity|]. left. exists fs. rewrite Nat.add_0_r. auto.
  - destruct (round m fs U) as (x & fs' & SE & X). destruct x as [|[s|e]].
    + destruct (IH _ _ X) as (y & st & Q & Y). exists y, st. split.
      * cbn [polls poll]. rewrite SE. cbn [rbind]. exact Q.
      * replace (m + S n) with (S m + n) by lia. exact Y.
    + destruct X as (a & j & Ia & Q). destruct (tls_build how) as [u|t] eqn:B.
      * assert (polls tls_build handshake (S n) (TlsWait fs how) = polls tls_build handshake (S n) (TlsShake s how (0, handshake how s))) as EQ.
        { cbn [polls poll]. rewrite SE. cbn [rbind]. rewrite B. reflexivity. }
        destruct (shake_polls (S n) 0 s how ltac:(intros; lia)) as (y & st & Q' & Y). exists y, st. split; [rewrite EQ; exact Q'|].
        destruct y as [|[y|e]].
        -- destruct Y as [-> Y]. right. exists s, a, j, (0 + S n). repeat split; try apply Q; try exact Ia; [exists u; reflexivity|exact Y].
        -- destruct Y as (-> & k & Y). exists s, a, j, k. repeat split; try apply Q; try exact Ia; [exists u; reflexivity|apply Y|apply Y].
        -- destruct Y as (k & t & Y & ->). right. exists s, a, j, t. split; [exact Ia|]. split; [exact Q|]. split; [reflexivity|]. right. exists k. exact Y.
      * do 2 eexists. split; [cbn [polls poll]; rewrite SE; cbn [rbind]; rewrite B; reflexivity|]. cbv beta iota. right.
        exists s, a, j, t. auto.
    + do 2 eexists. split; [cbn [polls poll]; rewrite SE; reflexivity|]. left. exact X.
Qed.

Lemma polls_more n m st st' : polls tls_build handshake n st = Ok (Pending, st') ->
  polls tls_build handshake (n + m) st = polls tls_build handshake m st'.
Proof.
  revert st. induction n as [|n IH]; intros st H; cbn [polls Nat.add] in *; [injection H as ->; reflexivity|].
  destruct (poll tls_build handshake st) as [[[|r] st2]| |]; cbn [rbind] in *; try discriminate H. apply IH, H.
Qed.
End Open.
