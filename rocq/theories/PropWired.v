(** C99: the operations come out the same over a socket that splits, delays and merges bytes as it
    likes as they do message by message. *)
From Coq Require Import String.
From Verif Require Import Base Bytes Reader Types Text Block Packets Transport SpecTransport TransportProofs PropTransport
  Wired SpecWired WiredProofs.
From Verif Require Import Client SpecClient ClientProofs.
From Verif Require PropOutcome PropClient.
Open Scope list_scope.
Open Scope nat_scope.

Section Wired.
Variable lz4_compress : bytes -> bytes.
Variable show_float : Z -> bytes.
Variable lz4_decompress : bytes -> N -> option bytes.
Variable tz_known : bytes -> bool.
Variable server : nat -> list cmd -> reply.
Variable fresh : nat -> res client.
Variable opts : copts.
(** Where the bytes of the answer leave the receiver (SpecWired.v). *)
Variable place : option (tinfo * bytes).
Notation corresponds := (corresponds lz4_decompress tz_known place).
Notation encode := (encode_command lz4_compress show_float).
Notation await := (Wired.await lz4_compress show_float lz4_decompress tz_known).
Notation wconsume := (wconsume lz4_compress show_float lz4_decompress tz_known).
Notation wping := (wping lz4_compress show_float lz4_decompress tz_known).
Notation whello := (whello lz4_compress show_float lz4_decompress tz_known).
Notation wexecute := (wexecute lz4_compress show_float lz4_decompress tz_known).
Notation wread_block := (wread_block lz4_compress show_float lz4_decompress tz_known).
Notation wcollect := (wcollect lz4_compress show_float lz4_decompress tz_known).
Notation wfetch_all := (wfetch_all lz4_compress show_float lz4_decompress tz_known).
Notation before := (before lz4_compress show_float server fresh opts).
Notation execute := (execute lz4_compress show_float server fresh opts).
Notation fetch_all := (fetch_all lz4_compress show_float server fresh opts).
Notation ping := (ping lz4_compress show_float server).
Notation hello := (hello lz4_compress show_float server).
Notation read_block := (read_block lz4_compress show_float server).

(** The connection of Client.v after the command [m] has been sent and answered; nothing comes from
    a server that has closed it. *)
Definition asked (c : conn) (m : cmd) (ms : list (res packet)) (closes : bool) : conn :=
  mk_conn (cn_id c) (if cn_closed c then cn_in c else cn_in c ++ ms) [] (cn_closed c || closes) []
    (cn_log c ++ [m]) (cn_inconsistent c).

(** An exchange. On the one side a transport with nothing to send, and a socket that takes the
    bytes of the command, in as many writes as it likes, and gives bytes, in as many reads as it
    likes; on the other a connection whose server answers the command with messages. The
    bytes given are those messages. *)
Definition serves (t : transport) (sk : socket) (c : conn) (m : cmd) (bs : bytes) (ms : list (res packet)) (closes : bool) : Prop :=
  cn_queue c = [] /\ cn_late c = [] /\ encode m = Ok bs /\
  server (cn_id c) (cn_log c ++ [m]) = RAnswers ms [] closes /\
  Forall accepting (s_writes sk) /\ length bs + 1 <= accepts (s_writes sk) /\
  corresponds t (s_reads sk) (asked c m ms closes).
Definition exchange (t : transport) (sk : socket) (c : conn) (m : cmd) (bs : bytes) (ms : list (res packet)) (closes : bool) : Prop :=
  idle c /\ serves t sk c m bs ms closes.

(** Sending changes nothing but what is to be sent. *)
Lemma send_frame evs : forall t r t' evs' out, send lz4_compress show_float evs t = (r, t', evs', out) ->
  exists wr q, t' = set_out t wr q.
Proof.
  induction evs as [|e evs IH]; intros t r t' evs' out H; cbn [send] in H.
  - destruct (t_wr t) eqn:Ew; [destruct (t_cmds t) as [|c cs] eqn:Ec; [|destruct (encode c)]|]; injection H as <- <- <- <-; try (eexists _, _; reflexivity).
    + exists [], []. rewrite <- Ew, <- Ec at 1. destruct t; reflexivity.
    + exists (t_wr t), (t_cmds t). destruct t; reflexivity.
  - assert (F : forall t0, (exists wr q, t0 = set_out t wr q) -> (match e with
      | WAccept n => let '(r, t', evs'', out) := send lz4_compress show_float evs (set_out t0 (skipn n (t_wr t0)) (t_cmds t0)) in
          (r, t', evs'', firstn n (t_wr t0) ++ out)
      | WPending => (PPending, t0, evs, [])
      | WErr => (PReady (Err EIo), t0, evs, [])
      end) = (r, t', evs', out) -> exists wr q, t' = set_out t wr q).
    { intros t0 (w0 & q0 & E0) X. destruct e as [n| |].
      - destruct (send lz4_compress show_float evs (set_out t0 (skipn n (t_wr t0)) (t_cmds t0))) as [[[r1 t1] e1] o1] eqn:Y.
        destruct (IH _ _ _ _ _ Y) as (w & q & E). injection X as <- <- <- <-. exists w, q. rewrite E, E0. reflexivity.
      - injection X as <- <- <- <-. eauto.
      - injection X as <- <- <- <-. eauto. }
    destruct (t_wr t) eqn:Ew.
    + destruct (t_cmds t) as [|c cs] eqn:Ec.
      * injection H as <- <- <- <-. exists [], []. rewrite <- Ew, <- Ec at 1. destruct t; reflexivity.
      * destruct (encode c) as [x|x|x].
        -- exact (F (set_out t x cs) ltac:(eauto) H).
        -- injection H as <- <- <- <-. eauto.
        -- injection H as <- <- <- <-. eauto.
    + rewrite <- Ew in H. apply (F t); [|exact H]. exists (t_wr t), (t_cmds t). destruct t; reflexivity.
Qed.
Lemma drive_send_frame k : forall t evs out en t' evs', drive_send lz4_compress show_float k t evs = (out, en, t', evs') ->
  exists wr q, t' = set_out t wr q.
Proof.
  induction k as [|k IH]; intros t evs out en t' evs' H; cbn [drive_send] in H.
  - injection H as <- <- <- <-. exists (t_wr t), (t_cmds t). destruct t; reflexivity.
  - destruct (send lz4_compress show_float evs t) as [[[r t1] e1] o1] eqn:X.
    destruct (send_frame _ _ _ _ _ _ X) as (w & q & E).
    destruct r as [[x|x|x]|]; try (injection H as <- <- <- <-; eauto).
    destruct (drive_send lz4_compress show_float k t1 e1) as [[[o2 en2] t2] e2] eqn:Y. injection H as <- <- <- <-.
    destruct (IH _ _ _ _ _ _ Y) as (w2 & q2 & E2). exists w2, q2. rewrite E2, E. reflexivity.
Qed.

(** The first message of the answer. *)
Lemma exchange_gives t sk c m bs ms closes rb :
  serves t sk c m bs ms closes ->
  t_wr t = [] /\ t_cmds t = [] /\ t_inconsistent t = cn_inconsistent c /\
  exists wr', gives lz4_decompress tz_known place t (cn_closed c || closes) (cn_in (asked c m ms closes)) rb wr' (s_out sk ++ bs)
    (await (mk_wstream (ws_inner (wcall t m)) (ws_state (wcall t m)) rb) sk).
Proof.
  intros (_ & _ & Eb & Sv & Fa & Fn & (D & I & Hw & Hq & _ & _ & Hi & bs' & Ar & St)).
  cbn [asked cn_inconsistent cn_closed cn_in] in Hi, Ar, St |- *.
  split; [exact Hw|]. split; [exact Hq|]. split; [exact Hi|].
  assert (A : all_bytes lz4_compress show_float [m] bs).
  { exists [bs]. split; [repeat constructor; exact Eb|symmetry; apply app_nil_r]. }
  set (t0 := set_out t (t_wr t) (t_cmds t ++ [m])).
  assert (C0 : t_cmds t0 = [m]) by (unfold t0; cbn [set_out t_cmds]; rewrite Hq; reflexivity).
  assert (W0 : t_wr t0 = []) by exact Hw.
  destruct (c28_completes lz4_compress show_float (s_writes sk) t0 bs Fa) as (t' & wr' & E).
  { rewrite C0. exact A. }
  { rewrite W0, C0. cbn [length]. lia. }
  rewrite W0 in E. cbn [app] in E.
  destruct (c28_sending _ _ _ _ _ _ _ _ _ E) as (_ & _ & _ & _ & _ & _ & _ & W1 & Q1).
  destruct (drive_send_frame _ _ _ _ _ _ _ E) as (w & q & E').
  assert (Et : t' = t).
  { rewrite E' in W1, Q1. cbn [set_out t_wr t_cmds] in W1, Q1. subst w q. rewrite E'. unfold t0.
    destruct t as [x1 x2 x3 x4 x5 x6 x7]. cbn in *. subst x4 x5. reflexivity. }
  rewrite Et in E. exists wr'.
  apply (await_sends lz4_compress show_float lz4_decompress tz_known place _ t0 sk rb bs t wr' bs' (cn_closed c || closes) _ E); auto.
  split; assumption.
Qed.

(** The same for the connection of Client.v. *)
Lemma flush_serves t sk c m bs ms closes : serves t sk c m bs ms closes ->
  flush lz4_compress show_float server (set_queue c (cn_queue c ++ [m])) (cn_queue c ++ [m]) = (Ok tt, asked c m ms closes).
Proof.
  intros (Q & L & Eb & Sv & _). rewrite Q. cbn [app flush]. unfold deliver. cbn [set_queue cn_log cn_id]. rewrite Eb, Sv.
  unfold asked. cbn [set_queue cn_closed cn_in cn_late cn_inconsistent]. rewrite L. cbn [app].
  destruct (cn_closed c); cbn [orb]; [rewrite app_nil_r|]; reflexivity.
Qed.
Lemma idle_asked c m ms closes : idle c -> cn_in (asked c m ms closes) = ms /\ cn_closed c || closes = closes.
Proof. intros (A & B & C & D & E). unfold asked. cbn [cn_in]. rewrite A, C. split; reflexivity. Qed.

(** Any loop over the messages of an exchange. *)
Lemma exchange_loop {A B} (on : A -> packet -> option transport -> A + error) (on' : B -> packet -> option conn -> B + error)
    (R0 : A -> B -> Prop) (R1 : list rd_event -> A -> B -> Prop) (Q : conn -> Prop) :
  (forall c l, Q c -> Q (set_in c l)) ->
  (forall evs a b, R0 a b -> R1 evs a b) ->
  (forall a b p, R0 a b -> match on a p None, on' b p None with inl x, inl y => R0 x y | inr e, inr e' => e = e' | _, _ => False end) ->
  (forall a b p t evs c, R0 a b -> Q c -> corresponds t evs c ->
     match on a p (Some t), on' b p (Some c) with inl x, inl y => R1 evs x y | inr e, inr e' => e = e' | _, _ => False end) ->
  forall t sk c m bs ms closes rb n a b,
  serves t sk c m bs ms closes -> Q (asked c m ms closes) -> length (cn_in (asked c m ms closes)) + 3 <= n -> R0 a b ->
  let x := wconsume on n (mk_wstream (ws_inner (wcall t m)) (ws_state (wcall t m)) rb) sk a in
  s_out (snd x) = s_out sk ++ bs /\
  same_end R1 (s_reads (snd x)) (fst x)
    (drain lz4_compress show_float server on' (mk_pstream (ps_inner (call c m)) (ps_state (call c m)) rb) b).
Proof.
  intros HS H1 H2 H3 t sk c m bs ms closes rb n a b E HQ Hn HR x.
  destruct (exchange_gives t sk c m bs ms closes rb E) as (Hw & Hq & Hi & wr' & G).
  rewrite drain_call, (flush_serves _ _ _ _ _ _ _ E).
  destruct (wconsume_gives lz4_compress show_float lz4_decompress tz_known place on on' R0 R1 H1 H2 Q HS H3 _ n t (asked c m ms closes) rb
    wr' (s_out sk ++ bs) _ sk a b G HQ Hw Hq eq_refl eq_refl Hi HR Hn) as (evs' & S & X).
  fold x in S, X. rewrite S. split; [reflexivity|exact X].
Qed.

(** Both ends of an exchange that ended well have the same connection; both report the same error,
    and then have none; or both panic. *)
Definition same_connection (evs : list rd_event) (h : option transport) (h' : option conn) : Prop :=
  match h, h' with Some t, Some c => corresponds t evs c | None, None => True | _, _ => False end.
Definition same_result (evs : list rd_event) (x : res transport) (y : res unit * client) : Prop :=
  match x, y with
  | Ok t, (Ok _, k) => exists c, k_inner k = Some c /\ corresponds t evs c
  | Err e, (Err e', k) => e = e' /\ k_inner k = None
  | Panic p, (Panic p', _) => p = p'
  | _, _ => False
  end.
Definition both_none (h : option transport) (h' : option conn) : Prop := h = None /\ h' = None.
Lemma none_same evs h h' : both_none h h' -> same_connection evs h h'.
Proof. intros (-> & ->). exact I. Qed.

(** ** The operations *)

(** [ping]. *)
Theorem c99_ping n t sk k c bs ms closes :
  k_inner k = Some c -> exchange t sk c CmdPing bs ms closes -> length ms + 3 <= n ->
  s_out (snd (wping n t sk)) = s_out sk ++ bs /\
  same_result (s_reads (snd (wping n t sk))) (fst (wping n t sk)) (ping k).
Proof.
  intros Ek (Id & E) Hn. rewrite <- (proj1 (idle_asked c CmdPing ms closes Id)) in Hn.
  destruct (exchange_loop on_wping on_ping both_none same_connection (fun _ => True) (fun _ _ _ => I) none_same) with
    (t := t) (sk := sk) (c := c) (m := CmdPing) (bs := bs) (ms := ms) (closes := closes) (rb := false) (n := n)
    (a := @None transport) (b := @None conn) as (S & X); auto; try (split; reflexivity).
  { intros a b p (-> & ->). destruct p; cbn; auto; split; reflexivity. }
  { intros a b p t0 evs c0 (-> & ->) _ Co. destruct p; cbn; auto. }
  unfold Wired.wping, Client.ping, get_inner. rewrite Ek. cbn [rbind].
  rewrite (clear_idle lz4_compress show_float server c Id). cbn [rbind].
  change (mk_pstream (ps_inner (call c CmdPing)) (ps_state (call c CmdPing)) false) with (call c CmdPing) in X.
  change (mk_wstream (ws_inner (wcall t CmdPing)) (ws_state (wcall t CmdPing)) false) with (wcall t CmdPing) in S, X.
  destruct (wconsume on_wping n (wcall t CmdPing) sk None) as [[[h|]|e|p] sk'];
    destruct (drain lz4_compress show_float server on_ping (call c CmdPing) None) as [[h'|]|e'|p'];
    cbn [same_end same_connection fst snd rbind same_result set_inner k_inner] in *; try contradiction; split; auto; eauto.
Qed.

(** [execute]. *)
Theorem c99_execute fuel n q t sk k k1 c bs ms closes :
  before fuel k = (Ok tt, k1) -> k_inner k1 = Some c ->
  exchange t sk c (CmdQuery q (k_context k)) bs ms closes -> length ms + 3 <= n ->
  let x := wexecute n q (k_context k) t sk in
  s_out (snd x) = s_out sk ++ bs /\ same_result (s_reads (snd x)) (fst x) (execute fuel q k).
Proof.
  intros Bf Ek (Id & E) Hn x. subst x. set (m := CmdQuery q (k_context k)) in *.
  rewrite <- (proj1 (idle_asked c m ms closes Id)) in Hn.
  destruct (exchange_loop on_wexecute on_execute both_none same_connection (fun _ => True) (fun _ _ _ => I) none_same) with
    (t := t) (sk := sk) (c := c) (m := m) (bs := bs) (ms := ms) (closes := closes) (rb := false) (n := n)
    (a := @None transport) (b := @None conn) as (S & X); auto; try (split; reflexivity).
  { intros a b p (-> & ->). destruct p; cbn; auto; split; reflexivity. }
  { intros a b p t0 evs c0 (-> & ->) _ Co. destruct p; cbn; auto. }
  unfold Wired.wexecute, Client.execute. rewrite Bf. unfold get_inner. rewrite Ek. cbn [rbind].
  rewrite (clear_idle lz4_compress show_float server c Id). cbn [rbind]. fold m.
  change (mk_pstream (ps_inner (call c m)) (ps_state (call c m)) false) with (call c m) in X.
  change (mk_wstream (ws_inner (wcall t m)) (ws_state (wcall t m)) false) with (wcall t m) in S, X.
  destruct (wconsume on_wexecute n (wcall t m) sk None) as [[[h|]|e|p] sk'];
    destruct (drain lz4_compress show_float server on_execute (call c m) None) as [[h'|]|e'|p'];
    cbn [same_end same_connection fst snd rbind or_panic same_result set_inner k_inner] in *; try contradiction; split; auto; eauto.
Qed.

(** [hello]; what the server says of itself is kept. *)
Theorem c99_hello n t sk k c bs ms closes :
  k_inner k = Some c -> exchange t sk c (CmdHello (k_context k)) bs ms closes -> length ms + 3 <= n ->
  let x := whello n (k_context k) t sk in
  s_out (snd x) = s_out sk ++ bs /\
  match fst x, hello k with
  | Ok (h, i), (Ok _, k') => cx_revision (k_context k') = si_revision i /\ same_connection (s_reads (snd x)) h (k_inner k')
  | Err e, (Err e', k') => e = e' /\ k_inner k' = None
  | Panic p, (Panic p', _) => p = p'
  | _, _ => False
  end.
Proof.
  intros Ek (Id & E) Hn x. subst x. set (m := CmdHello (k_context k)) in *.
  rewrite <- (proj1 (idle_asked c m ms closes Id)) in Hn.
  destruct (exchange_loop on_whello on_hello
    (fun a b => both_none (fst a) (fst b) /\ snd a = snd b)
    (fun evs a b => same_connection evs (fst a) (fst b) /\ snd a = snd b) (fun _ => True)) with
    (t := t) (sk := sk) (c := c) (m := m) (bs := bs) (ms := ms) (closes := closes) (rb := false) (n := n)
    (a := (@None transport, @None server_info)) (b := (@None conn, @None server_info)) as (S & X); auto.
  { intros evs a b (N & Q). split; [apply none_same, N|exact Q]. }
  { intros [a1 a2] [b1 b2] p ((Ha & Hb) & Q). cbn [fst snd] in *. subst. destruct p; cbn; auto. repeat split. }
  { intros [a1 a2] [b1 b2] p t0 evs c0 ((Ha & Hb) & Q) _ Co. cbn [fst snd] in *. subst. destruct p; cbn; auto. }
  { repeat split. }
  unfold Wired.whello, Client.hello. rewrite Ek. fold m.
  change (mk_pstream (ps_inner (call c m)) (ps_state (call c m)) false) with (call c m) in X.
  change (mk_wstream (ws_inner (wcall t m)) (ws_state (wcall t m)) false) with (wcall t m) in S, X.
  destruct (wconsume on_whello n (wcall t m) sk (None, None)) as [[[h [i|]]|e|p] sk'];
    destruct (drain lz4_compress show_float server on_hello (call c m) (None, None)) as [[h' [i'|]]|e'|p'];
    cbn [same_end fst snd k_inner k_context cx_revision set_inner] in *; try contradiction; split; auto;
    destruct X as (X & Q); try discriminate Q. injection Q as ->. split; [reflexivity|exact X].
Qed.

(** Reading one block: the statement of an insert, and every piece of its data. *)
Theorem c99_read_block n m t sk c bs ms closes :
  serves t sk c m bs ms closes -> length (cn_in (asked c m ms closes)) + 3 <= n ->
  let x := wread_block n m t sk in
  s_out (snd x) = s_out sk ++ bs /\
  match fst x, read_block (call c m) with
  | Ok (t', b), Ok (c', b') => b = b' /\ corresponds t' (s_reads (snd x)) c'
  | Err e, Err e' => e = e'
  | Panic p, Panic p' => p = p'
  | _, _ => False
  end.
Proof.
  intros E Hn x. subst x.
  destruct (exchange_loop on_wread_block on_read_block
    (fun a b => both_none (fst a) (fst b) /\ snd a = snd b)
    (fun evs a b => same_connection evs (fst a) (fst b) /\ snd a = snd b) (fun _ => True)) with
    (t := t) (sk := sk) (c := c) (m := m) (bs := bs) (ms := ms) (closes := closes) (rb := true) (n := n)
    (a := (@None transport, @None block)) (b := (@None conn, @None block)) as (S & X); auto.
  { intros evs a b (N & Q). split; [apply none_same, N|exact Q]. }
  { intros [a1 a2] [b1 b2] p ((Ha & Hb) & Q). cbn [fst snd] in *. subst. destruct p; cbn; auto; repeat split. }
  { intros [a1 a2] [b1 b2] p t0 evs c0 ((Ha & Hb) & Q) _ Co. cbn [fst snd] in *. subst. destruct p; cbn; auto. }
  { repeat split. }
  unfold Wired.wread_block, Client.read_block.
  destruct (wconsume on_wread_block n (mk_wstream (ws_inner (wcall t m)) (ws_state (wcall t m)) true) sk (None, None)) as [[[[h|] i]|e|p] sk'];
    destruct (drain lz4_compress show_float server on_read_block (mk_pstream (ps_inner (call c m)) (ps_state (call c m)) true) (None, None)) as [[[h'|] i']|e'|p'];
    cbn [same_end same_connection fst snd rbind or_panic] in *; try contradiction; split; auto;
    try (destruct X as (X & Q); auto; contradiction).
Qed.

(** [fetch_all]. A handle that gives up on an answer keeps its connection, marked as out of step
    (C32); where in the answer it stands is only said if everything in it can be read. *)
Definition same_handle (readable : Prop) (evs : list rd_event) (h : option transport) (h' : option conn) : Prop :=
  match h, h' with
  | Some t, Some c => t_inconsistent t = cn_inconsistent c /\ (readable -> corresponds t evs c)
  | None, None => True
  | _, _ => False
  end.
Definition readable (ms : list (res packet)) : Prop := Forall (fun x => exists p, x = Ok p) ms.

Lemma wcollect_gives c : cn_queue c = [] -> cn_late c = [] -> forall ps n t rest wr out s sk acc,
  gives lz4_decompress tz_known place t (cn_closed c) (map Ok ps ++ rest) false wr out (await s sk) ->
  t_wr t = [] -> t_cmds t = [] -> t_inconsistent t = cn_inconsistent c -> length ps + 1 <= n ->
  PropOutcome.decided in_response ps rest ->
  exists evs', snd (wcollect n s sk acc) = mk_socket evs' wr out /\
    fst (fst (wcollect n s sk acc)) =
      PropOutcome.report PropOutcome.is_eof (Ok (acc ++ with_columns (blocks_of ps))) (Err EIo) rest [] (cn_closed c) /\
    same_handle (readable rest) evs' (snd (fst (wcollect n s sk acc))) (PropOutcome.left_with c rest).
Proof.
  intros Cq Cl. induction ps as [|p ps IH]; intros n t rest wr out s sk acc (t' & evs & K & G) Hw Hq Hi Hn (F & R);
    (destruct n as [|n]; [cbn [length] in Hn; lia|]); cbn [Wired.wcollect]; cbv zeta in G; cbn [map app] in G.
  - cbn [blocks_of flat_map with_columns filter]. rewrite app_nil_r.
    assert (Hi' : t_inconsistent t' = cn_inconsistent c) by (rewrite (proj2 (proj2 K)); exact Hi).
    assert (CO : forall l bs, sound lz4_decompress tz_known t' -> arrives evs bs (cn_closed c) ->
        stream_of lz4_decompress tz_known place (t_info t') (t_rd t' ++ bs) l -> corresponds t' evs (set_in c l)).
    { intros l bs So Ar St. exact (corresponds_next _ _ _ _ _ _ _ _ _ K So Ar St Hw Hq Cq Cl Hi). }
    assert (CO' : forall l, corresponds t' evs (set_in c l) ->
        corresponds (Transport.set_inconsistent t' true) evs (set_inconsistent (set_in c l) true)).
    { intros l (A1 & A2 & A3 & A4 & A5 & A6 & A7 & A8). unfold SpecWired.corresponds. cbn. auto 10. }
    destruct rest as [|[p|e|q] l].
    + cbn [PropOutcome.report PropOutcome.left_with]. rewrite Cl. destruct (cn_closed c) eqn:Cc.
      * rewrite G. exists evs. repeat split.
      * destruct G as (G & So & bs & Ar & St). rewrite G. exists evs. cbn [fst snd wdropped ws_inner same_handle].
        split; [reflexivity|]. split; [reflexivity|].
        split; [reflexivity|]. intros _. exact (CO' [] (CO [] bs So Ar St)).
    + destruct G as (G & So & bs & Ar & St). rewrite G. unfold handed.
      destruct p; try (exfalso; exact (R I)); cbn; exists evs; (split; [reflexivity|]); (split; [reflexivity|]); auto.
      * split; [reflexivity|]. intros _. exact (CO' l (CO l bs So Ar St)).
      * split; [exact Hi'|]. intros _. exact (CO l bs So Ar St).
    + rewrite G. exists evs. cbn. split; [reflexivity|]. split; [reflexivity|]. split; [reflexivity|].
      intros X. inversion X as [|? ? (? & Y)]; discriminate Y.
    + rewrite G. exists evs. cbn. split; [reflexivity|]. split; [reflexivity|]. split; [reflexivity|].
      intros X. inversion X as [|? ? (? & Y)]; discriminate Y.
  - inversion F as [|? ? Fp Fs]; subst. destruct G as (G & So & bs & Ar & St). rewrite G. unfold handed.
    destruct K as (K1 & K2 & K3). rewrite <- K1 in Hw. rewrite <- K2 in Hq. rewrite <- K3 in Hi. cbn [length] in Hn.
    pose proof (fun acc => IH n t' rest wr out (mk_wstream (Some t') Receive false) (mk_socket evs wr out) acc
      (await_arrives lz4_compress show_float lz4_decompress tz_known place (length evs) t' evs bs (cn_closed c) _ false wr out (le_n _) So Ar St)
      Hw Hq Hi ltac:(lia) (conj Fs R)) as N.
    destruct p; try contradiction; cbn [Client.carries Client.is_block andb].
    + apply N.
    + apply N.
    + cbn [blocks_of flat_map app]. fold (blocks_of ps). rewrite with_columns_cons.
      destruct (block_is_empty b); cbn [app]; [apply N|].
      specialize (N (acc ++ [b])). rewrite <- app_assoc in N. exact N.
Qed.
Theorem c99_fetch_all fuel n q t sk k k1 c bs ms closes :
  before fuel k = (Ok tt, k1) -> k_pool k1 = BAttached -> k_inner k1 = Some c ->
  serves t sk c (CmdQuery q (k_context k1)) bs ms closes ->
  length (cn_in (asked c (CmdQuery q (k_context k1)) ms closes)) + 3 <= n ->
  let '(r, h, sk') := wfetch_all n q (k_context k1) t sk in
  s_out sk' = s_out sk ++ bs /\ r = fst (fetch_all fuel q k) /\
  same_handle (readable (cn_in (asked c (CmdQuery q (k_context k1)) ms closes))) (s_reads sk') h
    (k_inner (snd (fetch_all fuel q k))) /\
  (forall c', k_inner (snd (fetch_all fuel q k)) = Some c' ->
     k_pool (snd (fetch_all fuel q k)) = BAttached /\ k_context (snd (fetch_all fuel q k)) = k_context k1 /\
     cn_id c' = cn_id c /\ cn_log c' = cn_log c ++ [CmdQuery q (k_context k1)] /\ cn_closed c' = (cn_closed c || closes)%bool).
Proof.
  intros Bf P Ek E Hn. unfold Wired.wfetch_all. set (m := CmdQuery q (k_context k1)) in *.
  destruct (PropOutcome.c98_every_answer in_response) with (l := cn_in (asked c m ms closes)) as (ps & rest & Em & D).
  { intros p. destruct p; cbn; auto. }
  destruct (exchange_gives t sk c m bs ms closes false E) as (Hw & Hq & Hi & wr' & G).
  pose proof (flush_serves _ _ _ _ _ _ _ E) as Fl. set (c1 := asked c m ms closes) in *.
  assert (Hl : length ps + 1 <= n) by (rewrite Em, app_length, map_length in Hn; lia).
  rewrite Em in G. change (cn_closed c || closes) with (cn_closed c1) in G.
  destruct (wcollect_gives c1 eq_refl eq_refl ps n t rest wr' (s_out sk ++ bs) _ sk [] G Hw Hq Hi Hl D) as (evs' & S & R & H).
  change (mk_wstream (ws_inner (wcall t m)) (ws_state (wcall t m)) false) with (wcall t m) in *.
  destruct (wcollect n (wcall t m) sk []) as [[r h] sk']. cbn [fst snd] in *. subst r sk'. cbn [s_out s_reads].
  split; [reflexivity|].
  unfold Client.fetch_all, stream_blocks, detach. rewrite Bf, P.
  unfold get_inner. cbn [set_pool k_inner k_context]. rewrite Ek. fold m.
  set (k3 := set_inner (set_pool k1 BDetached) None). fold (asking c m false).
  assert (N : stream_fuel lz4_compress show_float server (bs_inner (asking c m false)) = 3 + length (cn_in c1)).
  { unfold stream_fuel. cbn [asking bs_inner call ps_inner set_queue cn_queue]. fold (set_queue c (cn_queue c ++ [m])). rewrite Fl. reflexivity. }
  rewrite N, (collect_asking lz4_compress show_float server _ _ _ _ _ _ Fl).
  pose proof (PropOutcome.collect_decided lz4_compress show_float server fresh (Datatypes.S (3 + length (cn_in c1))) ps c1 0 k3 [] rest) as C.
  destruct (collect lz4_compress show_float server _ _ k3 []) as [[r s'] k'].
  destruct C as (C1 & k4 & C2 & C3 & C4 & C5); try reflexivity; [rewrite Em, app_length, map_length; lia|exact Em|exact D|].
  rewrite C2. cbn [fst snd] in *. rewrite C3. split; [|split].
  - rewrite C1. unfold remaining. cbn [andb app]. reflexivity.
  - unfold same_handle in *. destruct h, (PropOutcome.left_with c1 rest); auto. destruct H as (H1 & H2).
    split; [exact H1|]. intros X. apply H2. unfold readable in *. rewrite Em in X. apply Forall_app in X. tauto.
  - intros c' E'. split; [apply C4; rewrite C3, E'; discriminate|]. split; [exact C5|].
    unfold PropOutcome.left_with in E'. change (cn_late c1) with (@nil (res packet)) in E'.
    destruct rest as [|[[]|e|x] l]; try discriminate E'; [destruct (cn_closed c1); [discriminate E'|]| | | | | | |];
      injection E' as <-; repeat split.
Qed.

(** ** When the command does not get out *)

(** The socket fails, or the command cannot be encoded: an error of input and output in both; a
    panic of the encoder is one in both. *)
Lemma await_unsent j : forall t sk rb out en t' wr',
  drive_send lz4_compress show_float j t (s_writes sk) = (out, en, t', wr') ->
  match en with
  | SFailed EWouldBlock => True
  | SFailed e => exists s' sk', await (mk_wstream (Some t) Ask rb) sk = (WFail e, s', sk')
  | SCrashed p => exists s' sk', await (mk_wstream (Some t) Ask rb) sk = (WCrash p, s', sk')
  | _ => True
  end.
Proof.
  induction j as [|j IH]; intros t sk rb out en t' wr' H; cbn [drive_send] in H; [injection H as <- <- <- <-; exact I|].
  destruct (send lz4_compress show_float (s_writes sk) t) as [[[r t1] e1] o1] eqn:X.
  destruct (send_length lz4_compress show_float lz4_decompress tz_known _ _ _ _ _ _ X) as (L & LP).
  assert (NX : Wired.wnext lz4_compress show_float lz4_decompress tz_known (mk_wstream (Some t) Ask rb) sk =
    (let sk' := mk_socket (s_reads sk) e1 (s_out sk ++ o1) in
      let same := mk_wstream (Some t1) Ask rb in
      match r with
      | PReady (Ok _) => wreceive lz4_decompress tz_known t1 rb sk'
      | PReady (Err EWouldBlock) => (WWait, same, sk')
      | PReady (Err e) => (WFail e, same, sk')
      | PReady (Panic q) => (WCrash q, same, sk')
      | PPending => (WWait, same, sk')
      end)).
  { unfold Wired.wnext. cbn [ws_state ws_inner ws_read_block]. rewrite X. reflexivity. }
  cbv zeta in NX. destruct r as [[u|e|q]|].
  - injection H as <- <- <- <-. exact I.
  - injection H as <- <- <- <-. destruct e; try exact I; eexists _, _; apply (await_ready _ _ _ _ _ _ _ _ _ NX); discriminate.
  - injection H as <- <- <- <-. eexists _, _. apply (await_ready _ _ _ _ _ _ _ _ _ NX). discriminate.
  - destruct (drive_send lz4_compress show_float j t1 e1) as [[[o2 en2] t2] e2] eqn:Y. injection H as <- <- <- <-.
    destruct (LP eq_refl) as [Lt|E0].
    + rewrite (await_wait _ _ _ _ _ _ _ _ NX) by (unfold doings; cbn [s_reads s_writes]; lia).
      exact (IH t1 (mk_socket (s_reads sk) e1 (s_out sk ++ o1)) rb _ _ _ _ Y).
    + rewrite E0 in X. destruct (send_stalled _ _ _ _ _ _ X) as (-> & _ & N). rewrite (drive_stalled _ _ j t1 N) in Y.
      injection Y as <- <- <- <-. exact I.
Qed.
Lemma await_stuck rb n : forall t sk, length (s_writes sk) <= n ->
  (forall j, exists out t' wr', drive_send lz4_compress show_float j t (s_writes sk) = (out, SGoing, t', wr')) ->
  exists s' sk', await (mk_wstream (Some t) Ask rb) sk = (WWait, s', sk').
Proof.
  induction n as [n IH] using lt_wf_ind. intros t sk Hn H.
  destruct (send lz4_compress show_float (s_writes sk) t) as [[[r t1] e1] o1] eqn:X.
  destruct (send_length lz4_compress show_float lz4_decompress tz_known _ _ _ _ _ _ X) as (L & LP).
  assert (r = PPending) as ->.
  { destruct (H 1) as (out & t' & wr' & Y). cbn [drive_send] in Y. rewrite X in Y. destruct r as [[u|e|q]|]; congruence. }
  assert (NX : Wired.wnext lz4_compress show_float lz4_decompress tz_known (mk_wstream (Some t) Ask rb) sk =
    (WWait, mk_wstream (Some t1) Ask rb, mk_socket (s_reads sk) e1 (s_out sk ++ o1))).
  { unfold Wired.wnext. cbn [ws_state ws_inner ws_read_block]. rewrite X. reflexivity. }
  destruct (LP eq_refl) as [Lt|E0].
  - rewrite (await_wait _ _ _ _ _ _ _ _ NX) by (unfold doings; cbn [s_reads s_writes]; lia).
    apply (IH (length e1)); [lia|cbn [s_writes]; lia|]. intros j. cbn [s_writes]. destruct (H (S j)) as (out & t' & wr' & Y).
    cbn [drive_send] in Y. rewrite X in Y. destruct (drive_send lz4_compress show_float j t1 e1) as [[[o2 en2] t2] e2].
    injection Y as _ -> _ _. eauto.
  - eexists _, _. apply (await_stop _ _ _ _ _ _ _ _ NX). unfold doings. cbn [s_reads s_writes]. rewrite E0 in *. cbn [length] in *. lia.
Qed.

(** Every loop over an answer then reports the failure to write, the panic, or, if the socket
    takes no more, the deadline. *)
Theorem c99_unsent {A} (on : A -> packet -> option transport -> A + error) n rb j t sk m a out en t' wr' :
  drive_send lz4_compress show_float j (set_out t (t_wr t) (t_cmds t ++ [m])) (s_writes sk) = (out, en, t', wr') ->
  let s := mk_wstream (ws_inner (wcall t m)) (ws_state (wcall t m)) rb in
  match en with
  | SFailed e => e <> EWouldBlock ->
      fst (wconsume on (S n) s sk a) = Err EIo /\ fst (fst (wcollect (S n) s sk [])) = Err EIo
  | SCrashed p => fst (wconsume on (S n) s sk a) = Panic p /\ fst (fst (wcollect (S n) s sk [])) = Panic p
  | _ => True
  end.
Proof.
  intros H s. pose proof (await_unsent j _ sk rb _ _ _ _ H) as X. destruct en as [| |e|p]; auto.
  - intros N. assert (exists s' sk', await s sk = (WFail e, s', sk')) as (s' & sk' & Y) by (destruct e; try congruence; exact X).
    cbn [Wired.wconsume Wired.wcollect]. rewrite Y. split; reflexivity.
  - destruct X as (s' & sk' & Y). fold s in Y. cbn [Wired.wconsume Wired.wcollect]. 
    change (await s sk = (WCrash p, s', sk')) in Y. rewrite Y. split; reflexivity.
Qed.
Theorem c99_stuck {A} (on : A -> packet -> option transport -> A + error) n rb t sk m a :
  (forall j, exists out t' wr', drive_send lz4_compress show_float j (set_out t (t_wr t) (t_cmds t ++ [m])) (s_writes sk) = (out, SGoing, t', wr')) ->
  let s := mk_wstream (ws_inner (wcall t m)) (ws_state (wcall t m)) rb in
  fst (wconsume on (S n) s sk a) = Err ETimeout /\ fst (fst (wcollect (S n) s sk [])) = Err ETimeout.
Proof.
  intros H s. destruct (await_stuck rb _ _ sk (le_n _) H) as (s' & sk' & Y).
  change (await s sk = (WWait, s', sk')) in Y. cbn [Wired.wconsume Wired.wcollect]. rewrite Y. split; reflexivity.
Qed.
End Wired.

Print Assumptions c99_ping.
Print Assumptions c99_execute.
Print Assumptions c99_hello.
Print Assumptions c99_read_block.
Print Assumptions c99_fetch_all.
Print Assumptions c99_unsent.
Print Assumptions c99_stuck.

(** A query over a socket that takes the command in two writes and gives the answer (progress, a
    block, the end) in three reads that cut its messages, with pauses. *)
Import PropClient.
Definition ex_data : bytes :=
  match write_block ex_block with Ok b => [1; 0]%N ++ b | _ => [] end.
Definition ex_answer : bytes := [3; 1; 2; 3; 4; 5]%N ++ ex_data ++ [5]%N.
Definition ex_messages : list (res packet) := [Ok (PkProgress (mk_progress 1 2 3 4 5)); Ok (PkBlock ex_block); Ok PkEof].
Definition ex_transport : transport :=
  mk_transport false [] false [] [] (mk_tinfo (Some (str "UTC")) 54461 false) false.
Definition ex_socket : socket :=
  mk_socket [RPending; RData (firstn 4 ex_answer); RPending; RData (firstn 20 (skipn 4 ex_answer)); RData (skipn 24 ex_answer)]
            (WPending :: WAccept 17 :: repeat (WAccept 100) 200) [].
Definition ex_off : copts := mk_copts false 3.
Definition ex_fetched : block :=
  mk_block (b_info ex_block) (map (fun x => (fst x, Columns.CConcat (snd x) [])) (b_cols ex_block)).
Example c99_case :
  let sv := ex_server (ex_messages, [], false) in
  exists bs,
  exchange ex_lz4 ex_show (fun _ _ => None) (fun _ => true) sv (Some (t_info ex_transport, [])) ex_transport ex_socket ex_conn (CmdQuery ex_query ex_context) bs ex_messages false /\
  fst (fst (wfetch_all ex_lz4 ex_show (fun _ _ => None) (fun _ => true) 6 ex_query ex_context ex_transport ex_socket)) =
    Ok ex_fetched /\
  fst (fetch_all ex_lz4 ex_show sv ex_fresh ex_off 0 ex_query ex_client) = Ok ex_fetched.
Proof.
  cbv zeta. destruct ex_encodes as (bs & E). exists bs. split; [|split; vm_compute; reflexivity].
  split; [repeat split|]. do 2 (split; [reflexivity|]). split; [exact E|]. split; [reflexivity|].
  split; [cbn; repeat constructor; lia|].
  split; [vm_compute in E; injection E as <-; vm_compute; lia|].
  split; [reflexivity|]. split; [discriminate|]. do 5 (split; [reflexivity|]).
  exists ex_answer. split.
  - replace ex_answer with (received (s_reads ex_socket)) by (vm_compute; reflexivity). apply ar_open.
    repeat constructor; vm_compute; discriminate.
  - unfold ex_answer, ex_messages. cbn [asked cn_in ex_transport t_info t_rd app].
    apply (so_message _ _ _ _ [3; 1; 2; 3; 4; 5]%N (ex_data ++ [5]%N)); [vm_compute; reflexivity|].
    apply (so_message _ _ _ _ ex_data [5]%N); [vm_compute; reflexivity|].
    apply (so_message _ _ _ _ [5]%N []); [vm_compute; reflexivity|]. apply so_end; vm_compute; reflexivity.
Qed.
(** A socket that fails while the command is being written, and one that takes no more of it. *)
Example c99_case_unsent :
  (exists out t' wr', drive_send ex_lz4 ex_show 9 (set_out ex_transport [] [CmdQuery ex_query ex_context]) [WAccept 5; WPending; WErr] = (out, SFailed EIo, t', wr')) /\
  fst (wexecute ex_lz4 ex_show (fun _ _ => None) (fun _ => true) 9 ex_query ex_context ex_transport (mk_socket [] [WAccept 5; WPending; WErr] [])) =
    Err EIo.
Proof. split; [do 3 eexists|]; vm_compute; reflexivity. Qed.
Example c99_case_stuck :
  (forall j, exists out t' wr', drive_send ex_lz4 ex_show j (set_out ex_transport [] [CmdPing]) [WPending; WPending] = (out, SGoing, t', wr')) /\
  fst (wping ex_lz4 ex_show (fun _ _ => None) (fun _ => true) 9 ex_transport (mk_socket [] [WPending; WPending] [])) = Err ETimeout.
Proof.
  split; [|vm_compute; reflexivity].
  assert (W : forall j, drive_send ex_lz4 ex_show j (set_out ex_transport [4]%N []) [] = ([], SGoing, set_out ex_transport [4]%N [], [])).
  { induction j as [|j IH]; [reflexivity|]. cbn [drive_send].
    replace (send ex_lz4 ex_show [] (set_out ex_transport [4]%N []))
      with (@PPending (res unit), set_out ex_transport [4]%N [], @nil wr_event, @nil N) by (vm_compute; reflexivity).
    rewrite IH. reflexivity. }
  intros [|[|[|j]]]; [do 3 eexists; vm_compute; reflexivity..|]. exists [], (set_out ex_transport [4]%N []), [].
  cbn [drive_send].
  replace (send ex_lz4 ex_show [WPending; WPending] (set_out ex_transport [] [CmdPing]))
    with (@PPending (res unit), set_out ex_transport [4]%N [], [WPending], @nil N) by (vm_compute; reflexivity).
  replace (send ex_lz4 ex_show [WPending] (set_out ex_transport [4]%N []))
    with (@PPending (res unit), set_out ex_transport [4]%N [], @nil wr_event, @nil N) by (vm_compute; reflexivity).
  replace (send ex_lz4 ex_show [] (set_out ex_transport [4]%N []))
    with (@PPending (res unit), set_out ex_transport [4]%N [], @nil wr_event, @nil N) by (vm_compute; reflexivity).
  rewrite W. reflexivity.
Qed.
