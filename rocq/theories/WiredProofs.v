(** The loops over a socket and the loops over messages do the same. *)
From Verif Require Import Base Bytes Reader Types Block Compress Packets Wire Transport SpecTransport TransportProofs Wired SpecWired.
From Verif Require Client ClientProofs.
Open Scope list_scope.
Open Scope nat_scope.

Section Polls.
Variable lz4_decompress : bytes -> N -> option bytes.
Variable tz_known : bytes -> bool.
Notation message i := (run (parse_packet lz4_decompress tz_known i)).
Notation poll := (poll_next lz4_decompress tz_known).
Notation unfinished := (unfinished lz4_decompress tz_known).
Notation sound := (sound lz4_decompress tz_known).
Variable en : option (tinfo * bytes).
Notation stream_of := (stream_of lz4_decompress tz_known en).

Definition keeps (t t' : transport) : Prop :=
  t_wr t' = t_wr t /\ t_cmds t' = t_cmds t /\ t_inconsistent t' = t_inconsistent t.
Lemma keeps_refl t : keeps t t.
Proof. repeat split. Qed.
Lemma keeps_trans a b c : keeps a b -> keeps b c -> keeps a c.
Proof. intros (A & B & C) (D & E & F). repeat split; congruence. Qed.
Lemma keeps_rd t l : keeps t (set_rd t l).
Proof. destruct t. repeat split. Qed.
Lemma keeps_info t i l : keeps t (set_rd (set_info t i) l).
Proof. destruct t. repeat split. Qed.
Lemma keeps_incomplete t t' b : keeps t t' -> keeps t (set_incomplete t' b).
Proof. destruct t, t'. auto. Qed.
Lemma keeps_done t : keeps t (set_done t).
Proof. destruct t. repeat split. Qed.
Lemma try_keeps t r t' : try_parse_msg lz4_decompress tz_known t = (r, t') -> keeps t t'.
Proof.
  unfold try_parse_msg. generalize (left_over (parse_packet lz4_decompress tz_known (t_info t)) (t_rd t)). intros l0 H.
  destruct (message (t_info t) (t_rd t)) as [[p l]|e|q].
  - injection H as <- <-. apply keeps_info.
  - destruct e; injection H as <- <-; first [apply keeps_rd|apply keeps_refl].
  - injection H as <- <-. apply keeps_refl.
Qed.
Lemma poll_keeps t evs r t' evs' : poll t evs = (r, t', evs') -> keeps t t'.
Proof.
  unfold poll_next. intros H.
  assert (READ : (match (if t_done t then (FDone, t_rd t, evs) else fill evs (t_rd t)) with
    | (FDone, rd, evs') => (PReady None, set_done (set_rd t rd), evs')
    | (FErr, rd, evs') => (PReady (Some (Err EIo)), set_rd t rd, evs')
    | (FPending, rd, evs') =>
        let (r, t') := try_parse_msg lz4_decompress tz_known (set_rd t rd) in
        match r with
        | PPending => (PPending, set_incomplete t' true, evs')
        | PReady x => (PReady (Some x), set_incomplete t' false, evs')
        end
    | (FMore, rd, evs') => (PReady (Some (Panic PFuel)), set_rd t rd, evs')
    end) = (r, t', evs') -> keeps t t').
  { intros X. destruct (if t_done t then (FDone, t_rd t, evs) else fill evs (t_rd t)) as [[f rd] e2].
    destruct f.
    - injection X as <- <- <-. exact (keeps_trans _ _ _ (keeps_rd _ _) (keeps_done _)).
    - injection X as <- <- <-. apply keeps_rd.
    - destruct (try_parse_msg lz4_decompress tz_known (set_rd t rd)) as [r2 t2] eqn:T. apply try_keeps in T.
      destruct r2; injection X as <- <- <-; apply keeps_incomplete; exact (keeps_trans _ _ _ (keeps_rd _ _) T).
    - injection X as <- <- <-. apply keeps_rd. }
  destruct (negb (t_incomplete t) && negb (length (t_rd t) =? 0)); [|exact (READ H)].
  destruct (try_parse_msg lz4_decompress tz_known t) as [r2 t2] eqn:T.
  destruct r2; [|exact (READ H)]. injection H as <- <- <-. exact (try_keeps _ _ _ T).
Qed.

(** One poll of a transport whose bytes are still to arrive. *)
Lemma poll_arrives t evs bs closes : sound t -> arrives evs bs closes ->
  (exists rd evs' bs', rd ++ bs' = t_rd t ++ bs /\ arrives evs' bs' closes /\ length evs' <= length evs /\
     polled_from lz4_decompress tz_known t rd evs' (poll t evs) /\
     (message (t_info t) rd = Err EWouldBlock ->
        length evs' < length evs \/ (evs = [] /\ evs' = [] /\ bs' = [] /\ closes = false))) \/
  (closes = true /\ bs = [] /\ unfinished (t_info t) (t_rd t) /\ exists t' evs', poll t evs = (PReady None, t', evs')).
Proof.
  intros So A. inversion A as [evs0 F|pre last rest F G|last rest G]; subst; clear A.
  - left. destruct (flow_split evs F) as (ds & tl & -> & G & T).
    assert (W : waits tl) by (destruct T as [->|(m & -> & _)]; exact I).
    destruct (poll_cases lz4_decompress tz_known t ds tl So G W) as [(Inc & NU & P)|(U0 & P)].
    + exists (t_rd t), (ds ++ tl), (received (ds ++ tl)). split; [reflexivity|]. split; [constructor; exact F|].
      split; [lia|]. split; [exact P|]. intros C. contradiction.
    + destruct T as [->|(m & -> & Fm)].
      * rewrite app_nil_r in *. cbn [pop] in P. exists (t_rd t ++ received ds), [], [].
        split; [rewrite app_nil_r; reflexivity|]. split; [apply (ar_open [] (Forall_nil _))|]. split; [cbn; lia|].
        split; [exact P|]. intros _. destruct ds; [right; auto|left; cbn; lia].
      * rewrite received_flow. cbn [pop] in P. exists (t_rd t ++ received ds), m, (received m).
        split; [rewrite app_assoc; reflexivity|]. split; [constructor; exact Fm|].
        rewrite app_length. cbn [length]. split; [lia|]. split; [exact P|]. intros _. left. lia.
  - left. destruct (flow_split pre F) as (ds & tl & -> & Gd & T).
    set (S := RPending :: last ++ REof :: rest) in *.
    assert (W : waits (tl ++ S)) by (destruct T as [->|(m & -> & _)]; exact I).
    rewrite <- app_assoc.
    destruct (poll_cases lz4_decompress tz_known t ds (tl ++ S) So Gd W) as [(Inc & NU & P)|(U0 & P)].
    + exists (t_rd t), (ds ++ tl ++ S), (received (ds ++ tl)). split; [reflexivity|].
      split; [rewrite app_assoc; constructor; assumption|].
      split; [lia|]. split; [exact P|]. intros C. contradiction.
    + destruct T as [->|(m & -> & Fm)].
      * rewrite app_nil_r. cbn [app pop] in P |- *. exists (t_rd t ++ received ds), (last ++ REof :: rest), [].
        split; [rewrite app_nil_r; reflexivity|]. split; [constructor; exact G|].
        unfold S. rewrite (app_length ds). cbn [length]. split; [lia|]. split; [exact P|]. intros _. left. lia.
      * rewrite received_flow. cbn [app pop] in P |- *. exists (t_rd t ++ received ds), (m ++ S), (received m).
        split; [rewrite app_assoc; reflexivity|]. split; [constructor; assumption|].
        rewrite (app_length ds). cbn [length]. split; [lia|]. split; [exact P|]. intros _. left. lia.
  - assert (DEC : {message (t_info t) (t_rd t) = Err EWouldBlock} + {message (t_info t) (t_rd t) <> Err EWouldBlock}).
    { destruct (message (t_info t) (t_rd t)) as [x|e|q]; try (right; discriminate).
      destruct e; try (right; discriminate). left. reflexivity. }
    destruct DEC as [M|M].
    + right. split; [reflexivity|]. split; [reflexivity|]. split; [exact M|].
      destruct (poll_close lz4_decompress tz_known t last rest So M G) as (t' & P). eauto.
    + left. exists (t_rd t), (last ++ REof :: rest), []. split; [reflexivity|]. split; [constructor; exact G|].
      split; [lia|]. split; [|intros C; contradiction].
      apply poll_buffered; [exact (proj1 So)| |exact M].
      destruct (t_incomplete t) eqn:Inc; [|reflexivity]. exfalso. exact (M (proj2 So Inc)).
Qed.

(** What is decided by a part of the bytes is decided. *)
Lemma stream_part i rd more ms : stream_of i (rd ++ more) ms ->
  match message i rd with
  | Ok (p, l) => exists ms', ms = Ok p :: ms' /\ stream_of (learnt i p) (l ++ more) ms'
  | Err EWouldBlock => True
  | Err e => ms = [Err e]
  | Panic q => ms = [Panic q]
  end.
Proof.
  intros H. pose proof (partial_result (parse_packet lz4_decompress tz_known i) rd more) as Q.
  destruct (message i rd) as [[p l]|e|q] eqn:E.
  - inversion H as [? ? M ?|? ? ? ? M ?|? ? ? M ?|? u l' p' ms' M S' E1 E2]; subst; try congruence.
    exists ms'. rewrite E2, Q in M. injection M as <- <-. split; [reflexivity|exact S'].
  - destruct e; try exact I;
      (inversion H as [? ? M ?|? ? ? ? M ?|? ? ? M ?|? u l' p' ms' M S' E1 E2]; subst; [congruence| |congruence|congruence];
       rewrite Q in M; [injection M as <-; reflexivity]).
  - inversion H as [? ? M ?|? ? ? ? M ?|? ? ? M ?|? u l' p' ms' M S' E1 E2]; subst; congruence.
Qed.
End Polls.

Section Awaiting.
Variable lz4_compress : bytes -> bytes.
Variable show_float : Z -> bytes.
Variable lz4_decompress : bytes -> N -> option bytes.
Variable tz_known : bytes -> bool.
Notation message i := (run (parse_packet lz4_decompress tz_known i)).
Notation poll := (poll_next lz4_decompress tz_known).
Notation unfinished := (unfinished lz4_decompress tz_known).
Notation sound := (sound lz4_decompress tz_known).
Variable en : option (tinfo * bytes).
Notation stream_of := (stream_of lz4_decompress tz_known en).
Notation wnext := (wnext lz4_compress show_float lz4_decompress tz_known).
Notation wawait := (wawait lz4_compress show_float lz4_decompress tz_known).
Notation await := (await lz4_compress show_float lz4_decompress tz_known).

Lemma wawait_enough n : forall m s sk, doings sk < n -> doings sk < m -> wawait n s sk = wawait m s sk.
Proof.
  induction n as [|n IH]; intros m s sk Hn Hm; [lia|]. destruct m as [|m]; [lia|]. cbn [Wired.wawait].
  destruct (wnext s sk) as [[[] s'] sk']; try reflexivity.
  destruct (Nat.ltb_spec (doings sk') (doings sk)); [|reflexivity]. apply IH; lia.
Qed.
Lemma await_wait s sk s' sk' : wnext s sk = (WWait, s', sk') -> doings sk' < doings sk -> await s sk = await s' sk'.
Proof.
  intros H L. unfold Wired.await at 1. cbn [Wired.wawait]. rewrite H. apply Nat.ltb_lt in L as L'. rewrite L'.
  apply wawait_enough; lia.
Qed.
Lemma await_stop s sk s' sk' : wnext s sk = (WWait, s', sk') -> doings sk <= doings sk' -> await s sk = (WWait, s', sk').
Proof.
  intros H L. unfold Wired.await. cbn [Wired.wawait]. rewrite H. apply Nat.ltb_ge in L. rewrite L. reflexivity.
Qed.
Lemma await_ready s sk g s' sk' : wnext s sk = (g, s', sk') -> g <> WWait -> await s sk = (g, s', sk').
Proof. intros H L. unfold Wired.await. cbn [Wired.wawait]. rewrite H. destruct g; auto. contradiction. Qed.

(** What is handed on with a message. *)
Definition handed (p : packet) (t : transport) (rb : bool) (sk : socket) : wgot * wstream * socket :=
  let st := if rb && Client.is_block p then Done else Receive in
  if Client.carries p then (WItem p (Some t), mk_wstream None st rb, sk)
  else (WItem p None, mk_wstream (Some t) st rb, sk).

(** The first of these messages is what asking gives. *)
Definition gives (t : transport) (closes : bool) (ms : list (res packet)) (rb : bool) (wr : list wr_event) (out : bytes)
    (got : wgot * wstream * socket) : Prop :=
  exists t' evs', keeps t t' /\
  let same := mk_wstream (Some t') Receive rb in
  let sk' := mk_socket evs' wr out in
  match ms with
  | Ok p :: ms' =>
      got = handed p t' rb sk' /\ sound t' /\
      exists bs', arrives evs' bs' closes /\ stream_of (t_info t') (t_rd t' ++ bs') ms'
  | Err e :: _ => got = (WFail e, same, sk')
  | Panic q :: _ => got = (WCrash q, same, sk')
  | [] => if closes then got = (WEnd, same, sk')
          else got = (WWait, same, sk') /\ sound t' /\
               exists bs', arrives evs' bs' closes /\ stream_of (t_info t') (t_rd t' ++ bs') []
  end.
Lemma await_arrives n : forall t evs bs closes ms rb wr out,
  length evs <= n -> sound t -> arrives evs bs closes -> stream_of (t_info t) (t_rd t ++ bs) ms ->
  gives t closes ms rb wr out (await (mk_wstream (Some t) Receive rb) (mk_socket evs wr out)).
Proof.
  induction n as [n IH] using lt_wf_ind. intros t evs bs closes ms rb wr out Hn So A S.
  set (s := mk_wstream (Some t) Receive rb). set (sk := mk_socket evs wr out).
  assert (NX : wnext s sk = wreceive lz4_decompress tz_known t rb sk) by reflexivity.
  unfold wreceive in NX. cbn [s_reads s_writes s_out sk] in NX.
  destruct (poll_arrives lz4_decompress tz_known t evs bs closes So A) as
    [(rd & evs' & bs' & E & A' & L & P & W)|(-> & -> & U & t' & evs' & P)].
  2:{ rewrite app_nil_r in S. exists t', evs'. split; [exact (poll_keeps _ _ _ _ _ _ _ P)|].
      rewrite P in NX. assert (ms = []) as ->.
      { inversion S as [? ? M ?|? ? ? ? M ?|? ? ? M ?|? u l p ms' M S' E1 E2]; subst; unfold SpecTransport.unfinished in U; congruence. }
      cbv zeta. apply (await_ready _ _ _ _ _ NX). discriminate. }
  rewrite <- E in S. pose proof (stream_part _ _ _ _ _ _ _ S) as Q.
  unfold polled_from in P. destruct (message (t_info t) rd) as [[p l]|e|q] eqn:M.
  - destruct P as (t' & P & R & Inf & Inc & Dn). destruct Q as (ms' & -> & S'). exists t', evs'.
    pose proof (poll_keeps _ _ _ _ _ _ _ P) as K. split; [exact K|]. cbv zeta.
    rewrite P in NX. split.
    + unfold handed. destruct (Client.carries p); apply (await_ready _ _ _ _ _ NX); discriminate.
    + split; [split; [exact Dn|rewrite Inc; discriminate]|]. exists bs'. split; [exact A'|].
      rewrite R, Inf. exact S'.
  - destruct (error_eq_wb e) as [->|NW].
    + destruct P as (t' & P & R & Inf & So' & Inc). pose proof (poll_keeps _ _ _ _ _ _ _ P) as K.
      rewrite P in NX.
      assert (S' : stream_of (t_info t') (t_rd t' ++ bs') ms) by (rewrite R, Inf; exact S).
      destruct (W eq_refl) as [Lt|(-> & -> & -> & ->)].
      * destruct (IH (length evs') ltac:(lia) t' evs' bs' closes ms rb wr out (le_n _) So' A' S') as (t2 & evs2 & K2 & H).
        exists t2, evs2. split; [exact (keeps_trans _ _ _ K K2)|]. cbv zeta in H |- *.
        assert (AW : await s sk = await (mk_wstream (Some t') Receive rb) (mk_socket evs' wr out)).
        { apply (await_wait _ _ _ _ NX). unfold doings, sk. cbn [s_reads s_writes]. lia. }
        rewrite AW. exact H.
      * exists t', []. split; [exact K|]. cbv zeta.
        assert (ms = []) as ->.
        { rewrite app_nil_r in S. inversion S as [? ? M1 ?|? ? ? ? M1 ?|? ? ? M1 ?|? u l p ms' M1 S1 E1 E2]; subst; try congruence. }
        split; [|split; [exact So'|]].
        -- apply (await_stop _ _ _ _ NX). unfold doings, sk. cbn. lia.
        -- exists []. split; [exact A'|exact S'].
    + assert (ms = [Err e]) as -> by (destruct e; try exact Q; congruence).
      assert (exists t', poll t evs = (PReady (Some (Err e)), t', evs')) as (t' & P') by (destruct e; try exact P; congruence).
      exists t', evs'. split; [exact (poll_keeps _ _ _ _ _ _ _ P')|]. cbv zeta.
      rewrite P' in NX. apply await_ready; [|discriminate]. rewrite NX. destruct e; reflexivity || congruence.
  - destruct P as (t' & P). subst ms. exists t', evs'. split; [exact (poll_keeps _ _ _ _ _ _ _ P)|]. cbv zeta.
    rewrite P in NX. apply (await_ready _ _ _ _ _ NX). discriminate.
Qed.

(** Sending: it goes on until everything is written, and then asks for a message. *)
Lemma send_length evs : forall t r t' evs' out, send lz4_compress show_float evs t = (r, t', evs', out) ->
  length evs' <= length evs /\ (r = PPending -> length evs' < length evs \/ evs = []).
Proof.
  induction evs as [|e evs IH]; intros t r t' evs' out H; cbn [send] in H.
  - destruct (t_wr t); [destruct (t_cmds t) as [|c cs]; [|destruct (encode_command lz4_compress show_float c)]|];
      injection H as <- <- <- <-; auto.
  - assert (F : forall t0, (match e with
      | WAccept n => let '(r, t', evs'', out) := send lz4_compress show_float evs (set_out t0 (skipn n (t_wr t0)) (t_cmds t0)) in
          (r, t', evs'', firstn n (t_wr t0) ++ out)
      | WPending => (PPending, t0, evs, [])
      | WErr => (PReady (Err EIo), t0, evs, [])
      end) = (r, t', evs', out) -> length evs' <= length (e :: evs) /\ (r = PPending -> length evs' < length (e :: evs) \/ e :: evs = [])).
    { intros t0 X. destruct e as [n| |].
      - destruct (send lz4_compress show_float evs (set_out t0 (skipn n (t_wr t0)) (t_cmds t0))) as [[[r1 t1] e1] o1] eqn:Y.
        destruct (IH _ _ _ _ _ Y) as (L & _). injection X as <- <- <- <-. cbn [length]. split; [lia|left; lia].
      - injection X as <- <- <- <-. cbn [length]. split; [lia|left; lia].
      - injection X as <- <- <- <-. cbn [length]. split; [lia|left; lia]. }
    destruct (t_wr t) eqn:Ew.
    + destruct (t_cmds t) as [|c cs].
      * injection H as <- <- <- <-. split; [lia|discriminate].
      * destruct (encode_command lz4_compress show_float c) as [x|x|x].
        -- exact (F (set_out t x cs) H).
        -- injection H as <- <- <- <-. split; [lia|discriminate].
        -- injection H as <- <- <- <-. split; [lia|discriminate].
    + rewrite <- Ew in H. exact (F t H).
Qed.
Lemma seqR_first b0 b l x : seqR (Ok (b0 :: b) :: l) = Ok x -> x <> [].
Proof. cbn [seqR rbind]. destruct (seqR l); try discriminate. intros H. injection H as <-. discriminate. Qed.
Lemma encode_some c : forall b, encode_command lz4_compress show_float c = Ok b -> b <> [].
Proof.
  assert (D : forall o b x, send_data lz4_compress o b = Ok x -> x <> []).
  { intros o b x H. unfold send_data in H. change (enc_uvarint 2) with (Ok [2%N] : res bytes) in H. cbn [rbind] in H.
    destruct (enc_string []); try discriminate H. cbn [rbind] in H.
    destruct (write_block_as lz4_compress o b); try discriminate H. injection H as <-. discriminate. }
  induction c as [cx| |q cx|b cx|a IHa b IHb|]; intros x H; cbn [encode_command] in H.
  - unfold encode_hello in H. destruct (cx_options cx) as [o| |]; try discriminate H. cbn [rbind] in H.
    change (enc_uvarint 0) with (Ok [0%N] : res bytes) in H. exact (seqR_first _ _ _ _ H).
  - injection H as <-. discriminate.
  - unfold encode_query in H. destruct (cx_options cx) as [o| |]; try discriminate H. cbn [rbind] in H.
    change (enc_uvarint 1) with (Ok [1%N] : res bytes) in H. exact (seqR_first _ _ _ _ H).
  - unfold encode_data in H. destruct (cx_options cx) as [o| |]; try discriminate H. exact (D _ _ _ H).
  - destruct (encode_command lz4_compress show_float a) as [y| |]; try discriminate H.
    destruct (encode_command lz4_compress show_float b) as [z| |]; try discriminate H. injection H as <-.
    specialize (IHa _ eq_refl). destruct y; [contradiction|discriminate].
  - injection H as <-. discriminate.
Qed.
(** With nothing more from the socket, what is not sent stays unsent. *)
Lemma send_stalled t t1 e1 o1 : send lz4_compress show_float [] t = (PPending, t1, e1, o1) ->
  e1 = [] /\ o1 = [] /\ t_wr t1 <> [].
Proof.
  cbn [send]. intros X. destruct (t_wr t) eqn:Ew.
  - destruct (t_cmds t) as [|c cs]; [discriminate X|].
    destruct (encode_command lz4_compress show_float c) as [b| |] eqn:Ec; try discriminate X.
    injection X as <- <- <-. repeat split. exact (encode_some _ _ Ec).
  - injection X as <- <- <-. repeat split. rewrite Ew. discriminate.
Qed.
Lemma drive_stalled j : forall t, t_wr t <> [] -> drive_send lz4_compress show_float j t [] = ([], SGoing, t, []).
Proof.
  induction j as [|j IH]; intros t N; [reflexivity|]. cbn [SpecTransport.drive_send send].
  destruct (t_wr t) eqn:E; [congruence|]. rewrite (IH t ltac:(congruence)). reflexivity.
Qed.
Lemma await_sends k : forall t sk rb o t' wr' bs closes ms,
  drive_send lz4_compress show_float k t (s_writes sk) = (o, SDone, t', wr') ->
  sound t' -> arrives (s_reads sk) bs closes -> stream_of (t_info t') (t_rd t' ++ bs) ms ->
  gives t' closes ms rb wr' (s_out sk ++ o) (await (mk_wstream (Some t) Ask rb) sk).
Proof.
  induction k as [|k IH]; intros t sk rb o t' wr' bs closes ms D So A S; cbn [SpecTransport.drive_send] in D; [discriminate D|].
  destruct (send lz4_compress show_float (s_writes sk) t) as [[[r t1] e1] o1] eqn:X.
  destruct (send_length _ _ _ _ _ _ X) as (L & LP).
  assert (NX : wnext (mk_wstream (Some t) Ask rb) sk =
    (let sk' := mk_socket (s_reads sk) e1 (s_out sk ++ o1) in
      let same := mk_wstream (Some t1) Ask rb in
      match r with
      | PReady (Ok _) => wreceive lz4_decompress tz_known t1 rb sk'
      | PReady (Err EWouldBlock) => (WWait, same, sk')
      | PReady (Err e) => (WFail e, same, sk')
      | PReady (Panic q) => (WCrash q, same, sk')
      | PPending => (WWait, same, sk')
      end)).
  { unfold Wired.wnext. cbn [ws_state ws_inner ws_read_block]. rewrite X. reflexivity. }
  cbv zeta in NX. destruct r as [[u|e|q]|]; try discriminate D.
  - injection D as <- <- <-. set (sk2 := mk_socket (s_reads sk) e1 (s_out sk ++ o1)) in *.
    pose proof (await_arrives (length (s_reads sk)) t1 (s_reads sk) bs closes ms rb e1 (s_out sk ++ o1) (le_n _) So A S) as G.
    fold sk2 in G.
    destruct (wreceive lz4_decompress tz_known t1 rb sk2) as [[g s3] sk3] eqn:W.
    assert (NX2 : wnext (mk_wstream (Some t1) Receive rb) sk2 = (g, s3, sk3)) by exact W.
    assert (DEC : {g = WWait} + {g <> WWait}) by (destruct g; auto; right; discriminate).
    destruct DEC as [->|NG].
    + destruct (Nat.lt_ge_cases (doings sk3) (doings sk2)) as [Lt|Ge].
      * rewrite (await_wait _ _ _ _ NX2 Lt) in G.
        rewrite (await_wait _ _ _ _ NX); [exact G|].
        unfold doings, sk2 in *. cbn [s_reads s_writes] in *. lia.
      * rewrite (await_stop _ _ _ _ NX2 Ge) in G.
        destruct (Nat.lt_ge_cases (doings sk3) (doings sk)) as [Lt'|Ge'].
        2:{ rewrite (await_stop _ _ _ _ NX Ge'). exact G. }
        rewrite (await_wait _ _ _ _ NX Lt').
        destruct G as (t2 & evs2 & K & G). cbv zeta in G.
        destruct ms as [|[p|e|q] ms].
        -- destruct closes; [discriminate G|]. destruct G as (G & So2 & bs2 & A2 & S2). injection G as -> ->.
           destruct (await_arrives (length evs2) t2 evs2 bs2 false [] rb e1 (s_out sk ++ o1) (le_n _) So2 A2 S2)
             as (t3 & evs3 & K3 & G3).
           exists t3, evs3. split; [exact (keeps_trans _ _ _ K K3)|exact G3].
        -- destruct G as (G & _). unfold handed in G. destruct (Client.carries p); discriminate G.
        -- discriminate G.
        -- discriminate G.
    + rewrite (await_ready _ _ _ _ _ NX NG). rewrite (await_ready _ _ _ _ _ NX2 NG) in G. exact G.
  - destruct (drive_send lz4_compress show_float k t1 e1) as [[[o2 en2] t2] e2] eqn:Y.
    injection D as <- -> -> ->.
    assert (Lt : length e1 < length (s_writes sk)).
    { destruct (LP eq_refl) as [Lt|E]; [exact Lt|]. exfalso. rewrite E in X.
      destruct (send_stalled _ _ _ _ X) as (-> & _ & N). rewrite (drive_stalled k t1 N) in Y. discriminate Y. }
    rewrite (await_wait _ _ _ _ NX) by (unfold doings; cbn [s_reads s_writes]; lia).
    rewrite app_assoc.
    apply (IH t1 (mk_socket (s_reads sk) e1 (s_out sk ++ o1)) rb o2 t' wr' bs closes ms Y So A S).
Qed.
End Awaiting.

Section Loops.
Variable lz4_compress : bytes -> bytes.
Variable show_float : Z -> bytes.
Variable lz4_decompress : bytes -> N -> option bytes.
Variable tz_known : bytes -> bool.
Notation sound := (sound lz4_decompress tz_known).
Variable en : option (tinfo * bytes).
Notation stream_of := (stream_of lz4_decompress tz_known en).
Notation corresponds := (corresponds lz4_decompress tz_known en).
Notation await := (await lz4_compress show_float lz4_decompress tz_known).
Notation wconsume := (wconsume lz4_compress show_float lz4_decompress tz_known).
Notation gives := (gives lz4_decompress tz_known en).

Definition same_end {A B} (R : list rd_event -> A -> B -> Prop) (evs : list rd_event) (x : res A) (y : res B) : Prop :=
  match x, y with
  | Ok a, Ok b => R evs a b
  | Err e, Err e' => e = e'
  | Panic p, Panic p' => p = p'
  | _, _ => False
  end.

Lemma await_gone st rb sk : await (mk_wstream None st rb) sk = (WEnd, mk_wstream None Done rb, sk).
Proof. apply await_ready; [|discriminate]. destruct st; reflexivity. Qed.
Lemma await_done t rb sk : await (mk_wstream (Some t) Done rb) sk = (WItem PkEof (Some t), mk_wstream None Done rb, sk).
Proof. apply await_ready; [|discriminate]. reflexivity. Qed.

Lemma corresponds_next t t' evs bs c l :
  keeps t t' -> sound t' -> arrives evs bs (Client.cn_closed c) -> stream_of (t_info t') (t_rd t' ++ bs) l ->
  t_wr t = [] -> t_cmds t = [] -> Client.cn_queue c = [] -> Client.cn_late c = [] ->
  t_inconsistent t = Client.cn_inconsistent c -> corresponds t' evs (Client.set_in c l).
Proof.
  intros (K1 & K2 & K3) (D & I) A S W Q Cq Cl Ci. unfold SpecWired.corresponds. cbn [Client.set_in Client.cn_queue Client.cn_late
    Client.cn_inconsistent Client.cn_closed Client.cn_in].
  rewrite K1, K2, K3. repeat (split; [assumption|]). exists bs. auto.
Qed.

Section Handler.
Context {A B : Type}.
Variable on : A -> packet -> option transport -> A + error.
Variable on' : B -> packet -> option Client.conn -> B + error.
Variable R0 : A -> B -> Prop.
Variable R1 : list rd_event -> A -> B -> Prop.
Hypothesis weaker : forall evs a b, R0 a b -> R1 evs a b.
Hypothesis plain : forall a b p, R0 a b ->
  match on a p None, on' b p None with inl x, inl y => R0 x y | inr e, inr e' => e = e' | _, _ => False end.
Variable Q : Client.conn -> Prop.
Hypothesis same : forall c l, Q c -> Q (Client.set_in c l).
Hypothesis carrying : forall a b p t evs c, R0 a b -> Q c -> corresponds t evs c ->
  match on a p (Some t), on' b p (Some c) with inl x, inl y => R1 evs x y | inr e, inr e' => e = e' | _, _ => False end.

Lemma wconsume_gives l : forall n t c rb wr out s sk a b,
  gives t (Client.cn_closed c) l rb wr out (await s sk) -> Q c ->
  t_wr t = [] -> t_cmds t = [] -> Client.cn_queue c = [] -> Client.cn_late c = [] ->
  t_inconsistent t = Client.cn_inconsistent c -> R0 a b -> length l + 3 <= n ->
  exists evs', snd (wconsume on n s sk a) = mk_socket evs' wr out /\
    same_end R1 evs' (fst (wconsume on n s sk a)) (ClientProofs.feed on' rb c l b).
Proof.
  induction l as [|x l IH]; intros n t c rb wr out s sk a b (t' & evs & K & G) HQ Hw Hq Cq Cl Ci HR Hn;
    (destruct n as [|n]; [cbn [length] in Hn; lia|]); cbn [Wired.wconsume ClientProofs.feed]; cbv zeta in G.
  - rewrite Cl. destruct (Client.cn_closed c); [rewrite G|destruct G as (G & _); rewrite G]; exists evs; (split; [reflexivity|]).
    + apply weaker, HR.
    + reflexivity.
  - destruct x as [p|e|q]; [|rewrite G; exists evs; split; reflexivity..].
    destruct G as (G & So & bs & Ar & St). rewrite G. unfold handed.
    pose proof (corresponds_next _ _ _ _ _ _ K So Ar St Hw Hq Cq Cl Ci) as Co.
    destruct (Client.carries p) eqn:Ca.
    + pose proof (carrying a b p t' evs _ HR (same c l HQ) Co) as X.
      destruct (on a p (Some t')) as [x|e], (on' b p (Some (Client.set_in c l))) as [y|e']; try contradiction.
      * exists evs. destruct n as [|n]; [cbn [length] in Hn; lia|]. cbn [Wired.wconsume]. rewrite await_gone.
        split; [reflexivity|exact X].
      * exists evs. subst e'. split; reflexivity.
    + pose proof (plain a b p HR) as X.
      destruct (on a p None) as [x|e], (on' b p None) as [y|e']; try contradiction.
      2:{ exists evs. subst e'. split; reflexivity. }
      destruct (rb && Client.is_block p) eqn:Eb.
      * exists evs. destruct n as [|[|n]]; try (cbn [length] in Hn; lia). cbn [Wired.wconsume]. rewrite await_done.
        pose proof (carrying x y PkEof t' evs _ X (same c l HQ) Co) as Z.
        destruct (on x PkEof (Some t')) as [x2|e2], (on' y PkEof (Some (Client.set_in c l))) as [y2|e2']; try contradiction.
        -- rewrite await_gone. split; [reflexivity|exact Z].
        -- subst e2'. split; reflexivity.
      * destruct K as (K1 & K2 & K3). rewrite <- K1 in Hw. rewrite <- K2 in Hq. rewrite <- K3 in Ci.
        eapply (IH n t' c rb wr out (mk_wstream (Some t') Receive rb) (mk_socket evs wr out) x y);
          [|assumption..|cbn [length] in Hn; lia].
        apply (await_arrives lz4_compress show_float lz4_decompress tz_known en (length evs) t' evs bs); auto.
Qed.
End Handler.
End Loops.
