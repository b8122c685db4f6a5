(** C26, C27, C28: messages and commands over a connection that delivers and accepts bytes as it
    likes. *)
From Coq Require Import String.
From Verif Require Import Base Bytes Reader Wire Types Text Block Compress Packets Transport
  ReaderProofs SpecWire SpecCompress SpecPackets SpecTransport PacketsProofs TransportProofs PropPackets.
Open Scope list_scope.
Open Scope nat_scope.

Section Delivery.
Variable lz4_decompress : bytes -> N -> option bytes.
Variable tz_known : bytes -> bool.
Notation message i := (run (parse_packet lz4_decompress tz_known i)).
Notation poll := (poll_next lz4_decompress tz_known).
Notation drive := (drive lz4_decompress tz_known).
Notation decodes := (decodes lz4_decompress tz_known).
Notation unfinished := (unfinished lz4_decompress tz_known).

(** A connection that is open, and only believes its buffer to be incomplete if it is; so a new
    one ([c26_new]). *)
Definition healthy (t : transport) : Prop :=
  t_done t = false /\ (t_incomplete t = true -> unfinished (t_info t) (t_rd t)).

Lemma drive_done k : forall t evs, t_done t = false ->
  match drive k t evs with (_, Going, t', _) => t_done t' = false | _ => True end.
Proof.
  induction k as [|k IH]; intros t evs D; [exact D|]. cbn [SpecTransport.drive].
  assert (K : match poll t evs with (PPending, t', _) | (PReady (Some (Ok _)), t', _) => t_done t' = false | _ => True end).
  { unfold poll_next, try_parse_msg. rewrite D. cbn [set_rd t_rd t_info].
    assert (READ : match (match fill evs (t_rd t) with
    | (FDone, rd, evs') => (PReady None, set_done (set_rd t rd), evs')
    | (FErr, rd, evs') => (PReady (Some (Err EIo)), set_rd t rd, evs')
    | (FPending, rd, evs') =>
        let (r, t') := try_parse_msg lz4_decompress tz_known (set_rd t rd) in
        match r with
        | PPending => (PPending, set_incomplete t' true, evs')
        | PReady x => (PReady (Some x), set_incomplete t' false, evs')
        end
    | (FMore, rd, evs') => (PReady (Some (Panic PFuel)), set_rd t rd, evs')
    end) with (PPending, t', _) | (PReady (Some (Ok _)), t', _) => t_done t' = false | _ => True end).
    { destruct (fill evs (t_rd t)) as [[[] rd] evs']; try exact I. unfold try_parse_msg. cbn [set_rd t_rd t_info].
      destruct (message (t_info t) rd) as [[p r]|e|q]; [exact D| |exact I]. destruct e; try exact I; exact D. }
    destruct (negb (t_incomplete t) && negb (length (t_rd t) =? 0)); [|exact READ].
    destruct (message (t_info t) (t_rd t)) as [[p r]|e|q]; [exact D| |exact I].
    destruct e; try exact I. exact READ. }
  destruct (poll t evs) as [[[[[p|e|q]|]|] t'] evs']; try exact I.
  - specialize (IH t' evs' K). destruct (drive k t' evs') as [[[? []] ?] ?]; auto.
  - exact (IH t' evs' K).
Qed.

(** ** C26 *)

(** Whatever reads the bytes come in, and whatever moments of waiting lie between them: asking for
    messages as often as there are reads and messages, or more often, delivers exactly the messages
    in the bytes, in order, and leaves the unfinished rest in the buffer. *)
Theorem c26_delivery t evs ps i' tail :
  healthy t -> Forall flowing evs ->
  decodes (t_info t) (t_rd t ++ received evs) ps i' tail -> unfinished i' tail ->
  forall k, length evs + length ps + 1 <= k ->
  exists t', drive k t evs = (ps, Going, t', []) /\ t_rd t' = tail /\ t_info t' = i' /\ healthy t'.
Proof.
  intros So F D U k Hk.
  destruct (drive_flow lz4_decompress tz_known _ evs ps t [] i' tail (le_n _) So F I D U) as (k0 & t' & S' & R & Inf & B & H).
  rewrite app_nil_r in H. specialize (H (k - k0)). replace (k0 + (k - k0)) with k in H by lia.
  cbn [pop] in H.
  assert (U' : unfinished (t_info t') (t_rd t')) by (rewrite R, Inf; exact U).
  destruct (drive_idle lz4_decompress tz_known (k - k0) t' S' U') as (t2 & H2 & R2 & I2).
  rewrite H2, app_nil_r in H. exists t2. split; [exact H|]. split; [congruence|]. split; [congruence|].
  split.
  - pose proof (drive_done (k - k0) t' []) as X. rewrite H2 in X. exact (X (proj1 S')).
  - intros _. rewrite R2, I2. exact U'.
Qed.

(** If the bytes contain an error, or something that makes the parser panic, that is what the
    client gets after the messages before it. *)
Theorem c26_errors t evs ps i' tail :
  healthy t -> Forall flowing evs -> decodes (t_info t) (t_rd t ++ received evs) ps i' tail ->
  forall k, length evs + length ps + 1 <= k ->
  (forall e, e <> EWouldBlock -> message i' tail = Err e ->
     exists t' evs', drive k t evs = (ps, Failed e, t', evs')) /\
  (forall q, message i' tail = Panic q -> exists t' evs', drive k t evs = (ps, Crashed q, t', evs')).
Proof.
  intros So F D k Hk. split; intros x.
  - intros NW M.
    destruct (drive_fails lz4_decompress tz_known _ evs ps t [] i' tail (le_n _) So F I D (Failed x) (conj NW M)) as (t' & evs' & H).
    rewrite app_nil_r in H. eauto.
  - intros M.
    destruct (drive_fails lz4_decompress tz_known _ evs ps t [] i' tail (le_n _) So F I D (Crashed x) M) as (t' & evs' & H).
    rewrite app_nil_r in H. eauto.
Qed.

(** The client never waits with a complete message, or an error, in its buffer; and it waits only
    after the socket itself said that it is not ready, having taken all that was there. *)
Theorem c26_not_stuck t evs t' evs' :
  healthy t -> poll t evs = (PPending, t', evs') ->
  unfinished (t_info t') (t_rd t') /\
  exists ds, Forall giving ds /\ (evs = ds /\ evs' = [] \/ evs = ds ++ RPending :: evs').
Proof. apply poll_pending. Qed.

Theorem c26_new compress : healthy (transport_new compress).
Proof. split; [reflexivity|discriminate]. Qed.

(** ** C27 *)

(** Exactly the messages that are complete at the last moment of waiting before the close are
    delivered. Missing for the full property: messages completed by bytes that arrive together
    with the close ([c27_refuted]). *)
Theorem c27_exact_partial t pre last rest ps i' tail :
  healthy t -> Forall flowing pre -> Forall giving last ->
  decodes (t_info t) (t_rd t ++ received pre) ps i' tail -> unfinished i' tail ->
  forall k, length pre + length ps + 2 <= k ->
  exists t', drive k t (pre ++ RPending :: last ++ REof :: rest) = (ps, Closed, t', REof :: rest).
Proof.
  intros So F G D U k Hk.
  destruct (drive_flow lz4_decompress tz_known _ pre ps t (RPending :: last ++ REof :: rest) i' tail (le_n _) So F I D U)
    as (k0 & t' & S' & R & Inf & B & H).
  specialize (H (k - k0)). replace (k0 + (k - k0)) with k in H by lia. cbn [pop] in H.
  assert (U' : unfinished (t_info t') (t_rd t')) by (rewrite R, Inf; exact U).
  destruct (poll_close lz4_decompress tz_known t' last rest S' U' G) as (t2 & P).
  destruct (k - k0) as [|m] eqn:E; [lia|].
  assert (C : drive (S m) t' (last ++ REof :: rest) = ([], Closed, t2, REof :: rest))
    by (cbn [SpecTransport.drive]; rewrite P; reflexivity).
  rewrite C, app_nil_r in H. eauto.
Qed.
End Delivery.

Section Sending.
Variable lz4_compress : bytes -> bytes.
Variable show_float : Z -> bytes.
Notation encode := (encode_command lz4_compress show_float).
Notation all_bytes := (all_bytes lz4_compress show_float).
Notation drive_send := (drive_send lz4_compress show_float).

(** ** C28 *)

(** Whatever the socket accepts: the bytes it has taken, followed by the rest of the buffer, are
    what was in the buffer and then the bytes of the commands taken from the queue, in order. The
    commands left are the rest of the queue. When sending reports success nothing is left. When it
    fails other than by the socket, the cause is the encoding of the one command that is gone from
    the queue; everything before it has been sent. *)
Theorem c28_sending k : forall t evs out e t' evs',
  drive_send k t evs = (out, e, t', evs') ->
  exists good bad g, all_bytes good g /\ out ++ t_wr t' = t_wr t ++ g /\ t_cmds t = good ++ bad ++ t_cmds t' /\
    match e with
    | SGoing => bad = []
    | SDone => bad = [] /\ t_wr t' = [] /\ t_cmds t' = []
    | SFailed x => (bad = [] /\ x = EIo) \/ (exists c, bad = [c] /\ encode c = Err x /\ t_wr t' = [])
    | SCrashed p => exists c, bad = [c] /\ encode c = Panic p /\ t_wr t' = []
    end.
Proof.
  induction k as [|k IH]; intros t evs out e t' evs' H.
  - injection H as <- <- <- <-. exists [], [], []. rewrite app_nil_r. split; [apply all_bytes_nil|auto].
  - cbn [SpecTransport.drive_send] in H.
    destruct (send lz4_compress show_float evs t) as [[[r t1] evs1] out1] eqn:E.
    pose proof (send_spec lz4_compress show_float _ _ _ _ _ _ E) as S. destruct r as [[x|x|x]|].
    + injection H as <- <- <- <-. destruct S as ((good & g & A & B & C) & D). exists good, [], g. auto.
    + injection H as <- <- <- <-. destruct S as [(X & good & g & A & B & C)|(c & X & (good & g & A & B & C) & D)].
      * exists good, [], g. auto 6.
      * exists good, [c], g. split; [exact A|]. split; [exact B|]. split; [exact C|]. right. exists c. auto.
    + injection H as <- <- <- <-. destruct S as (c & X & (good & g & A & B & C) & D).
      exists good, [c], g. split; [exact A|]. split; [exact B|]. split; [exact C|]. exists c. auto.
    + destruct (drive_send k t1 evs1) as [[[out2 e2] t2] evs2] eqn:E2. injection H as <- <- <- <-.
      destruct (IH _ _ _ _ _ _ E2) as (good2 & bad2 & g2 & A2 & B2 & C2 & D2).
      destruct S as ((good & g & A & B & C) & _).
      exists (good ++ good2), bad2, (g ++ g2). split; [apply all_bytes_app; assumption|].
      split; [rewrite <- app_assoc, B2, app_assoc, B, app_assoc; reflexivity|].
      split; [rewrite C, C2; cbn [app]; rewrite <- app_assoc; reflexivity|exact D2].
Qed.

(** In particular, with commands that can be encoded: the bytes taken are a prefix of all bytes,
    and all of them once sending completes. *)
Theorem c28_prefix k t evs out e t' evs' l :
  all_bytes (t_cmds t) l -> drive_send k t evs = (out, e, t', evs') ->
  (exists rest, t_wr t ++ l = out ++ rest) /\ (e = SDone -> out = t_wr t ++ l) /\
  (e = SGoing \/ e = SDone \/ e = SFailed EIo).
Proof.
  intros (bs & F & ->) H. destruct (c28_sending _ _ _ _ _ _ _ H) as (good & bad & g & (gs & Fg & ->) & B & C & D).
  rewrite C in F. apply Forall2_app_inv_l in F. destruct F as (b1 & b2 & F1 & F2 & ->).
  assert (gs = b1) as <-.
  { clear -Fg F1. revert b1 F1. induction Fg as [|c x cs xs E Fg IH]; intros b1 F1; inversion F1; subst; [reflexivity|].
    f_equal; [congruence|]. apply IH. assumption. }
  apply Forall2_app_inv_l in F2. destruct F2 as (b3 & b4 & F3 & F4 & ->).
  assert (NB : forall c r, bad = [c] -> encode c = r -> exists x, r = Ok x).
  { intros c r -> <-. inversion F3 as [|? x ? ? Ex]; subst. exists x. exact Ex. }
  rewrite !concat_app. split; [|split].
  - exists (t_wr t' ++ concat b3 ++ concat b4). rewrite !app_assoc. rewrite B. reflexivity.
  - intros ->. destruct D as (-> & W & Cm). inversion F3; subst. rewrite Cm in F4. inversion F4; subst.
    rewrite W, app_nil_r in B. rewrite B. cbn [concat app]. rewrite app_nil_r. reflexivity.
  - destruct e as [| |x|p]; auto.
    + destruct D as [(_ & ->)|(c & X & Y & _)]; [auto|]. destruct (NB c _ X Y) as (x0 & Z). discriminate Z.
    + destruct D as (c & X & Y & _). destruct (NB c _ X Y) as (x0 & Z). discriminate Z.
Qed.

(** And it does complete: when the socket, between moments of waiting, accepts something often
    enough. *)
Lemma send_progress evs : forall t l, Forall accepting evs -> all_bytes (t_cmds t) l ->
  length (t_wr t) + length l + length (t_cmds t) <= accepts evs ->
  exists r t' evs' out, send lz4_compress show_float evs t = (r, t', evs', out) /\
    (r = PReady (Ok tt) \/
     r = PPending /\ length evs' < length evs /\ Forall accepting evs' /\
     exists l', all_bytes (t_cmds t') l' /\ length (t_wr t') + length l' + length (t_cmds t') <= accepts evs').
Proof.
  induction evs as [|e evs IH]; intros t l F A B.
  - cbn in B. destruct (t_wr t) eqn:Ew; [|cbn in B; lia]. destruct (t_cmds t) eqn:Ec; [|cbn in B; lia].
    cbn [send]. rewrite Ew, Ec. do 4 eexists. split; [reflexivity|]. auto.
  - inversion F as [|? ? Fe Fs]; subst.
    assert (FL : forall u l, all_bytes (t_cmds u) l ->
      (t_wr u <> [] /\ length (t_wr u) + length l + length (t_cmds u) <= accepts (e :: evs)) \/
      length (t_wr u) + length l + length (t_cmds u) + 1 <= accepts (e :: evs) ->
      exists r t' evs' out,
      (match e with
       | WAccept n => let '(r, t', evs'', out) := send lz4_compress show_float evs (set_out u (skipn n (t_wr u)) (t_cmds u)) in
                      (r, t', evs'', firstn n (t_wr u) ++ out)
       | WPending => (PPending, u, evs, [])
       | WErr => (PReady (Err EIo), u, evs, [])
       end) = (r, t', evs', out) /\
      (r = PReady (Ok tt) \/
       r = PPending /\ length evs' < length (e :: evs) /\ Forall accepting evs' /\
       exists l', all_bytes (t_cmds t') l' /\ length (t_wr t') + length l' + length (t_cmds t') <= accepts evs')).
    { intros u l0 A0 B0. destruct e as [n| |]; [| |contradiction].
      - cbn [accepting] in Fe. unfold accepts in B0. cbn [filter length] in B0. fold (accepts evs) in B0.
        destruct (IH (set_out u (skipn n (t_wr u)) (t_cmds u)) l0) as (r & t' & evs' & out & E & C); auto.
        { cbn [set_out t_wr t_cmds]. rewrite skipn_length.
          destruct B0 as [[NE B0]|B0]; [|lia]. destruct (t_wr u); [congruence|]. cbn [length] in *. lia. }
        rewrite E. do 4 eexists. split; [reflexivity|]. destruct C as [C|(C1 & C2 & C3 & C4)]; [auto|right].
        split; [exact C1|]. split; [cbn [length]; lia|]. auto.
      - do 4 eexists. split; [reflexivity|]. right. split; [reflexivity|]. split; [cbn [length]; lia|]. split; [exact Fs|].
        exists l0. split; [exact A0|]. unfold accepts in *. cbn [filter] in B0. destruct B0 as [[_ B0]|B0]; lia. }
    cbn [send]. destruct (t_wr t) as [|b wr] eqn:Ew.
    + destruct (t_cmds t) as [|c cs] eqn:Ec.
      * do 4 eexists. split; [reflexivity|]. auto.
      * destruct A as (bs & Fb & ->). inversion Fb as [|? b ? bs' Eb Fb']; subst. rewrite Eb.
        destruct (FL (set_out t b cs) (concat bs')) as (r & t' & evs' & out & E & C).
        { exists bs'. split; [exact Fb'|reflexivity]. }
        { right. cbn [set_out t_wr t_cmds]. cbn [concat length] in B. rewrite app_length in B. lia. }
        do 4 eexists. split; [exact E|]. exact C.
    + destruct (FL t l A) as (r & t' & evs' & out & E & C).
      { left. rewrite Ew. split; [discriminate|exact B]. }
      rewrite Ew in E. do 4 eexists. split; [exact E|]. exact C.
Qed.
Theorem c28_completes : forall evs t l, Forall accepting evs -> all_bytes (t_cmds t) l ->
  length (t_wr t) + length l + length (t_cmds t) <= accepts evs ->
  exists t' evs', drive_send (S (length evs)) t evs = (t_wr t ++ l, SDone, t', evs').
Proof.
  intros evs t l F A B.
  assert (H : forall n evs t l, length evs <= n -> Forall accepting evs -> all_bytes (t_cmds t) l ->
    length (t_wr t) + length l + length (t_cmds t) <= accepts evs ->
    exists out t' evs', drive_send (S n) t evs = (out, SDone, t', evs')).
  { clear. induction n as [|n IH]; intros evs t l Hn F A B;
    destruct (send_progress evs t l F A B) as (r & t' & evs' & out & E & C);
    cbn [SpecTransport.drive_send]; rewrite E; (destruct C as [->|(-> & L & F' & l' & A' & B')]; [eauto|]).
    - lia.
    - destruct (IH evs' t' l') as (out' & t2 & evs2 & H); auto; [lia|]. cbn [SpecTransport.drive_send] in H. rewrite H.
      eauto. }
  destruct (H (length evs) evs t l (le_n _) F A B) as (out & t' & evs' & E).
  destruct (c28_prefix _ _ _ _ _ _ _ _ A E) as (_ & D & _). rewrite (D eq_refl) in E. eauto.
Qed.
End Sending.

(** A server that refuses the connection sends an exception and closes. If both are there when the
    client looks, the exception is lost. *)
Theorem c27_refuted :
  exists (t : transport) evs p i' tail,
    healthy lz4_decode (fun _ => true) t /\
    decodes lz4_decode (fun _ => true) (t_info t) (t_rd t ++ received evs) [p] i' tail /\
    evs = [RData (received evs)] /\
    forall k t' evs', drive lz4_decode (fun _ => true) k t (evs ++ [REof]) <> ([p], Closed, t', evs').
Proof.
  pose (bs := [2; 4; 2; 0; 0; 1; 65; 1; 66; 0]%N).
  exists (transport_new false), [RData bs], (PkException (mk_server_error 516 [65%N] [66%N] [])).
  exists (mk_tinfo None 0 false), []. split; [apply c26_new|]. split.
  - cbn [transport_new t_info t_rd app]. change (received [RData bs]) with (bs ++ []). apply dec_cons.
    + discriminate.
    + vm_compute. reflexivity.
    + apply dec_nil.
  - split; [reflexivity|]. intros k t' evs' H. destruct k as [|k]; [discriminate H|].
    cbn [drive] in H.
    assert (P : exists x, poll_next lz4_decode (fun _ => true) (transport_new false) ([RData bs] ++ [REof]) = (PReady None, x, [REof]))
      by (eexists; vm_compute; reflexivity).
    destruct P as (x & P). rewrite P in H. discriminate H.
Qed.

Print Assumptions c26_delivery.
Print Assumptions c26_errors.
Print Assumptions c26_not_stuck.
Print Assumptions c26_new.
Print Assumptions c27_exact_partial.
Print Assumptions c27_refuted.
Print Assumptions c28_sending.
Print Assumptions c28_prefix.
Print Assumptions c28_completes.

(** ** Cases *)

(** A greeting, progress (with the fields of the revision just learnt), a pong and an unfinished
    exception; in reads that cut the messages. *)
Definition sample_stream : bytes := sample_hello ++ [3; 1; 2; 3; 4; 5]%N ++ [4%N] ++ [2; 4; 2]%N.
Definition sample_packets : list packet :=
  [PkHello (mk_server_info (str "ClickHouse") 54461 3 20 (str "UTC") [104; 49]%N 7);
   PkProgress (mk_progress 1 2 3 4 5); PkPong].
Definition sample_reads : list rd_event :=
  [RPending; RData (firstn 5 sample_stream); RData (firstn 2 (skipn 5 sample_stream)); RPending; RPending;
   RData (firstn 26 (skipn 7 sample_stream)); RPending; RData (skipn 33 sample_stream)].
Example c26_case :
  Forall flowing sample_reads /\ received sample_reads = sample_stream /\
  decodes lz4_decode (fun _ => true) (mk_tinfo None 0 false) sample_stream sample_packets
    (mk_tinfo (Some (str "UTC")) 54461 false) [2; 4; 2]%N /\
  unfinished lz4_decode (fun _ => true) (mk_tinfo (Some (str "UTC")) 54461 false) [2; 4; 2]%N /\
  fst (fst (fst (drive lz4_decode (fun _ => true) 12 (transport_new false) sample_reads))) = sample_packets.
Proof.
  split; [repeat constructor; discriminate|]. split; [vm_compute; reflexivity|].
  split; [|split; vm_compute; reflexivity].
  unfold sample_stream, sample_packets. apply dec_cons; [discriminate|vm_compute; reflexivity|].
  apply (dec_cons _ _ _ [3; 1; 2; 3; 4; 5]%N); [discriminate|vm_compute; reflexivity|].
  apply (dec_cons _ _ _ [4%N]); [discriminate|vm_compute; reflexivity|]. apply dec_nil.
Qed.
Example c27_case :
  fst (drive lz4_decode (fun _ => true) 20 (transport_new false) (sample_reads ++ RPending :: [RData [4%N]] ++ [REof])) =
  (sample_packets, Closed, mk_transport true ([2; 4; 2; 4])%N true [] [] (mk_tinfo (Some (str "UTC")) 54461 false) false).
Proof. vm_compute. reflexivity. Qed.
Example c28_case :
  let t := mk_transport false [] false [9; 9]%N [CmdPing; CmdCancel] (mk_tinfo None 0 false) false in
  let evs := [WAccept 1; WPending; WAccept 1; WPending; WAccept 5; WAccept 1; WPending; WAccept 2; WAccept 3] in
  all_bytes lz4_store (fun _ => []) (t_cmds t) [4; 3]%N /\ Forall accepting evs /\
  length (t_wr t) + length [4; 3]%N + length (t_cmds t) <= accepts evs /\
  fst (fst (drive_send lz4_store (fun _ => []) 10 t evs)) = ([9; 9; 4; 3]%N, SDone) /\
  fst (fst (fst (drive_send lz4_store (fun _ => []) 1 t evs))) = [9]%N.
Proof.
  cbv zeta. split; [exists [[4]; [3]]%N; split; [repeat constructor|reflexivity]|].
  split; [repeat constructor|]. repeat split; vm_compute; reflexivity || lia.
Qed.
