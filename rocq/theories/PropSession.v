(** C100: a whole session on a socket reports what the messages of the answers make it report. *)
From Coq Require Import String.
From Verif Require Import Base Bytes Reader ReaderProofs Wire Types Text Block Packets Casts Transport SpecTransport TransportProofs
  PropTransport Wired SpecWired WiredProofs Session SpecSession.
From Verif Require Import Client SpecClient ClientProofs.
From Verif Require PropWired PropOutcome PropClient LoadPanicProofs.
Open Scope list_scope.
Open Scope nat_scope.

Section Streams.
Variable lz4_decompress : bytes -> N -> option bytes.
Variable tz_known : bytes -> bool.
Notation message i := (run (parse_packet lz4_decompress tz_known i)).
Notation stream_of := (stream_of lz4_decompress tz_known).

Lemma stream_app en i' l' i l ms : stream_of (Some (i', l')) i l ms -> forall b ms2,
  stream_of en i' (l' ++ b) ms2 -> stream_of en i (l ++ b) (ms ++ ms2).
Proof.
  induction 1 as [i l M E|i l e N M E|i l q M E|i u l p ms M S IH]; intros b ms2 H; try discriminate E.
  - injection E as -> ->. exact H.
  - cbn [app]. rewrite <- app_assoc. apply so_message; [|apply IH; exact H].
    pose proof (partial_result (parse_packet lz4_decompress tz_known i) (u ++ l) b) as Q. rewrite M, <- app_assoc in Q. exact Q.
Qed.
Lemma message_shorter i s p l : message i s = Ok (p, l) -> length l < length s.
Proof.
  unfold parse_packet. rewrite run_bind. destruct (run read_uvarint s) as [[k r]|e|q] eqn:E; try discriminate.
  intros H. apply LoadPanicProofs.varint_shorter in E. apply LoadPanicProofs.run_shorter in H. lia.
Qed.
Lemma stream_length place i l ms : stream_of (Some place) i l ms -> length ms <= length l /\ PropWired.readable ms.
Proof.
  unfold PropWired.readable.
  induction 1 as [i l M E|i l e N M E|i l q M E|i u l p ms M S (IH & F)]; try discriminate E.
  - cbn. split; [lia|constructor].
  - apply message_shorter in M. cbn [length]. split; [lia|]. constructor; eauto.
Qed.

End Streams.
Lemma received_app a b : received (a ++ b) = received a ++ received b.
Proof. unfold received. rewrite map_app, concat_app. reflexivity. Qed.
Lemma arrives_length evs bs closes : arrives evs bs closes -> length bs <= length (received evs).
Proof. intros [evs0 F|pre last rest F G|last rest G]; [lia|rewrite received_app, app_length; lia|cbn; lia]. Qed.
Lemma arrives_more evs bs b evs2 closes : arrives evs bs false -> brings evs2 b closes -> arrives (evs ++ evs2) (bs ++ b) closes.
Proof.
  intros A B. inversion A as [evs0 F| |]; subst. destruct B as [evs2 F2|pre last rest F2 G].
  - rewrite <- received_app. constructor. apply Forall_app. auto.
  - rewrite app_assoc, <- received_app. constructor; [apply Forall_app; auto|exact G].
Qed.
Lemma arrives_after evs bs evs2 : arrives evs bs true -> arrives (evs ++ evs2) bs true.
Proof.
  intros A. inversion A as [|pre last rest F G|last rest G]; subst; rewrite <- app_assoc; cbn [app]; try rewrite <- app_assoc; cbn [app];
    constructor; assumption.
Qed.

Section Sessions.
Variable lz4_compress : bytes -> bytes.
Variable show_float : Z -> bytes.
Variable lz4_decompress : bytes -> N -> option bytes.
Variable tz_known : bytes -> bool.
Variable parse_ipv4 parse_ipv6 : bytes -> option bytes.
Variable server : nat -> list cmd -> reply.
Variable fresh : nat -> res client.
Variable opts : copts.
Variable id : nat.
Variable network : list cmd -> list rd_event * list wr_event.
Variable knows : list cmd -> tinfo * bytes.
Hypothesis faithful : carried lz4_compress show_float lz4_decompress tz_known server id network knows.
Notation encode := (encode_command lz4_compress show_float).
Notation linked := (linked lz4_decompress tz_known id knows).
Notation sendable := (sendable lz4_compress show_float).
Notation corresponds := (corresponds lz4_decompress tz_known).
Notation hand := (hand network).
Notation ask := (ask lz4_compress show_float lz4_decompress tz_known network).
Notation serves := (PropWired.serves lz4_compress show_float lz4_decompress tz_known server).
Notation asked := PropWired.asked.

(** One command: handing it over is an exchange. *)
Lemma hand_serves s t c m bs : linked s t c -> encode m = Ok bs ->
  exists ms closes place, serves (Some place) t (hand (snd s) m (fst s)) c m bs ms closes /\
    (cn_closed (asked c m ms closes) = false -> place = knows (snd s ++ [m])) /\
    length (cn_in (asked c m ms closes)) + 3 <= steps t (hand (snd s) m (fst s)).
Proof.
  intros (Ei & El & place0 & Co & Pl) Eb. destruct (faithful (snd s) m bs Eb) as (ms & closes & b & Sv & Br & St & Fa & Fn).
  destruct Co as (C1 & C2 & C3 & C4 & C5 & C6 & C7 & bs0 & Ar & St0).
  set (place := if cn_closed c then place0 else knows (snd s ++ [m])). exists ms, closes, place.
  set (sk := hand (snd s) m (fst s)).
  assert (Co : corresponds (Some place) t (s_reads sk) (asked c m ms closes)).
  { unfold SpecWired.corresponds, asked. cbn [cn_queue cn_late cn_inconsistent cn_closed cn_in].
    repeat (split; [assumption || reflexivity|]). unfold sk, Session.hand, place. cbn [s_reads].
    destruct (cn_closed c); cbn [orb].
    - exists bs0. split; [apply arrives_after; exact Ar|exact St0].
    - exists (bs0 ++ b). split; [apply arrives_more; assumption|]. rewrite app_assoc.
      rewrite (Pl eq_refl) in St0. destruct (knows (snd s)) as [i' l']. exact (stream_app _ _ _ _ _ _ _ _ St0 _ _ St). }
  split; [|split].
  - repeat (split; [assumption|]). split; [rewrite Ei, El; exact Sv|].
    split; [exact Fa|]. split; [exact Fn|exact Co].
  - unfold asked, place. cbn [cn_closed]. destruct (cn_closed c); [discriminate|reflexivity].
  - destruct Co as (_ & _ & _ & _ & _ & _ & _ & bs1 & Ar1 & St1). destruct (stream_length _ _ _ _ _ _ St1) as (L & _).
    apply arrives_length in Ar1. unfold steps. rewrite app_length in L. lia.
Qed.

(** A step of the one side and a step of the other. *)
Notation wrote := (SpecSession.wrote lz4_compress show_float).
Lemma wrote_refl s : wrote s s.
Proof. exists [], []. rewrite !app_nil_r. repeat split. exists []. split; [constructor|reflexivity]. Qed.
Lemma wrote_trans s s' s2 : wrote s s' -> wrote s' s2 -> wrote s s2.
Proof.
  intros (cs & bs & A & (x & Fx & ->) & C) (cs' & bs' & A' & (y & Fy & ->) & C'). exists (cs ++ cs'), (concat x ++ concat y).
  rewrite A', C', A, C, !app_assoc. repeat split. exists (x ++ y). rewrite concat_app. split; [apply Forall2_app; assumption|reflexivity].
Qed.
Definition goes {A B} (R : wstate -> A -> B -> Prop) (s : wstate) (x : res A * wstate) (y : res B) : Prop :=
  wrote s (snd x) /\
  match fst x, y with
  | Ok a, Ok b => R (snd x) a b
  | Err e, Err e' => e = e'
  | Panic p, Panic p' => p = p'
  | _, _ => False
  end.
Definition simulates {A B} (R : wstate -> A -> B -> Prop) (s : wstate) (x : W A) (y : res B) : Prop :=
  sendable (snd (snd (x s))) -> goes R s (x s) y.
Definition grows {A} (x : W A) : Prop := forall s, exists l, snd (snd (x s)) = snd s ++ l.
Lemma grows_ret {A} (r : res A) : grows (wret r).
Proof. intros s. exists []. cbn. rewrite app_nil_r. reflexivity. Qed.
Lemma grows_bind {A B} (x : W A) (f : A -> W B) : grows x -> (forall a, grows (f a)) -> grows (wbind x f).
Proof.
  intros X F s. unfold wbind. destruct (X s) as (l & E). destruct (x s) as [[a|e|p] s']; cbn [snd] in *; eauto.
  destruct (F a s') as (l' & E'). rewrite E', E, <- app_assoc. eauto.
Qed.
Lemma grows_ask {A} (on : A -> packet -> option transport -> A + error) rb t m a : grows (ask on rb t m a).
Proof.
  intros s. unfold Session.ask. destruct (wconsume _ _ _ _ _ _ _ _ _) as [r sk']. cbn [snd]. eauto.
Qed.
Lemma sim_ret {A B} (R : wstate -> A -> B -> Prop) s (r : res A) (y : res B) :
  match r, y with Ok a, Ok b => R s a b | Err e, Err e' => e = e' | Panic p, Panic p' => p = p' | _, _ => False end ->
  simulates R s (wret r) y.
Proof. intros H _. split; [apply wrote_refl|exact H]. Qed.
Lemma sim_bind {A B A' B'} (R : wstate -> A -> B -> Prop) (R' : wstate -> A' -> B' -> Prop) s x y (f : A -> W A') (g : B -> res B') :
  simulates R s x y -> (forall a, grows (f a)) -> (forall a b s', R s' a b -> simulates R' s' (f a) (g b)) ->
  simulates R' s (wbind x f) (do b <- y; g b).
Proof.
  intros X G F Se. unfold wbind in *. unfold simulates, goes in *. destruct (x s) as [[a|e|p] s'] eqn:E; cbn [snd fst] in *.
  - destruct (G a s') as (l & El). assert (S' : sendable (snd s')).
    { unfold SpecSession.sendable in *. rewrite El in Se. apply Forall_app in Se. tauto. }
    destruct (X S') as (W & H). destruct y as [b|e|p]; try contradiction. cbn [rbind].
    destruct (F a b s' H Se) as (W' & H'). split; [exact (wrote_trans _ _ _ W W')|exact H'].
  - destruct (X Se) as (W & H). destruct y; try contradiction. subst. split; [exact W|reflexivity].
  - destruct (X Se) as (W & H). destruct y; try contradiction. subst. split; [exact W|reflexivity].
Qed.

Lemma sim_pure {A A' B'} (R' : wstate -> A' -> B' -> Prop) s (r : res A) (f : A -> W A') (g : A -> res B') :
  (forall a, r = Ok a -> simulates R' s (f a) (g a)) -> simulates R' s (wbind (wret r) f) (do a <- r; g a).
Proof.
  intros H. destruct r as [a|e|p]; [exact (H a eq_refl)| |]; intros _; (split; [apply wrote_refl|reflexivity]).
Qed.

(** Asking, and any loop over the answer. *)
Definition both {A B} (R0 : A -> B -> Prop) (x : option transport * A) (y : option conn * B) : Prop :=
  fst x = None /\ fst y = None /\ R0 (snd x) (snd y).
Definition held (s : wstate) (h : option transport) (h' : option conn) : Prop :=
  match h, h' with Some t, Some c => linked s t c | None, None => True | _, _ => False end.
Lemma sim_ask {A B} (on : A -> packet -> option transport -> A + error) (on' : B -> packet -> option conn -> B + error)
    (R0 : A -> B -> Prop) (R1 : wstate -> A -> B -> Prop) :
  (forall s a b, R0 a b -> R1 s a b) ->
  (forall a b p, R0 a b -> match on a p None, on' b p None with inl x, inl y => R0 x y | inr e, inr e' => e = e' | _, _ => False end) ->
  (forall a b p t s c, R0 a b -> linked s t c ->
     match on a p (Some t), on' b p (Some c) with inl x, inl y => R1 s x y | inr e, inr e' => e = e' | _, _ => False end) ->
  forall s t c m rb a b, linked s t c -> R0 a b ->
  simulates R1 s (ask on rb t m a)
    (drain lz4_compress show_float server on' (mk_pstream (ps_inner (call c m)) (ps_state (call c m)) rb) b).
Proof.
  intros H1 H2 H3 s t c m rb a b L HR Se.
  assert (exists bs, encode m = Ok bs) as (bs & Eb).
  { unfold Session.ask in Se. destruct (wconsume _ _ _ _ _ _ _ _ _) as [r sk']. cbn [snd] in Se.
    apply Forall_app in Se. destruct Se as (_ & Se). inversion Se; assumption. }
  destruct (hand_serves s t c m bs L Eb) as (ms & closes & place & Sv & Pl & Hn).
  set (sk := hand (snd s) m (fst s)) in *. set (c1 := asked c m ms closes) in *.
  set (Q := fun c' => cn_id c' = id /\ cn_log c' = snd s ++ [m] /\ cn_closed c' = cn_closed c1).
  destruct (PropWired.exchange_loop lz4_compress show_float lz4_decompress tz_known server (Some place) on on' R0
    (fun evs x y => forall sk', s_reads sk' = evs -> R1 (sk', snd s ++ [m]) x y) Q) with
    (t := t) (sk := sk) (c := c) (m := m) (bs := bs) (ms := ms) (closes := closes) (rb := rb) (n := steps t sk) (a := a) (b := b)
    as (So & X); auto.
  { intros a0 b0 p t0 evs c0 R (Q1 & Q2 & Q3) Co.
    assert (Y : forall sk', s_reads sk' = evs ->
      match on a0 p (Some t0), on' b0 p (Some c0) with
      | inl x, inl y => R1 (sk', snd s ++ [m]) x y | inr e, inr e' => e = e' | _, _ => False end).
    { intros sk' <-. apply H3; [exact R|]. split; [exact Q1|]. split; [exact Q2|]. exists place. split; [exact Co|].
      rewrite Q3. exact Pl. }
    destruct (on a0 p (Some t0)) as [x|e], (on' b0 p (Some c0)) as [y|e']; auto;
      exact (Y (mk_socket evs [] []) eq_refl). }
  { destruct L as (Ei & El & _). split; [exact Ei|]. split; [|reflexivity]. cbn. rewrite El. reflexivity. }
  unfold Session.ask, goes. fold sk.
  destruct (wconsume lz4_compress show_float lz4_decompress tz_known on (steps t sk)
    (mk_wstream (ws_inner (wcall t m)) (ws_state (wcall t m)) rb) sk a) as [r sk']. cbn [fst snd] in *. split.
  - exists [m], bs. split; [reflexivity|]. split; [exists [bs]; split; [repeat constructor; exact Eb|symmetry; apply app_nil_r]|].
    exact So.
  - unfold same_end in X. destruct r as [x|e|p], (drain _ _ _ _ _ _) as [y|e'|p']; auto.
Qed.

Definition gone (h : option transport) (h' : option conn) : Prop := h = None /\ h' = None.
Lemma gone_held s h h' : gone h h' -> held s h h'.
Proof. intros (-> & ->). exact I. Qed.
Lemma sim_ask_handle (on : option transport -> packet -> option transport -> option transport + error)
    (on' : option conn -> packet -> option conn -> option conn + error) :
  (forall p, match on None p None, on' None p None with inl x, inl y => gone x y | inr e, inr e' => e = e' | _, _ => False end) ->
  (forall p t s c, linked s t c ->
     match on None p (Some t), on' None p (Some c) with inl x, inl y => held s x y | inr e, inr e' => e = e' | _, _ => False end) ->
  forall s t c m, linked s t c ->
  simulates held s (ask on false t m None) (drain lz4_compress show_float server on' (call c m) None).
Proof.
  intros H2 H3 s t c m L. change (call c m) with (mk_pstream (ps_inner (call c m)) (ps_state (call c m)) false).
  apply (sim_ask on on' gone held gone_held); auto; try (split; reflexivity).
  - intros a b p (-> & ->). apply H2.
  - intros a b p t0 s0 c0 (-> & ->). apply H3.
Qed.
Ltac grow := repeat (first [apply grows_bind; [|intros ?]|apply grows_ret|apply grows_ask]).

Notation sclear := (sclear lz4_compress show_float lz4_decompress tz_known network).
Lemma grows_clear t : grows (sclear t).
Proof. unfold Session.sclear. destruct (negb (t_inconsistent t)); grow. Qed.
Lemma linked_consistent s t c : linked s t c -> t_inconsistent t = cn_inconsistent c.
Proof. intros (_ & _ & p & (_ & _ & _ & _ & _ & _ & E & _) & _). exact E. Qed.
Lemma linked_set s t c b : linked s t c -> linked s (Transport.set_inconsistent t b) (Client.set_inconsistent c b).
Proof.
  intros (A & B & p & (C1 & C2 & C3 & C4 & C5 & C6 & C7 & C8) & D). split; [exact A|]. split; [exact B|]. exists p.
  split; [|exact D]. unfold SpecWired.corresponds. cbn. auto 10.
Qed.
Lemma sim_unwrap s (h : option transport) (h' : option conn) : held s h h' -> simulates linked s (wret (or_panic PUnwrap h)) (or_panic PUnwrap h').
Proof. intros H. apply sim_ret. destruct h, h'; cbn [held or_panic] in *; auto; contradiction. Qed.
Lemma sim_clear s t c : linked s t c -> simulates linked s (sclear t) (clear lz4_compress show_float server c).
Proof.
  intros L. unfold Session.sclear, clear. rewrite (linked_consistent _ _ _ L). destruct (negb (cn_inconsistent c)).
  { apply sim_ret. exact L. }
  apply (sim_bind held linked).
  - apply sim_ask_handle; [| |exact L].
    + intros p. destruct p; cbn; auto; split; reflexivity.
    + intros p t0 s0 c0 L0. destruct p; cbn; auto.
  - intros h. grow.
  - intros h h' s' H. apply (sim_bind linked linked); [exact (sim_unwrap _ _ _ H)|intros ?; grow|].
    intros t' c' s2 L'. apply sim_ret. apply linked_set, L'.
Qed.

Notation sping := (sping lz4_compress show_float lz4_decompress tz_known network).
Notation sexecute := (sexecute lz4_compress show_float lz4_decompress tz_known network).
Notation sread_block := (sread_block lz4_compress show_float lz4_decompress tz_known network).
Notation sinsert_query := (sinsert_query lz4_compress show_float lz4_decompress tz_known network).
Notation sinsert_block := (sinsert_block lz4_compress show_float lz4_decompress tz_known network).
Notation sinsert_tail := (sinsert_tail lz4_compress show_float lz4_decompress tz_known network).
Notation sinsert := (sinsert lz4_compress show_float lz4_decompress tz_known parse_ipv4 parse_ipv6 network).
Lemma sim_ping s t c : linked s t c ->
  simulates linked s (sping t)
    (do c' <- clear lz4_compress show_float server c;
     do h <- drain lz4_compress show_float server on_ping (call c' CmdPing) None;
     match h with None => Err EBroken | Some t => Ok t end).
Proof.
  intros L. apply (sim_bind linked linked); [exact (sim_clear _ _ _ L)|intros ?; grow|].
  intros t' c' s' L'. apply (sim_bind held linked); [|intros ?; grow|].
  - apply sim_ask_handle; [| |exact L'].
    + intros p. destruct p; cbn; auto; split; reflexivity.
    + intros p t0 s0 c0 L0. destruct p; cbn; auto.
  - intros h h' s2 H. apply sim_ret. destruct h, h'; cbn in *; auto; contradiction.
Qed.
Lemma sim_execute q cx s t c : linked s t c ->
  simulates linked s (sexecute q cx t)
    (do c' <- clear lz4_compress show_float server c;
     do h <- drain lz4_compress show_float server on_execute (call c' (CmdQuery q cx)) None;
     or_panic PUnwrap h).
Proof.
  intros L. apply (sim_bind linked linked); [exact (sim_clear _ _ _ L)|intros ?; grow|].
  intros t' c' s' L'. apply (sim_bind held linked); [|intros ?; grow|].
  - apply sim_ask_handle; [| |exact L'].
    + intros p. destruct p; cbn; auto; split; reflexivity.
    + intros p t0 s0 c0 L0. destruct p; cbn; auto.
  - intros h h' s2 H. apply sim_unwrap. exact H.
Qed.
Lemma sim_read_block m s t c : linked s t c ->
  simulates (fun s x y => linked s (fst x) (fst y) /\ snd x = snd y) s (sread_block m t)
    (read_block lz4_compress show_float server (call c m)).
Proof.
  intros L. unfold Session.sread_block, read_block.
  apply (sim_bind (fun s (x : option transport * option block) (y : option conn * option block) => held s (fst x) (fst y) /\ snd x = snd y) _); [|intros ?; grow|].
  - apply (sim_ask on_wread_block on_read_block
      (fun (x : option transport * option block) (y : option conn * option block) => gone (fst x) (fst y) /\ snd x = snd y)); [| | |exact L|repeat split].
    + intros s0 a b (G & E). split; [apply gone_held, G|exact E].
    + intros [a1 a2] [b1 b2] p ((G1 & G2) & E). cbn [fst snd] in *. subst. destruct p; cbn; auto; repeat split.
    + intros [a1 a2] [b1 b2] p t0 s0 c0 ((G1 & G2) & E) L0. cbn [fst snd] in *. subst. destruct p; cbn; auto.
  - intros [h o] [h' o'] s' (H & E). cbn [fst snd] in *. subst o'.
    apply (sim_bind linked _); [exact (sim_unwrap _ _ _ H)|intros ?; grow|].
    intros t' c' s2 L'. apply sim_ret. split; [exact L'|reflexivity].
Qed.
Lemma grows_read_block m t : grows (sread_block m t).
Proof. unfold Session.sread_block. grow. Qed.
Lemma sim_insert_query q cx s t c : linked s t c ->
  simulates (fun s x y => linked s (fst x) (fst y) /\ snd x = snd y) s (sinsert_query q cx t)
    (send_insert_query lz4_compress show_float server c cx q).
Proof.
  intros L. unfold Session.sinsert_query, send_insert_query.
  apply (sim_bind (fun s x y => linked s (fst x) (fst y) /\ snd x = snd y) _); [exact (sim_read_block _ _ _ _ L)|intros ?; grow|].
  intros [t' o] [c' o'] s' (L' & E). cbn [fst snd] in *. subst o'.
  apply sim_pure. intros b _. apply sim_ret. split; [exact L'|reflexivity].
Qed.
Lemma grows_insert_query q cx t : grows (sinsert_query q cx t).
Proof. unfold Session.sinsert_query. apply grows_bind; [apply grows_read_block|intros ?; grow]. Qed.
Lemma sim_insert_block cx b s t c : linked s t c ->
  simulates linked s (sinsert_block cx b t) (insert_block lz4_compress show_float server c cx b).
Proof.
  intros L. unfold Session.sinsert_block, insert_block.
  apply (sim_bind (fun s x y => linked s (fst x) (fst y) /\ snd x = snd y) _); [exact (sim_read_block _ _ _ _ L)|intros ?; grow|].
  intros x y s' (L' & _). apply sim_ret. exact L'.
Qed.
Lemma grows_insert_block cx b t : grows (sinsert_block cx b t).
Proof. unfold Session.sinsert_block. apply grows_bind; [apply grows_read_block|intros ?; grow]. Qed.
Lemma grows_tail cx q l : forall t, grows (sinsert_tail cx q l t).
Proof.
  induction l as [|b l IH]; intros t; cbn [Session.sinsert_tail]; [grow|].
  apply grows_bind; [apply grows_insert_query|intros x]. apply grows_bind; [apply grows_insert_block|intros t'; apply IH].
Qed.
Lemma sim_tail cx q l : forall s t c, linked s t c ->
  simulates linked s (sinsert_tail cx q l t) (insert_tail lz4_compress show_float server c cx q l).
Proof.
  induction l as [|b l IH]; intros s t c L; cbn [Session.sinsert_tail insert_tail]; [apply sim_ret; exact L|].
  apply (sim_bind (fun s x y => linked s (fst x) (fst y) /\ snd x = snd y) _); [exact (sim_insert_query _ _ _ _ _ L)| |].
  { intros x. apply grows_bind; [apply grows_insert_block|intros ?; apply grows_tail]. }
  intros x y s' (L' & _). apply (sim_bind linked _); [exact (sim_insert_block _ _ _ _ _ L')|intros ?; apply grows_tail|].
  intros t' c' s2 L2. apply IH, L2.
Qed.
Lemma sim_insert q b cx s t c : linked s t c ->
  simulates linked s (sinsert q b cx t)
    (do c' <- clear lz4_compress show_float server c;
     do x <- send_insert_query lz4_compress show_float server c' cx q;
     do b' <- block_cast parse_ipv4 parse_ipv6 b (snd x);
     do chunks <- block_chunks insert_block_size b';
     match chunks with
     | [] => Panic PUnwrap
     | b0 :: l => do c1 <- insert_block lz4_compress show_float server (fst x) cx b0;
                  insert_tail lz4_compress show_float server c1 cx q l
     end).
Proof.
  intros L. unfold Session.sinsert.
  assert (G4 : forall t chunks, grows (match chunks with [] => wret (Panic PUnwrap) | b0 :: l => wbind (sinsert_block cx b0 t) (fun t2 => sinsert_tail cx q l t2) end)).
  { intros t0 [|b0 l]; [grow|]. apply grows_bind; [apply grows_insert_block|intros ?; apply grows_tail]. }
  apply (sim_bind linked linked); [exact (sim_clear _ _ _ L)| |].
  { intros t'. apply grows_bind; [apply grows_insert_query|intros x]. apply grows_bind; [grow|intros b'].
    apply grows_bind; [grow|intros chunks]. apply G4. }
  intros t' c' s' L'.
  apply (sim_bind (fun s x y => linked s (fst x) (fst y) /\ snd x = snd y) _); [exact (sim_insert_query _ _ _ _ _ L')| |].
  { intros x. apply grows_bind; [grow|intros b']. apply grows_bind; [grow|intros chunks]. apply G4. }
  intros [t2 h] [c2 h'] s2 (L2 & E). cbn [fst snd] in *. subst h'.
  apply sim_pure. intros b' _. apply sim_pure. intros [|b0 l] _; [apply sim_ret; reflexivity|].
  apply (sim_bind linked _); [exact (sim_insert_block _ _ _ _ _ L2)|intros ?; apply grows_tail|].
  intros t3 c3 s3 L3. apply sim_tail, L3.
Qed.

(** A query, and then any operation. *)
Notation sfetch := (sfetch lz4_compress show_float lz4_decompress tz_known network).
Notation sdo := (sdo lz4_compress show_float lz4_decompress tz_known parse_ipv4 parse_ipv6 network).
Notation session := (session lz4_compress show_float lz4_decompress tz_known parse_ipv4 parse_ipv6 network).
Notation use := (use lz4_compress show_float parse_ipv4 parse_ipv6 server fresh opts).
Notation uses := (uses lz4_compress show_float parse_ipv4 parse_ipv6 server fresh opts).
Lemma grows_do cx o t s : exists l, snd (snd (sdo cx o t s)) = snd s ++ l.
Proof.
  assert (U : forall x : W transport, grows x -> exists l, snd (snd (used (x s))) = snd s ++ l).
  { intros x G. destruct (G s) as (l & E). destruct (x s) as [[a|e|p] s']; cbn [used snd] in *; eauto. }
  destruct o; cbn [Session.sdo].
  - apply U. apply grows_bind; [apply grows_clear|intros ?]. grow.
  - apply U. apply grows_bind; [apply grows_clear|intros ?]. grow.
  - unfold Session.sfetch. destruct (wcollect _ _ _ _ _ _ _ _) as [[r h] sk']. cbn [snd]. eauto.
  - apply U. apply grows_bind; [apply grows_clear|intros ?]. apply grows_bind; [apply grows_insert_query|intros x].
    apply grows_bind; [grow|intros b']. apply grows_bind; [grow|intros [|b0 l]]; [grow|].
    apply grows_bind; [apply grows_insert_block|intros ?; apply grows_tail].
Qed.
Lemma grows_session cx : forall ops t s, exists l, snd (snd (session cx ops t s)) = snd s ++ l.
Proof.
  induction ops as [|o ops IH]; intros t s; cbn [Session.session]; [exists []; cbn; rewrite app_nil_r; reflexivity|].
  destruct (grows_do cx o t s) as (l & E). destruct (sdo cx o t s) as [[r h] s']. cbn [snd] in E. destruct h as [t'|]; [|eauto].
  destruct (IH t' s') as (l' & E'). destruct (session cx ops t' s') as [rs s2]. cbn [snd] in *. rewrite E', E, <- app_assoc. eauto.
Qed.

Notation holds := (SpecSession.holds lz4_decompress tz_known id knows).
Hypothesis unchecked : co_ping opts = false.
Lemma not_before fuel k : before lz4_compress show_float server fresh opts fuel k = (Ok tt, k).
Proof. unfold before. rewrite unchecked. reflexivity. Qed.

Lemma sim_fetch q s t c k : k_inner k = Some c -> k_pool k = BAttached -> linked s t c ->
  let '(r, h, s') := sfetch q (k_context k) t s in
  sendable (snd s') ->
  let y := fetch_all lz4_compress show_float server fresh opts 0 q k in
  wrote s s' /\ r = fst y /\
  match h with Some t' => holds s' t' (k_context k) (snd y) | None => k_inner (snd y) = None end.
Proof.
  intros Ek Pk L. unfold Session.sfetch. set (m := CmdQuery q (k_context k)). set (sk := hand (snd s) m (fst s)).
  pose proof (fun bs ms closes place Sv Hn => PropWired.c99_fetch_all lz4_compress show_float lz4_decompress tz_known server fresh opts place
    0 (steps t sk) q t sk k k c bs ms closes (not_before 0 k) Pk Ek Sv Hn) as F.
  unfold wfetch_all in F. fold m in F.
  destruct (wcollect lz4_compress show_float lz4_decompress tz_known (steps t sk) (wcall t m) sk []) as [[r h] sk'].
  cbn [snd]. intros Se. cbv zeta. assert (exists bs, encode m = Ok bs) as (bs & Eb).
  { apply Forall_app in Se. destruct Se as (_ & Se). inversion Se; assumption. }
  destruct (hand_serves s t c m bs L Eb) as (ms & closes & place & Sv & Pl & Hn). fold sk in Sv, Hn.
  destruct (F bs ms closes (Some place) Sv Hn) as (So & R & H & K). clear F.
  set (y := fetch_all lz4_compress show_float server fresh opts 0 q k) in *. split; [|split].
  - exists [m], bs. split; [reflexivity|]. split; [exists [bs]; split; [repeat constructor; exact Eb|symmetry; apply app_nil_r]|].
    exact So.
  - exact R.
  - unfold PropWired.same_handle in H. destruct h as [t'|], (k_inner (snd y)) as [c'|] eqn:Ey; try contradiction; [|reflexivity].
    destruct (K c' eq_refl) as (K1 & K2 & K3 & K4 & K5). exists c'. repeat (split; [assumption|]).
    destruct L as (Li & Ll & _). split; [congruence|]. split; [cbn [snd]; rewrite K4, Ll; reflexivity|]. exists place. split.
    + destruct H as (_ & H). apply H. destruct Sv as (_ & _ & _ & _ & _ & _ & (_ & _ & _ & _ & _ & _ & _ & bs1 & _ & St)).
      exact (proj2 (stream_length _ _ _ _ _ _ St)).
    + rewrite K5. exact Pl.
Qed.

Lemma sim_do o s t cx k : holds s t cx k ->
  let '(r, h, s') := sdo cx o t s in
  sendable (snd s') ->
  wrote s s' /\ r = fst (use o k) /\
  match h with Some t' => holds s' t' cx (snd (use o k)) | None => k_inner (snd (use o k)) = None end.
Proof.
  intros (c & Ek & Pk & <- & L).
  assert (U : forall (x : W transport) y, simulates linked s x y ->
    let '(r, h, s') := used (x s) in
    sendable (snd s') ->
    wrote s s' /\
    r = fst (let (r, k') := match y with Ok t => (Ok tt, set_inner k (Some t)) | Err e => (Err e, set_inner k None) | Panic p => (Panic p, set_inner k None) end in (Said r, k')) /\
    match h with
    | Some t' => holds s' t' (k_context k) (snd (let (r, k') := match y with Ok t => (Ok tt, set_inner k (Some t)) | Err e => (Err e, set_inner k None) | Panic p => (Panic p, set_inner k None) end in (Said r, k')))
    | None => k_inner (snd (let (r, k') := match y with Ok t => (Ok tt, set_inner k (Some t)) | Err e => (Err e, set_inner k None) | Panic p => (Panic p, set_inner k None) end in (Said r, k'))) = None
    end).
  { intros x y X. unfold simulates, goes in X. destruct (x s) as [[a|e|p] s']; cbn [used fst snd] in *; intros Se;
      destruct (X Se) as (W & H); destruct y as [b|e'|p']; try contradiction; cbn [fst snd]; split; try exact W; subst;
      (split; [reflexivity|]); try reflexivity. exists b. repeat (split; [reflexivity || assumption|]). exact H. }
  destruct o as [|q|q|q b]; cbn [Session.sdo SpecSession.use].
  - unfold ping, get_inner. rewrite Ek. cbn [rbind]. apply U. exact (sim_ping _ _ _ L).
  - unfold execute, get_inner. rewrite not_before, Ek. cbn [rbind]. apply U. exact (sim_execute _ _ _ _ _ L).
  - pose proof (sim_fetch q s t c k Ek Pk L) as F. destruct (sfetch q (k_context k) t s) as [[r h] s'].
    intros Se. specialize (F Se). cbv zeta in F. destruct (fetch_all _ _ _ _ _ _ _ _) as [r' k']. cbn [fst snd] in *.
    destruct F as (F1 & F2 & F3). split; [exact F1|]. split; [congruence|exact F3].
  - unfold insert_, get_inner. rewrite not_before, Ek. cbn [rbind]. apply U. exact (sim_insert _ _ _ _ _ _ L).
Qed.

(** *** Any program that uses one connection *)
Theorem c100_session ops s t cx k : holds s t cx k -> sendable (snd (snd (session cx ops t s))) ->
  fst (session cx ops t s) = uses ops k /\ wrote s (snd (session cx ops t s)).
Proof.
  revert s t k. induction ops as [|o ops IH]; intros s t k H Se; cbn [Session.session SpecSession.uses] in *.
  { split; [reflexivity|apply wrote_refl]. }
  pose proof (sim_do o s t cx k H) as D. destruct (sdo cx o t s) as [[r h] s'].
  destruct h as [t'|].
  - pose proof (grows_session cx ops t' s') as (l & G). specialize (fun k => IH s' t' k).
    destruct (session cx ops t' s') as [rs s2]. cbn [fst snd] in *.
    destruct D as (D1 & D2 & D3). { unfold SpecSession.sendable in *. rewrite G in Se. apply Forall_app in Se. tauto. }
    destruct (use o k) as [r' k']. cbn [fst snd] in *. destruct (IH k' D3 Se) as (I1 & I2).
    destruct D3 as (c' & -> & _). split; [congruence|exact (wrote_trans _ _ _ D1 I2)].
  - cbn [fst snd] in *. destruct (D Se) as (D1 & D2 & D3). destruct (use o k) as [r' k']. cbn [fst snd] in *. rewrite D3.
    split; [congruence|exact D1].
Qed.
End Sessions.

Print Assumptions c100_session.

(** A server that answers a ping, a query, a refused insert and anything else; its answers come in
    two pieces with pauses, and every byte written to it is taken by itself. *)
Import PropClient PropWired.
Definition ex_refused : query := mk_query (str "INSERT INTO t (a) VALUES") [].
Definition ex_said (log : list cmd) : list (res packet) * bytes :=
  match last log CmdPing with
  | CmdPing => ([Ok PkPong], [4]%N)
  | CmdQuery q _ => if Nat.ltb (length (q_sql q)) 17 then (ex_messages, ex_answer)
                    else ([Ok (PkException ex_exception)],
                          [2; 60; 0; 0; 0; 13]%N ++ str "DB::Exception" ++ [13]%N ++ str "no such table" ++ [0]%N)
  | _ => ([Ok PkEof], [5]%N)
  end.
Definition ex_talk (_ : nat) (log : list cmd) : reply := RAnswers (fst (ex_said log)) [] false.
Definition pieces (b : bytes) : list rd_event :=
  match b with
  | [] => []
  | [x] => [RPending; RData [x]]
  | x :: l => [RPending; RData [x]; RPending; RData l]
  end.
Definition ex_network (log : list cmd) : list rd_event * list wr_event :=
  (pieces (snd (ex_said log)),
   WPending :: repeat (WAccept 1) (match encode_command ex_lz4 ex_show (last log CmdPing) with Ok bs => S (length bs) | _ => 0 end)).
Definition ex_knows (_ : list cmd) : tinfo * bytes := (t_info ex_transport, []).
Definition ex_state : wstate := (mk_socket [] [] [], [CmdHello ex_context]).
Lemma ex_carried : carried ex_lz4 ex_show (fun _ _ => None) (fun _ => true) ex_talk 7 ex_network ex_knows.
Proof.
  intros log m bs E. exists (fst (ex_said (log ++ [m]))), false, (snd (ex_said (log ++ [m]))).
  split; [reflexivity|]. split; [|split; [|split]].
  - unfold ex_network. cbn [fst]. generalize (snd (ex_said (log ++ [m]))). intros b.
    replace b with (received (pieces b)) at 2 by (destruct b as [|x [|y b]]; cbn; rewrite ?app_nil_r; reflexivity).
    apply br_open. destruct b as [|x [|y b]]; repeat constructor; discriminate.
  - unfold ex_said, ex_knows. rewrite last_last. cbn [fst snd app].
    assert (EOF : forall e : tinfo * bytes, e = ex_knows [] -> stream_of (fun _ _ => None) (fun _ => true) (Some e) (t_info ex_transport) [5]%N [Ok PkEof]).
    { intros e ->. apply (so_message _ _ _ _ [5]%N []); [vm_compute; reflexivity|]. apply so_end; vm_compute; reflexivity. }
    destruct m as [cx| |q cx|d cx|a b|]; try exact (EOF _ eq_refl).
    + apply (so_message _ _ _ _ [4]%N []); [vm_compute; reflexivity|]. apply so_end; vm_compute; reflexivity.
    + destruct (Nat.ltb (length (q_sql q)) 17); cbn [fst snd].
      * apply (so_message _ _ _ _ [3; 1; 2; 3; 4; 5]%N (ex_data ++ [5]%N)); [vm_compute; reflexivity|].
        apply (so_message _ _ _ _ ex_data [5]%N); [vm_compute; reflexivity|].
        apply (so_message _ _ _ _ [5]%N []); [vm_compute; reflexivity|]. apply so_end; vm_compute; reflexivity.
      * match goal with |- SpecWired.stream_of _ _ _ _ ?l _ => rewrite <- (app_nil_r l) end. apply so_message; [vm_compute; reflexivity|]. apply so_end; vm_compute; reflexivity.
  - unfold ex_network. cbn [snd]. constructor; [exact I|]. apply Forall_forall. intros x H. apply repeat_spec in H. subst x. exact (le_n 1).
  - unfold ex_network. cbn [snd]. rewrite last_last, E. unfold accepts. cbn [filter].
    assert (X : forall n, length (filter (fun e => match e with WAccept _ => true | _ => false end) (repeat (WAccept 1) n)) = n).
    { induction n as [|n IH]; [reflexivity|]. cbn [repeat filter length]. rewrite IH. reflexivity. }
    rewrite X. lia.
Qed.
Definition ex_program : list op := [OPing; OFetch ex_query; OExecute ex_query; OPing; OInsert ex_refused ex_block; OPing].
Example c100_case :
  let run := session ex_lz4 ex_show (fun _ _ => None) (fun _ => true) ex_parse ex_parse ex_network ex_context ex_program ex_transport ex_state in
  carried ex_lz4 ex_show (fun _ _ => None) (fun _ => true) ex_talk 7 ex_network ex_knows /\
  SpecSession.holds (fun _ _ => None) (fun _ => true) 7 ex_knows ex_state ex_transport ex_context ex_client /\
  sendable ex_lz4 ex_show (snd (snd run)) /\
  fst run = [Said (Ok tt); Fetched (Ok ex_fetched); Said (Ok tt); Said (Ok tt); Said (Err (EServer ex_exception))] /\
  uses ex_lz4 ex_show ex_parse ex_parse ex_talk ex_fresh ex_off ex_program ex_client = fst run /\
  length (snd (snd run)) = 6.
Proof.
  cbv zeta. split; [exact ex_carried|]. split.
  { exists ex_conn. repeat (split; [reflexivity|]). exists (ex_knows []). split; [|reflexivity].
    split; [reflexivity|]. split; [discriminate|]. do 5 (split; [reflexivity|]).
    exists (received []). split; [apply (ar_open []); constructor|]. apply so_end; vm_compute; reflexivity. }
  split; [|split; [vm_compute; reflexivity|split; vm_compute; reflexivity]].
  match goal with |- sendable _ _ ?l => let l' := eval vm_compute in l in replace l with l' by (vm_compute; reflexivity) end.
  repeat constructor; eexists; vm_compute; reflexivity.
Qed.
