(** Proofs about Client.v. *)
From Verif Require Import Base Block Packets Client SpecClient.
Open Scope list_scope.
Open Scope nat_scope.

Section Proofs.
Variable lz4_compress : bytes -> bytes.
Variable show_float : Z -> bytes.
Variable server : nat -> list cmd -> reply.
Notation flush := (flush lz4_compress show_float server).
Notation next := (next lz4_compress show_float server).
Notation consume := (consume lz4_compress show_float server).
Notation drain := (drain lz4_compress show_float server).

(** ** Streams of messages *)

(** What a loop over the messages of a connection comes to, by the messages. *)
Fixpoint feed {A} (on : A -> packet -> option conn -> A + error) (rb : bool) (c : conn) (l : list (res packet)) (a : A) : res A :=
  match l with
  | [] => match cn_late c, cn_closed c with [], true => Ok a | _, _ => Err ETimeout end
  | Err _ :: _ => Err EIo
  | Panic p :: _ => Panic p
  | Ok p :: l' =>
      if carries p then match on a p (Some (set_in c l')) with inl a' => Ok a' | inr e => Err e end
      else match on a p None with
           | inr e => Err e
           | inl a' =>
               if rb && is_block p then
                 match on a' PkEof (Some (set_in c l')) with inl a'' => Ok a'' | inr e => Err e end
               else feed on rb c l' a'
           end
  end.

Lemma consume_gone {A} (on : A -> packet -> option conn -> A + error) n st rb a :
  consume on (S n) (mk_pstream None st rb) a = Ok a.
Proof. cbn [Client.consume]. unfold Client.next. cbn [ps_inner ps_state]. destruct st; reflexivity. Qed.

Lemma set_in_self c : set_in c (cn_in c) = c.
Proof. destruct c; reflexivity. Qed.

Lemma carries_block p : carries p = true -> is_block p = false.
Proof. destruct p; intros; try discriminate; reflexivity. Qed.

Lemma feed_set_in {A} (on : A -> packet -> option conn -> A + error) rb l : forall c m a,
  feed on rb (set_in c m) l a = feed on rb c l a.
Proof.
  induction l as [|x l IH]; intros c m a; [reflexivity|]. cbn [feed].
  destruct x as [p|e|p]; try reflexivity. cbn [set_in]. destruct (carries p); [reflexivity|].
  destruct (on a p None); [|reflexivity]. destruct (rb && is_block p); [reflexivity|]. apply IH.
Qed.

Lemma consume_received {A} (on : A -> packet -> option conn -> A + error) rb : forall l n c a,
  length l + 2 < n -> cn_in c = l ->
  match receive c rb with
  | (GItem p t, s') => match on a p t with inl a' => consume on (n - 1) s' a' | inr e => Err e end
  | (GErr _, _) => Err EIo
  | (GEnd, _) => Ok a
  | (GWait, _) => Err ETimeout
  | (GCrash p, _) => Panic p
  end = feed on rb c l a.
Proof.
  induction l as [|x l IH]; intros n c a Hn E; unfold receive; rewrite E; cbn [feed].
  - destruct (cn_late c); [|reflexivity]. destruct (cn_closed c); reflexivity.
  - destruct x as [p|e|p]; try reflexivity. cbn [length] in Hn.
    destruct n as [|[|n]]; try lia. replace (S (S n) - 1) with (S n) by lia.
    destruct (carries p) eqn:Ca.
    + destruct (on a p (Some (set_in c l))); [|reflexivity]. apply consume_gone.
    + destruct (on a p None) as [a'|e]; [|reflexivity].
      destruct (rb && is_block p).
      * cbn [Client.consume]. unfold Client.next. cbn [ps_inner ps_state ps_read_block].
        destruct (on a' PkEof (Some (set_in c l))); [|reflexivity]. destruct n as [|n]; [lia|]. apply consume_gone.
      * cbn [Client.consume]. unfold Client.next. cbn [ps_inner ps_state ps_read_block].
        specialize (IH (S n) (set_in c l) a'). cbn [set_in cn_in] in IH.
        replace (S n - 1) with n in IH by lia.
        rewrite <- (feed_set_in on rb l c l a'). apply IH; [lia|reflexivity].
Qed.

Lemma drain_call {A} (on : A -> packet -> option conn -> A + error) (rb : bool) c m a :
  drain on (mk_pstream (ps_inner (call c m)) (ps_state (call c m)) rb) a =
  match flush (set_queue c (cn_queue c ++ [m])) (cn_queue c ++ [m]) with
  | (Ok _, c') => feed on rb c' (cn_in c') a
  | (Err _, _) => Err EIo
  | (Panic p, _) => Panic p
  end.
Proof.
  unfold Client.drain, stream_fuel, call. cbn [ps_inner ps_state plus Client.consume]. unfold Client.next.
  cbn [ps_inner ps_state ps_read_block]. cbn [set_queue cn_queue]. fold (set_queue c (cn_queue c ++ [m])).
  destruct (flush (set_queue c (cn_queue c ++ [m])) (cn_queue c ++ [m])) as [[x|e|p] c'] eqn:E; try reflexivity.
  cbn [snd].
  pose proof (consume_received on rb (cn_in c') (S (S (S (length (cn_in c'))))) c' a) as H.
  replace (S (S (S (length (cn_in c')))) - 1) with (S (S (length (cn_in c')))) in H by lia.
  apply H; [lia|reflexivity].
Qed.

(** ** One command on an idle connection *)
Lemma said_idle c m : idle (said c m).
Proof. repeat split. Qed.

Lemma flush_one c m now late closes bs :
  idle c -> encode_command lz4_compress show_float m = Ok bs ->
  server (cn_id c) (cn_log c ++ [m]) = RAnswers now late closes ->
  flush (set_queue c (cn_queue c ++ [m])) (cn_queue c ++ [m]) =
  (Ok tt, mk_conn (cn_id c) now late closes [] (cn_log c ++ [m]) false).
Proof.
  intros (I1 & I2 & I3 & I4 & I5) E S. rewrite I4. cbn [app Client.flush].
  unfold deliver. cbn [set_queue cn_id cn_log cn_in cn_late cn_closed cn_inconsistent]. rewrite E, S, I3, I1, I2. cbn [app Client.flush set_queue cn_id cn_log cn_in cn_late cn_closed cn_inconsistent].
  rewrite I5. reflexivity.
Qed.

Lemma encode_ping_ok : exists bs, encode_command lz4_compress show_float CmdPing = Ok bs.
Proof. eexists. reflexivity. Qed.

Lemma drain_false {A} (on : A -> packet -> option conn -> A + error) c m a :
  drain on (call c m) a =
  match flush (set_queue c (cn_queue c ++ [m])) (cn_queue c ++ [m]) with
  | (Ok _, c') => feed on false c' (cn_in c') a
  | (Err _, _) => Err EIo
  | (Panic p, _) => Panic p
  end.
Proof. apply (drain_call on false). Qed.

Lemma clear_idle c : idle c -> clear lz4_compress show_float server c = Ok c.
Proof. intros (_ & _ & _ & _ & I5). unfold clear. rewrite I5. reflexivity. Qed.

Lemma ping_idle k c : k_inner k = Some c -> idle c ->
  server (cn_id c) (cn_log c ++ [CmdPing]) = RAnswers [Ok PkPong] [] false ->
  ping lz4_compress show_float server k = (Ok tt, set_inner k (Some (said c CmdPing))).
Proof.
  intros E I S. unfold ping, get_inner. rewrite E. cbn [rbind]. rewrite clear_idle by exact I. cbn [rbind].
  rewrite drain_false. destruct encode_ping_ok as (bs & Eb). rewrite (flush_one c _ _ _ _ bs I Eb S).
  cbn [cn_in feed carries on_ping rbind]. reflexivity.
Qed.

(** ** Streams of blocks *)
Notation poll_blocks := (poll_blocks lz4_compress show_float server).
Notation poll_stream := (poll_stream lz4_compress show_float server).
Definition reading (c : conn) (i : nat) (skip : bool) : bstream :=
  mk_bstream (mk_pstream (Some c) Receive false) Reading i skip.

(** What polling comes to, by the messages that are there. *)
Fixpoint scan (l : list (res packet)) (c : conn) (i : nat) (skip : bool) (k : client) : streamed * bstream * client :=
  match l with
  | [] => match cn_late c, cn_closed c with
          | [], true => (SItem (Err EIo), mk_bstream (mk_pstream (Some (set_in c [])) Receive false) Broken i skip, k)
          | _, _ => (SWait, reading (set_in c []) i skip, k)
          end
  | Err _ :: l' => (SItem (Err EIo), reading (set_in c l') i skip, k)
  | Panic p :: l' => (SCrash p, reading (set_in c l') i skip, k)
  | Ok (PkProfile _) :: l' | Ok (PkProgress _) :: l' => scan l' c i skip k
  | Ok (PkException e) :: l' =>
      (SItem (Err (EServer e)), mk_bstream (mk_pstream (Some (set_in c l')) Receive false) Finished i skip, k)
  | Ok (PkBlock b) :: l' =>
      if ((1 <? S i) || negb skip) && negb (block_is_empty b) then (SItem (Ok b), reading (set_in c l') (S i) skip, k)
      else scan l' c (S i) skip k
  | Ok (PkTableColumns _ _) :: l' => (SItem (Err EUnexpectedPacket), reading (set_in c l') i skip, k)
  | Ok PkEof :: l' =>
      (SEnd, mk_bstream (mk_pstream None Receive false) Finished i skip, set_pool (set_inner k (Some (set_in c l'))) BAttached)
  | Ok _ :: l' => (SItem (Err EUnexpectedPacket), mk_bstream (mk_pstream None Receive false) Reading i skip, k)
  end.
Lemma scan_set_in l : forall c m i skip k, scan l (set_in c m) i skip k = scan l c i skip k.
Proof.
  induction l as [|x l IH]; intros; [reflexivity|]. cbn [scan]. destruct x as [[]|e|p]; try reflexivity; try apply IH.
  destruct (_ && _); [reflexivity|apply IH].
Qed.

Lemma reattach_detached k : k_pool k = BDetached -> reattach k = (Ok tt, set_pool k BAttached).
Proof. intros E. unfold reattach, attach. rewrite E. reflexivity. Qed.

Lemma poll_scan l : forall n c i skip k, k_pool k = BDetached -> cn_in c = l -> length l + 1 < n ->
  poll_blocks n (reading c i skip) k = scan l c i skip k.
Proof.
  induction l as [|x l IH]; intros n c i skip k P E Hn; (destruct n as [|n]; [lia|]);
    cbn [Client.poll_blocks reading bs_state bs_inner bs_index bs_skip]; unfold Client.next; cbn [ps_state ps_inner ps_read_block];
    unfold receive; rewrite E.
  - cbn [scan]. assert (set_in c [] = c) as -> by (rewrite <- E; apply set_in_self).
    destruct (cn_late c); [|reflexivity]. destruct (cn_closed c); reflexivity.
  - cbn [length] in Hn. destruct x as [p|e|p]; try reflexivity.
    cbn [scan andb]. destruct p; cbn [carries]; try reflexivity.
    + rewrite <- (scan_set_in l c l). apply IH; [exact P|reflexivity|lia].
    + rewrite <- (scan_set_in l c l). apply IH; [exact P|reflexivity|lia].
    + destruct (_ && _); [reflexivity|]. rewrite <- (scan_set_in l c l). apply IH; [exact P|reflexivity|lia].
    + rewrite reattach_detached by (cbn [set_inner k_pool]; exact P). destruct n as [|n]; [lia|]. reflexivity.
Qed.
Lemma poll_reading c i skip k : k_pool k = BDetached -> cn_queue c = [] ->
  poll_stream (reading c i skip) k = scan (cn_in c) c i skip k.
Proof.
  intros P Q. unfold Client.poll_stream. apply poll_scan; [exact P|reflexivity|].
  unfold stream_fuel. cbn [reading bs_inner ps_inner]. rewrite Q. cbn [Client.flush snd set_queue cn_in]. lia.
Qed.

(** The blocks still to be delivered after [i] have come. *)
Definition remaining (i : nat) (skip : bool) (ps : list packet) : list block :=
  with_columns (if skip && (i =? 0) then tl (blocks_of ps) else blocks_of ps).
Lemma with_columns_cons b bs : with_columns (b :: bs) = (if block_is_empty b then [] else [b]) ++ with_columns bs.
Proof. unfold with_columns, block_is_empty. cbn [filter]. destruct (b_cols b); reflexivity. Qed.

Lemma scan_response ps : Forall in_response ps -> forall c i skip k l',
  ((forall pb, remaining i skip (ps ++ pb) = remaining (i + length (blocks_of ps)) skip pb) /\
   scan (map Ok ps ++ l') c i skip k = scan l' c (i + length (blocks_of ps)) skip k) \/
  (exists b ps2 i', (forall pb, remaining i skip (ps ++ pb) = b :: remaining i' skip (ps2 ++ pb)) /\
     length ps2 < length ps /\ Forall in_response ps2 /\
     scan (map Ok ps ++ l') c i skip k = (SItem (Ok b), reading (set_in c (map Ok ps2 ++ l')) i' skip, k)).
Proof.
  induction 1 as [|p ps Hp F IH]; intros c i skip k l'.
  - left. cbn [blocks_of flat_map length map app]. rewrite Nat.add_0_r. split; reflexivity.
  - destruct p; try contradiction; cbn [map app scan].
    + destruct (IH c i skip k l') as [[A B]|(b & ps2 & i' & A & B & C & D)].
      * left. split; [exact A|exact B].
      * right. exists b, ps2, i'. cbn [length]. split; [exact A|]. split; [lia|]. split; [exact C|exact D].
    + destruct (IH c i skip k l') as [[A B]|(b & ps2 & i' & A & B & C & D)].
      * left. split; [exact A|exact B].
      * right. exists b, ps2, i'. cbn [length]. split; [exact A|]. split; [lia|]. split; [exact C|exact D].
    + assert (R : forall ps, remaining i skip (PkBlock b :: ps) =
        (if ((1 <? S i) || negb skip) && negb (block_is_empty b) then [b] else []) ++ remaining (S i) skip ps).
      { clear. intros ps. unfold remaining. cbn [blocks_of flat_map app tl]. fold (blocks_of ps).
        rewrite (Nat.eqb_sym (S i) 0). change (0 =? S i) with false. rewrite andb_false_r.
        destruct i as [|i].
        - change (1 <? 1) with false. change (0 =? 0) with true. rewrite andb_true_r. destruct skip; cbn [orb negb andb].
          + reflexivity.
          + rewrite with_columns_cons. destruct (block_is_empty b); reflexivity.
        - change (1 <? S (S i)) with true. change (S i =? 0) with false. rewrite andb_false_r. cbn [orb andb].
          rewrite with_columns_cons. destruct (block_is_empty b); reflexivity. }
      destruct (((1 <? S i) || negb skip) && negb (block_is_empty b)).
      * right. exists b, ps, (S i). cbn [length]. split; [intros pb; exact (R (ps ++ pb))|]. split; [lia|]. split; [exact F|reflexivity].
      * destruct (IH c (S i) skip k l') as [[A B]|(b' & ps2 & i' & A & B & C & D)].
        -- left. cbn [blocks_of flat_map app length]. fold (blocks_of ps).
           replace (i + S (length (blocks_of ps))) with (S i + length (blocks_of ps)) by lia.
           split; [intros pb; rewrite R; apply A|exact B].
        -- right. exists b', ps2, i'. cbn [length]. split; [intros pb; rewrite R; apply A|]. split; [lia|]. split; [exact C|exact D].
Qed.
Lemma remaining_nil i skip : remaining i skip [] = [].
Proof. unfold remaining. destruct (skip && (i =? 0)); reflexivity. Qed.

Notation drive_blocks := (drive_blocks lz4_compress show_float server).

Lemma drive_S n s k : drive_blocks (S n) s k =
  match poll_stream s k with
  | (SItem r, s', k') => let '(l, e, s2, k2) := drive_blocks n s' k' in (r :: l, e, s2, k2)
  | (SWait, s', k') => drive_blocks n (arrive_stream s') k'
  | (x, s', k') => ([], Some x, s', k')
  end.
Proof. reflexivity. Qed.

(** A stream whose remaining messages are those of a response and then at most one more, some
    here and some late: it delivers the blocks and comes to the last message. *)
Lemma drive_response n : forall ps c i skip k last, length last <= 1 ->
  length ps + (match cn_late c with [] => 0 | _ => 1 end) < n ->
  k_pool k = BDetached -> cn_queue c = [] -> Forall in_response ps ->
  cn_in c ++ cn_late c = map Ok ps ++ last ->
  exists c2 i2 n2, drive_blocks n (reading c i skip) k =
    (let '(l, e, s', k') := drive_blocks (S n2) (reading c2 i2 skip) k in (map Ok (remaining i skip ps) ++ l, e, s', k')) /\
    cn_in c2 = last /\ cn_late c2 = [] /\ cn_closed c2 = cn_closed c /\ cn_queue c2 = [] /\
    cn_id c2 = cn_id c /\ cn_log c2 = cn_log c /\ cn_inconsistent c2 = cn_inconsistent c /\
    n <= S n2 + length ps + (match cn_late c with [] => 0 | _ => 1 end).
Proof.
  induction n as [|n IH]; intros ps c i skip k last Hl Hn P Q F E; [lia|].
  destruct (cn_late c) as [|x late] eqn:El.
  - rewrite app_nil_r in E. destruct ps as [|p ps].
    + exists c, i, n. cbn [map app] in *. repeat split; auto; [|cbn [length]; lia].
      rewrite remaining_nil.
      destruct (drive_blocks (S n) (reading c i skip) k) as [[[l e] s'] k']. reflexivity.
    + rewrite drive_S, poll_reading by assumption. rewrite E.
      destruct (scan_response (p :: ps) F c i skip k last) as [[A B]|(b & ps2 & i' & A & B & C & D)].
      * (* all of it passes without a block: the last message is taken in this same poll *)
        set (c2 := set_in c last). exists c2, (i + length (blocks_of (p :: ps))), n.
        assert (A0 : remaining i skip (p :: ps) = []) by (rewrite <- (app_nil_r (p :: ps)), A; apply remaining_nil).
        rewrite A0, B. cbn [app].
        split; [|cbn [c2 set_in cn_in cn_late cn_closed cn_queue cn_id cn_log cn_inconsistent length]; repeat split; auto; lia].
        rewrite drive_S, poll_reading by assumption. unfold c2. cbn [set_in cn_in].
        rewrite scan_set_in.
        destruct (scan last c (i + length (blocks_of (p :: ps))) skip k) as [[[r| | |] s'] k'].
        -- destruct (drive_blocks n s' k') as [[[l e] s2] k2]. reflexivity.
        -- reflexivity.
        -- destruct (drive_blocks n (arrive_stream s') k') as [[[l e] s2] k2]. reflexivity.
        -- reflexivity.
      * rewrite D.
        destruct (IH ps2 (set_in c (map Ok ps2 ++ last)) i' skip k last) as (c2 & i2 & n2 & H & H1 & H2 & H3 & H4 & H5 & H6 & H7 & H8); auto.
        { cbn [set_in cn_late]. rewrite El. cbn [length] in *. lia. }
        { cbn [set_in cn_in cn_late]. rewrite El. apply app_nil_r. }
        exists c2, i2, n2. rewrite H.
        destruct (drive_blocks (S n2) (reading c2 i2 skip) k) as [[[l e] s'] k'].
        assert (A0 : remaining i skip (p :: ps) = b :: remaining i' skip ps2)
          by (rewrite <- (app_nil_r (p :: ps)), A, app_nil_r; reflexivity).
        rewrite A0. cbn [map app].
        repeat split; auto. cbn [set_in cn_late] in H8. rewrite El in H8. cbn [length] in *. lia.
  - (* something is late: all of what is here belongs to the response *)
    assert (X : exists pa pb, ps = pa ++ pb /\ cn_in c = map Ok pa /\ x :: late = map Ok pb ++ last).
    { clear -E Hl. revert ps E. generalize (cn_in c). intros l. induction l as [|y l IHl]; intros ps E.
      - exists [], ps. auto.
      - destruct ps as [|p ps]; cbn [map app] in E.
        + subst last. cbn [length] in Hl. rewrite app_length in Hl. cbn [length] in Hl. lia.
        + injection E as -> E. destruct (IHl ps E) as (pa & pb & -> & -> & H). exists (p :: pa), pb. auto. }
    destruct X as (pa & pb & -> & Ei & Ex). apply Forall_app in F. destruct F as [Fa Fb].
    rewrite drive_S, poll_reading by assumption. rewrite Ei.
    rewrite <- (app_nil_r (map Ok pa)).
    destruct (scan_response pa Fa c i skip k []) as [[A B]|(b & ps2 & i' & A & B & C & D)].
    + rewrite B. cbn [scan]. rewrite El.
      assert (Hr : arrive_stream (reading (set_in c []) (i + length (blocks_of pa)) skip) =
                   reading (arrive (set_in c [])) (i + length (blocks_of pa)) skip) by reflexivity.
      rewrite Hr.
      destruct (IH pb (arrive (set_in c [])) (i + length (blocks_of pa)) skip k last) as (c2 & i2 & n2 & H & H1 & H2 & H3 & H4 & H5 & H6 & H7 & H8); auto.
      { cbn [arrive cn_late]. rewrite app_length in Hn. lia. }
      { cbn [arrive set_in cn_in cn_late app]. rewrite app_nil_r, El. exact Ex. }
      exists c2, i2, n2. rewrite H.
      destruct (drive_blocks (S n2) (reading c2 i2 skip) k) as [[[l e] s'] k'].
      rewrite A. repeat split; auto. cbn [arrive cn_late] in H8. rewrite app_length in *. lia.
    + rewrite D.
      destruct (IH (ps2 ++ pb) (set_in c (map Ok ps2)) i' skip k last) as (c2 & i2 & n2 & H & H1 & H2 & H3 & H4 & H5 & H6 & H7 & H8); auto.
      { cbn [set_in cn_late]. rewrite El. rewrite !app_length in *. lia. }
      { apply Forall_app. auto. }
      { cbn [set_in cn_in cn_late]. rewrite El, Ex, map_app, <- app_assoc. reflexivity. }
      rewrite app_nil_r.
      exists c2, i2, n2. rewrite H.
      destruct (drive_blocks (S n2) (reading c2 i2 skip) k) as [[[l e] s'] k'].
      rewrite A. repeat split; auto. cbn [set_in cn_late] in H8. rewrite El in H8. rewrite !app_length in *. lia.
Qed.

(** A stream that has not asked yet. *)
Definition asking (c : conn) (m : cmd) (skip : bool) : bstream := mk_bstream (call c m) Reading 0 skip.
Lemma flush_queue c : forall q c', flush c q = (Ok tt, c') -> cn_queue c' = [].
Proof.
  intros q. revert c. induction q as [|m q IH]; intros c c' H; cbn [Client.flush] in H.
  - injection H as <-. reflexivity.
  - destruct (deliver lz4_compress show_float server c m q) as [[[]|e|p] c1]; try discriminate H. eapply IH, H.
Qed.
Lemma poll_asking c m skip k c' :
  flush (set_queue c (cn_queue c ++ [m])) (cn_queue c ++ [m]) = (Ok tt, c') ->
  poll_stream (asking c m skip) k = poll_stream (reading c' 0 skip) k.
Proof.
  intros E. unfold Client.poll_stream. unfold asking at 1. cbn [bs_inner]. unfold stream_fuel, call.
  cbn [reading bs_inner ps_inner set_queue cn_queue]. fold (set_queue c (cn_queue c ++ [m])). rewrite E.
  rewrite (flush_queue _ _ _ E). cbn [Client.flush snd set_queue cn_in].
  cbn [Client.poll_blocks asking reading bs_state bs_inner bs_index bs_skip]. unfold Client.next, call.
  cbn [ps_state ps_inner ps_read_block set_queue cn_queue]. fold (set_queue c (cn_queue c ++ [m])). rewrite E. reflexivity.
Qed.
Lemma drive_asking n c m skip k c' :
  flush (set_queue c (cn_queue c ++ [m])) (cn_queue c ++ [m]) = (Ok tt, c') ->
  drive_blocks (S n) (asking c m skip) k = drive_blocks (S n) (reading c' 0 skip) k.
Proof. intros E. rewrite !drive_S, (poll_asking _ _ _ _ _ E). reflexivity. Qed.

Notation collect := (collect lz4_compress show_float server).
Lemma collect_response n : forall ps c i k acc last l',
  length ps + 1 < n -> k_pool k = BDetached -> cn_queue c = [] -> Forall in_response ps ->
  cn_in c = map Ok ps ++ Ok last :: l' -> (last = PkEof \/ exists e, last = PkException e) ->
  exists s' k', drop_stream s' k' = (Ok tt, k') /\
  collect n (reading c i false) k acc =
    (match last with PkException e => Err (EServer e) | _ => Ok (acc ++ remaining i false ps) end, s', k') /\
  match last with
  | PkException _ => k' = k
  | _ => k' = set_pool (set_inner k (Some (set_in c l'))) BAttached
  end.
Proof.
  induction n as [|n IH]; intros ps c i k acc last l' Hn P Q F E L; [lia|].
  cbn [Client.collect]. rewrite poll_reading by assumption. rewrite E.
  destruct (scan_response ps F c i false k (Ok last :: l')) as [[A B]|(b & ps2 & i' & A & B & C & D)].
  - rewrite B. specialize (A []). rewrite app_nil_r, remaining_nil in A. cbn [scan].
    destruct L as [->|[e ->]].
    + do 2 eexists. split; [|split; [rewrite A, app_nil_r; reflexivity|reflexivity]]. reflexivity.
    + do 2 eexists. split; [|split; [reflexivity|reflexivity]]. reflexivity.
  - rewrite D. specialize (A []). rewrite !app_nil_r in A.
    destruct (IH ps2 (set_in c (map Ok ps2 ++ Ok last :: l')) i' k (acc ++ [b]) last l') as (s' & k' & H1 & H2 & H3); auto; [lia|].
    assert (block_is_empty b = false) as ->.
    { assert (In b (remaining i false ps)) as X by (rewrite A; left; reflexivity).
      unfold remaining, with_columns in X. cbn [andb] in X. apply filter_In in X. destruct X as [_ X].
      unfold block_is_empty. destruct (b_cols b); [discriminate X|reflexivity]. }
    rewrite H2. exists s', k'. split; [exact H1|]. split; [|exact H3].
    destruct last; try reflexivity; rewrite A, <- app_assoc; reflexivity.
Qed.
Lemma collect_asking n c m k acc c' :
  flush (set_queue c (cn_queue c ++ [m])) (cn_queue c ++ [m]) = (Ok tt, c') ->
  collect (S n) (asking c m false) k acc = collect (S n) (reading c' 0 false) k acc.
Proof. intros E. cbn [Client.collect]. rewrite (poll_asking _ _ _ _ _ E). reflexivity. Qed.

(** ** Dropped streams *)

(** As long as the end has not been reported, the handle has no connection. *)
Lemma poll_no_conn n : forall s k, k_inner k = None ->
  match poll_blocks n s k with
  | (SEnd, _, _) | (SCrash _, _, _) => True
  | (_, _, k') => k_inner k' = None
  end.
Proof.
  induction n as [|n IH]; intros s k H; [exact I|]. cbn [Client.poll_blocks].
  destruct (bs_state s); try exact I; try exact H. destruct (next (bs_inner s)) as [g i].
  destruct g as [p t|e| | |p]; try exact I; try exact H.
  destruct p; try exact I; try exact H; try (apply IH; exact H).
  - match goal with |- context [if ?x then _ else _] => destruct x end; [exact H|]. apply IH. exact H.
  - destruct (reattach (set_inner k t)) as [[x|e|q] k'] eqn:E;
      [|unfold reattach, attach in E; destruct (k_pool (set_inner k t)); discriminate E|exact I].
    destruct n as [|n]; exact I.
Qed.
Lemma drive_no_conn n : forall s k, k_inner k = None ->
  match drive_blocks n s k with
  | (_, Some _, _, _) => True
  | (_, None, _, k') => k_inner k' = None
  end.
Proof.
  induction n as [|n IH]; intros s k H; [exact H|]. rewrite drive_S.
  pose proof (poll_no_conn (S (stream_fuel lz4_compress show_float server (bs_inner s))) s k H) as X.
  fold (poll_stream s k) in X. destruct (poll_stream s k) as [[[r| | |] s'] k']; try exact I.
  - specialize (IH s' k' X). destruct (drive_blocks n s' k') as [[[l e] s2] k2]. destruct e; exact IH.
  - apply IH. exact X.
Qed.
End Proofs.

(** ** What comes before an operation *)
Section Before.
Variable lz4_compress : bytes -> bytes.
Variable show_float : Z -> bytes.
Variable server : nat -> list cmd -> reply.
Variable fresh : nat -> res client.
Variable opts : copts.
Notation before := (before lz4_compress show_float server fresh opts).

Notation checked := (checked opts).
Lemma checked_idle c : idle c -> idle (checked c).
Proof. unfold SpecClient.checked. destruct (co_ping opts); [intros _; apply said_idle|auto]. Qed.
Lemma checked_id c : cn_id (checked c) = cn_id c.
Proof. unfold SpecClient.checked. destruct (co_ping opts); reflexivity. Qed.

Lemma before_ready fuel k c : 1 <= fuel -> ready k c ->
  (co_ping opts = true -> server (cn_id c) (cn_log c ++ [CmdPing]) = RAnswers [Ok PkPong] [] false) ->
  before fuel k = (Ok tt, set_inner k (Some (checked c))).
Proof.
  intros F (P & I & Id) S. unfold Client.before, SpecClient.checked. destruct (co_ping opts) eqn:Co.
  - specialize (S eq_refl). unfold check_connection, detach. rewrite P. destruct fuel as [|n]; [lia|].
    cbn [retry_guard]. rewrite (ping_idle lz4_compress show_float server _ c) by (assumption || exact Id). cbn [set_pool set_inner k_pool k_inner].
    unfold attach. cbn [set_pool k_pool]. unfold set_pool, set_inner. cbn [k_inner k_context k_pool k_tries]. rewrite P.
    reflexivity.
  - destruct k as [ki kc kp kt]. cbn [k_inner k_pool] in *. subst. reflexivity.
Qed.

Lemma stream_ready fuel skip q k c : 1 <= fuel -> ready k c ->
  (co_ping opts = true -> server (cn_id c) (cn_log c ++ [CmdPing]) = RAnswers [Ok PkPong] [] false) ->
  stream_blocks lz4_compress show_float server fresh opts fuel skip q k =
  (Ok (asking (checked c) (CmdQuery q (k_context k)) skip), set_inner (set_pool k BDetached) None).
Proof.
  intros F R S. unfold stream_blocks. rewrite (before_ready _ _ _ F R S). destruct R as (P & I & Id).
  unfold detach. cbn [set_inner k_pool]. rewrite P. unfold get_inner. cbn [set_pool set_inner k_inner k_context].
  reflexivity.
Qed.
End Before.
