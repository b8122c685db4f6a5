(** C88: success is reported only when the server has reported it. *)
From Coq Require Import String.
From Verif Require Import Base Bytes Types Text Values Columns Block Packets Client SpecClient ClientProofs PropClient.
Open Scope list_scope. Open Scope nat_scope.

Section Honest.
Variable lz4_compress : bytes -> bytes.
Variable show_float : Z -> bytes.
Variable server : nat -> list cmd -> reply.
Variable fresh : nat -> res client.
Variable opts : copts.
Notation flush := (flush lz4_compress show_float server).
Notation before := (before lz4_compress show_float server fresh opts).
Notation fetch_all := (fetch_all lz4_compress show_float server fresh opts).
Notation execute := (execute lz4_compress show_float server fresh opts).
Notation ping := (ping lz4_compress show_float server).
Notation collect := (collect lz4_compress show_float server).
Notation stream_blocks := (stream_blocks lz4_compress show_float server fresh opts).
Notation drive_blocks := (drive_blocks lz4_compress show_float server).

Lemma flush_inv c m c' : idle c ->
  flush (set_queue c (cn_queue c ++ [m])) (cn_queue c ++ [m]) = (Ok tt, c') ->
  exists now late closes, server (cn_id c) (cn_log c ++ [m]) = RAnswers now late closes /\
    c' = mk_conn (cn_id c) now late closes [] (cn_log c ++ [m]) false.
Proof.
  intros (I1 & I2 & I3 & I4 & I5). rewrite I4. cbn [app Client.flush]. unfold deliver.
  cbn [set_queue cn_id cn_log cn_in cn_late cn_closed cn_inconsistent].
  destruct (encode_command lz4_compress show_float m); try discriminate.
  destruct (server (cn_id c) (cn_log c ++ [m])) as [|now late closes]; try discriminate.
  rewrite I3, I1, I2. cbn [app Client.flush set_queue cn_id cn_log cn_in cn_late cn_closed cn_inconsistent]. rewrite I5.
  intros E. injection E as <-. eauto 6.
Qed.

Theorem c88_ping k c :
  k_inner k = Some c -> idle c -> fst (ping k) = Ok tt ->
  exists l late closes, server (cn_id c) (cn_log c ++ [CmdPing]) = RAnswers (Ok PkPong :: l) late closes.
Proof.
  intros E Id H. unfold Client.ping, get_inner in H. rewrite E in H. cbn [rbind] in H.
  rewrite clear_idle in H by exact Id. cbn [rbind] in H. rewrite drain_false in H.
  destruct (flush (set_queue c (cn_queue c ++ [CmdPing])) (cn_queue c ++ [CmdPing])) as [[[]|e|p] c'] eqn:F; try discriminate H.
  destruct (flush_inv c _ c' Id F) as (now & late & closes & S & ->). cbn [cn_in] in H. exists (tl now), late, closes. rewrite S. f_equal.
  destruct now as [|[p|e|p] l]; cbn [feed cn_late cn_closed] in H.
  - destruct late; [destruct closes|]; discriminate H.
  - destruct p; try discriminate H. reflexivity.
  - discriminate H.
  - discriminate H.
Qed.

Lemma feed_execute_inv c l : forall h, feed on_execute false c l None = Ok (Some h) ->
  exists ps l', l = map Ok ps ++ Ok PkEof :: l' /\ Forall in_response ps.
Proof.
  induction l as [|x l IH]; intros h H; cbn [feed] in H.
  - destruct (cn_late c); [destruct (cn_closed c)|]; discriminate H.
  - destruct x as [p|e|p]; try discriminate H. destruct p; cbn [carries on_execute andb] in H; try discriminate H.
    + destruct (IH h H) as (ps & l' & -> & F). eexists (_ :: ps), l'. split; [reflexivity|]. constructor; [exact I|exact F].
    + destruct (IH h H) as (ps & l' & -> & F). eexists (_ :: ps), l'. split; [reflexivity|]. constructor; [exact I|exact F].
    + destruct (IH h H) as (ps & l' & -> & F). eexists (_ :: ps), l'. split; [reflexivity|]. constructor; [exact I|exact F].
    + exists [], l. split; [reflexivity|constructor].
Qed.

(** A statement: whatever the server answers and however many connections the check went through. *)
Theorem c88_execute fuel q k k1 c :
  before fuel k = (Ok tt, k1) -> k_inner k1 = Some c -> idle c -> fst (execute fuel q k) = Ok tt ->
  exists ps l late closes,
    server (cn_id c) (cn_log c ++ [CmdQuery q (k_context k)]) = RAnswers (map Ok ps ++ Ok PkEof :: l) late closes /\
    Forall in_response ps.
Proof.
  intros B E Id H. unfold Client.execute in H. rewrite B in H. unfold get_inner in H. rewrite E in H. cbn [rbind] in H.
  rewrite clear_idle in H by exact Id. cbn [rbind] in H. rewrite drain_false in H.
  destruct (flush (set_queue c (cn_queue c ++ [_])) (cn_queue c ++ [_])) as [[[]|e|p] c'] eqn:F; try discriminate H.
  destruct (flush_inv c _ c' Id F) as (now & late & closes & S & ->). cbn [cn_in] in H.
  match type of H with context [feed ?o ?r ?x ?l ?a] => destruct (feed o r x l a) as [[h|]|e|p] eqn:Fe; try discriminate H end.
  destruct (feed_execute_inv _ _ h Fe) as (ps & l & -> & Fp). exists ps, l, late, closes. split; [exact S|exact Fp].
Qed.

Lemma remaining_step i skip p ps : in_response p -> match p with PkBlock b => ((1 <? S i) || negb skip) && negb (block_is_empty b) = false | _ => True end ->
  remaining i skip (p :: ps) = remaining (match p with PkBlock _ => S i | _ => i end) skip ps.
Proof.
  intros R C. unfold remaining. destruct p; try contradiction; try reflexivity.
  cbn [blocks_of flat_map app tl]. fold (blocks_of ps). change (S i =? 0) with false. rewrite andb_false_r.
  destruct skip; cbn [andb].
  - destruct i as [|i]; cbn [Nat.eqb]; [reflexivity|]. rewrite with_columns_cons. destruct (block_is_empty b); [reflexivity|discriminate C].
  - rewrite with_columns_cons. destruct (block_is_empty b); [reflexivity|]. rewrite orb_true_r in C. discriminate C.
Qed.
Lemma remaining_item i skip b ps : ((1 <? S i) || negb skip) && negb (block_is_empty b) = true ->
  remaining i skip (PkBlock b :: ps) = b :: remaining (S i) skip ps.
Proof.
  intros C. unfold remaining. cbn [blocks_of flat_map app tl]. fold (blocks_of ps). change (S i =? 0) with false. rewrite andb_false_r.
  apply andb_true_iff in C as [C1 C2]. destruct skip; cbn [andb].
  - destruct i as [|i]; cbn [Nat.eqb]; [discriminate C1|]. rewrite with_columns_cons. destruct (block_is_empty b); [discriminate C2|reflexivity].
  - rewrite with_columns_cons. destruct (block_is_empty b); [discriminate C2|reflexivity].
Qed.

Definition scanned (l : list (res packet)) c i skip (k : client) (x : streamed * bstream * client) : Prop :=
  match x with
  | (SEnd, _, _) => exists ps l', l = map Ok ps ++ Ok PkEof :: l' /\ Forall in_response ps /\ remaining i skip ps = []
  | (SItem (Ok b), s', k') => exists ps l' i', l = map Ok ps ++ l' /\ Forall in_response ps /\
      (forall pb, remaining i skip (ps ++ pb) = b :: remaining i' skip pb) /\ block_is_empty b = false /\ 
      s' = reading (set_in c l') i' skip /\ k' = k
  | (SWait, s', k') => exists ps i', l = map Ok ps /\ Forall in_response ps /\
      (forall pb, remaining i skip (ps ++ pb) = remaining i' skip pb) /\ s' = reading (set_in c []) i' skip /\ k' = k
  | _ => True
  end.
Lemma scanned_step l c i skip k x p : in_response p -> match p with PkBlock b => ((1 <? S i) || negb skip) && negb (block_is_empty b) = false | _ => True end ->
  scanned l c (match p with PkBlock _ => S i | _ => i end) skip k x -> scanned (Ok p :: l) c i skip k x.
Proof.
  intros R C. destruct x as [[[[b|e|q]| | |] s'] k']; cbn [scanned]; auto.
  - intros (ps & l' & i' & -> & F & W & X). exists (p :: ps), l', i'. split; [reflexivity|]. split; [constructor; assumption|].
    split; [|exact X]. intros pb. cbn [app]. rewrite remaining_step by assumption. apply W.
  - intros (ps & l' & -> & F & W). exists (p :: ps), l'. split; [reflexivity|]. split; [constructor; assumption|].
    rewrite remaining_step by assumption. exact W.
  - intros (ps & i' & -> & F & W & X). exists (p :: ps), i'. split; [reflexivity|]. split; [constructor; assumption|].
    split; [|exact X]. intros pb. cbn [app]. rewrite remaining_step by assumption. apply W.
Qed.
Lemma scan_inv l : forall c i skip k, scanned l c i skip k (scan l c i skip k).
Proof.
  induction l as [|x l IH]; intros c i skip k; cbn [scan].
  - assert (scanned [] c i skip k (SWait, reading (set_in c []) i skip, k)) by (exists [], i; repeat split; constructor).
    destruct (cn_late c); [destruct (cn_closed c)|]; try assumption; exact I.
  - destruct x as [p|e|p]; try exact I.
    destruct p; try exact I; try (apply scanned_step; [exact I|exact I|apply IH]).
    + destruct (((1 <? S i) || negb skip) && negb (block_is_empty b)) eqn:C.
      * exists [PkBlock b], l, (S i). split; [reflexivity|]. split; [repeat constructor|]. split.
        { intros pb. apply remaining_item, C. } apply andb_true_iff in C as [_ C]. destruct (block_is_empty b); [discriminate C|]. auto.
      * exact (scanned_step l c i skip k _ (PkBlock b) I C (IH c (S i) skip k)).
    + exists [], l. repeat split; [constructor|]. apply remaining_nil.
Qed.

Lemma collect_inv n : forall c i k acc bs s' k', k_pool k = BDetached -> cn_queue c = [] ->
  collect n (reading c i false) k acc = (Ok bs, s', k') ->
  exists ps l, cn_in c = map Ok ps ++ Ok PkEof :: l /\ Forall in_response ps /\ bs = acc ++ remaining i false ps.
Proof.
  induction n as [|n IH]; intros c i k acc bs s' k' P Q H; [discriminate H|].
  cbn [Client.collect] in H. rewrite poll_reading in H by assumption. pose proof (scan_inv (cn_in c) c i false k) as V.
  destruct (scan (cn_in c) c i false k) as [[[[b|e|q]| | |] s1] k1]; try discriminate H; cbn [scanned] in V.
  - destruct V as (ps & l & i' & E & F & W & Eb & -> & ->). rewrite Eb in H.
    apply IH in H as (ps' & l' & E' & F' & ->); [|exact P|exact Q]. cbn [set_in cn_in] in E'. subst l.
    exists (ps ++ ps'), l'. rewrite E, map_app, <- app_assoc. split; [reflexivity|]. split.
    { apply Forall_app. split; assumption. }
    rewrite W, <- app_assoc. reflexivity.
  - injection H as <- _ _. destruct V as (ps & l & E & F & W). exists ps, l. rewrite W, app_nil_r. auto.
Qed.

Lemma drive_inv n : forall c i skip k bs s' k', k_pool k = BDetached -> cn_queue c = [] ->
  drive_blocks n (reading c i skip) k = (map Ok bs, Some SEnd, s', k') ->
  exists ps l, cn_in c ++ cn_late c = map Ok ps ++ Ok PkEof :: l /\ Forall in_response ps /\ bs = remaining i skip ps.
Proof.
  induction n as [|n IH]; intros c i skip k bs s' k' P Q H; [discriminate H|].
  rewrite drive_S, poll_reading in H by assumption. pose proof (scan_inv (cn_in c) c i skip k) as V.
  destruct (scan (cn_in c) c i skip k) as [[[[b|e|q]| | |] s1] k1]; try discriminate H; cbn [scanned] in V.
  - destruct V as (ps & l & i' & E & F & W & Eb & -> & ->).
    destruct (drive_blocks n (reading (set_in c l) i' skip) k) as [[[l2 e2] s2] k2] eqn:D. injection H as H -> -> ->.
    destruct bs as [|b' bs]; [discriminate H|]. injection H as -> ->.
    apply IH in D as (ps' & l' & E' & F' & ->); [|exact P|exact Q]. cbn [set_in cn_in cn_late] in E'.
    exists (ps ++ ps'), l'. rewrite E, map_app, <- !app_assoc, E'. split; [reflexivity|]. split.
    { apply Forall_app. split; assumption. }
    rewrite W. reflexivity.
  - destruct (drive_blocks n s1 k1) as [[[l2 e2] s2] k2]. injection H as H _ _ _. destruct bs; discriminate H.
  - destruct (drive_blocks n s1 k1) as [[[l2 e2] s2] k2]. injection H as H _ _ _. destruct bs; discriminate H.
  - injection H as H _ _. destruct V as (ps & l & E & F & W). exists ps, (l ++ cn_late c). rewrite E, <- app_assoc, W. destruct bs; [|discriminate H]. auto.
  - destruct V as (ps & i' & E & F & W & -> & ->).
    change (arrive_stream (reading (set_in c []) i' skip)) with (reading (arrive (set_in c [])) i' skip) in H.
    apply IH in H as (ps' & l' & E' & F' & ->); [|exact P|exact Q]. unfold arrive, set_in in E'. cbn [cn_in cn_late] in E'. rewrite app_nil_r in E'. cbn [app] in E'.
    exists (ps ++ ps'), l'. rewrite E, map_app, <- app_assoc, E'. split; [reflexivity|]. split.
    { apply Forall_app. split; assumption. }
    rewrite W. reflexivity.
Qed.

(** A query: its result is made of exactly the blocks that came before the end of the answer. *)
Theorem c88_fetch_all fuel q k k1 c b k2 :
  before fuel k = (Ok tt, k1) -> k_pool k1 = BAttached -> k_inner k1 = Some c -> idle c -> fetch_all fuel q k = (Ok b, k2) ->
  exists ps l late closes,
    server (cn_id c) (cn_log c ++ [CmdQuery q (k_context k1)]) = RAnswers (map Ok ps ++ Ok PkEof :: l) late closes /\
    Forall in_response ps /\ block_concat (with_columns (blocks_of ps)) = Ok b.
Proof.
  intros B P E Id H. unfold Client.fetch_all, stream_blocks, detach in H. rewrite B, P in H.
  unfold get_inner in H. cbn [set_pool k_inner k_context] in H. rewrite E in H.
  set (m := CmdQuery q (k_context k1)) in *. set (k3 := set_inner (set_pool k1 BDetached) None) in *.
  fold (asking c m false) in H.
  destruct (flush (set_queue c (cn_queue c ++ [m])) (cn_queue c ++ [m])) as [[[]|e|p] c'] eqn:F.
  - rewrite (collect_asking lz4_compress show_float server _ _ _ _ _ _ F) in H.
    destruct (flush_inv c _ c' Id F) as (now & late & closes & S & ->).
    match type of H with context [collect ?n ?s ?k0 ?a] => destruct (collect n s k0 a) as [[r s'] k'] eqn:C end.
    destruct (drop_stream s' k') as [[x|x|x] k4]; try discriminate H. injection H as H _.
    destruct r as [bs|e|p]; try discriminate H. cbn [rbind] in H.
    apply collect_inv in C as (ps & l & E' & Fp & ->); [|reflexivity|reflexivity]. cbn [cn_in] in E'. subst now.
    exists ps, l, late, closes. split; [exact S|]. split; [exact Fp|]. cbn [app] in H. unfold remaining in H. exact H.
  - exfalso. cbn [Client.collect] in H. unfold poll_stream in H. cbn [asking bs_inner Client.poll_blocks bs_state] in H.
    unfold Client.next, call in H. cbn [ps_state ps_inner ps_read_block set_queue cn_queue] in H. fold (set_queue c (cn_queue c ++ [m])) in H.
    rewrite F in H. destruct (drop_stream _ _) as [[x|x|x] k4] in H; discriminate H.
  - exfalso. cbn [Client.collect] in H. unfold poll_stream in H. cbn [asking bs_inner Client.poll_blocks bs_state] in H.
    unfold Client.next, call in H. cbn [ps_state ps_inner ps_read_block set_queue cn_queue] in H. fold (set_queue c (cn_queue c ++ [m])) in H.
    rewrite F in H. destruct (drop_stream _ _) as [[x|x|x] k4] in H; discriminate H.
Qed.

(** A stream: when it ends and no item was an error, it has given all of the answer, in parts or at once. *)
Theorem c88_stream fuel skip q k k1 c s k2 n bs s' k3 :
  before fuel k = (Ok tt, k1) -> k_pool k1 = BAttached -> k_inner k1 = Some c -> idle c ->
  stream_blocks fuel skip q k = (Ok s, k2) -> drive_blocks n s k2 = (map Ok bs, Some SEnd, s', k3) ->
  exists ps l now late closes,
    server (cn_id c) (cn_log c ++ [CmdQuery q (k_context k1)]) = RAnswers now late closes /\
    now ++ late = map Ok ps ++ Ok PkEof :: l /\ Forall in_response ps /\ bs = delivered skip ps.
Proof.
  intros B P E Id St H. unfold Client.stream_blocks, detach in St. rewrite B, P in St.
  unfold get_inner in St. cbn [set_pool k_inner k_context] in St. rewrite E in St. injection St as <- <-.
  set (m := CmdQuery q (k_context k1)) in *. set (k4 := set_inner (set_pool k1 BDetached) None) in *.
  fold (asking c m skip) in H. destruct n as [|n]; [discriminate H|].
  destruct (flush (set_queue c (cn_queue c ++ [m])) (cn_queue c ++ [m])) as [[[]|e|p] c'] eqn:F.
  - rewrite (drive_asking lz4_compress show_float server _ _ _ _ _ _ F) in H.
    destruct (flush_inv c _ c' Id F) as (now & late & closes & S & ->).
    apply drive_inv in H as (ps & l & E' & Fp & ->); [|reflexivity|reflexivity]. cbn [cn_in cn_late] in E'.
    exists ps, l, now, late, closes. repeat (split; [assumption|]). unfold remaining, delivered. cbn [Nat.eqb]. rewrite andb_true_r. reflexivity.
  - exfalso. rewrite drive_S in H. unfold poll_stream in H. cbn [asking bs_inner Client.poll_blocks bs_state] in H.
    unfold Client.next, call in H. cbn [ps_state ps_inner ps_read_block set_queue cn_queue] in H. fold (set_queue c (cn_queue c ++ [m])) in H.
    rewrite F in H. destruct (drive_blocks _ _ _) as [[[l2 e2] s2] k5] in H. injection H as H _ _ _. destruct bs; discriminate H.
  - exfalso. rewrite drive_S in H. unfold poll_stream in H. cbn [asking bs_inner Client.poll_blocks bs_state] in H.
    unfold Client.next, call in H. cbn [ps_state ps_inner ps_read_block set_queue cn_queue] in H. fold (set_queue c (cn_queue c ++ [m])) in H.
    rewrite F in H. discriminate H.
Qed.
End Honest.
Print Assumptions c88_ping.
Print Assumptions c88_execute.
Print Assumptions c88_fetch_all.
Print Assumptions c88_stream.

(** The hypotheses are met by the client of [PropClient] and a server that answers in two parts;
    cut off before its end, the same answer is an error, or a panic in [execute] (C33). *)
Example c88_case :
  let all := (map Ok ex_response ++ [Ok PkEof], [], false) in
  let cut := (map Ok ex_response, [], true) in
  (forall a, before ex_lz4 ex_show (ex_server a) ex_fresh ex_opts 5 ex_client =
     (Ok tt, mk_client (Some (checked ex_opts ex_conn)) ex_context BAttached 0) /\ idle (checked ex_opts ex_conn)) /\
  fst (ping ex_lz4 ex_show (ex_server all) ex_client) = Ok tt /\
  fst (execute ex_lz4 ex_show (ex_server all) ex_fresh ex_opts 5 ex_query ex_client) = Ok tt /\
  (exists b, fst (fetch_all ex_lz4 ex_show (ex_server all) ex_fresh ex_opts 5 ex_query ex_client) = Ok b) /\
  fst (execute ex_lz4 ex_show (ex_server cut) ex_fresh ex_opts 5 ex_query ex_client) = Panic PUnwrap /\
  fst (fetch_all ex_lz4 ex_show (ex_server cut) ex_fresh ex_opts 5 ex_query ex_client) = Err EIo /\
  exists s k s' k', stream_blocks ex_lz4 ex_show (ex_server ex_late) ex_fresh ex_opts 5 true ex_query ex_client = (Ok s, k) /\
    drive_blocks ex_lz4 ex_show (ex_server ex_late) 9 s k = (map Ok [ex_block; ex_block], Some SEnd, s', k').
Proof.
  cbv zeta. split; [intros a; split; [vm_compute; reflexivity|repeat split]|].
  split; [vm_compute; reflexivity|]. split; [vm_compute; reflexivity|].
  split; [eexists; vm_compute; reflexivity|]. split; [vm_compute; reflexivity|]. split; [vm_compute; reflexivity|].
  do 4 eexists. split; [vm_compute; reflexivity|]. vm_compute. reflexivity.
Qed.
