(** C98: what an operation reports is what the first message says that is not merely on the way.

    The theorems below cover every answer: [c98_every_answer] splits any list of messages. *)
From Coq Require Import String.
From Verif Require Import Base Bytes Types Text Values Columns Block Packets Client SpecClient SpecBlock ClientProofs PropClient.
From Verif Require PropBlocks.
Open Scope list_scope. Open Scope nat_scope.

(** The messages [ps] are on the way, and what follows begins with none of those. *)
Definition decided (way : packet -> Prop) (ps : list packet) (rest : list (res packet)) : Prop :=
  Forall way ps /\ match rest with Ok p :: _ => ~ way p | _ => True end.

(** The report: by the end, the exception or anything else; by what cannot be read; or, if nothing
    decides, by whether more is to come. [gone] is the report of a connection that was closed. *)
Definition report {A} (fin : packet -> bool) (a gone : res A) (rest late : list (res packet)) (closes : bool) : res A :=
  match rest with
  | Ok (PkException e) :: _ => Err (EServer e)
  | Ok p :: _ => if fin p then a else Err EUnexpectedPacket
  | Err _ :: _ => Err EIo
  | Panic p :: _ => Panic p
  | [] => match late with [] => if closes then gone else Err ETimeout | _ => Err ETimeout end
  end.
Definition is_eof (p : packet) : bool := match p with PkEof => true | _ => false end.
Definition is_pong (p : packet) : bool := match p with PkPong => true | _ => false end.
Definition is_hello (p : packet) : bool := match p with PkHello _ => true | _ => false end.

(** The connection that the handle has afterwards: that of the answer, less what has been read, if the operation was reported as ended; else none. *)
Definition kept (fin : packet -> bool) (c : conn) (m : cmd) (rest late : list (res packet)) (closes : bool) : option conn :=
  match rest with
  | Ok p :: l => if fin p then Some (mk_conn (cn_id c) l late closes [] (cn_log c ++ [m]) false) else None
  | _ => None
  end.

Theorem c98_every_answer (way : packet -> Prop) : (forall p, way p \/ ~ way p) ->
  forall l, exists ps rest, l = map Ok ps ++ rest /\ decided way ps rest.
Proof.
  intros D l. induction l as [|x l (ps & rest & -> & F & R)].
  - exists [], []. split; [reflexivity|split; [constructor|exact I]].
  - destruct x as [p|e|p]; [destruct (D p) as [W|W]| |].
    + exists (p :: ps), rest. split; [reflexivity|]. split; [constructor; assumption|exact R].
    + exists [], (Ok p :: map Ok ps ++ rest). split; [reflexivity|]. split; [constructor|exact W].
    + exists [], (Err e :: map Ok ps ++ rest). split; [reflexivity|]. split; [constructor|exact I].
    + exists [], (Panic p :: map Ok ps ++ rest). split; [reflexivity|]. split; [constructor|exact I].
Qed.

Section Outcome.
Variable lz4_compress : bytes -> bytes.
Variable show_float : Z -> bytes.
Variable parse_ipv4 parse_ipv6 : bytes -> option bytes.
Variable server : nat -> list cmd -> reply.
Variable fresh : nat -> res client.
Variable opts : copts.
Notation encode_command := (encode_command lz4_compress show_float).
Notation before := (before lz4_compress show_float server fresh opts).
Notation fetch_all := (fetch_all lz4_compress show_float server fresh opts).
Notation execute := (execute lz4_compress show_float server fresh opts).
Notation insert_ := (insert_ lz4_compress show_float parse_ipv4 parse_ipv6 server fresh opts).
Notation collect := (collect lz4_compress show_float server).
Notation ping := (ping lz4_compress show_float server).
Notation hello := (hello lz4_compress show_float server).

Theorem c98_ping k c rest late closes :
  k_inner k = Some c -> idle c -> server (cn_id c) (cn_log c ++ [CmdPing]) = RAnswers rest late closes ->
  ping k = (report is_pong (Ok tt) (Err EBroken) rest late closes, set_inner k (kept is_pong c CmdPing rest late closes)).
Proof.
  intros E Id S. unfold Client.ping, get_inner. rewrite E. cbn [rbind]. rewrite clear_idle by exact Id. cbn [rbind].
  rewrite drain_false. destruct (encode_ping_ok lz4_compress show_float) as (bs & Eb). rewrite (flush_one _ _ _ c _ _ _ _ bs Id Eb S).
  cbn [cn_in]. destruct rest as [|[p|e|p] l]; cbn [feed cn_late cn_closed report kept].
  - destruct late; [destruct closes|]; reflexivity.
  - destruct p; reflexivity.
  - reflexivity.
  - reflexivity.
Qed.

(** The greeting. A server that closes the connection makes the program panic (C33). *)
Theorem c98_hello k c rest late closes :
  k_inner k = Some c -> idle c -> (exists bs, encode_command (CmdHello (k_context k)) = Ok bs) ->
  server (cn_id c) (cn_log c ++ [CmdHello (k_context k)]) = RAnswers rest late closes ->
  fst (hello k) = report is_hello (Ok tt) (Panic PUnwrap) rest late closes /\
  k_inner (snd (hello k)) = kept is_hello c (CmdHello (k_context k)) rest late closes /\
  match rest with
  | Ok (PkHello i) :: _ => cx_revision (k_context (snd (hello k))) = si_revision i
  | _ => k_context (snd (hello k)) = k_context k
  end.
Proof.
  intros E Id (bs & Eb) S. unfold Client.hello. rewrite E. rewrite drain_false. rewrite (flush_one _ _ _ c _ _ _ _ bs Id Eb S).
  cbn [cn_in]. destruct rest as [|[p|e|p] l]; cbn [feed cn_late cn_closed report kept].
  - destruct late; [destruct closes|]; split; try split; reflexivity.
  - destruct p; split; try split; reflexivity.
  - split; try split; reflexivity.
  - split; try split; reflexivity.
Qed.

Lemma feed_on_the_way c ps rest : Forall in_response ps ->
  feed on_execute false c (map Ok ps ++ rest) None = feed on_execute false c rest None.
Proof. induction 1 as [|p ps W F IH]; [reflexivity|]. destruct p; try contradiction; exact IH. Qed.

(** A statement. A server that closes the connection makes the program panic (C33). *)
Theorem c98_execute fuel q k k1 c ps rest late closes :
  before fuel k = (Ok tt, k1) -> k_inner k1 = Some c -> idle c ->
  let m := CmdQuery q (k_context k) in
  (exists bs, encode_command m = Ok bs) ->
  server (cn_id c) (cn_log c ++ [m]) = RAnswers (map Ok ps ++ rest) late closes -> decided in_response ps rest ->
  execute fuel q k = (report is_eof (Ok tt) (Panic PUnwrap) rest late closes, set_inner k1 (kept is_eof c m rest late closes)).
Proof.
  intros B E Id m (bs & Eb) S [F R]. unfold Client.execute. rewrite B. unfold get_inner. rewrite E. cbn [rbind].
  rewrite clear_idle by exact Id. cbn [rbind]. rewrite drain_false. fold m. rewrite (flush_one _ _ _ c _ _ _ _ bs Id Eb S). cbn [cn_in].
  rewrite feed_on_the_way by exact F. destruct rest as [|[p|e|p] l]; cbn [feed cn_late cn_closed report kept].
  - destruct late; [destruct closes|]; reflexivity.
  - destruct p; try (exfalso; exact (R I)); reflexivity.
  - reflexivity.
  - reflexivity.
Qed.

(** Nothing can be sent. *)
Theorem c98_execute_unsent fuel q k k1 c :
  before fuel k = (Ok tt, k1) -> k_inner k1 = Some c -> idle c ->
  let m := CmdQuery q (k_context k) in
  execute fuel q k =
    match encode_command m, server (cn_id c) (cn_log c ++ [m]) with
    | Panic p, _ => (Panic p, set_inner k1 None)
    | Err _, _ | _, RFails => (Err EIo, set_inner k1 None)
    | _, _ => execute fuel q k
    end.
Proof.
  intros B E Id m. destruct (encode_command m) eqn:Eb; [destruct (server (cn_id c) (cn_log c ++ [m])) eqn:S; [|reflexivity]| |];
  unfold Client.execute; rewrite B; unfold get_inner; rewrite E; cbn [rbind]; rewrite clear_idle by exact Id; cbn [rbind];
  rewrite drain_false; fold m; destruct Id as (I1 & I2 & I3 & I4 & I5); rewrite I4; cbn [app Client.flush]; unfold deliver;
  cbn [set_queue cn_id cn_log cn_in cn_late cn_closed cn_inconsistent]; rewrite Eb; try rewrite S; reflexivity.
Qed.

(** The connection of a query's handle afterwards. A stream that is dropped while it is being read gives its connection back, marked as out of step. *)
Definition query_keeps (c : conn) (m : cmd) (rest late : list (res packet)) (closes : bool) : option conn :=
  let left l out := Some (mk_conn (cn_id c) l late closes [] (cn_log c ++ [m]) out) in
  match rest with
  | Ok PkEof :: l => left l false
  | Ok (PkException _ | PkHello _ | PkPong) :: _ => None
  | (Ok _ | Err _ | Panic _) :: l => left l true
  | [] => match late with [] => if closes then None else left [] true | _ => left [] true end
  end.

Definition left_with (c : conn) (rest : list (res packet)) : option conn :=
  match rest with
  | Ok PkEof :: l => Some (set_in c l)
  | Ok (PkException _ | PkHello _ | PkPong) :: _ => None
  | (Ok _ | Err _ | Panic _) :: l => Some (set_inconsistent (set_in c l) true)
  | [] => match cn_late c with [] => if cn_closed c then None else Some (set_inconsistent (set_in c []) true) | _ => Some (set_inconsistent (set_in c []) true) end
  end.
Lemma collect_decided n : forall ps c i k acc rest, length ps + 1 < n -> k_pool k = BDetached -> k_inner k = None ->
  cn_queue c = [] -> cn_in c = map Ok ps ++ rest -> decided in_response ps rest ->
  match collect n (reading c i false) k acc with
  | (r, s', k') =>
      r = report is_eof (Ok (acc ++ remaining i false ps)) (Err EIo) rest (cn_late c) (cn_closed c) /\
      exists k3, drop_stream s' k' = (Ok tt, k3) /\
      k_inner k3 = left_with c rest /\ (k_inner k3 <> None -> k_pool k3 = BAttached) /\ k_context k3 = k_context k
  end.
Proof.
  induction n as [|n IH]; intros ps c i k acc rest Hn P K Q E [F R]; [lia|].
  cbn [Client.collect]. rewrite poll_reading by assumption. rewrite E.
  destruct (scan_response server ps F c i false k rest) as [[A B]|(b & ps2 & i' & A & B & C & D)].
  - rewrite B. specialize (A []). rewrite app_nil_r, remaining_nil in A. rewrite A, app_nil_r.
    assert (Y : forall s, bs_state s = Reading -> exists k3, drop_stream s k = (Ok tt, k3) /\
      k_inner k3 = match ps_inner (bs_inner s) with Some c => Some (set_inconsistent c true) | None => None end /\
      (k_inner k3 <> None -> k_pool k3 = BAttached) /\ k_context k3 = k_context k).
    { intros s Es. unfold drop_stream. rewrite Es, (reattach_detached k P). eexists. split; [reflexivity|].
      destruct (ps_inner (bs_inner s)); (split; [reflexivity || exact K|]); split; reflexivity. }
    destruct rest as [|[p|e|p] l]; cbn [scan report left_with].
    + destruct (cn_late c); [destruct (cn_closed c)|]; (split; [reflexivity|]); try (apply (Y (reading _ _ _) eq_refl)).
      exists k. split; [reflexivity|]. split; [exact K|]. split; [congruence|reflexivity].
    + destruct p; try (exfalso; exact (R I)); (split; [reflexivity|]); try (exact (Y (mk_bstream (mk_pstream _ _ _) Reading _ _) eq_refl)).
      * exists k. split; [reflexivity|]. split; [exact K|]. split; [congruence|reflexivity].
      * eexists. repeat split; reflexivity.
    + split; [reflexivity|]. apply (Y (reading _ _ _) eq_refl).
    + split; [reflexivity|]. apply (Y (reading _ _ _) eq_refl).
  - rewrite D. specialize (A []). rewrite !app_nil_r in A.
    assert (block_is_empty b = false) as ->.
    { assert (In b (remaining i false ps)) as Z by (rewrite A; left; reflexivity).
      unfold remaining, with_columns in Z. cbn [andb] in Z. apply filter_In in Z. destruct Z as [_ Z].
      unfold block_is_empty. destruct (b_cols b); [discriminate Z|reflexivity]. }
    specialize (IH ps2 (set_in c (map Ok ps2 ++ rest)) i' k (acc ++ [b]) rest).
    destruct (collect n (reading (set_in c (map Ok ps2 ++ rest)) i' false) k (acc ++ [b])) as [[r s'] k'].
    destruct IH as (IH1 & k3 & IH2 & IH3 & IH4); try assumption; try reflexivity; [lia|split; assumption|].
    split; [|exists k3; split; [exact IH2|split; [rewrite IH3; reflexivity|exact IH4]]].
    rewrite IH1, A, <- app_assoc. reflexivity.
Qed.

(** A query: its rows are those of the blocks on the way. *)
Theorem c98_fetch_all fuel q k k1 c ps rest late closes :
  before fuel k = (Ok tt, k1) -> k_pool k1 = BAttached -> k_inner k1 = Some c -> idle c ->
  let m := CmdQuery q (k_context k1) in
  (exists bs, encode_command m = Ok bs) ->
  server (cn_id c) (cn_log c ++ [m]) = RAnswers (map Ok ps ++ rest) late closes -> decided in_response ps rest ->
  fst (fetch_all fuel q k) = report is_eof (block_concat (with_columns (blocks_of ps))) (Err EIo) rest late closes /\
  k_inner (snd (fetch_all fuel q k)) = query_keeps c m rest late closes.
Proof.
  intros B P E Id m (bs & Eb) Sv D. unfold Client.fetch_all, stream_blocks, detach. rewrite B, P.
  unfold get_inner. cbn [set_pool k_inner k_context]. rewrite E. fold m.
  set (k3 := set_inner (set_pool k1 BDetached) None). fold (asking c m false).
  pose proof (flush_one lz4_compress show_float server c m _ _ _ bs Id Eb Sv) as Fl.
  assert (N : stream_fuel lz4_compress show_float server (bs_inner (asking c m false)) = 3 + length (map (@Ok packet) ps ++ rest)).
  { unfold stream_fuel. cbn [asking bs_inner call ps_inner set_queue cn_queue]. fold (set_queue c (cn_queue c ++ [m])). rewrite Fl. reflexivity. }
  rewrite N, (collect_asking lz4_compress show_float server _ _ _ _ _ _ Fl).
  pose proof (collect_decided (S (3 + length (map (@Ok packet) ps ++ rest))) ps (mk_conn (cn_id c) (map Ok ps ++ rest) late closes [] (cn_log c ++ [m]) false) 0 k3 [] rest) as C.
  destruct (collect _ _ k3 []) as [[r s'] k'].
  destruct C as (C1 & k4 & C2 & C3 & _); try reflexivity; [rewrite app_length, map_length; lia|exact D|]. rewrite C2. cbn [fst snd cn_late cn_closed] in *. split.
  - rewrite C1. unfold remaining. cbn [andb app]. destruct rest as [|[p|e|p] l]; cbn [report]; try reflexivity.
    + destruct late; [destruct closes|]; reflexivity.
    + destruct p; reflexivity.
  - rewrite C3. destruct rest as [|[[]|e|p] l]; reflexivity.
Qed.

(** *** Inserts *)
Notation read_block := (read_block lz4_compress show_float server).
Notation send_insert_query := (send_insert_query lz4_compress show_float server).
Notation insert_block := (insert_block lz4_compress show_float server).
Notation insert_tail := (insert_tail lz4_compress show_float server).
Notation goes_along := (goes_along lz4_compress show_float server).
Notation data p cx := (CmdUnion (CmdData p cx) (CmdData block_default cx)).
Definition is_end (p : packet) : bool := match p with PkEof | PkBlock _ => true | _ => false end.

Lemma read_decided c m ps rest late closes : idle c -> (exists bs, encode_command m = Ok bs) ->
  server (cn_id c) (cn_log c ++ [m]) = RAnswers (map Ok ps ++ rest) late closes -> decided describes_columns ps rest ->
  read_block (call c m) =
  report is_end
    (match rest with Ok p :: l => Ok (mk_conn (cn_id c) l late closes [] (cn_log c ++ [m]) false, match p with PkBlock h => Some h | _ => None end) | _ => Panic PUnwrap end)
    (Panic PUnwrap) rest late closes.
Proof.
  intros Id (bs & Eb) Sv [F R]. unfold Client.read_block. rewrite drain_call, (flush_one _ _ _ c _ _ _ _ bs Id Eb Sv).
  cbn [cn_in]. rewrite feed_read_block by exact F. destruct rest as [|[p|e|p] l]; cbn [feed cn_late cn_closed report].
  - destruct late; [destruct closes|]; reflexivity.
  - destruct p; try (exfalso; exact (R I)); reflexivity.
  - reflexivity.
  - reflexivity.
Qed.

(** What is not a description of the columns in answer to a statement fails the insert; the end of the answer makes the program panic. *)
Lemma query_decided c cx q ps rest late closes : idle c -> (exists bs, encode_command (CmdQuery q cx) = Ok bs) ->
  server (cn_id c) (cn_log c ++ [CmdQuery q cx]) = RAnswers (map Ok ps ++ rest) late closes -> decided describes_columns ps rest ->
  (forall h l, rest <> Ok (PkBlock h) :: l) ->
  send_insert_query c cx q = report is_eof (Panic PUnwrap) (Panic PUnwrap) rest late closes.
Proof.
  intros Id Eb Sv D NB. unfold Client.send_insert_query. rewrite (read_decided _ _ _ _ _ _ Id Eb Sv D).
  destruct rest as [|[p|e|p] l]; cbn [report]; try reflexivity.
  - destruct late; [destruct closes|]; reflexivity.
  - destruct p; try reflexivity. exfalso. exact (NB _ _ eq_refl).
Qed.
Lemma data_decided c cx b ps rest late closes : idle c -> (exists bs, encode_command (data b cx) = Ok bs) ->
  server (cn_id c) (cn_log c ++ [data b cx]) = RAnswers (map Ok ps ++ rest) late closes -> decided describes_columns ps rest ->
  insert_block c cx b = report is_end (match kept is_end c (data b cx) rest late closes with Some c' => Ok c' | None => Panic PUnwrap end) (Panic PUnwrap) rest late closes.
Proof.
  intros Id Eb Sv D. unfold Client.insert_block. rewrite (read_decided _ _ _ _ _ _ Id Eb Sv D).
  destruct rest as [|[p|e|p] l]; cbn [report]; try reflexivity.
  - destruct late; [destruct closes|]; reflexivity.
  - destruct p; reflexivity.
Qed.

(** After the pieces that went along. *)
Definition after (c : conn) (ms : list cmd) : conn := mk_conn (cn_id c) [] [] false [] (cn_log c ++ ms) false.
Lemma tail_prefix cx q h pieces c0 : goes_along c0 cx q h pieces -> forall more post pre c, pieces = pre ++ post ->
  idle c -> cn_id c = cn_id c0 -> cn_log c = cn_log c0 ++ insert_commands cx q pre ->
  insert_tail c cx q (post ++ more) = insert_tail (after c0 (insert_commands cx q pieces)) cx q more.
Proof.
  intros G more. induction post as [|p post IH]; intros pre c Ep Id Hi Hl.
  - rewrite app_nil_r in Ep. subst pre. cbn [app]. f_equal. destruct Id as (I1 & I2 & I3 & I4 & I5). unfold after.
    rewrite <- Hl, <- Hi. destruct c as [x1 x2 x3 x4 x5 x6 x7]; cbn [cn_in cn_late cn_closed cn_queue cn_inconsistent cn_id cn_log] in *. subst. reflexivity.
  - cbn [app Client.insert_tail]. destruct (G pre p post Ep) as ((bs & E1) & (bs2 & E2) & (ps & h' & F & _ & S1) & (ps2 & F2 & S2)).
    rewrite (send_insert_query_ok lz4_compress show_float server c cx q ps h' bs) by (assumption || (rewrite Hi, Hl, <- app_assoc; exact S1)).
    cbn [rbind fst].
    rewrite (insert_block_ok lz4_compress show_float server _ cx p ps2 bs2) by (first [assumption | apply said_idle |
      cbn [said cn_id cn_log]; rewrite Hi, Hl, insert_commands_app in *; rewrite <- !app_assoc; exact S2]).
    cbn [rbind]. apply (IH (pre ++ [p])).
    + rewrite <- app_assoc. exact Ep.
    + apply said_idle.
    + exact Hi.
    + cbn [said cn_log]. rewrite Hl, insert_commands_app, <- !app_assoc. reflexivity.
Qed.
Lemma after_nil c : idle c -> after c [] = c.
Proof. intros (I1 & I2 & I3 & I4 & I5). unfold after. rewrite app_nil_r. destruct c as [x1 x2 x3 x4 x5 x6 x7]; cbn [cn_in cn_late cn_closed cn_queue cn_inconsistent cn_id cn_log] in *. subst. reflexivity. Qed.

Lemma insert_as_tail fuel q b k k1 c c1 h b' pieces :
  before fuel k = (Ok tt, k1) -> k_inner k1 = Some c -> idle c ->
  send_insert_query c (k_context k) q = Ok (c1, h) ->
  block_cast parse_ipv4 parse_ipv6 b h = Ok b' -> block_chunks insert_block_size b' = Ok pieces -> pieces <> [] ->
  insert_ fuel q b k = match insert_tail c (k_context k) q pieces with
                       | Ok t => (Ok tt, set_inner k1 (Some t)) | Err e => (Err e, set_inner k1 None) | Panic p => (Panic p, set_inner k1 None) end.
Proof.
  intros B E Id Q Ca Ch Ne. unfold Client.insert_. rewrite B. unfold get_inner. rewrite E. cbn [rbind]. rewrite clear_idle by exact Id. cbn [rbind].
  rewrite Q. cbn [rbind fst snd]. rewrite Ca. cbn [rbind]. rewrite Ch. cbn [rbind]. destruct pieces as [|p l]; [congruence|].
  cbn [Client.insert_tail]. rewrite Q. reflexivity.
Qed.

(** The first statement of an insert. *)
Theorem c98_insert_statement fuel q b k k1 c ps rest late closes :
  before fuel k = (Ok tt, k1) -> k_inner k1 = Some c -> idle c ->
  let m := CmdQuery q (k_context k) in
  (exists bs, encode_command m = Ok bs) ->
  server (cn_id c) (cn_log c ++ [m]) = RAnswers (map Ok ps ++ rest) late closes -> decided describes_columns ps rest ->
  (forall h l, rest <> Ok (PkBlock h) :: l) ->
  insert_ fuel q b k = (report is_eof (Panic PUnwrap) (Panic PUnwrap) rest late closes, set_inner k1 None).
Proof.
  intros B E Id m Eb Sv D NB. unfold Client.insert_. rewrite B. unfold get_inner. rewrite E. cbn [rbind]. rewrite clear_idle by exact Id. cbn [rbind].
  rewrite (query_decided _ _ _ _ _ _ _ Id Eb Sv D NB). destruct rest as [|[p|e|p] l]; cbn [report]; try reflexivity.
  - destruct late; [destruct closes|]; reflexivity.
  - destruct p; reflexivity.
Qed.

(** The statement for a later piece, when all before it went well. *)
Theorem c98_insert_next_statement fuel q b k k1 c h b' pre p post ps rest late closes :
  before fuel k = (Ok tt, k1) -> k_inner k1 = Some c -> idle c ->
  block_cast parse_ipv4 parse_ipv6 b h = Ok b' -> block_chunks insert_block_size b' = Ok (pre ++ p :: post) -> pre <> [] ->
  goes_along c (k_context k) q h pre ->
  let m := CmdQuery q (k_context k) in
  server (cn_id c) (cn_log c ++ insert_commands (k_context k) q pre ++ [m]) = RAnswers (map Ok ps ++ rest) late closes ->
  decided describes_columns ps rest -> (forall h l, rest <> Ok (PkBlock h) :: l) ->
  insert_ fuel q b k = (report is_eof (Panic PUnwrap) (Panic PUnwrap) rest late closes, set_inner k1 None).
Proof.
  intros B E Id Ca Ch Ne G m Sv D NB. destruct pre as [|p0 pre]; [congruence|].
  pose proof (G [] p0 pre eq_refl) as (Eb & _ & (ps0 & h' & F0 & Hh & S1) & _). specialize (Hh eq_refl). subst h'. destruct Eb as (bs & Eb).
  rewrite (insert_as_tail fuel q b k k1 c _ h b' _ B E Id (send_insert_query_ok lz4_compress show_float server c _ q ps0 h bs Id F0 Eb S1) Ca Ch) by discriminate.
  rewrite (tail_prefix _ q h (p0 :: pre) c G (p :: post) (p0 :: pre) [] c eq_refl Id eq_refl) by (symmetry; apply app_nil_r).
  cbn [Client.insert_tail]. rewrite (query_decided (after c _) _ _ ps rest late closes); try assumption.
  - destruct rest as [|[x|e|x] l]; cbn [report]; try reflexivity.
    + destruct late; [destruct closes|]; reflexivity.
    + destruct x; reflexivity.
  - repeat split.
  - eauto.
  - cbn [after cn_id cn_log]. rewrite <- app_assoc. exact Sv.
Qed.

(** The data of any piece, when all before it went well. The end of the last one, or a block (C89), is success. *)
Theorem c98_insert_data fuel q b k k1 c h h' b' pre p post qs ps rest late closes :
  before fuel k = (Ok tt, k1) -> k_inner k1 = Some c -> idle c ->
  block_cast parse_ipv4 parse_ipv6 b h = Ok b' -> block_chunks insert_block_size b' = Ok (pre ++ p :: post) ->
  goes_along c (k_context k) q h pre -> (pre = [] -> h' = h) ->
  let m := CmdQuery q (k_context k) in let d := data p (k_context k) in
  (exists bs, encode_command m = Ok bs) -> (exists bs, encode_command d = Ok bs) -> Forall describes_columns qs ->
  let log := cn_log c ++ insert_commands (k_context k) q pre ++ [m] in
  server (cn_id c) log = RAnswers (map Ok qs ++ [Ok (PkBlock h')]) [] false ->
  server (cn_id c) (log ++ [d]) = RAnswers (map Ok ps ++ rest) late closes -> decided describes_columns ps rest ->
  match rest with Ok x :: _ => is_end x = true -> post = [] | _ => True end ->
  insert_ fuel q b k =
    (report is_end (Ok tt) (Panic PUnwrap) rest late closes,
     set_inner k1 (match rest with
       | Ok x :: l => if is_end x then Some (mk_conn (cn_id c) l late closes [] (log ++ [d]) false) else None | _ => None end)).
Proof.
  intros B E Id Ca Ch G Hh m d (bs & Eb) Ed Fq log S1 S2 D Last.
  assert (T : insert_tail c (k_context k) q (pre ++ p :: post) = insert_tail (after c (insert_commands (k_context k) q pre)) (k_context k) q (p :: post)).
  { apply (tail_prefix _ q h pre c G (p :: post) pre [] c eq_refl Id eq_refl). symmetry. apply app_nil_r. }
  assert (Ia : idle (after c (insert_commands (k_context k) q pre))) by (repeat split).
  assert (Qp : send_insert_query (after c (insert_commands (k_context k) q pre)) (k_context k) q = Ok (said (after c (insert_commands (k_context k) q pre)) m, h')).
  { apply (send_insert_query_ok lz4_compress show_float server _ _ q qs h' bs Ia Fq Eb). cbn [after cn_id cn_log]. rewrite <- app_assoc. exact S1. }
  assert (Q0 : exists c1, send_insert_query c (k_context k) q = Ok (c1, h)).
  { destruct pre as [|p0 pre].
    - specialize (Hh eq_refl). subst h'. change (insert_commands (k_context k) q []) with (@nil cmd) in Qp. rewrite after_nil in Qp by exact Id. eauto.
    - pose proof (G [] p0 pre eq_refl) as (_ & _ & (ps0 & h0 & F0 & H0 & S0) & _). specialize (H0 eq_refl). subst h0.
      eexists. exact (send_insert_query_ok lz4_compress show_float server c _ q ps0 h bs Id F0 Eb S0). }
  destruct Q0 as (c1 & Q0). rewrite (insert_as_tail fuel q b k k1 c c1 h b' _ B E Id Q0 Ca Ch) by (destruct pre; discriminate).
  rewrite T. cbn [Client.insert_tail]. rewrite Qp. cbn [rbind fst].
  rewrite (data_decided _ _ _ ps rest late closes (said_idle _ _) Ed); [|cbn [said after cn_id cn_log]; rewrite <- (app_assoc (cn_log c)); exact S2|exact D].
  assert (L : cn_log (said (after c (insert_commands (k_context k) q pre)) m) = log) by (cbn [said after cn_log]; unfold log; rewrite <- app_assoc; reflexivity).
  unfold kept. rewrite L. change (cn_id (said (after c (insert_commands (k_context k) q pre)) m)) with (cn_id c). fold d.
  destruct rest as [|[x|e|x] l]; cbn [report]; try reflexivity.
  - destruct late; [destruct closes|]; reflexivity.
  - destruct x; cbn [is_end] in Last |- *; try reflexivity; rewrite (Last eq_refl); reflexivity.
Qed.
End Outcome.
Print Assumptions c98_every_answer.
Print Assumptions c98_ping.
Print Assumptions c98_hello.
Print Assumptions c98_execute.
Print Assumptions c98_execute_unsent.
Print Assumptions c98_fetch_all.
Print Assumptions c98_insert_statement.
Print Assumptions c98_insert_next_statement.
Print Assumptions c98_insert_data.

(** The same rows, then the end, an exception, a message out of place, something unreadable, nothing, or a closed connection. *)
Example c98_case :
  let sv rest closes := ex_server (map Ok ex_response ++ rest, [], closes) in
  let run rest closes := fst (execute ex_lz4 ex_show (sv rest closes) ex_fresh ex_opts 5 ex_query ex_client) in
  let get rest closes := fst (fetch_all ex_lz4 ex_show (sv rest closes) ex_fresh ex_opts 5 ex_query ex_client) in
  (forall rest closes, before ex_lz4 ex_show (sv rest closes) ex_fresh ex_opts 5 ex_client =
     (Ok tt, mk_client (Some (checked ex_opts ex_conn)) ex_context BAttached 0)) /\
  idle (checked ex_opts ex_conn) /\
  (forall rest, In rest [[Ok PkEof]; [Ok (PkException ex_exception)]; [Ok PkPong]; [Err EOther]; []] -> decided in_response ex_response rest) /\
  run [Ok PkEof] false = Ok tt /\ run [Ok (PkException ex_exception)] false = Err (EServer ex_exception) /\
  run [Ok PkPong] false = Err EUnexpectedPacket /\ run [Err EOther] false = Err EIo /\ run [] false = Err ETimeout /\ run [] true = Panic PUnwrap /\
  (exists b, get [Ok PkEof] false = Ok b /\ row_count b = Ok 4) /\ get [Ok (PkException ex_exception)] false = Err (EServer ex_exception) /\
  get [] false = Err ETimeout /\ get [] true = Err EIo.
Proof.
  cbv zeta. split; [intros rest closes; vm_compute; reflexivity|]. split; [repeat split|]. split.
  { intros rest H. split; [repeat constructor|]. cbn [In] in H. decompose [or] H; subst; try contradiction; cbn; auto. }
  do 6 (split; [vm_compute; reflexivity|]). split; [eexists; split; vm_compute; reflexivity|]. repeat split; vm_compute; reflexivity.
Qed.

(** An insert: to the statement of [c53_case]'s insert, then to its data. *)
Example c98_insert_case :
  let silent := ex_server ([Ok (PkTableColumns [] []); Ok PkEof], [], false) in
  let sv last (n : nat) (log : list cmd) := match log with [_; _; _; _] => RAnswers [Ok last] [] false | _ => ex_server ([Ok (PkBlock ex_insert_header)], [], false) n log end in
  let ins s := fst (insert_ ex_lz4 ex_show ex_parse ex_parse s ex_fresh ex_opts 5 ex_query ex_block ex_client) in
  ins silent = Panic PUnwrap /\ ins (sv PkEof) = Ok tt /\ ins (sv (PkBlock ex_block)) = Ok tt /\
  ins (sv (PkException ex_exception)) = Err (EServer ex_exception) /\ ins (sv PkPong) = Err EUnexpectedPacket.
Proof. cbv zeta. repeat split; vm_compute; reflexivity. Qed.

(** Blocks of several pieces exist. *)
Example c98_pieces_case : exists b p1 p2, block_chunks insert_block_size b = Ok [p1; p2].
Proof.
  set (n := insert_block_size). assert (Hn : 2 <= n) by (unfold n, insert_block_size; lia). clearbody n.
  exists (mk_block info_default [(str "a", CString (repeat [] (S n)))]).
  destruct (PropBlocks.c12_pieces n (S n) (mk_block info_default [(str "a", CString (repeat [] (S n)))])) as (ps & E & _ & P).
  - lia.
  - constructor; [|constructor]. cbn [snd clen]. rewrite repeat_length. reflexivity.
  - discriminate.
  - destruct P as [L _]; [lia|].
    replace ((S n + n - 1) / n) with 2 in L by (apply Nat.div_unique with (r := 0); lia).
    destruct ps as [|p1 [|p2 [|? ?]]]; try discriminate L. exists p1, p2. exact E.
Qed.
