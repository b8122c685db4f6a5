(** C89: an insert reports success only when the server has taken every piece. *)
From Coq Require Import String.
From Verif Require Import Base Bytes Types Text Values Columns Block Packets Client SpecClient ClientProofs PropClient.
Open Scope list_scope. Open Scope nat_scope.

(** A server that, after any descriptions of columns, says at most one thing in answer to a command:
    the columns, the end, an exception, something that cannot be read, or nothing at all. *)
Definition one_answer (now late : list (res packet)) : Prop :=
  exists tcs last, Forall describes_columns tcs /\ now = map Ok tcs ++ last /\ (last = [] \/ exists x, last = [x] /\ late = []).

(** What the server has said to the commands of an insert: a block for each statement, the end for each piece. *)
Definition taken (m : cmd) (p : packet) : Prop :=
  match m with CmdQuery _ _ => exists h, p = PkBlock h | _ => p = PkEof end.
Fixpoint acknowledged (server : list cmd -> reply) (log ms : list cmd) : Prop :=
  match ms with
  | [] => True
  | m :: ms =>
      (exists tcs p closes, server (log ++ [m]) = RAnswers (map Ok tcs ++ [Ok p]) [] closes /\
         Forall describes_columns tcs /\ taken m p) /\
      acknowledged server (log ++ [m]) ms
  end.

Section Insert.
Variable lz4_compress : bytes -> bytes.
Variable show_float : Z -> bytes.
Variable parse_ipv4 parse_ipv6 : bytes -> option bytes.
Variable server : nat -> list cmd -> reply.
Variable fresh : nat -> res client.
Variable opts : copts.
Notation flush := (flush lz4_compress show_float server).
Notation before := (before lz4_compress show_float server fresh opts).
Notation insert_ := (insert_ lz4_compress show_float parse_ipv4 parse_ipv6 server fresh opts).
Notation insert_tail := (insert_tail lz4_compress show_float server).
Notation insert_block := (insert_block lz4_compress show_float server).
Notation send_insert_query := (send_insert_query lz4_compress show_float server).
Notation read_block := (read_block lz4_compress show_float server).

Definition clean (id : nat) (log : list cmd) (c : conn) : Prop :=
  cn_id c = id /\ cn_log c = log /\ cn_in c = [] /\ cn_late c = [] /\ cn_queue c = [] /\ cn_inconsistent c = false.

Lemma feed_inv c tcs last : Forall describes_columns tcs -> forall a a', fst a = None ->
  feed on_read_block true c (map Ok tcs ++ last) a = Ok a' ->
  feed on_read_block true c last a = Ok a'.
Proof.
  induction 1 as [|p tcs D F IH]; intros a a' E H; [exact H|].
  destruct p; try contradiction. cbn [map app feed carries on_read_block is_block andb] in H. apply IH; assumption.
Qed.

Lemma read_inv id log c m x :
  (forall l now late closes, server id l = RAnswers now late closes -> one_answer now late) ->
  clean id log c -> read_block (call c m) = Ok x ->
  exists tcs p closes, server id (log ++ [m]) = RAnswers (map Ok tcs ++ [Ok p]) [] closes /\ Forall describes_columns tcs /\
    clean id (log ++ [m]) (fst x) /\ ((p = PkEof /\ snd x = None) \/ exists h, p = PkBlock h /\ snd x = Some h).
Proof.
  intros T (<- & <- & C3 & C4 & C5 & C6) H. unfold Client.read_block in H. rewrite drain_call, C5 in H. cbn [app Client.flush] in H. unfold deliver in H.
  cbn [set_queue cn_id cn_log cn_in cn_late cn_closed cn_inconsistent] in H.
  destruct (encode_command lz4_compress show_float m); try discriminate H.
  destruct (server (cn_id c) (cn_log c ++ [m])) as [|now late closes] eqn:S; try discriminate H.
  rewrite C3, C4 in H. cbn [app] in H.
  destruct (cn_closed c); cbn [Client.flush set_queue cn_in cn_late cn_closed cn_id cn_queue cn_log cn_inconsistent] in H.
  - cbn in H. discriminate H.
  - destruct (T _ _ _ _ S) as (tcs & last & F & -> & L).
    match type of H with context [feed ?o ?r ?y ?l ?a] => destruct (feed o r y l a) as [a'|e|p] eqn:Fe; try discriminate H; set (c1 := y) in * end.
    cbn [rbind] in H. apply feed_inv in Fe; [|exact F|reflexivity].
    destruct L as [->|(y & -> & ->)].
    + cbn [feed] in Fe. subst c1. unfold set_queue in Fe. cbn [cn_late cn_closed] in Fe. destruct late; [destruct closes|]; try discriminate Fe.
      injection Fe as <-. discriminate H.
    + exists tcs. destruct y as [p|e|p]; try discriminate Fe. exists p, closes. split; [reflexivity|]. split; [exact F|].
      destruct p; cbn [feed carries on_read_block is_block andb c1 cn_late cn_closed] in Fe; try discriminate Fe.
      * subst c1. unfold set_queue in Fe. cbn [cn_late cn_closed] in Fe. destruct closes; [|discriminate Fe]. injection Fe as <-. discriminate H.
      * injection Fe as <-. cbn [fst snd or_panic rbind] in H. injection H as <-. split; [|right; eauto].
        subst c1. unfold clean, set_in, set_queue. cbn [fst cn_id cn_log cn_in cn_late cn_queue cn_inconsistent]. rewrite C6. repeat split.
      * injection Fe as <-. cbn [fst snd or_panic rbind] in H. injection H as <-. split; [|left; auto].
        subst c1. unfold clean, set_in, set_queue. cbn [fst cn_id cn_log cn_in cn_late cn_queue cn_inconsistent]. rewrite C6. repeat split.
Qed.

Lemma query_inv id log c cx q x :
  (forall l now late closes, server id l = RAnswers now late closes -> one_answer now late) ->
  clean id log c -> send_insert_query c cx q = Ok x ->
  exists tcs closes, server id (log ++ [CmdQuery q cx]) = RAnswers (map Ok tcs ++ [Ok (PkBlock (snd x))]) [] closes /\ Forall describes_columns tcs /\
    clean id (log ++ [CmdQuery q cx]) (fst x).
Proof.
  intros T C H. unfold Client.send_insert_query in H. destruct (read_block (call c _)) as [y|e|p] eqn:R; try discriminate H. cbn [rbind] in H.
  destruct (read_inv id log c _ y T C R) as (tcs & p & closes & S & F & Cl & [[-> E]|(h & -> & E)]); rewrite E in H; [discriminate H|].
  cbn [or_panic rbind] in H. injection H as <-. exists tcs, closes. auto.
Qed.

Lemma block_inv id log c cx b c' :
  (forall l now late closes, server id l = RAnswers now late closes -> one_answer now late) ->
  (forall l d e now late closes h, server id (l ++ [CmdUnion d e]) = RAnswers now late closes -> ~ In (Ok (PkBlock h)) now) ->
  clean id log c -> insert_block c cx b = Ok c' ->
  let m := CmdUnion (CmdData b cx) (CmdData block_default cx) in
  exists tcs closes, server id (log ++ [m]) = RAnswers (map Ok tcs ++ [Ok PkEof]) [] closes /\ Forall describes_columns tcs /\
    clean id (log ++ [m]) c'.
Proof.
  intros T NB C H m. unfold Client.insert_block in H. fold m in H. destruct (read_block (call c m)) as [y|e|p] eqn:R; try discriminate H. cbn [rbind] in H.
  injection H as <-. destruct (read_inv id log c _ y T C R) as (tcs & p & closes & S & F & Cl & [[-> E]|(h & -> & E)]).
  - exists tcs, closes. auto.
  - exfalso. apply (NB _ _ _ _ _ _ h S). apply in_or_app. right. left. reflexivity.
Qed.

Lemma tail_inv id cx q chunks :
  (forall l now late closes, server id l = RAnswers now late closes -> one_answer now late) ->
  (forall l d e now late closes h, server id (l ++ [CmdUnion d e]) = RAnswers now late closes -> ~ In (Ok (PkBlock h)) now) ->
  forall log c c', clean id log c -> insert_tail c cx q chunks = Ok c' ->
  acknowledged (server id) log (insert_commands cx q chunks) /\ cn_log c' = log ++ insert_commands cx q chunks.
Proof.
  intros T NB. induction chunks as [|b chunks IH]; intros log c c' C H; cbn [Client.insert_tail] in H.
  - injection H as <-. split; [exact I|]. cbn [insert_commands flat_map]. rewrite app_nil_r. apply C.
  - destruct (send_insert_query c cx q) as [x|e|p] eqn:Q; try discriminate H. cbn [rbind] in H.
    destruct (insert_block (fst x) cx b) as [c1|e|p] eqn:Bl; try discriminate H. cbn [rbind] in H.
    apply query_inv with (id := id) (log := log) in Q as (t1 & cl1 & S1 & F1 & C1); [|exact T|exact C].
    apply block_inv with (id := id) (log := log ++ [CmdQuery q cx]) in Bl as (t2 & cl2 & S2 & F2 & C2); [|exact T|exact NB|exact C1].
    apply IH with (log := (log ++ [CmdQuery q cx]) ++ [CmdUnion (CmdData b cx) (CmdData block_default cx)]) in H as [A L]; [|exact C2].
    split.
    + cbn [insert_commands flat_map app acknowledged]. split; [eexists t1, _, cl1; split; [exact S1|]; split; [exact F1|]; eexists; reflexivity|].
      split; [exists t2, PkEof, cl2; split; [exact S2|]; split; [exact F2|reflexivity]|exact A].
    + rewrite L, <- !app_assoc. reflexivity.
Qed.

(** For a server that answers each command with one thing and a piece of the data never with a
    block: when the insert succeeds, the block was cast to the columns of the server's first answer
    and every statement and every piece of it has been answered so. What is missing: the last
    hypothesis, without which it is false ([c89_refuted]). *)
Theorem c89_insert_partial fuel q b k k1 c k2 :
  before fuel k = (Ok tt, k1) -> k_inner k1 = Some c -> idle c ->
  (forall l now late closes, server (cn_id c) l = RAnswers now late closes -> one_answer now late) ->
  (forall l d e now late closes h, server (cn_id c) (l ++ [CmdUnion d e]) = RAnswers now late closes -> ~ In (Ok (PkBlock h)) now) ->
  insert_ fuel q b k = (Ok tt, k2) ->
  exists tcs h closes b' pieces c2,
    server (cn_id c) (cn_log c ++ [CmdQuery q (k_context k)]) = RAnswers (map Ok tcs ++ [Ok (PkBlock h)]) [] closes /\
    block_cast parse_ipv4 parse_ipv6 b h = Ok b' /\ block_chunks insert_block_size b' = Ok pieces /\
    acknowledged (server (cn_id c)) (cn_log c) (insert_commands (k_context k) q pieces) /\
    k_inner k2 = Some c2 /\ cn_log c2 = cn_log c ++ insert_commands (k_context k) q pieces.
Proof.
  intros B E Id T NB H. unfold Client.insert_ in H. rewrite B in H. unfold get_inner in H. rewrite E in H. cbn [rbind] in H.
  rewrite clear_idle in H by exact Id. cbn [rbind] in H.
  assert (C : clean (cn_id c) (cn_log c) c) by (destruct Id as (I1 & I2 & I3 & I4 & I5); repeat split; assumption).
  destruct (send_insert_query c (k_context k) q) as [x|e|p] eqn:Q; try discriminate H. cbn [rbind] in H.
  destruct (block_cast parse_ipv4 parse_ipv6 b (snd x)) as [b'|e|p] eqn:Ca; try discriminate H. cbn [rbind] in H.
  destruct (block_chunks insert_block_size b') as [pieces|e|p] eqn:Ch; try discriminate H. cbn [rbind] in H.
  destruct pieces as [|b0 l]; [discriminate H|].
  destruct (insert_block (fst x) (k_context k) b0) as [c1|e|p] eqn:Bl; try discriminate H. cbn [rbind] in H.
  destruct (insert_tail c1 (k_context k) q l) as [c2|e|p] eqn:Tl; try discriminate H. injection H as <-.
  assert (Al : insert_tail c (k_context k) q (b0 :: l) = Ok c2).
  { cbn [Client.insert_tail]. rewrite Q. cbn [rbind]. rewrite Bl. cbn [rbind]. exact Tl. }
  destruct (tail_inv (cn_id c) (k_context k) q (b0 :: l) T NB _ _ _ C Al) as [A L].
  destruct (query_inv (cn_id c) (cn_log c) c _ _ _ T C Q) as (tcs & closes & S & F & _).
  exists tcs, (snd x), closes, b', (b0 :: l), c2. auto 10.
Qed.
End Insert.
Print Assumptions c89_insert_partial.

(** A server that answers the data with a block before it refuses it: the insert succeeds, and the
    exception waits on the connection for whatever comes next. *)
Definition refusing (e : server_error) (_ : nat) (log : list cmd) : reply :=
  match last log CmdPing with
  | CmdPing => RAnswers [Ok PkPong] [] false
  | CmdQuery _ _ => RAnswers [Ok (PkBlock ex_insert_header)] [] false
  | CmdUnion _ _ => RAnswers [Ok (PkBlock ex_insert_header); Ok (PkException e)] [] false
  | _ => RAnswers [] [] true
  end.
Theorem c89_refuted e : exists k2 c2,
  insert_ ex_lz4 ex_show ex_parse ex_parse (refusing e) ex_fresh ex_opts 5 ex_query ex_block ex_client = (Ok tt, k2) /\
  k_inner k2 = Some c2 /\ cn_in c2 = [Ok (PkException e)].
Proof. do 2 eexists. split; [vm_compute; reflexivity|]. split; reflexivity. Qed.
Print Assumptions c89_refuted.

(** A server that meets the hypotheses. *)
Definition plain_server (_ : nat) (log : list cmd) : reply :=
  match last log CmdPing with
  | CmdPing => RAnswers [Ok PkPong] [] false
  | CmdQuery _ _ => RAnswers [Ok (PkTableColumns [] []); Ok (PkBlock ex_insert_header)] [] false
  | CmdUnion _ _ => RAnswers [Ok PkEof] [] false
  | _ => RAnswers [] [] true
  end.
Example c89_case :
  (forall l now late closes, plain_server 7 l = RAnswers now late closes -> one_answer now late) /\
  (forall l d e now late closes h, plain_server 7 (l ++ [CmdUnion d e]) = RAnswers now late closes -> ~ In (Ok (PkBlock h)) now) /\
  fst (insert_ ex_lz4 ex_show ex_parse ex_parse plain_server ex_fresh ex_opts 5 ex_query ex_block ex_client) = Ok tt.
Proof.
  split; [|split; [|vm_compute; reflexivity]].
  - unfold plain_server. intros l now late closes H.
    destruct (last l CmdPing); injection H as <- <- <-;
      try (exists [], []; split; [constructor|]; split; [reflexivity|]; left; reflexivity);
      try (exists []; eexists; split; [constructor|]; split; [reflexivity|]; right; eexists; split; reflexivity).
    exists [PkTableColumns [] []], [Ok (PkBlock ex_insert_header)]. split; [repeat constructor|]. split; [reflexivity|].
    right. eexists. split; reflexivity.
  - unfold plain_server. intros l d e now late closes h H. rewrite last_last in H. injection H as <- <- <-. intros [X|[]]. discriminate X.
Qed.
