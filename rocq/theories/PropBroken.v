(** C82: a connection on which an operation has failed is not used again. *)
From Coq Require Import String.
From Verif Require Import Base Types Values Columns Text Block Packets Client SpecClient ClientProofs PropClient.
Open Scope list_scope.
Open Scope nat_scope.

Section Broken.
Variable lz4_compress : bytes -> bytes.
Variable show_float : Z -> bytes.
Variable parse_ipv4 parse_ipv6 : bytes -> option bytes.
Variable server : nat -> list cmd -> reply.
Variable fresh : nat -> res client.
Variable opts : copts.
Notation before := (before lz4_compress show_float server fresh opts).
Notation stream_blocks := (stream_blocks lz4_compress show_float server fresh opts).
Notation drive_blocks := (drive_blocks lz4_compress show_float server).
Notation fetch_all := (fetch_all lz4_compress show_float server fresh opts).
Notation execute := (execute lz4_compress show_float server fresh opts).
Notation insert_ := (insert_ lz4_compress show_float parse_ipv4 parse_ipv6 server fresh opts).
Notation ping := (ping lz4_compress show_float server).
Notation hello := (hello lz4_compress show_float server).

Lemma ping_fails k e k' : ping k = (Err e, k') -> k_inner k' = None.
Proof.
  unfold Client.ping. match goal with |- match ?x with _ => _ end = _ -> _ => destruct x end; intros E; try discriminate E.
  injection E as _ <-. reflexivity.
Qed.
Lemma reconnect_fails k e k' : k_inner k = None -> reconnect fresh k = (Err e, k') -> k_inner k' = None.
Proof.
  intros N. unfold reconnect. destruct (fresh (k_tries k)); intros E; try discriminate E. injection E as _ <-. exact N.
Qed.
Lemma retry_fails fuel : forall attempt skip k e k', (skip = true -> k_inner k = None) ->
  retry_guard lz4_compress show_float server fresh opts fuel attempt skip k = (Err e, k') -> k_inner k' = None.
Proof.
  induction fuel as [|n IH]; intros attempt skip k e k' N E; [discriminate E|]. cbn [retry_guard] in E.
  assert (A : forall k0, k_inner k0 = None ->
    match reconnect fresh k0 with
    | (Ok _, k1) => retry_guard lz4_compress show_float server fresh opts n attempt false k1
    | (Err e0, k1) => if co_retries opts <=? attempt then (Err e0, k1)
                      else retry_guard lz4_compress show_float server fresh opts n (S attempt) true k1
    | (Panic p, k1) => (Panic p, k1)
    end = (Err e, k') -> k_inner k' = None).
  { intros k0 N0 E0. destruct (reconnect fresh k0) as [[x|x|x] k1] eqn:R; [|pose proof (reconnect_fails _ _ _ N0 R) as N1|discriminate E0].
    - eapply IH; [|exact E0]. discriminate.
    - destruct (co_retries opts <=? attempt); [injection E0 as _ <-; exact N1|]. eapply IH; [|exact E0]. intros _. exact N1. }
  destruct skip; [apply (A k); auto|].
  destruct (ping k) as [[x|x|x] k1] eqn:P; try discriminate E. pose proof (ping_fails _ _ _ P) as N1.
  destruct (co_retries opts <=? attempt); [injection E as _ <-; exact N1|]. apply (A k1); auto.
Qed.
Lemma before_fails fuel k e k' : before fuel k = (Err e, k') -> k_inner k' = None.
Proof.
  unfold Client.before. destruct (co_ping opts); [|discriminate]. unfold check_connection, detach.
  destruct (k_pool k); try discriminate.
  destruct (retry_guard lz4_compress show_float server fresh opts fuel 0 false (set_pool k BDetached)) as [[x|x|x] k2] eqn:R; try discriminate.
  - unfold attach. destruct (k_pool k2) eqn:P; discriminate.
  - intros E. injection E as _ <-. eapply retry_fails; [|exact R]. discriminate.
Qed.

(** A check, a greeting, a statement or an insert that fails, for whatever reason and at whatever
    point, leaves the handle without a connection. Missing for the full property: queries
    ([c82_query_refuted]). *)
Theorem c82_operations_partial k e k' :
  ping k = (Err e, k') \/ hello k = (Err e, k') \/
  (exists fuel q, execute fuel q k = (Err e, k')) \/ (exists fuel q b, insert_ fuel q b k = (Err e, k')) ->
  k_inner k' = None.
Proof.
  intros [E|[E|[(fuel & q & E)|(fuel & q & b & E)]]].
  - eapply ping_fails, E.
  - unfold Client.hello in E. destruct (k_inner k); [|discriminate E].
    match type of E with match ?x with _ => _ end = _ => destruct x as [[h [i|]]|y|y] end; try discriminate E.
    injection E as _ <-. reflexivity.
  - unfold Client.execute in E. destruct (before fuel k) as [[x|x|x] k1] eqn:B; [|injection E as -> <-; eapply before_fails, B|discriminate E].
    match type of E with match ?x with _ => _ end = _ => destruct x end; try discriminate E. injection E as _ <-. reflexivity.
  - unfold Client.insert_ in E. destruct (before fuel k) as [[x|x|x] k1] eqn:B; [|injection E as -> <-; eapply before_fails, B|discriminate E].
    match type of E with match ?x with _ => _ end = _ => destruct x end; try discriminate E. injection E as _ <-. reflexivity.
Qed.

Lemma collect_unread n : forall ps c i k acc e l',
  length ps + 1 < n -> k_pool k = BDetached -> cn_queue c = [] -> Forall in_response ps ->
  cn_in c = map Ok ps ++ Err e :: l' ->
  exists i', collect lz4_compress show_float server n (reading c i false) k acc = (Err EIo, reading (set_in c l') i' false, k).
Proof.
  induction n as [|n IH]; intros ps c i k acc e l' Hn P Q F E; [lia|].
  cbn [collect]. rewrite poll_reading by assumption. rewrite E.
  destruct (scan_response server ps F c i false k (Err e :: l')) as [[A B]|(b & ps2 & i' & A & B & C & D)].
  - rewrite B. cbn [scan]. eexists. reflexivity.
  - rewrite D. destruct (IH ps2 (set_in c (map Ok ps2 ++ Err e :: l')) i' k (if block_is_empty b then acc else acc ++ [b]) e l') as (j & H); auto; [lia|].
    rewrite H. exists j. reflexivity.
Qed.

(** A query during which a message cannot be read, or the socket fails, is an error; the handle
    keeps the connection, with whatever follows on it, attached to its pool. The code drops it
    only when the server has closed it. *)
Theorem c82_query_refuted fuel q k c ps e l late closes bs :
  ready k c -> pings server opts c -> 1 <= fuel -> Forall in_response ps ->
  encode_command lz4_compress show_float (CmdQuery q (k_context k)) = Ok bs ->
  server (cn_id (checked opts c)) (cn_log (checked opts c) ++ [CmdQuery q (k_context k)]) =
    RAnswers (map Ok ps ++ Err e :: l) late closes ->
  exists k2 c2, fetch_all fuel q k = (Err EIo, k2) /\ k_inner k2 = Some c2 /\ k_pool k2 = BAttached /\
    cn_id c2 = cn_id c /\ cn_in c2 = l /\ cn_late c2 = late /\ cn_inconsistent c2 = true.
Proof.
  intros R Pi Hf F E S. unfold Client.fetch_all.
  rewrite (stream_ready lz4_compress show_float server fresh opts fuel false q k c Hf R Pi). pose proof R as (P & I & Id).
  set (m := CmdQuery q (k_context k)) in *.
  pose proof (flush_one lz4_compress show_float server (checked opts c) m _ _ closes bs (checked_idle opts c Id) E S) as Fl.
  assert (Len : stream_fuel lz4_compress show_float server (bs_inner (asking (checked opts c) m false)) = 4 + length ps + length l).
  { unfold stream_fuel, asking, call. cbn [bs_inner ps_inner set_queue cn_queue]. fold (set_queue (checked opts c) (cn_queue (checked opts c) ++ [m])).
    rewrite Fl. cbn [snd cn_in]. rewrite app_length, map_length. cbn [length]. lia. }
  rewrite Len, (collect_asking lz4_compress show_float server _ _ _ _ _ _ Fl).
  match goal with |- context [reading ?x 0 false] => set (c1 := x) in * end.
  set (k1 := set_inner (set_pool k BDetached) None).
  destruct (collect_unread (Datatypes.S (4 + length ps + length l)) ps c1 0 k1 [] e l) as (j & H); auto; [lia|].
  rewrite H. do 2 eexists. split; [reflexivity|]. split; [reflexivity|]. split; [reflexivity|].
  split; [apply checked_id|]. repeat split.
Qed.
End Broken.

Print Assumptions c82_operations_partial.
Print Assumptions c82_query_refuted.

(** What it leads to, with the check off: the program repeats the query that failed and is given
    the rest of the first answer as its own. *)
Definition ex_second : block := mk_block info_default [(str "a", CString [str "second"])].
Definition ex_garbled (_ : nat) (log : list cmd) : reply :=
  match log with
  | [_; CmdQuery _ _] => RAnswers [Ok (PkBlock ex_header); Err EOther; Ok (PkBlock ex_block); Ok PkEof] [] false
  | _ => RAnswers [Ok (PkBlock ex_second); Ok PkEof] [] false
  end.
Theorem c82_next_query_refuted :
  let o := mk_copts false 3 in
  let '(r1, k1) := fetch_all ex_lz4 ex_show ex_garbled ex_fresh o 5 ex_query ex_client in
  let '(r2, k2) := fetch_all ex_lz4 ex_show ex_garbled ex_fresh o 5 ex_query k1 in
  r1 = Err EIo /\ r2 = block_concat [ex_block] /\ r2 <> block_concat [ex_second].
Proof. vm_compute. repeat split. discriminate. Qed.
Print Assumptions c82_next_query_refuted.

Example c82_case :
  ready ex_client ex_conn /\ pings ex_garbled (mk_copts false 3) ex_conn /\
  fst (execute ex_lz4 ex_show ex_garbled ex_fresh (mk_copts false 3) 5 ex_query ex_client) = Err EIo /\
  k_inner (snd (execute ex_lz4 ex_show ex_garbled ex_fresh (mk_copts false 3) 5 ex_query ex_client)) = None /\
  k_inner (snd (fetch_all ex_lz4 ex_show ex_garbled ex_fresh (mk_copts false 3) 5 ex_query ex_client)) <> None.
Proof.
  split; [repeat split|]. split; [intros H; discriminate H|]. split; [vm_compute; reflexivity|].
  split; [vm_compute; reflexivity|]. vm_compute. discriminate.
Qed.
