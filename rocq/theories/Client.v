(** src/lib.rs, src/io/transport.rs 79-125 and 302-413, src/retry_guard.rs,
    src/types/query_result: what a client does with a connection, message by message.

    A connection is seen here as the messages that arrive on it; how they come out of bytes, and
    how commands become bytes on the socket, is Transport.v (C26, C28). The server is an oracle
    that answers every command; it may answer anything. A task that waits has received all
    there is: a deadline then cuts it off. So every point at which an operation can be cut off,
    by its deadline or by dropping its future, is a server that has sent that much so far; what
    it sends later is [late]. *)
From Coq Require Import String.
From Verif Require Import Base Bytes Utf8 Types Text Values Columns Block Casts Packets.
Open Scope list_scope.
Open Scope nat_scope.

(** A connection: messages (or parse errors and panics) that have arrived and those that arrive
    later, whether the server closes after them, queued commands, the commands sent so far, and
    transport.rs 56-57 [inconsistent]. The number tells connections apart. *)
Record conn := mk_conn {
  cn_id : nat; cn_in : list (res packet); cn_late : list (res packet); cn_closed : bool;
  cn_queue : list cmd; cn_log : list cmd; cn_inconsistent : bool }.

(** A server's answer to a command: the write fails, or messages arrive in time, messages arrive
    later, and the server may then close. *)
Inductive reply := RFails | RAnswers (now late : list (res packet)) (closes : bool).

Definition set_queue (c : conn) (q : list cmd) : conn :=
  mk_conn (cn_id c) (cn_in c) (cn_late c) (cn_closed c) q (cn_log c) (cn_inconsistent c).
Definition set_in (c : conn) (l : list (res packet)) : conn :=
  mk_conn (cn_id c) l (cn_late c) (cn_closed c) (cn_queue c) (cn_log c) (cn_inconsistent c).
Definition set_inconsistent (c : conn) (b : bool) : conn :=
  mk_conn (cn_id c) (cn_in c) (cn_late c) (cn_closed c) (cn_queue c) (cn_log c) b.

(** transport.rs 61-66, 73-77: [PacketStream]. [Yield] lasts only within one poll. *)
Inductive pstate := Ask | Receive | Done.
Record pstream := mk_pstream { ps_inner : option conn; ps_state : pstate; ps_read_block : bool }.

(** What [next] gives: a message, with the connection if it carries it (src/types/mod.rs
    172-185); an error; the end; or nothing (yet). *)
Inductive got :=
| GItem (p : packet) (t : option conn) | GErr (e : error) | GEnd | GWait | GCrash (p : panic).

(** src/pool/mod.rs 50-55: [PoolBinding], without the pool. *)
Inductive binding := BNone | BAttached | BDetached.

(** src/lib.rs 239-243: [ClientHandle]. [k_tries] counts reconnections. *)
Record client := mk_client { k_inner : option conn; k_context : context; k_pool : binding; k_tries : nat }.
Definition set_inner (k : client) (o : option conn) : client :=
  mk_client o (k_context k) (k_pool k) (k_tries k).
Definition set_pool (k : client) (b : binding) : client :=
  mk_client (k_inner k) (k_context k) b (k_tries k).

(** src/types/options.rs 236-238. *)
Record copts := mk_copts { co_ping : bool; co_retries : nat }.

(** src/types/query_result/stream_blocks.rs 17-33. *)
Inductive bstate := Reading | Finished | Broken.
Record bstream := mk_bstream { bs_inner : pstream; bs_state : bstate; bs_index : nat; bs_skip : bool }.

(** What polling a stream of blocks gives. *)
Inductive streamed := SItem (r : res block) | SEnd | SWait | SCrash (p : panic).

(** stream_blocks.rs 62-65 and src/types/block/mod.rs 248-250. *)
Definition block_is_empty (b : block) : bool := match b_cols b with [] => true | _ => false end.

(** src/types/mod.rs 172-185: [bind] hands the connection over with these messages. *)
Definition carries (p : packet) : bool :=
  match p with PkHello _ | PkPong | PkEof => true | _ => false end.
Definition is_block (p : packet) : bool := match p with PkBlock _ => true | _ => false end.

Section Client.
Variable lz4_compress : bytes -> bytes.
Variable show_float : Z -> bytes.
Variable parse_ipv4 parse_ipv6 : bytes -> option bytes.
(** The answer of the server at the other end of a connection to the last of these commands. *)
Variable server : nat -> list cmd -> reply.
(** What the n-th attempt to get another connection brings ([Client::open] or
    [Pool::get_handle]). *)
Variable fresh : nat -> res client.
Variable opts : copts.

(** transport.rs 241-258: [send], one command after the other. A command that cannot be encoded
    is gone from the queue; so is, here, one whose write failed (there, its bytes stay). *)
Definition deliver (c : conn) (m : cmd) (q : list cmd) : res unit * conn :=
  let log := cn_log c ++ [m] in
  match encode_command lz4_compress show_float m with
  | Err e => (Err e, set_queue c q)
  | Panic p => (Panic p, set_queue c q)
  | Ok _ =>
      match server (cn_id c) log with
      | RFails => (Err EIo, mk_conn (cn_id c) (cn_in c) (cn_late c) (cn_closed c) q log (cn_inconsistent c))
      | RAnswers now late closes =>
          (Ok tt,
           if cn_closed c then mk_conn (cn_id c) (cn_in c ++ cn_late c) [] true q log (cn_inconsistent c)
           else mk_conn (cn_id c) (cn_in c ++ cn_late c ++ now) late closes q log (cn_inconsistent c))
      end
  end.
Fixpoint flush (c : conn) (q : list cmd) : res unit * conn :=
  match q with
  | [] => (Ok tt, set_queue c [])
  | m :: q' =>
      match deliver c m q' with
      | (Ok _, c') => flush c' q'
      | x => x
      end
  end.

(** transport.rs 327-398: one poll of a [PacketStream]. *)
Definition receive (c : conn) (rb : bool) : got * pstream :=
  match cn_in c with
  | Ok p :: l =>
      let c' := set_in c l in
      let st := if rb && is_block p then Done else Receive in
      if carries p then (GItem p (Some c'), mk_pstream None st rb)
      else (GItem p None, mk_pstream (Some c') st rb)
  | Err e :: l => (GErr e, mk_pstream (Some (set_in c l)) Receive rb)
  | Panic p :: l => (GCrash p, mk_pstream (Some (set_in c l)) Receive rb)
  | [] =>
      match cn_late c, cn_closed c with
      | [], true => (GEnd, mk_pstream (Some c) Receive rb)
      | _, _ => (GWait, mk_pstream (Some c) Receive rb)
      end
  end.
Definition next (s : pstream) : got * pstream :=
  match ps_state s, ps_inner s with
  | Done, Some c => (GItem PkEof (Some c), mk_pstream None Done (ps_read_block s))
  | _, None => (GEnd, mk_pstream None Done (ps_read_block s))
  | Receive, Some c => receive c (ps_read_block s)
  | Ask, Some c =>
      match flush c (cn_queue c) with
      | (Ok _, c') => receive c' (ps_read_block s)
      | (Err e, c') => (GErr e, mk_pstream (Some c') Ask (ps_read_block s))
      | (Panic p, c') => (GCrash p, mk_pstream (Some c') Ask (ps_read_block s))
      end
  end.

(** transport.rs 401-408. *)
Definition call (c : conn) (m : cmd) : pstream :=
  mk_pstream (Some (set_queue c (cn_queue c ++ [m]))) Ask false.

(** [while let Some(packet) = stream.next().await], with an I/O error for every [Err] and the
    deadline if it waits; the body says how to go on after a message. The fuel is more than the
    messages there are. *)
Fixpoint consume {A} (on : A -> packet -> option conn -> A + error) (fuel : nat) (s : pstream) (a : A) : res A :=
  match fuel with
  | O => Panic PFuel
  | S n =>
      match next s with
      | (GItem p t, s') => match on a p t with inl a' => consume on n s' a' | inr e => Err e end
      | (GErr _, _) => Err EIo
      | (GEnd, _) => Ok a
      | (GWait, _) => Err ETimeout
      | (GCrash p, _) => Panic p
      end
  end.
Definition stream_fuel (s : pstream) : nat :=
  3 + match ps_inner s with Some c => length (cn_in (snd (flush c (cn_queue c)))) | None => 0 end.
Definition drain {A} (on : A -> packet -> option conn -> A + error) (s : pstream) (a : A) : res A :=
  consume on (stream_fuel s) s a.

(** transport.rs 102-125: [clear]. *)
Definition on_clear (h : option conn) (p : packet) (t : option conn) : option conn + error :=
  match p with
  | PkPong | PkEof => inl t
  | PkException e => inr (EServer e)
  | _ => inl h
  end.
Definition clear (c : conn) : res conn :=
  if negb (cn_inconsistent c) then Ok c
  else do h <- drain on_clear (call c CmdCancel) None;
       do t <- or_panic PUnwrap h;
       Ok (set_inconsistent t false).

(** transport.rs 303-320: [read_block]. *)
Definition on_read_block (a : option conn * option block) (p : packet) (t : option conn)
  : (option conn * option block) + error :=
  match p with
  | PkEof => inl (t, snd a)
  | PkBlock b => inl (fst a, Some b)
  | PkException e => inr (EServer e)
  | PkTableColumns _ _ => inl a
  | _ => inr EUnexpectedPacket
  end.
Definition read_block (s : pstream) : res (conn * option block) :=
  do a <- drain on_read_block (mk_pstream (ps_inner s) (ps_state s) true) (None, None);
  do t <- or_panic PUnwrap (fst a);
  Ok (t, snd a).

(** src/lib.rs 603-607: [get_inner]; the connection leaves the handle. *)
Definition get_inner (k : client) : res conn := match k_inner k with Some c => Ok c | None => Err EBroken end.

(** src/lib.rs 305-329: [hello]. *)
Definition on_hello (a : option conn * option server_info) (p : packet) (t : option conn)
  : (option conn * option server_info) + error :=
  match p with
  | PkHello i => inl (t, Some i)
  | PkException e => inr (EServer e)
  | _ => inr EUnexpectedPacket
  end.
Definition hello (k : client) : res unit * client :=
  match k_inner k with
  | None => (Panic PUnwrap, k)
  | Some c =>
      match drain on_hello (call c (CmdHello (k_context k))) (None, None) with
      | Ok (h, Some i) =>
          (Ok tt, mk_client h (mk_context (si_revision i) (cx_hostname (k_context k)) (cx_options (k_context k)))
                    (k_pool k) (k_tries k))
      | Ok (h, None) => (Panic PUnwrap, set_inner k h)
      | Err e => (Err e, set_inner k None)
      | Panic p => (Panic p, set_inner k None)
      end
  end.

(** src/lib.rs 331-366: [ping]. *)
Definition on_ping (h : option conn) (p : packet) (t : option conn) : option conn + error :=
  match p with
  | PkPong => inl t
  | PkException e => inr (EServer e)
  | _ => inr EUnexpectedPacket
  end.
Definition ping (k : client) : res unit * client :=
  let r :=
    do c <- get_inner k;
    do c' <- clear c;
    do h <- drain on_ping (call c' CmdPing) None;
    match h with None => Err EBroken | Some t => Ok t end in
  match r with
  | Ok t => (Ok tt, set_inner k (Some t))
  | Err e => (Err e, set_inner k None)
  | Panic p => (Panic p, set_inner k None)
  end.

(** src/pool/mod.rs 82-96: [attach], [detach]. *)
Definition attach (k : client) : res unit * client :=
  match k_pool k with BDetached => (Ok tt, set_pool k BAttached) | _ => (Panic PUnreachable, set_pool k BNone) end.
Definition detach (k : client) : res unit * client :=
  match k_pool k with BAttached => (Ok tt, set_pool k BDetached) | _ => (Panic PUnreachable, set_pool k BNone) end.

(** src/retry_guard.rs 60-68: [reconnect] swaps the new handle in; the old one, whose connection
    is gone, is dropped. *)
Definition reconnect (k : client) : res unit * client :=
  let k' := mk_client (k_inner k) (k_context k) (k_pool k) (S (k_tries k)) in
  match fresh (k_tries k) with
  | Ok n => (Ok tt, mk_client (k_inner n) (k_context n) (k_pool n) (S (k_tries k)))
  | Err e => (Err e, k')
  | Panic p => (Panic p, k')
  end.

(** src/retry_guard.rs 7-54: [retry_guard], without the pauses; the loop need not end. *)
Fixpoint retry_guard (fuel : nat) (attempt : nat) (skip_check : bool) (k : client) : res unit * client :=
  match fuel with
  | O => (Panic PFuel, k)
  | S n =>
      let again (k : client) :=
        match reconnect k with
        | (Ok _, k') => retry_guard n attempt false k'
        | (Err e, k') => if co_retries opts <=? attempt then (Err e, k') else retry_guard n (S attempt) true k'
        | (Panic p, k') => (Panic p, k')
        end in
      if skip_check then again k
      else
        match ping k with
        | (Ok _, k') => (Ok tt, k')
        | (Err e, k') => if co_retries opts <=? attempt then (Err e, k') else again k'
        | (Panic p, k') => (Panic p, k')
        end
  end.

(** src/lib.rs 575-593: [check_connection]. *)
Definition check_connection (fuel : nat) (k : client) : res unit * client :=
  match detach k with
  | (Ok _, k1) =>
      match retry_guard fuel 0 false k1 with
      | (Ok _, k2) => match k_pool k2 with BDetached => attach k2 | _ => (Ok tt, k2) end
      | x => x
      end
  | x => x
  end.

(** src/lib.rs 530-542, 544-572: what comes before the operation itself. *)
Definition before (fuel : nat) (k : client) : res unit * client :=
  if co_ping opts then check_connection fuel k else (Ok tt, k).

(** src/lib.rs 381-433: [execute]. *)
Definition on_execute (h : option conn) (p : packet) (t : option conn) : option conn + error :=
  match p with
  | PkEof => inl t
  | PkBlock _ | PkProfile _ | PkProgress _ => inl h
  | PkException e => inr (EServer e)
  | _ => inr EUnexpectedPacket
  end.
Definition execute (fuel : nat) (q : query) (k : client) : res unit * client :=
  match before fuel k with
  | (Ok _, k1) =>
      match (do c <- get_inner k1;
             do c' <- clear c;
             do h <- drain on_execute (call c' (CmdQuery q (k_context k))) None;
             or_panic PUnwrap h) with
      | Ok t => (Ok tt, set_inner k1 (Some t))
      | Err e => (Err e, set_inner k1 None)
      | Panic p => (Panic p, set_inner k1 None)
      end
  | x => x
  end.

(** src/lib.rs 494-516. *)
Definition send_insert_query (c : conn) (cx : context) (q : query) : res (conn * block) :=
  do x <- read_block (call c (CmdQuery q cx));
  do b <- or_panic PUnwrap (snd x);
  Ok (fst x, b).
Definition insert_block (c : conn) (cx : context) (b : block) : res conn :=
  do x <- read_block (call c (CmdUnion (CmdData b cx) (CmdData block_default cx)));
  Ok (fst x).

(** src/lib.rs 480-492: [insert_tail_]. *)
Fixpoint insert_tail (c : conn) (cx : context) (q : query) (chunks : list block) : res conn :=
  match chunks with
  | [] => Ok c
  | b :: l =>
      do x <- send_insert_query c cx q;
      do c' <- insert_block (fst x) cx b;
      insert_tail c' cx q l
  end.

(** src/types/block/mod.rs 37: [INSERT_BLOCK_SIZE]; src/lib.rs 447-478: [insert_]. The pieces are made here before the
    first is sent, there one by one: making one does not fail on columns of equal lengths. *)
Definition insert_block_size : nat := N.to_nat 1048576.
Definition insert_ (fuel : nat) (q : query) (b : block) (k : client) : res unit * client :=
  match before fuel k with
  | (Ok _, k1) =>
      match (do c <- get_inner k1;
             do c' <- clear c;
             do x <- send_insert_query c' (k_context k) q;
             do b' <- block_cast parse_ipv4 parse_ipv6 b (snd x);
             do chunks <- block_chunks insert_block_size b';
             match chunks with
             | [] => Panic PUnwrap
             | b0 :: l => do c1 <- insert_block (fst x) (k_context k) b0; insert_tail c1 (k_context k) q l
             end) with
      | Ok t => (Ok tt, set_inner k1 (Some t))
      | Err e => (Err e, set_inner k1 None)
      | Panic p => (Panic p, set_inner k1 None)
      end
  | x => x
  end.

(** src/types/query_result/mod.rs 87-102: [stream_blocks_]. With the check it happens when the
    stream is first polled, without it at once; an error is the stream's only item. *)
Definition stream_blocks (fuel : nat) (skip : bool) (q : query) (k : client) : res bstream * client :=
  match before fuel k with
  | (Ok _, k1) =>
      match detach k1 with
      | (Ok _, k2) =>
          match get_inner k2 with
          | Ok c => (Ok (mk_bstream (call c (CmdQuery q (k_context k2))) Reading 0 skip), set_inner k2 None)
          | Err e => (Err e, k2)
          | Panic p => (Panic p, k2)
          end
      | (Err e, k2) => (Err e, k2)
      | (Panic p, k2) => (Panic p, k2)
      end
  | (Err e, k1) => (Err e, k1)
  | (Panic p, k1) => (Panic p, k1)
  end.

(** stream_blocks.rs 76-133: one poll; what the fuel is for is [consume]'s. *)
Definition reattach (k : client) : res unit * client :=
  match k_pool k with BAttached => (Ok tt, k) | _ => attach k end.
Fixpoint poll_blocks (fuel : nat) (s : bstream) (k : client) : streamed * bstream * client :=
  match fuel with
  | O => (SCrash PFuel, s, k)
  | S n =>
      match bs_state s with
      | Finished => (SEnd, s, k)
      | Broken => (SItem (Err EOther), s, k)
      | Reading =>
          let (g, i) := next (bs_inner s) in
          let s1 := mk_bstream i Reading (bs_index s) (bs_skip s) in
          match g with
          | GErr _ => (SItem (Err EIo), s1, k)
          | GWait => (SWait, s1, k)
          | GCrash p => (SCrash p, s1, k)
          | GEnd => (SItem (Err EIo), mk_bstream i Broken (bs_index s) (bs_skip s), k)
          | GItem PkEof t =>
              match reattach (set_inner k t) with
              | (Ok _, k') => poll_blocks n (mk_bstream i Finished (bs_index s) (bs_skip s)) k'
              | (Err e, k') => (SItem (Err e), s1, k')
              | (Panic p, k') => (SCrash p, s1, k')
              end
          | GItem (PkProfile _) _ | GItem (PkProgress _) _ => poll_blocks n s1 k
          | GItem (PkException e) _ => (SItem (Err (EServer e)), mk_bstream i Finished (bs_index s) (bs_skip s), k)
          | GItem (PkBlock b) _ =>
              let s2 := mk_bstream i Reading (S (bs_index s)) (bs_skip s) in
              if ((1 <? S (bs_index s)) || negb (bs_skip s)) && negb (block_is_empty b) then (SItem (Ok b), s2, k)
              else poll_blocks n s2 k
          | GItem _ _ => (SItem (Err EUnexpectedPacket), s1, k)
          end
      end
  end.
Definition poll_stream (s : bstream) (k : client) : streamed * bstream * client :=
  poll_blocks (S (stream_fuel (bs_inner s))) s k.

(** stream_blocks.rs 35-55: dropping the stream. *)
Definition drop_stream (s : bstream) (k : client) : res unit * client :=
  match bs_state s with
  | Reading =>
      match reattach k with
      | (Ok _, k') =>
          (Ok tt, match ps_inner (bs_inner s) with Some c => set_inner k' (Some (set_inconsistent c true)) | None => k' end)
      | x => x
      end
  | _ => (Ok tt, k)
  end.

(** src/types/query_result/mod.rs 28-49: [fetch_all]: [try_fold] stops at the first error; the
    stream is dropped in every case, and when the deadline ends it. *)
Fixpoint collect (fuel : nat) (s : bstream) (k : client) (acc : list block) : res (list block) * bstream * client :=
  match fuel with
  | O => (Panic PFuel, s, k)
  | S n =>
      match poll_stream s k with
      | (SItem (Ok b), s', k') => collect n s' k' (if block_is_empty b then acc else acc ++ [b])
      | (SItem (Err e), s', k') => (Err e, s', k')
      | (SItem (Panic p), s', k') => (Panic p, s', k')
      | (SEnd, s', k') => (Ok acc, s', k')
      | (SWait, s', k') => (Err ETimeout, s', k')
      | (SCrash p, s', k') => (Panic p, s', k')
      end
  end.
Definition fetch_all (fuel : nat) (q : query) (k : client) : res block * client :=
  match stream_blocks fuel false q k with
  | (Ok s, k1) =>
      let '(r, s', k2) := collect (S (stream_fuel (bs_inner s))) s k1 [] in
      match drop_stream s' k2 with
      | (Ok _, k3) => (do bs <- r; block_concat bs, k3)
      | (Err e, k3) => (Err e, k3)
      | (Panic p, k3) => (Panic p, k3)
      end
  | (Err e, k1) => (Err e, k1)
  | (Panic p, k1) => (Panic p, k1)
  end.
End Client.

Section Insert.
(** [char::is_numeric] beyond U+00FF; the characters up to there are given. *)
Variable numeric_beyond : bytes -> bool.

(** The first character of a text and the rest. *)
Definition first_char (s : bytes) : bytes * bytes :=
  match s with
  | [] => ([], [])
  | b :: s' => let n := if (b <? 128)%N then 0 else if (b <? 224)%N then 1 else if (b <? 240)%N then 2 else 3 in
               (b :: firstn n s', skipn n s')
  end.
Definition char_numeric (c : bytes) : bool :=
  match c with
  | [b] => is_digit b
  | [194; b]%N => ((b =? 178) || (b =? 179) || (b =? 185) || (b =? 188) || (b =? 189) || (b =? 190))%N
  | [195; _]%N => false
  | _ => numeric_beyond c
  end.
Fixpoint all_numeric (fuel : nat) (s : bytes) : bool :=
  match fuel with
  | O => true
  | S n => match s with [] => true | _ => let (c, s') := first_char s in char_numeric c && all_numeric n s' end
  end.

(** src/lib.rs 610-621: [column_name_to_string]. A backtick is one byte that is no part of a
    longer character. *)
Definition column_name_to_string (s : bytes) : res bytes :=
  if all_numeric (length s) s then Ok s
  else if existsb (N.eqb 96) s then Err EOther
  else Ok ([96%N] ++ s ++ [96%N]).

(** src/lib.rs 518-528: [make_query]; src/types/query.rs 30-38 [map_sql] keeps the id. *)
Definition make_query (table : query) (b : block) : res query :=
  do names <- mapM (fun x => column_name_to_string (fst x)) (b_cols b);
  Ok (mk_query (str "INSERT INTO " ++ q_sql table ++ str " (" ++ concat_sep (str ", ") names ++ str ") VALUES") (q_id table)).
End Insert.

(** src/lib.rs 436-445: [insert]. *)
Definition insert lz4_compress show_float parse_ipv4 parse_ipv6 server fresh opts numeric_beyond
    (fuel : nat) (table : query) (b : block) (k : client) : res unit * client :=
  match make_query numeric_beyond table b with
  | Ok q => insert_ lz4_compress show_float parse_ipv4 parse_ipv6 server fresh opts fuel q b k
  | Err e => (Err e, k)
  | Panic p => (Panic p, k)
  end.
