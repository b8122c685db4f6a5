(** The operations of Client.v once more, this time over a socket that gives and takes bytes as it
    likes: src/io/transport.rs 302-413 on top of Transport.v, and the loops of src/lib.rs and
    src/types/query_result that ask it for messages. Client.v says what these loops do with
    messages; here the same loops run on bytes. *)
From Verif Require Import Base Bytes Types Block Packets Transport.
From Verif Require Client.
Open Scope list_scope.
Open Scope nat_scope.
Notation Ask := Client.Ask.
Notation Receive := Client.Receive.
Notation Done := Client.Done.

(** A socket: what its next reads and writes do, and the bytes it has taken so far. *)
Record socket := mk_socket { s_reads : list rd_event; s_writes : list wr_event; s_out : bytes }.

(** transport.rs 73-77: [PacketStream]; its state is the one of Client.v. *)
Record wstream := mk_wstream { ws_inner : option transport; ws_state : Client.pstate; ws_read_block : bool }.

(** What a poll of it gives: a message, with the connection if it carries it; an error; the end;
    or nothing yet. *)
Inductive wgot :=
| WItem (p : packet) (t : option transport) | WFail (e : error) | WEnd | WWait | WCrash (p : panic).

(** transport.rs 401-408. *)
Definition wcall (t : transport) (m : cmd) : wstream :=
  mk_wstream (Some (set_out t (t_wr t) (t_cmds t ++ [m]))) Ask false.

Section Wired.
Variable lz4_compress : bytes -> bytes.
Variable show_float : Z -> bytes.
Variable lz4_decompress : bytes -> N -> option bytes.
Variable tz_known : bytes -> bool.

(** transport.rs 350-374, 384-395: a message is asked for and handed on. *)
Definition wreceive (t : transport) (rb : bool) (sk : socket) : wgot * wstream * socket :=
  let '(r, t', evs) := poll_next lz4_decompress tz_known t (s_reads sk) in
  let sk' := mk_socket evs (s_writes sk) (s_out sk) in
  let same := mk_wstream (Some t') Receive rb in
  match r with
  | PReady (Some (Ok p)) =>
      let st := if rb && Client.is_block p then Done else Receive in
      if Client.carries p then (WItem p (Some t'), mk_wstream None st rb, sk')
      else (WItem p None, mk_wstream (Some t') st rb, sk')
  | PReady (Some (Err EWouldBlock)) => (WWait, same, sk')
  | PReady (Some (Err e)) => (WFail e, same, sk')
  | PReady (Some (Panic q)) => (WCrash q, same, sk')
  | PReady None => (WEnd, same, sk')
  | PPending => (WWait, same, sk')
  end.

(** transport.rs 330-398: one poll of a [PacketStream]. *)
Definition wnext (s : wstream) (sk : socket) : wgot * wstream * socket :=
  let rb := ws_read_block s in
  match ws_state s, ws_inner s with
  | Client.Done, Some t => (WItem PkEof (Some t), mk_wstream None Done rb, sk)
  | _, None => (WEnd, mk_wstream None Done rb, sk)
  | Client.Receive, Some t => wreceive t rb sk
  | Client.Ask, Some t =>
      let '(r, t', evs, out) := send lz4_compress show_float (s_writes sk) t in
      let sk' := mk_socket (s_reads sk) evs (s_out sk ++ out) in
      let same := mk_wstream (Some t') Ask rb in
      match r with
      | PReady (Ok _) => wreceive t' rb sk'
      | PReady (Err EWouldBlock) => (WWait, same, sk')
      | PReady (Err e) => (WFail e, same, sk')
      | PReady (Panic q) => (WCrash q, same, sk')
      | PPending => (WWait, same, sk')
      end
  end.

(** [stream.next().await]: it is polled again when it had to wait, as long as the socket goes on
    doing something; it stays waiting when the socket no longer does. *)
Definition doings (sk : socket) : nat := length (s_reads sk) + length (s_writes sk).
Fixpoint wawait (fuel : nat) (s : wstream) (sk : socket) : wgot * wstream * socket :=
  match fuel with
  | O => (WWait, s, sk)
  | S n =>
      match wnext s sk with
      | (WWait, s', sk') => if doings sk' <? doings sk then wawait n s' sk' else (WWait, s', sk')
      | x => x
      end
  end.
Definition await (s : wstream) (sk : socket) : wgot * wstream * socket := wawait (S (doings sk)) s sk.

(** [while let Some(packet) = stream.next().await]; an operation that waits for good is ended by
    its deadline. The fuel bounds the number of messages looked at. *)
Fixpoint wconsume {A} (on : A -> packet -> option transport -> A + error) (fuel : nat)
    (s : wstream) (sk : socket) (a : A) : res A * socket :=
  match fuel with
  | O => (Panic PFuel, sk)
  | S n =>
      match await s sk with
      | (WItem p t, s', sk') => match on a p t with inl a' => wconsume on n s' sk' a' | inr e => (Err e, sk') end
      | (WFail _, _, sk') => (Err EIo, sk')
      | (WEnd, _, sk') => (Ok a, sk')
      | (WWait, _, sk') => (Err ETimeout, sk')
      | (WCrash q, _, sk') => (Panic q, sk')
      end
  end.

(** src/lib.rs 338-352: [ping], from [call] on. *)
Definition on_wping (h : option transport) (p : packet) (t : option transport) : option transport + error :=
  match p with
  | PkPong => inl t
  | PkException e => inr (EServer e)
  | _ => inr EUnexpectedPacket
  end.
Definition wping (fuel : nat) (t : transport) (sk : socket) : res transport * socket :=
  match wconsume on_wping fuel (wcall t CmdPing) sk None with
  | (Ok (Some t'), sk') => (Ok t', sk')
  | (Ok None, sk') => (Err EBroken, sk')
  | (Err e, sk') => (Err e, sk')
  | (Panic q, sk') => (Panic q, sk')
  end.

(** src/lib.rs 305-329: [hello]. *)
Definition on_whello (a : option transport * option server_info) (p : packet) (t : option transport)
  : (option transport * option server_info) + error :=
  match p with
  | PkHello i => inl (t, Some i)
  | PkException e => inr (EServer e)
  | _ => inr EUnexpectedPacket
  end.
Definition whello (fuel : nat) (cx : context) (t : transport) (sk : socket) : res (option transport * server_info) * socket :=
  match wconsume on_whello fuel (wcall t (CmdHello cx)) sk (None, None) with
  | (Ok (h, Some i), sk') => (Ok (h, i), sk')
  | (Ok (_, None), sk') => (Panic PUnwrap, sk')
  | (Err e, sk') => (Err e, sk')
  | (Panic q, sk') => (Panic q, sk')
  end.

(** src/lib.rs 395-420: [execute], from [call] on. *)
Definition on_wexecute (h : option transport) (p : packet) (t : option transport) : option transport + error :=
  match p with
  | PkEof => inl t
  | PkBlock _ | PkProfile _ | PkProgress _ => inl h
  | PkException e => inr (EServer e)
  | _ => inr EUnexpectedPacket
  end.
Definition wexecute (fuel : nat) (q : query) (cx : context) (t : transport) (sk : socket) : res transport * socket :=
  match wconsume on_wexecute fuel (wcall t (CmdQuery q cx)) sk None with
  | (Ok (Some t'), sk') => (Ok t', sk')
  | (Ok None, sk') => (Panic PUnwrap, sk')
  | (Err e, sk') => (Err e, sk')
  | (Panic p, sk') => (Panic p, sk')
  end.

(** transport.rs 303-320: [read_block], on the stream of a command (src/lib.rs 494-516). *)
Definition on_wread_block (a : option transport * option block) (p : packet) (t : option transport)
  : (option transport * option block) + error :=
  match p with
  | PkEof => inl (t, snd a)
  | PkBlock b => inl (fst a, Some b)
  | PkException e => inr (EServer e)
  | PkTableColumns _ _ => inl a
  | _ => inr EUnexpectedPacket
  end.
Definition wread_block (fuel : nat) (m : cmd) (t : transport) (sk : socket) : res (transport * option block) * socket :=
  let s := wcall t m in
  match wconsume on_wread_block fuel (mk_wstream (ws_inner s) (ws_state s) true) sk (None, None) with
  | (Ok (Some t', b), sk') => (Ok (t', b), sk')
  | (Ok (None, _), sk') => (Panic PUnwrap, sk')
  | (Err e, sk') => (Err e, sk')
  | (Panic p, sk') => (Panic p, sk')
  end.

(** src/types/query_result/stream_blocks.rs 76-133 and mod.rs 28-49: the blocks of an answer one
    after the other, until it ends or something goes wrong, without the pool's part. The result
    comes with the connection that the handle has afterwards: the one handed over at the end, or
    on dropping the unfinished stream (stream_blocks.rs 35-55) the one it still holds. *)
Definition wdropped (s : wstream) : option transport :=
  match ws_inner s with Some t => Some (set_inconsistent t true) | None => None end.
Fixpoint wcollect (fuel : nat) (s : wstream) (sk : socket) (acc : list block)
  : res (list block) * option transport * socket :=
  match fuel with
  | O => (Panic PFuel, None, sk)
  | S n =>
      match await s sk with
      | (WFail _, s', sk') => (Err EIo, wdropped s', sk')
      | (WWait, s', sk') => (Err ETimeout, wdropped s', sk')
      | (WCrash q, s', sk') => (Panic q, wdropped s', sk')
      | (WEnd, _, sk') => (Err EIo, None, sk')
      | (WItem PkEof t, _, sk') => (Ok acc, t, sk')
      | (WItem (PkProfile _) _, s', sk') | (WItem (PkProgress _) _, s', sk') => wcollect n s' sk' acc
      | (WItem (PkException e) _, _, sk') => (Err (EServer e), None, sk')
      | (WItem (PkBlock b) _, s', sk') =>
          wcollect n s' sk' (if Client.block_is_empty b then acc else acc ++ [b])
      | (WItem _ _, s', sk') => (Err EUnexpectedPacket, wdropped s', sk')
      end
  end.
Definition wfetch_all (fuel : nat) (q : query) (cx : context) (t : transport) (sk : socket)
  : res block * option transport * socket :=
  let '(r, h, sk') := wcollect fuel (wcall t (CmdQuery q cx)) sk [] in
  (do bs <- r; block_concat bs, h, sk').
End Wired.
