(** What a socket's bytes have to be for a connection of Client.v to be the same as a transport on
    that socket. *)
From Verif Require Import Base Bytes Reader Types Block Packets Transport SpecTransport.
From Verif Require Client.
Open Scope list_scope.
Open Scope nat_scope.

Section Correspondence.
Variable lz4_decompress : bytes -> N -> option bytes.
Variable tz_known : bytes -> bool.
Notation message i := (run (parse_packet lz4_decompress tz_known i)).

(** Where the receiver stands at the end: what it then knows, and the beginning of a message that
    is not complete; nothing if it stopped at a message that cannot be read. *)
Variable en : option (tinfo * bytes).

(** The bytes [l], received by a client that knows [i], are these messages; the last may be an
    error or a panic of the parser, and an unfinished message may follow. *)
Inductive stream_of : tinfo -> bytes -> list (res packet) -> Prop :=
| so_end i l : message i l = Err EWouldBlock -> en = Some (i, l) -> stream_of i l []
| so_error i l e : e <> EWouldBlock -> message i l = Err e -> en = None -> stream_of i l [Err e]
| so_panic i l q : message i l = Panic q -> en = None -> stream_of i l [Panic q]
| so_message i u l p ms :
    message i (u ++ l) = Ok (p, l) -> stream_of (learnt i p) l ms -> stream_of i (u ++ l) (Ok p :: ms).

(** Reads that bring the bytes [bs], in whatever pieces and with whatever pauses, and then no
    more: the socket stays open, or it is closed. By C27 bytes that come without a pause before the
    close do not count. *)
Inductive arrives : list rd_event -> bytes -> bool -> Prop :=
| ar_open evs : Forall flowing evs -> arrives evs (received evs) false
| ar_closed pre last rest : Forall flowing pre -> Forall giving last ->
    arrives (pre ++ RPending :: last ++ REof :: rest) (received pre) true
| ar_closing last rest : Forall giving last -> arrives (last ++ REof :: rest) [] true.

(** A transport with the reads that are to come is the connection [c] of Client.v: nothing waits
    to be sent, and what it has in its buffer and will get are the messages [c] has. *)
Definition corresponds (t : transport) (evs : list rd_event) (c : Client.conn) : Prop :=
  t_done t = false /\ (t_incomplete t = true -> unfinished lz4_decompress tz_known (t_info t) (t_rd t)) /\
  t_wr t = [] /\ t_cmds t = [] /\ Client.cn_queue c = [] /\ Client.cn_late c = [] /\
  t_inconsistent t = Client.cn_inconsistent c /\
  exists bs, arrives evs bs (Client.cn_closed c) /\ stream_of (t_info t) (t_rd t ++ bs) (Client.cn_in c).
End Correspondence.
