(** A session message by message, and what it is for a network to carry the answers of a server. *)
From Verif Require Import Base Bytes Reader Types Block Packets Transport SpecTransport Wired SpecWired Session.
From Verif Require Client.
Open Scope list_scope.
Open Scope nat_scope.

Section Sessions.
Variable lz4_compress : bytes -> bytes.
Variable show_float : Z -> bytes.
Variable lz4_decompress : bytes -> N -> option bytes.
Variable tz_known : bytes -> bool.
Variable parse_ipv4 parse_ipv6 : bytes -> option bytes.
Variable server : nat -> list cmd -> Client.reply.
Variable fresh : nat -> res Client.client.
Variable opts : Client.copts.

(** The operations of Client.v, one after the other, as long as the handle has its connection. *)
Definition use (o : op) (k : Client.client) : outcome * Client.client :=
  match o with
  | OPing => let (r, k') := Client.ping lz4_compress show_float server k in (Said r, k')
  | OExecute q => let (r, k') := Client.execute lz4_compress show_float server fresh opts 0 q k in (Said r, k')
  | OInsert q b =>
      let (r, k') := Client.insert_ lz4_compress show_float parse_ipv4 parse_ipv6 server fresh opts 0 q b k in (Said r, k')
  | OFetch q => let (r, k') := Client.fetch_all lz4_compress show_float server fresh opts 0 q k in (Fetched r, k')
  end.
Fixpoint uses (ops : list op) (k : Client.client) : list outcome :=
  match ops with
  | [] => []
  | o :: l =>
      let (r, k') := use o k in
      match Client.k_inner k' with Some _ => r :: uses l k' | None => [r] end
  end.

(** Reads that bring these bytes, in whatever pieces and with whatever pauses, and perhaps, after a
    pause (C27), the close of the socket. *)
Inductive brings : list rd_event -> bytes -> bool -> Prop :=
| br_open evs : Forall flowing evs -> brings evs (received evs) false
| br_closed pre last rest : Forall flowing pre -> Forall giving last ->
    brings (pre ++ RPending :: last ++ REof :: rest) (received pre) true.

(** The network carries what the server of connection [id] answers: to every command that can be
    sent it answers messages, their bytes are brought, and the command is taken. [knows] is where
    the receiver stands after the answers to a list of commands. *)
Definition carried (id : nat) (network : list cmd -> list rd_event * list wr_event) (knows : list cmd -> tinfo * bytes) : Prop :=
  forall log m bs, encode_command lz4_compress show_float m = Ok bs ->
  exists ms closes b,
    server id (log ++ [m]) = Client.RAnswers ms [] closes /\
    brings (fst (network (log ++ [m]))) b closes /\
    stream_of lz4_decompress tz_known (Some (knows (log ++ [m]))) (fst (knows log)) (snd (knows log) ++ b) ms /\
    Forall accepting (snd (network (log ++ [m]))) /\ length bs + 1 <= accepts (snd (network (log ++ [m]))).

(** The connection of Client.v and the transport with its socket are the same. *)
Definition linked (id : nat) (knows : list cmd -> tinfo * bytes) (s : wstate) (t : transport) (c : Client.conn) : Prop :=
  Client.cn_id c = id /\ Client.cn_log c = snd s /\
  exists place, corresponds lz4_decompress tz_known (Some place) t (s_reads (fst s)) c /\
    (Client.cn_closed c = false -> place = knows (snd s)).

(** The handle has that connection, between two operations. *)
Definition holds (id : nat) (knows : list cmd -> tinfo * bytes) (s : wstate) (t : transport) (cx : context) (k : Client.client) : Prop :=
  exists c, Client.k_inner k = Some c /\ Client.k_pool k = Client.BAttached /\ Client.k_context k = cx /\ linked id knows s t c.

(** The bytes of the commands given in between are what was written in between, in their order and
    no others. *)
Definition wrote (s s' : wstate) : Prop :=
  exists cs bs, snd s' = snd s ++ cs /\ all_bytes lz4_compress show_float cs bs /\ s_out (fst s') = s_out (fst s) ++ bs.

Definition sendable (log : list cmd) : Prop := Forall (fun m => exists bs, encode_command lz4_compress show_float m = Ok bs) log.
End Sessions.
