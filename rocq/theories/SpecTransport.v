(** What a connection should deliver and send, independently of how it gets there. *)
From Verif Require Import Base Bytes Reader Types Block Packets Transport.
Open Scope list_scope.
Open Scope nat_scope.

Section Delivery.
Variable lz4_decompress : bytes -> N -> option bytes.
Variable tz_known : bytes -> bool.
Notation message i := (run (parse_packet lz4_decompress tz_known i)).

(** The server's greeting settles the time zone and the revision. *)
Definition learnt (i : tinfo) (p : packet) : tinfo :=
  match p with
  | PkHello s => mk_tinfo (Some (si_timezone s)) (si_revision s) (ti_compress i)
  | _ => i
  end.

(** The bytes [l], received by a client that knows [i], are the messages [ps] one after the other,
    and then [tail]; it then knows [i']. *)
Inductive decodes : tinfo -> bytes -> list packet -> tinfo -> bytes -> Prop :=
| dec_nil i l : decodes i l [] i l
| dec_cons i u l p ps i' tail :
    u <> [] -> message i (u ++ l) = Ok (p, l) -> decodes (learnt i p) l ps i' tail ->
    decodes i (u ++ l) (p :: ps) i' tail.

(** There is no complete message, nor will there be an error, in [l] as it stands. *)
Definition unfinished (i : tinfo) (l : bytes) : Prop := message i l = Err EWouldBlock.

(** The client asks for messages again and again. The result: the messages it gets, how it ended if
    it did, and the state it is left in. *)
Inductive ending := Going | Closed | Failed (e : error) | Crashed (p : panic).
Fixpoint drive (k : nat) (t : transport) (evs : list rd_event) : list packet * ending * transport * list rd_event :=
  match k with
  | O => ([], Going, t, evs)
  | S k' =>
      match poll_next lz4_decompress tz_known t evs with
      | (PPending, t', evs') => drive k' t' evs'
      | (PReady None, t', evs') => ([], Closed, t', evs')
      | (PReady (Some (Ok p)), t', evs') =>
          let '(ps, e, t'', evs'') := drive k' t' evs' in (p :: ps, e, t'', evs'')
      | (PReady (Some (Err e)), t', evs') => ([], Failed e, t', evs')
      | (PReady (Some (Panic q)), t', evs') => ([], Crashed q, t', evs')
      end
  end.
End Delivery.

(** Reads that give bytes or are not ready, and the bytes they give. *)
Definition flowing (e : rd_event) : Prop := match e with RData d => d <> [] | RPending => True | _ => False end.
Definition giving (e : rd_event) : Prop := match e with RData d => d <> [] | _ => False end.
Definition received (evs : list rd_event) : bytes :=
  concat (map (fun e => match e with RData d => d | _ => [] end) evs).

(** A socket that does not fail, and how often it takes something. *)
Definition accepting (e : wr_event) : Prop := match e with WAccept n => 1 <= n | WPending => True | WErr => False end.
Definition accepts (evs : list wr_event) : nat :=
  length (filter (fun e => match e with WAccept _ => true | _ => false end) evs).

Section Sending.
Variable lz4_compress : bytes -> bytes.
Variable show_float : Z -> bytes.

(** The bytes of the commands one after the other. *)
Definition all_bytes (cs : list cmd) (l : bytes) : Prop :=
  exists bs, Forall2 (fun c b => encode_command lz4_compress show_float c = Ok b) cs bs /\ l = concat bs.

(** The client sends again and again until everything is sent. The result: the bytes the socket
    has taken, whether all was sent or sending failed, and the state it is left in. *)
Inductive send_ending := SGoing | SDone | SFailed (e : error) | SCrashed (p : panic).
Fixpoint drive_send (k : nat) (t : transport) (evs : list wr_event) : bytes * send_ending * transport * list wr_event :=
  match k with
  | O => ([], SGoing, t, evs)
  | S k' =>
      match send lz4_compress show_float evs t with
      | (PPending, t', evs', out) =>
          let '(out', e, t'', evs'') := drive_send k' t' evs' in (out ++ out', e, t'', evs'')
      | (PReady (Ok _), t', evs', out) => (out, SDone, t', evs')
      | (PReady (Err e), t', evs', out) => (out, SFailed e, t', evs')
      | (PReady (Panic p), t', evs', out) => (out, SCrashed p, t', evs')
      end
  end.
End Sending.
