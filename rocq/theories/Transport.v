(** The connection as a stream of messages and a queue of commands: src/io/transport.rs,
    src/io/read_to_end.rs. *)
From Verif Require Import Base Bytes Reader Wire Types Block Compress Packets.
Open Scope list_scope.
Open Scope nat_scope.

(** What one [poll_read] of the socket does: gives some bytes, is not ready, reports the end of the
    stream, or fails. The end is not used up: it is reported again. A list of these that is used up
    stands for a socket that is not ready. The number of bytes given is not limited by the room in
    the buffer (read_to_end.rs 36-42); every sequence of reads into a buffer of some size is among
    the lists considered. *)
Inductive rd_event := RData (d : bytes) | RPending | REof | RErr.

(** What one [poll_write] does: accepts at most [n] bytes, is not ready, or fails. *)
Inductive wr_event := WAccept (n : nat) | WPending | WErr.

(** [Poll]. *)
Inductive polled (A : Type) := PReady (x : A) | PPending.
Arguments PReady {A}. Arguments PPending {A}.

(** transport.rs 35-59: [ClickhouseTransport]. [t_wr] is the part of the buffer that is not yet
    written. The pool status is in Pool.v. *)
Record transport := mk_transport {
  t_done : bool; t_rd : bytes; t_incomplete : bool; t_wr : bytes; t_cmds : list cmd; t_info : tinfo;
  t_inconsistent : bool }.

(** transport.rs 79-96: [new]. *)
Definition transport_new (compress : bool) : transport :=
  mk_transport false [] false [] [] (mk_tinfo None 0 compress) false.

Definition set_rd (t : transport) (rd : bytes) : transport :=
  mk_transport (t_done t) rd (t_incomplete t) (t_wr t) (t_cmds t) (t_info t) (t_inconsistent t).
Definition set_done (t : transport) : transport :=
  mk_transport true (t_rd t) (t_incomplete t) (t_wr t) (t_cmds t) (t_info t) (t_inconsistent t).
Definition set_incomplete (t : transport) (b : bool) : transport :=
  mk_transport (t_done t) (t_rd t) b (t_wr t) (t_cmds t) (t_info t) (t_inconsistent t).
Definition set_info (t : transport) (i : tinfo) : transport :=
  mk_transport (t_done t) (t_rd t) (t_incomplete t) (t_wr t) (t_cmds t) i (t_inconsistent t).
Definition set_out (t : transport) (wr : bytes) (cmds : list cmd) : transport :=
  mk_transport (t_done t) (t_rd t) (t_incomplete t) wr cmds (t_info t) (t_inconsistent t).
Definition set_inconsistent (t : transport) (b : bool) : transport :=
  mk_transport (t_done t) (t_rd t) (t_incomplete t) (t_wr t) (t_cmds t) (t_info t) b.

(** read_to_end.rs 24-57: [read_to_end]. Bytes read before the socket is not ready, or fails, stay
    in the buffer. [n] counts the bytes read. *)
Fixpoint read_to_end (evs : list rd_event) (rd : bytes) (n : nat) : polled (res nat) * bytes * list rd_event :=
  match evs with
  | [] => (PPending, rd, [])
  | RPending :: evs' => (PPending, rd, evs')
  | RData d :: evs' =>
      if (length d =? 0)%nat then (PReady (Ok n), rd, evs)
      else read_to_end evs' (rd ++ d) (n + length d)
  | REof :: _ => (PReady (Ok n), rd, evs)
  | RErr :: evs' => (PReady (Err EIo), rd, evs')
  end.

(** How filling the buffer (transport.rs 277-287) ends: the connection is closed, a read failed,
    or the socket is not ready. The loop goes round once more after an end that followed some
    bytes; [FMore] would be a third round. *)
Inductive filled := FDone | FErr | FPending | FMore.
Definition fill_once (evs : list rd_event) (rd : bytes) : filled * bytes * list rd_event :=
  match read_to_end evs rd 0 with
  | (PReady (Ok 0), rd', evs') => (FDone, rd', evs')
  | (PReady (Ok _), rd', evs') => (FMore, rd', evs')
  | (PReady _, rd', evs') => (FErr, rd', evs')
  | (PPending, rd', evs') => (FPending, rd', evs')
  end.
Definition fill (evs : list rd_event) (rd : bytes) : filled * bytes * list rd_event :=
  match fill_once evs rd with
  | (FMore, rd', evs') => fill_once evs' rd'
  | x => x
  end.

Section Stream.
Variable lz4_decompress : bytes -> N -> option bytes.
Variable tz_known : bytes -> bool.

(** transport.rs 167-170: what a greeting changes. *)
Definition after (i : tinfo) (p : packet) : tinfo :=
  match p with
  | PkHello s => mk_tinfo (Some (si_timezone s)) (si_revision s) (ti_compress i)
  | _ => i
  end.

(** What is left of the input when a parse ends; the cursor's position at transport.rs 165. A
    parse that wants more bytes than there are has used them up. *)
Fixpoint left_over {A} (p : P A) (s : bytes) : bytes :=
  match p with
  | Get n k => if (lenN s <? n)%N then [] else left_over (k (firstn (N.to_nat n) s)) (skipn (N.to_nat n) s)
  | _ => s
  end.

(** transport.rs 156-198: [try_parse_msg]. A panic is handed on. *)
Definition try_parse_msg (t : transport) : polled (res packet) * transport :=
  let p := parse_packet lz4_decompress tz_known (t_info t) in
  match run p (t_rd t) with
  | Ok (pk, rest) => (PReady (Ok pk), set_rd (set_info t (after (t_info t) pk)) rest)
  | Err EWouldBlock => (PPending, t)
  | Err e => (PReady (Err e), set_rd t (left_over p (t_rd t)))
  | Panic q => (PReady (Panic q), t)
  end.

(** transport.rs 264-299: [poll_next]; [None] is the end of the stream. *)
Definition poll_next (t : transport) (evs : list rd_event) : polled (option (res packet)) * transport * list rd_event :=
  let read :=
    match (if t_done t then (FDone, t_rd t, evs) else fill evs (t_rd t)) with
    | (FDone, rd, evs') => (PReady None, set_done (set_rd t rd), evs')
    | (FErr, rd, evs') => (PReady (Some (Err EIo)), set_rd t rd, evs')
    | (FPending, rd, evs') =>
        let (r, t') := try_parse_msg (set_rd t rd) in
        match r with
        | PPending => (PPending, set_incomplete t' true, evs')
        | PReady x => (PReady (Some x), set_incomplete t' false, evs')
        end
    | (FMore, rd, evs') => (PReady (Some (Panic PFuel)), set_rd t rd, evs')
    end in
  if negb (t_incomplete t) && negb (length (t_rd t) =? 0) then
    let (r, t') := try_parse_msg t in
    match r with
    | PReady x => (PReady (Some x), t', evs)
    | PPending => read
    end
  else read.
End Stream.

Section Sink.
Variable lz4_compress : bytes -> bytes.
Variable show_float : Z -> bytes.

(** transport.rs 213-258: [wr_flush] and [send]. The result comes with the bytes the socket has
    accepted. A socket that accepts no bytes again and again keeps the loop going; here that ends
    with the list of events. *)
Fixpoint send (evs : list wr_event) (t : transport) : polled (res unit) * transport * list wr_event * bytes :=
  let flush (t : transport) :=
    match evs with
    | [] => (PPending, t, [], [])
    | WPending :: evs' => (PPending, t, evs', [])
    | WErr :: evs' => (PReady (Err EIo), t, evs', [])
    | WAccept n :: evs' =>
        let '(r, t', evs'', out) := send evs' (set_out t (skipn n (t_wr t)) (t_cmds t)) in
        (r, t', evs'', firstn n (t_wr t) ++ out)
    end in
  match t_wr t with
  | [] =>
      match t_cmds t with
      | [] => (PReady (Ok tt), t, evs, [])
      | c :: cs =>
          match encode_command lz4_compress show_float c with
          | Ok bs => flush (set_out t bs cs)
          | Err e => (PReady (Err e), set_out t [] cs, evs, [])
          | Panic p => (PReady (Panic p), set_out t [] cs, evs, [])
          end
      end
  | _ :: _ => flush t
  end.
End Sink.
