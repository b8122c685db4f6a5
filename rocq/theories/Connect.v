(** Opening a connection: src/connecting_stream.rs, [with_timeout] of src/lib.rs and the error
    conversions it uses. *)
From Verif Require Import Base.
Open Scope nat_scope.

(** [std::task::Poll]; std's [Result] with the error type that the code in question uses. *)
Inductive polled (A : Type) := Pending | Ready (a : A).
Arguments Pending {A}.
Arguments Ready {A} a.
Inductive outcome (A E : Type) := Done (a : A) | Failed (e : E).
Arguments Done {A E} a.
Arguments Failed {A E} e.

(** A future of another crate, or of the operating system: what it answers when it is asked for the
    k-th time, and how often it has been asked. What it answers after it has been ready is
    arbitrary. *)
Definition future (A E : Type) := nat -> polled (outcome A E).
Notation asked A E := (nat * future A E)%type.

(** [SelectOk] of the crate futures-util 0.3 (src/future/select_ok.rs), which connecting_stream.rs
    32 and 135 build on: all futures are asked in turn until one is ready; that one is removed. A
    success drops the others. After a failure they are asked again, unless none is left. *)
Fixpoint first_ready {A E} (fs : list (asked A E)) : option (outcome A E) * list (asked A E) :=
  match fs with
  | [] => (None, [])
  | (k, f) :: fs' =>
      match f k with
      | Ready r => (Some r, fs')
      | Pending => let '(o, fs'') := first_ready fs' in (o, (S k, f) :: fs'')
      end
  end.
Fixpoint select_ok {A E} (fuel : nat) (fs : list (asked A E)) : res (polled (outcome A E) * list (asked A E)) :=
  match fuel with
  | O => Panic PFuel
  | S fuel' =>
      match first_ready fs with
      | (None, fs') => Ok (Pending, fs')
      | (Some (Done a), _) => Ok (Ready (Done a), [])
      | (Some (Failed e), []) => Ok (Ready (Failed e), [])
      | (Some (Failed e), fs') => select_ok fuel' fs'
      end
  end.
Definition poll_select {A E} (fs : list (asked A E)) := select_ok (S (length fs)) fs.

(** I/O errors by what matters here: no address (connecting_stream.rs 125-128), a timeout of
    async-std, an error with the text of another error in it (src/errors/mod.rs 202-209), or one of the
    operating system. *)
Inductive io_error := IoNoAddress | IoTimedOut | IoText (text : bytes) | IoOs (n : N).
(** src/errors/mod.rs 51-64: [ConnectionError]; errors of native-tls are numbers. *)
Inductive conn_error := ConnIo (e : io_error) | ConnTls (n : N) | ConnTlsHost | ConnBroken.

(** A TCP connection, and how TLS is set up on it: connecting_stream.rs 167-172. *)
Definition tcp := N.
Record tls_setup := mk_tls_setup { tls_host : bytes; tls_accept_invalid : bool; tls_root : option bytes }.
(** src/io/stream.rs 24-29. *)
Inductive stream := Plain (s : tcp) | Secure (s : tcp) (how : tls_setup).

Section Connecting.
(** [TlsConnector::builder().build()] with these settings, and the future of the handshake. *)
Variable tls_build : tls_setup -> outcome unit N.
Variable handshake : tls_setup -> tcp -> future unit N.

(** connecting_stream.rs 30-48: the states; [TWait] has the async block of 175-182 in its two
    phases, waiting for a connection and waiting for the handshake. [None] in a Fail state is
    an error that has been taken. *)
Inductive state :=
| TcpWait (fs : list (asked tcp conn_error))
| TcpFail (e : option conn_error)
| TlsWait (fs : list (asked tcp conn_error)) (how : tls_setup)
| TlsShake (s : tcp) (how : tls_setup) (f : asked unit N)
| TlsFail (e : option conn_error)
| Finished.

(** connecting_stream.rs 115-187. [addresses] is the result of [Url::socket_addrs], [host] that of
    [Url::host_str]; [connect] gives the future of [TcpStream::connect] for an address. *)
Definition connecting (tls secure skip_verify : bool) (certificate : option bytes) (host : option bytes)
  (addresses : outcome (list N) io_error) (connect : N -> future tcp io_error) : state :=
  let attempt a : asked tcp conn_error :=
    (0, fun k => match connect a k with
                 | Pending => Pending
                 | Ready (Done s) => Ready (Done s)
                 | Ready (Failed e) => Ready (Failed (ConnIo e))
                 end) in
  match addresses with
  | Done l =>
      match map attempt l with
      | [] => TcpFail (Some (ConnIo IoNoAddress))
      | fs =>
          if tls && secure then
            match host with
            | None => TlsFail (Some ConnTlsHost)
            | Some h => TlsWait fs (mk_tls_setup h skip_verify certificate)
            end
          else TcpWait fs
      end
  | Failed e => TcpFail (Some (ConnIo e))
  end.

Definition poll_shake (s : tcp) (how : tls_setup) (f : asked unit N) : res (polled (outcome stream conn_error) * state) :=
  match snd f (fst f) with
  | Pending => Ok (Pending, TlsShake s how (S (fst f), snd f))
  | Ready (Done _) => Ok (Ready (Done (Secure s how)), Finished)
  | Ready (Failed n) => Ok (Ready (Failed (ConnTls n)), Finished)
  end.
(** connecting_stream.rs 50-88 and 190-196. A completed async block panics when it is polled
    again; so does, here, a completed [SelectOk], which there stays pending. *)
Definition poll (st : state) : res (polled (outcome stream conn_error) * state) :=
  match st with
  | TcpWait fs =>
      do x <- poll_select fs;
      match x with
      | (Ready (Done s), _) => Ok (Ready (Done (Plain s)), Finished)
      | (Ready (Failed e), _) => Ok (Ready (Failed e), Finished)
      | (Pending, fs') => Ok (Pending, TcpWait fs')
      end
  | TcpFail e => do e <- or_panic PUnwrap e; Ok (Ready (Failed e), TcpFail None)
  | TlsFail e => do e <- or_panic PUnwrap e; Ok (Ready (Failed e), TlsFail None)
  | TlsWait fs how =>
      do x <- poll_select fs;
      match x with
      | (Ready (Done s), _) =>
          match tls_build how with
          | Done _ => poll_shake s how (0, handshake how s)
          | Failed n => Ok (Ready (Failed (ConnTls n)), Finished)
          end
      | (Ready (Failed e), _) => Ok (Ready (Failed e), Finished)
      | (Pending, fs') => Ok (Pending, TlsWait fs' how)
      end
  | TlsShake s how f => poll_shake s how f
  | Finished => Panic PExplicit
  end.

(** Polled again as long as it is pending, at most [n] times. *)
Fixpoint polls (n : nat) (st : state) : res (polled (outcome stream conn_error) * state) :=
  match n with
  | O => Ok (Pending, st)
  | S n' => do x <- poll st; match x with (Pending, st') => polls n' st' | r => Ok r end
  end.
End Connecting.

(** src/errors/mod.rs 15-37: what kinds of errors there are here; [ErrOther] stands for the kinds
    that are not told apart. *)
Inductive err := ErrIo (e : io_error) | ErrServer (e : server_error) | ErrTimeout | ErrOther (n : N).
(** src/errors/mod.rs 202-209 ([From<Error> for io::Error]) and 156-160; [text] is [to_string]. *)
Definition io_of_err (text : err -> bytes) (e : err) : io_error :=
  match e with ErrIo e => e | e => IoText (text e) end.

(** What an operation comes to under a clock: its result, or none in time. *)
Inductive timed (A : Type) := InTime (r : outcome A err) | TooLate.
Arguments InTime {A} r.
Arguments TooLate {A}.
(** src/lib.rs 636-642 and src/errors/mod.rs 189-194: with tokio. *)
Definition with_timeout_tokio {A} (x : timed A) : outcome A err :=
  match x with InTime r => r | TooLate => Failed ErrTimeout end.
(** src/lib.rs 623-634: with async-std, whose [io::timeout] takes and gives I/O errors. *)
Definition with_timeout_async_std {A} (text : err -> bytes) (x : timed A) : outcome A err :=
  match x with
  | InTime (Done a) => Done a
  | InTime (Failed e) => Failed (ErrIo (io_of_err text e))
  | TooLate => Failed (ErrIo IoTimedOut)
  end.
