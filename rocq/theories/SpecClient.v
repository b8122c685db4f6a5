(** What the client's operations are stated with: connections in step with the server, and the
    blocks of a response. *)
From Verif Require Import Base Block Packets Client.
Open Scope list_scope.
Open Scope nat_scope.

(** Nothing is under way on the connection. *)
Definition idle (c : conn) : Prop :=
  cn_in c = [] /\ cn_late c = [] /\ cn_closed c = false /\ cn_queue c = [] /\ cn_inconsistent c = false.

(** A handle that can be used: it belongs to a pool and its connection is in step. *)
Definition ready (k : client) (c : conn) : Prop :=
  k_pool k = BAttached /\ k_inner k = Some c /\ idle c.

(** An idle connection after a further command whose answer has been read. *)
Definition said (c : conn) (m : cmd) : conn := mk_conn (cn_id c) [] [] false [] (cn_log c ++ [m]) false.

(** The server answers the check that comes before an operation, if it is made; the connection
    after it. *)
Definition pings (server : nat -> list cmd -> reply) (opts : copts) (c : conn) : Prop :=
  co_ping opts = true -> server (cn_id c) (cn_log c ++ [CmdPing]) = RAnswers [Ok PkPong] [] false.
Definition checked (opts : copts) (c : conn) : conn := if co_ping opts then said c CmdPing else c.

(** The messages of a query's response before its end. *)
Definition in_response (p : packet) : Prop :=
  match p with PkBlock _ | PkProgress _ | PkProfile _ => True | _ => False end.

(** The data blocks among them; those that have columns; those after the first. *)
Definition blocks_of (ps : list packet) : list block :=
  flat_map (fun p => match p with PkBlock b => [b] | _ => [] end) ps.
Definition with_columns (bs : list block) : list block :=
  filter (fun b => match b_cols b with [] => false | _ => true end) bs.
Definition delivered (skip_first : bool) (ps : list packet) : list block :=
  with_columns (if skip_first then tl (blocks_of ps) else blocks_of ps).

(** Messages of a query that is under way or has been cancelled, before its end. *)
Definition in_flight (p : packet) : Prop :=
  match p with PkHello _ | PkPong | PkEof | PkException _ => False | _ => True end.

(** What a server may say of the columns before it describes them with an empty block. *)
Definition describes_columns (p : packet) : Prop := match p with PkTableColumns _ _ => True | _ => False end.

(** The commands of an insert: for each piece the statement, then the piece and an empty block. *)
Definition insert_commands (cx : context) (q : query) (pieces : list block) : list cmd :=
  flat_map (fun p => [CmdQuery q cx; CmdUnion (CmdData p cx) (CmdData block_default cx)]) pieces.

(** Commands are sent on an open connection and answered. *)
Section Sends.
Variable lz4_compress : bytes -> bytes.
Variable show_float : Z -> bytes.
Variable server : nat -> list cmd -> reply.
Inductive sends : conn -> list cmd -> conn -> Prop :=
| sends_nil c : sends c [] c
| sends_cons c m ms c' bs now late closes :
    encode_command lz4_compress show_float m = Ok bs -> cn_closed c = false ->
    server (cn_id c) (cn_log c ++ [m]) = RAnswers now late closes ->
    sends (mk_conn (cn_id c) (cn_in c ++ cn_late c ++ now) late closes [] (cn_log c ++ [m]) (cn_inconsistent c)) ms c' ->
    sends c (m :: ms) c'.

(** The connection of an abandoned query: when the commands still queued and the cancellation are
    sent, the server sends what is left of the query up to its end and nothing else. [c'] is the
    connection after that. *)
Definition winds_down (c c' : conn) : Prop :=
  cn_inconsistent c = true /\
  exists c1 body, sends (mk_conn (cn_id c) (cn_in c) (cn_late c) (cn_closed c) [] (cn_log c) (cn_inconsistent c))
                        (cn_queue c ++ [CmdCancel]) c1 /\
    cn_in c1 = map Ok body ++ [Ok PkEof] /\ Forall in_flight body /\ cn_late c1 = [] /\ cn_closed c1 = false /\
    c' = mk_conn (cn_id c) [] [] false [] (cn_log c1) false.
End Sends.

(** The messages that are late arrive. *)
Definition arrive (c : conn) : conn :=
  mk_conn (cn_id c) (cn_in c ++ cn_late c) [] (cn_closed c) (cn_queue c) (cn_log c) (cn_inconsistent c).
Definition arrive_stream (s : bstream) : bstream :=
  mk_bstream (mk_pstream (option_map arrive (ps_inner (bs_inner s))) (ps_state (bs_inner s)) (ps_read_block (bs_inner s)))
    (bs_state s) (bs_index s) (bs_skip s).

(** A program that polls a stream of blocks up to [n] times, also after errors; while it waits,
    the late messages arrive. It gets items, and the end if it comes to it. *)
Section Drive.
Variable lz4_compress : bytes -> bytes.
Variable show_float : Z -> bytes.
Variable server : nat -> list cmd -> reply.
Fixpoint drive_blocks (n : nat) (s : bstream) (k : client) : list (res block) * option streamed * bstream * client :=
  match n with
  | O => ([], None, s, k)
  | S n' =>
      match poll_stream lz4_compress show_float server s k with
      | (SItem r, s', k') =>
          let '(l, e, s2, k2) := drive_blocks n' s' k' in (r :: l, e, s2, k2)
      | (SWait, s', k') => drive_blocks n' (arrive_stream s') k'
      | (x, s', k') => ([], Some x, s', k')
      end
  end.
End Drive.

(** ** The text of an INSERT *)

(** A name between backticks that holds none; a name of digits, or of characters beyond ASCII. *)
Definition quoted_name (s piece : bytes) : Prop := piece = [96%N] ++ s ++ [96%N] /\ ~ In 96%N s.
Definition bare_name (s piece : bytes) : Prop :=
  piece = s /\ Forall (fun b => (48 <= b <= 57)%N \/ (128 <= b)%N) s.

(** How a server reads a name between backticks: a backslash stands for the character after it. *)
Fixpoint read_quoted (s : bytes) : option (bytes * bytes) :=
  match s with
  | [] => None
  | b :: s' =>
      if (b =? 96)%N then Some ([], s')
      else if (b =? 92)%N then
        match s' with
        | [] => None
        | x :: s'' => option_map (fun r => (x :: fst r, snd r)) (read_quoted s'')
        end
      else option_map (fun r => (b :: fst r, snd r)) (read_quoted s')
  end.
