(** A server that keeps a table: what it reads from the bytes it is sent, and what it answers. *)
From Verif Require Import Base Bytes Reader Wire Types Values Columns Block Compress Packets Client SpecColumns SpecClient Rows SpecRows.
Open Scope list_scope. Open Scope nat_scope.

(** [vs] are the cells of the [j]-th columns of the blocks, one block after the other. *)
Definition column_cells (bs : list block) (j : nat) (vs : list value) : Prop :=
  exists parts, concat parts = vs /\
    Forall2 (fun b part => exists n d, nth_error (b_cols b) j = Some (n, d) /\ holds d part) bs parts.

(** The commands that send blocks. *)
Definition sends_data (m : cmd) : bool :=
  match m with CmdUnion (CmdData _ _) _ => true | _ => false end.

Section Table.
Variable lz4_compress : bytes -> bytes.
Variable lz4_decompress : bytes -> N -> option bytes.
Variable show_float : Z -> bytes.
Variable tz_known : bytes -> bool.
Variable tz : bytes.

(** A data message as a server reads it: its number, the empty name, and a block, compressed or not. *)
Definition data_message (compress : bool) : P block :=
  let! t := read_uvarint in
  let! name := read_string in
  match t, name with
  | 2%N, [] => load_block lz4_decompress tz_known tz compress
  | _, _ => Fail EOther
  end.

(** From the bytes of the command a server reads the block and the empty block that ends the data, and
    nothing is left. *)
Definition reads_data (compress : bool) (m : cmd) (b : block) : Prop :=
  exists bs, encode_command lz4_compress show_float m = Ok bs /\
    run (let! b := data_message compress in let! e := data_message compress in Ret (b, e)) bs = Ok ((b, block_default), []).

(** A response with all the rows of these blocks, in order: a block without rows that says what the
    columns are, any number of blocks of any number of rows, and perhaps blocks without columns
    and reports. *)
Definition all_rows_of (heads : list (bytes * sqltype)) (bs : list block) (ps : list packet) : Prop :=
  Forall in_response ps /\ exists h more ns,
    blocks_of ps = h :: more /\ shaped heads 0 h /\ Forall2 (shaped heads) ns (with_columns more) /\
    forall j vs, j < length heads -> column_cells bs j vs -> column_cells (with_columns more) j vs.

(** A server that keeps a table with these columns. It describes the columns when it is asked to insert into
    it, takes blocks of such columns, and gives all rows of all blocks it has read when it is
    asked for the table. *)
Record keeps_table (server : nat -> list cmd -> reply) (cx : context) (compress : bool) (ins sel : query)
    (heads : list (bytes * sqltype)) : Prop := {
  kt_ping : forall id log, server id (log ++ [CmdPing]) = RAnswers [Ok PkPong] [] false;
  kt_describe : forall id log, exists ps h, Forall describes_columns ps /\ map head (b_cols h) = heads /\
    server id (log ++ [CmdQuery ins cx]) = RAnswers (map Ok ps ++ [Ok (PkBlock h)]) [] false;
  kt_take : forall id log p b n, reads_data compress (CmdUnion (CmdData p cx) (CmdData block_default cx)) b -> shaped heads n b ->
    exists ps, Forall describes_columns ps /\
      server id (log ++ [CmdUnion (CmdData p cx) (CmdData block_default cx)]) = RAnswers (map Ok ps ++ [Ok PkEof]) [] false;
  kt_give : forall id log bs ns, Forall2 (reads_data compress) (filter sends_data log) bs -> Forall2 (shaped heads) ns bs ->
    exists ps, all_rows_of heads bs ps /\
      server id (log ++ [CmdQuery sel cx]) = RAnswers (map Ok ps ++ [Ok PkEof]) [] false }.
End Table.

(** LZ4 gives back what it compressed, and the sizes are within the protocol's limits. *)
Definition lz4_carries (lz4_compress : bytes -> bytes) (lz4_decompress : bytes -> N -> option bytes) (plain : bytes) : Prop :=
  bytes_ok (lz4_compress plain) /\ lz4_decompress (lz4_compress plain) (lenN plain) = Some plain /\
  (9 + lenN (lz4_compress plain) <= 2 ^ 30)%N /\ (lenN plain < 2 ^ 31)%N.
