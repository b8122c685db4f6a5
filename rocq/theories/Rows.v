(** Rows of blocks, and queries whose rows are streamed: src/types/block/row.rs and
    src/types/query_result/mod.rs. *)
From Verif Require Import Base Bytes Types Values Columns Block FromSql Packets Client.
Open Scope list_scope. Open Scope nat_scope.

(** row.rs 8-13: [Row]. The block is borrowed or held in an [Arc] (row.rs 46-58); nothing can
    change it meanwhile. *)
Record row := mk_row { w_index : nat; w_block : block }.

(** row.rs 17-23 with 75-84: [get]. *)
Definition row_get (t : rtype) (r : row) (x : colidx) : res rval := get t (w_block r) (w_index r) x.

(** row.rs 26-33 with 68-73: [len] and [is_empty]. *)
Definition row_len (r : row) : nat := length (b_cols (w_block r)).
Definition row_is_empty (r : row) : bool := row_len r =? 0.

(** row.rs 36-43 with 86-97: [name] and [sql_type]. *)
Definition row_name (r : row) (x : colidx) : res bytes := do c <- get_column (w_block r) x; Ok (fst c).
Definition row_type (r : row) (x : colidx) : res sqltype := do c <- get_column (w_block r) x; Ok (ctype (snd c)).

(** row.rs 101-105 and src/types/block/mod.rs 253-259: [Rows] and [rows]. *)
Record rows := mk_rows { ws_row : nat; ws_block : block }.
Definition block_rows (b : block) : rows := mk_rows 0 b.

(** row.rs 107-122: [next]. [self.row += 1] cannot overflow: it is at most the length of a
    buffer. *)
Definition rows_next (s : rows) : res (option row * rows) :=
  do n <- row_count (ws_block s);
  if n <=? ws_row s then Ok (None, s)
  else Ok (Some (mk_row (ws_row s) (ws_block s)), mk_rows (S (ws_row s)) (ws_block s)).

(** src/types/query_result/mod.rs 105-131: [stream]. The stream of blocks is mapped to streams of
    rows, or of one error, which [flatten] (futures-util, stream/stream/flatten.rs) polls one
    after another: [t_inner] is the one it is at. *)
Inductive inner := INone | IRows (s : rows) | IOnce (o : option error).
Record rstream := mk_rstream { t_blocks : bstream; t_inner : inner }.

(** What polling a stream of rows gives. *)
Inductive row_streamed := WItem (r : res row) | WEnd | WWait | WCrash (p : panic).

Section Stream.
Variable lz4_compress : bytes -> bytes.
Variable show_float : Z -> bytes.
Variable server : nat -> list cmd -> reply.
Variable fresh : nat -> res client.
Variable opts : copts.

(** As [stream_blocks], the first block being skipped (mod.rs 83-85 and 107). *)
Definition stream_rows (fuel : nat) (q : query) (k : client) : res rstream * client :=
  match stream_blocks lz4_compress show_float server fresh opts fuel true q k with
  | (Ok s, k') => (Ok (mk_rstream s INone), k')
  | (Err e, k') => (Err e, k')
  | (Panic p, k') => (Panic p, k')
  end.

(** [Flatten::poll_next]: one round of its loop per unit of fuel. *)
Fixpoint poll_rows (fuel : nat) (s : rstream) (k : client) : row_streamed * rstream * client :=
  match fuel with
  | O => (WCrash PFuel, s, k)
  | S n =>
      match t_inner s with
      | IRows rs =>
          match rows_next rs with
          | Ok (Some r, rs') => (WItem (Ok r), mk_rstream (t_blocks s) (IRows rs'), k)
          | Ok (None, _) => poll_rows n (mk_rstream (t_blocks s) INone) k
          | Err e => (WItem (Err e), s, k)
          | Panic p => (WCrash p, s, k)
          end
      | IOnce (Some e) => (WItem (Err e), mk_rstream (t_blocks s) (IOnce None), k)
      | IOnce None => poll_rows n (mk_rstream (t_blocks s) INone) k
      | INone =>
          match poll_stream lz4_compress show_float server (t_blocks s) k with
          | (SItem (Ok b), s', k') => poll_rows n (mk_rstream s' (IRows (block_rows b))) k'
          | (SItem (Err e), s', k') => poll_rows n (mk_rstream s' (IOnce (Some e))) k'
          | (SItem (Panic p), s', k') => (WCrash p, mk_rstream s' INone, k')
          | (SEnd, s', k') => (WEnd, mk_rstream s' INone, k')
          | (SWait, s', k') => (WWait, mk_rstream s' INone, k')
          | (SCrash p, s', k') => (WCrash p, mk_rstream s' INone, k')
          end
      end
  end.
End Stream.
