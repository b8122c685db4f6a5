(** What iterating over rows and streaming them is stated with. *)
From Verif Require Import Base Bytes Types Values Columns Block Packets Client FromSql SpecClient Rows.
Open Scope list_scope. Open Scope nat_scope.

(** A program that calls [next] until it gets nothing gets these rows, and nothing again if it goes
    on. *)
Inductive iterates : rows -> list row -> Prop :=
| it_end s s' : rows_next s = Ok (None, s') -> rows_next s' = Ok (None, s') -> iterates s []
| it_more s s' r rs : rows_next s = Ok (Some r, s') -> iterates s' rs -> iterates s (r :: rs).

(** The cells of a block, row by row: for every row index the row of that index. *)
Definition rows_upto (b : block) (n : nat) : list row := map (fun i => mk_row i b) (seq 0 n).

(** Two rows that no getter tells apart. *)
Definition same_row (r r' : row) : Prop :=
  row_len r = row_len r' /\ forall x,
    row_name r x = row_name r' x /\ row_type r x = row_type r' x /\ forall t, row_get t r x = row_get t r' x.

(** The name and the type of a column. *)
Definition head (x : column) : bytes * sqltype := (fst x, ctype (snd x)).

(** A block of [n] rows in columns of these names and types. *)
Definition shaped (heads : list (bytes * sqltype)) (n : nat) (b : block) : Prop :=
  map head (b_cols b) = heads /\
  Forall (fun x : column => clen (snd x) = Ok n) (b_cols b).

(** The rows that items of a stream of blocks stand for. *)
Definition count (b : block) : nat := match row_count b with Ok n => n | _ => 0 end.
Definition rows_of_item (r : res block) : list (res row) :=
  match r with
  | Ok b => map Ok (rows_upto b (count b))
  | Err e => [Err e]
  | Panic p => []
  end.
Definition rows_of (l : list (res block)) : list (res row) := flat_map rows_of_item l.

(** A program that polls a stream of rows up to [n] times, also after errors; while it waits, the late
    messages arrive. [fuel] bounds the rounds of one poll. *)
Section Drive.
Variable lz4_compress : bytes -> bytes.
Variable show_float : Z -> bytes.
Variable server : nat -> list cmd -> reply.
Fixpoint drive_rows (fuel n : nat) (s : rstream) (k : client) : list (res row) * option row_streamed * rstream * client :=
  match n with
  | O => ([], None, s, k)
  | S n' =>
      match poll_rows lz4_compress show_float server fuel s k with
      | (WItem r, s', k') =>
          let '(l, e, s2, k2) := drive_rows fuel n' s' k' in (r :: l, e, s2, k2)
      | (WWait, s', k') => drive_rows fuel n' (mk_rstream (arrive_stream (t_blocks s')) (t_inner s')) k'
      | (x, s', k') => ([], Some x, s', k')
      end
  end.
End Drive.

(** The end of a stream of rows for the end of a stream of blocks. *)
Definition row_end (e : streamed) : row_streamed :=
  match e with SEnd => WEnd | SWait => WWait | SCrash p => WCrash p | SItem _ => WCrash PUndefined end.
