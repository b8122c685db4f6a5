(** Blocks: src/types/block/*.rs. *)
From Verif Require Import Base Bytes Utf8 Reader Wire Types Text TypeNames Decimal DateTime Values Columns Casts.
Open Scope nat_scope.

(** src/types/block/block_info.rs 10-25: [BlockInfo] and its default. *)
Record binfo := mk_info { bi_overflows : bool; bi_bucket : Z }.
Definition info_default : binfo := mk_info false (-1).

(** block_info.rs 27-43: [read]. The loop ends at the first 0 tag. *)
Definition info_step (i : binfo) : P (binfo + binfo) :=
  let! tag := read_uvarint in
  if (tag =? 1)%N then
    let! z := read_scalar SBool in Ret (inl (mk_info (negb (z =? 0)%Z) (bi_bucket i)))
  else if (tag =? 2)%N then
    let! z := read_scalar I32 in Ret (inl (mk_info (bi_overflows i) z))
  else if (tag =? 0)%N then Ret (inr i)
  else Fail (EUnknownPacket tag).
Definition read_info : P binfo := ploop info_step info_default.

(** block_info.rs 45-51: [write]. *)
Definition write_info (i : binfo) : res bytes :=
  do a <- enc_uvarint 1;
  do b <- enc_uvarint 2;
  do c <- enc_uvarint 0;
  Ok (a ++ marshal SBool (if bi_overflows i then 1 else 0)%Z ++ b ++ marshal I32 (bi_bucket i) ++ c).

(** src/types/column/mod.rs 57-62 and src/types/block/mod.rs 77-82: a column is a name and
    its data, a block its header and columns. The capacity of a block only reserves
    memory and is left out. *)
Definition column : Type := bytes * col.
Record block := mk_block { b_info : binfo; b_cols : list column }.
Definition block_default : block := mk_block info_default [].

(** src/types/block/mod.rs 189-194: [row_count]. *)
Definition row_count (b : block) : res nat :=
  match b_cols b with [] => Ok 0 | (_, c) :: _ => clen c end.

(** src/types/block/mod.rs 207-215: [append_column]. *)
Definition append_column (b : block) (x : column) : res block :=
  do n <- clen (snd x);
  match b_cols b with
  | [] => Ok (mk_block (b_info b) [x])
  | _ => do m <- row_count b;
         if (m =? n)%nat then Ok (mk_block (b_info b) (b_cols b ++ [x])) else Panic PExplicit
  end.

(** A counted loop [for _ in 0..n] with a state, for counts from the wire. *)
Fixpoint pfold_pos {S} (n : positive) (f : S -> P S) (s : S) : P S :=
  match n with
  | xH => f s
  | xO m => let! s1 := pfold_pos m f s in pfold_pos m f s1
  | xI m => let! s0 := f s in let! s1 := pfold_pos m f s0 in pfold_pos m f s1
  end.
Definition pfoldN {S} (n : N) (f : S -> P S) (s : S) : P S :=
  match n with N0 => Ret s | Npos q => pfold_pos q f s end.

Section Load.
Variable tz_known : bytes -> bool.

(** src/types/column/mod.rs 180-191: [Column::read]. *)
Definition read_column (size : N) (tz : bytes) : P column :=
  let! name := read_string in
  let! ty := read_string in
  let! c := load_column tz_known ty size tz in
  Ret (name, c).

(** src/types/block/mod.rs 168-184: [raw_load]. *)
Definition raw_load (tz : bytes) : P block :=
  let! info := read_info in
  let! ncols := read_uvarint in
  let! nrows := read_uvarint in
  pfoldN ncols (fun b => let! c := read_column nrows tz in lift (append_column b c)) (mk_block info []).
End Load.

(** src/types/column/mod.rs 208-213: [Column::write]. *)
Definition write_column (x : column) : res bytes :=
  do n <- enc_string (fst x);
  do t <- enc_string (type_name (ctype (snd x)));
  do k <- clen (snd x);
  do d <- save (snd x) 0 k;
  Ok (n ++ t ++ d).

(** src/types/block/mod.rs 360-368: [write] without compression. *)
Definition write_block (b : block) : res bytes :=
  do i <- write_info (b_info b);
  do nc <- enc_uvarint (lenN (b_cols b));
  do r <- row_count b;
  do nr <- enc_uvarint (N.of_nat r);
  do cs <- mapM write_column (b_cols b);
  Ok (i ++ nc ++ nr ++ concat cs).

(** src/types/block/mod.rs 115-139: [get_index] by position and by name; 218-225 [get] up to
    the conversion of the cell; 266-273 [get_column]. *)
Inductive colidx := ByPos (i : nat) | ByName (s : bytes).
Fixpoint find_name (s : bytes) (cs : list column) (i : nat) : option nat :=
  match cs with
  | [] => None
  | (n, _) :: cs' => if bytes_eqb n s then Some i else find_name s cs' (S i)
  end.
Definition get_index (x : colidx) (b : block) : res nat :=
  match x with
  | ByPos i => Ok i
  | ByName s => match find_name s (b_cols b) 0 with Some i => Ok i | None => Err EOutOfRange end
  end.
Definition get_column (b : block) (x : colidx) : res column :=
  do i <- get_index x b; index (b_cols b) i.
Definition get_cell (b : block) (row : nat) (x : colidx) : res value :=
  do c <- get_column b x; at_ (snd c) row.

(** src/types/column/mod.rs 90-104 and src/types/block/mod.rs 83-97: equality, cell by cell;
    names and headers are not compared. *)
Fixpoint all_cells (f g : nat -> res value) (js : list nat) : res bool :=
  match js with
  | [] => Ok true
  | j :: js' => do x <- f j; do y <- g j; do e <- vref_eq x y; if e then all_cells f g js' else Ok false
  end.
Definition column_eq (a b : col) : res bool :=
  do n <- clen a; do m <- clen b;
  if negb (n =? m)%nat then Ok false
  else if negb (sqltype_eqb (ctype a) (ctype b)) then Ok false
  else all_cells (at_ a) (at_ b) (seq 0 n).
Fixpoint columns_eq (xs ys : list column) : res bool :=
  match xs, ys with
  | x :: xs', y :: ys' =>
      do e <- column_eq (snd x) (snd y); if e then columns_eq xs' ys' else Ok false
  | _, _ => Ok true
  end.
Definition block_eq (a b : block) : res bool :=
  if (length (b_cols a) =? length (b_cols b))%nat then columns_eq (b_cols a) (b_cols b) else Ok false.

(** src/types/block/chunk_iterator.rs 14-37: one call of [next] on the block and position;
    src/types/block/mod.rs 228-245 [column] appends the slice. *)
Fixpoint slice_columns (cs : list column) (a b : nat) (acc : block) : res block :=
  match cs with
  | [] => Ok acc
  | (n, c) :: cs' => do acc' <- append_column acc (n, CChunk c a b); slice_columns cs' a b acc'
  end.
Definition chunk_next (size : nat) (b : block) (pos : nat) : res (option (block * nat)) :=
  do m <- row_count b;
  if (m =? 0)%nat && (pos =? 0)%nat then Ok (Some (block_default, 1))
  else if (m <=? pos)%nat then Ok None
  else let k := Nat.min size (m - pos) in
       do r <- slice_columns (b_cols b) pos (pos + k) block_default;
       Ok (Some (r, pos + k)).

(** All of its results ([for chunk in chunks]); the fuel bounds their number. *)
Fixpoint chunk_all (fuel : nat) (size : nat) (b : block) (pos : nat) : res (list block) :=
  match fuel with
  | O => Panic PFuel
  | S fuel' =>
      do o <- chunk_next size b pos;
      match o with
      | None => Ok []
      | Some (r, pos') => do rs <- chunk_all fuel' size b pos'; Ok (r :: rs)
      end
  end.
Definition block_chunks (size : nat) (b : block) : res (list block) :=
  do m <- row_count b; chunk_all (m + 2) size b 0.

(** src/types/block/builder.rs 115-131: [extract_timezone]. *)
Fixpoint extract_timezone (v : value) : bytes :=
  match v with
  | VDateTime _ tz => tz
  | VSome x => extract_timezone x
  | VArray _ vs => match vs with x :: _ => extract_timezone x | [] => default_tz end
  | _ => default_tz
  end.

(** [block.columns[i].push(value)] on a block that is not shared. *)
Fixpoint push_at (cs : list column) (i : nat) (v : value) : res (list column) :=
  match cs, i with
  | [], _ => Panic PIndex
  | (n, c) :: cs', O => do c' <- push c v; Ok ((n, c') :: cs')
  | x :: cs', S i' => do cs'' <- push_at cs' i' v; Ok (x :: cs'')
  end.

(** builder.rs 82-113: [put_param]. The recursive call after adding a column finds it. A
    block changed before an error stays changed; errors and panics end the model's run. *)
Definition put_param (key : bytes) (v : value) (b : block) : res block :=
  match find_name key (b_cols b) 0 with
  | Some i => do cs <- push_at (b_cols b) i v; Ok (mk_block (b_info b) cs)
  | None =>
      do n <- row_count b;
      if (n <=? 1)%nat then
        do c <- from_type (type_of_value v) (extract_timezone v);
        do cs <- push_at (b_cols b ++ [(key, c)]) (length (b_cols b)) v;
        Ok (mk_block (b_info b) cs)
      else Err EOutOfRange
  end.

(** builder.rs 57-80: applying a row, here the list of its fields in the order they are
    put: as written in [row!] (src/lib.rs 199-221) and in a vector, last to first with [put]. *)
Fixpoint push_row (row : list (bytes * value)) (b : block) : res block :=
  match row with
  | [] => Ok b
  | (k, v) :: row' => do b' <- put_param k v b; push_row row' b'
  end.

(** src/types/block/mod.rs 262-264: a program that calls [push] once per row. *)
Fixpoint push_rows (rows : list (list (bytes * value))) (b : block) : res block :=
  match rows with
  | [] => Ok b
  | row :: rows' => do b' <- push_row row b; push_rows rows' b'
  end.

(** src/types/block/mod.rs 278-301 and src/types/column/mod.rs 117-135: [concat]. Only the
    numbers of columns are compared. *)
Definition nth_column (bs : list block) (i : nat) : res (list column) := mapM (fun b => index (b_cols b) i) bs.
Definition block_concat (bs : list block) : res block :=
  match bs with
  | [] => Panic PUnwrap
  | b0 :: _ =>
      if forallb (fun b => (length (b_cols b0) =? length (b_cols b))%nat) bs then
        do cs <- mapM (fun i => do xs <- nth_column bs i;
                                do c <- concat_cols (map snd xs);
                                Ok (match xs with (n, _) :: _ => n | [] => [] end, c))
                      (seq 0 (length (b_cols b0)));
        Ok (mk_block (b_info b0) cs)
      else Panic PAssert
  end.

Section Cast.
Variable parse_ipv4 parse_ipv6 : bytes -> option bytes.

(** src/types/block/mod.rs 305-327: [cast_to]: columns are paired by position. *)
Fixpoint cast_columns (cs : list column) (header : list column) : res (list column) :=
  match header, cs with
  | [], _ => Ok []
  | (_, h) :: hs, (n, c) :: cs' =>
      do c' <- cast_col parse_ipv4 parse_ipv6 c (ctype h);
      do r <- cast_columns cs' hs; Ok ((n, c') :: r)
  | _ :: _, [] => Panic PUnwrap
  end.
Definition block_cast (b header : block) : res block :=
  if negb (length (b_cols header) =? length (b_cols b))%nat then Err EOutOfRange
  else do cs <- cast_columns (b_cols b) (b_cols header); Ok (mk_block (b_info b) cs).
End Cast.
