(** Columns and blocks that share storage: [Arc<dyn ColumnData>] in src/types/column/*.rs.

    Everywhere else in the model a column is a value of its own. Here its storages are cells of
    a memory, a column is the address of its outermost storage, and cloning a column copies the
    address only. *)
From Verif Require Import Base Bytes Utf8 Reader Wire Types Text TypeNames Decimal DateTime Values Columns Casts Block.
Open Scope nat_scope.

Definition addr := nat.

(** What a storage without own data does with the storage under it: chunk.rs 14-17,
    fixed_string.rs 25-33, string.rs 27-29, decimal.rs 29-41, enums.rs 27-35 and 269-277,
    chrono_datetime.rs 31-34. *)
Inductive view :=
| WChunk (a b : nat)
| WFixed (n : N)
| WNullFixed (n : N)
| WString
| WDecimal (p s : N) (nb : nobits)
| WNullDecimal (p s : N) (nb : nobits)
| WEnum8 (vals : list (bytes * Z))
| WEnum16 (vals : list (bytes * Z))
| WNullEnum8 (vals : list (bytes * Z))
| WNullEnum16 (vals : list (bytes * Z))
| WChrono (dst : sqltype).
Definition over (w : view) (c : col) : col :=
  match w with
  | WChunk a b => CChunk c a b
  | WFixed n => CFixedAdapter c n
  | WNullFixed n => CNullFixedAdapter c n
  | WString => CStringAdapter c
  | WDecimal p s nb => CDecimalAdapter c p s nb
  | WNullDecimal p s nb => CNullDecimalAdapter c p s nb
  | WEnum8 vals => CEnum8Adapter c vals
  | WEnum16 vals => CEnum16Adapter c vals
  | WNullEnum8 vals => CNullEnum8Adapter c vals
  | WNullEnum16 vals => CNullEnum16Adapter c vals
  | WChrono dst => CChronoAdapter c dst
  end.

(** One storage behind an [Arc], with the addresses of the [Arc]s it holds: nullable.rs 18-21,
    array.rs 18-21, map.rs 16-21, simple_agg_func.rs 16-19, low_cardinality.rs 183-187,
    concat.rs 11-14. [NFlat] is a storage that holds no [Arc] (decimals and enumerations hold
    their numbers in a [Box]). *)
Inductive node :=
| NFlat (c : col)
| NNullable (i : addr) (nulls : bytes)
| NArray (i : addr) (offs : list N)
| NMap (k v : addr) (offs : list N)
| NAgg (f : agg_func) (i : addr)
| NLow (i : addr) (ix : ixtype) (idx : list N) (vmap : option (list (value * N)))
| NView (i : addr) (w : view)
| NConcat (i : addr) (is : list addr).

(** The memory: the storage at each address. Addresses are given out in order, and a storage
    is made after the ones it holds. A storage that nobody holds any more stays in the
    list; it counts for nothing ([strong] below). *)
Definition heap := list node.
Definition kids (n : node) : list addr :=
  match n with
  | NFlat _ => []
  | NNullable i _ | NArray i _ | NAgg _ i | NLow i _ _ _ | NView i _ => [i]
  | NMap k v _ => [k; v]
  | NConcat i is => i :: is
  end.
Definition kids_at (h : heap) (a : addr) : list addr :=
  match nth_error h a with Some n => kids n | None => [] end.

(** What is held by a storage, at any depth and with itself; the fuel is its address. *)
Fixpoint tree (fuel : nat) (h : heap) (a : addr) : list addr :=
  match fuel with
  | O => [a]
  | S f => a :: flat_map (tree f h) (kids_at h a)
  end.
Definition under (h : heap) (a : addr) : list addr := tree a h a.

(** The number of [Arc]s that point at a storage, which is what [Arc::get_mut] looks at: those
    of the program's columns [roots], and those in storages that are alive, that is, held by
    one of the columns. (The code makes no [Weak].) *)
Definition alive (h : heap) (roots : list addr) : list addr :=
  nodup Nat.eq_dec (flat_map (under h) roots).
Definition occurrences (a : addr) (l : list addr) : nat := count_occ Nat.eq_dec l a.
Definition strong (h : heap) (roots : list addr) (a : addr) : nat :=
  occurrences a roots + list_sum (map (fun b => occurrences a (kids_at h b)) (alive h roots)).

(** The column at an address, as a value; the fuel is one more than the address. *)
Definition read_node (f : addr -> res col) (n : node) : res col :=
  match n with
  | NFlat c => Ok c
  | NNullable i nulls => do c <- f i; Ok (CNullable c nulls)
  | NArray i offs => do c <- f i; Ok (CArray c offs)
  | NMap k v offs => do ck <- f k; do cv <- f v; Ok (CMap ck cv offs)
  | NAgg g i => do c <- f i; Ok (CAgg g c)
  | NLow i ix idx m => do c <- f i; Ok (CLow c ix idx m)
  | NView i w => do c <- f i; Ok (over w c)
  | NConcat i is => do c <- f i; do cs <- mapM f is; Ok (CConcat c cs)
  end.
Fixpoint read_at (fuel : nat) (h : heap) (a : addr) : res col :=
  match fuel with
  | O => Panic PFuel
  | S f => match nth_error h a with Some n => read_node (read_at f h) n | None => Panic PUndefined end
  end.
Definition content (h : heap) (a : addr) : res col := read_at (S a) h a.

(** Storages made anew, with [Arc::new] around each inner one: src/types/column/factory.rs
    118-242 and the [load] and [column_from] of the storages. *)
Definition new_cell (h : heap) (n : node) : heap * addr := (h ++ [n], length h).
Fixpoint build (c : col) (h : heap) : heap * addr :=
  let on (i : col) (mk : addr -> node) := let '(h1, a) := build i h in new_cell h1 (mk a) in
  match c with
  | CNullable i nulls => on i (fun a => NNullable a nulls)
  | CArray i offs => on i (fun a => NArray a offs)
  | CMap k v offs =>
      let '(h1, a) := build k h in let '(h2, b) := build v h1 in new_cell h2 (NMap a b offs)
  | CAgg f i => on i (NAgg f)
  | CLow i ix idx m => on i (fun a => NLow a ix idx m)
  | CChunk i a b => on i (fun x => NView x (WChunk a b))
  | CConcat c0 cs =>
      let '(h1, a) := build c0 h in
      let '(h2, l) := (fix builds (cs : list col) (h : heap) : heap * list addr :=
                         match cs with
                         | [] => (h, [])
                         | x :: xs => let '(h1, a) := build x h in
                                      let '(h2, l) := builds xs h1 in (h2, a :: l)
                         end) cs h1 in
      new_cell h2 (NConcat a l)
  | CFixedAdapter i n => on i (fun x => NView x (WFixed n))
  | CNullFixedAdapter i n => on i (fun x => NView x (WNullFixed n))
  | CStringAdapter i => on i (fun x => NView x WString)
  | CDecimalAdapter i p s nb => on i (fun x => NView x (WDecimal p s nb))
  | CNullDecimalAdapter i p s nb => on i (fun x => NView x (WNullDecimal p s nb))
  | CEnum8Adapter i vals => on i (fun x => NView x (WEnum8 vals))
  | CEnum16Adapter i vals => on i (fun x => NView x (WEnum16 vals))
  | CNullEnum8Adapter i vals => on i (fun x => NView x (WNullEnum8 vals))
  | CNullEnum16Adapter i vals => on i (fun x => NView x (WNullEnum16 vals))
  | CChronoAdapter i dst => on i (fun x => NView x (WChrono dst))
  | _ => new_cell h (NFlat c)
  end.

(** Overwriting a storage in place. *)
Fixpoint put_cell (h : heap) (a : addr) (n : node) : heap :=
  match h, a with
  | [], _ => []
  | _ :: h', O => n :: h'
  | x :: h', S a' => x :: put_cell h' a' n
  end.

(** [Arc::get_mut(&mut self.inner).unwrap()]: nullable.rs 56, array.rs 75, map.rs 81-82,
    simple_agg_func.rs 50, low_cardinality.rs 322-323. *)
Definition owned (h : heap) (roots : list addr) (a : addr) : res unit :=
  if strong h roots a =? 1 then Ok tt else Panic PUnwrap.

(** Several values pushed one after the other, array.rs 77-79 and map.rs 85-88. *)
Fixpoint push_cells (f : heap -> addr -> value -> res heap) (h : heap) (a : addr) (vs : list value)
  : res heap :=
  match vs with
  | [] => Ok h
  | v :: vs' => do h' <- f h a v; push_cells f h' a vs'
  end.
Fixpoint push_pair_cells (f : heap -> addr -> value -> res heap) (h : heap) (k v : addr)
  (kvs : list (value * value)) : res heap :=
  match kvs with
  | [] => Ok h
  | (x, y) :: kvs' => do h1 <- f h k x; do h2 <- f h1 v y; push_pair_cells f h2 k v kvs'
  end.

(** [ColumnData::push] through a [&mut] to the storage at [a], in place: nullable.rs 55-74,
    array.rs 66-83, map.rs 72-92, simple_agg_func.rs 49-52, low_cardinality.rs 310-329; the
    storages that hold no [Arc] are changed as in Columns.v, and pushing to chunks,
    concatenations and adapters is [unimplemented!()]. The order of the changes inside one
    storage does not matter, because a panic ends the run. The fuel is more than the
    address. *)
Fixpoint push_in (fuel : nat) (roots : list addr) (h : heap) (a : addr) (v : value) : res heap :=
  match fuel with
  | O => Panic PFuel
  | S f =>
      match nth_error h a with
      | None => Panic PUndefined
      | Some (NFlat c) => do c' <- push c v; Ok (put_cell h a (NFlat c'))
      | Some (NNullable i nulls) =>
          do _ <- owned h roots i;
          match v with
          | VNull t => do h' <- push_in f roots h i (value_default t);
                       Ok (put_cell h' a (NNullable i (nulls ++ [1%N])))
          | VSome x => do h' <- push_in f roots h i x; Ok (put_cell h' a (NNullable i (nulls ++ [0%N])))
          | _ => do h' <- push_in f roots h i v; Ok (put_cell h' a (NNullable i (nulls ++ [0%N])))
          end
      | Some (NArray i offs) =>
          match v with
          | VArray _ vs =>
              do _ <- owned h roots i;
              do h' <- push_cells (push_in f roots) h i vs;
              Ok (put_cell h' a (NArray i (offs ++ [last offs 0 + lenN vs]%N)))
          | _ => Panic PExplicit
          end
      | Some (NMap ki vi offs) =>
          match v with
          | VMap _ _ kvs =>
              do _ <- owned h roots ki;
              do _ <- owned h roots vi;
              do h' <- push_pair_cells (push_in f roots) h ki vi kvs;
              Ok (put_cell h' a (NMap ki vi (offs ++ [last offs 0 + lenN kvs]%N)))
          | _ => Panic PExplicit
          end
      | Some (NAgg g i) => do _ <- owned h roots i; push_in f roots h i v
      | Some (NLow i ix idx vmap) =>
          do inner <- content h i;
          do m <- match vmap with
                  | Some m => Ok m
                  | None => value_map_loop (at_ inner) idx []
                  end;
          do g <- vmap_get m v;
          match g with
          | Some j => do xi <- ix_push ix idx j; Ok (put_cell h a (NLow i (fst xi) (snd xi) (Some m)))
          | None =>
              do n <- clen inner;
              do _ <- owned h roots i;
              do h' <- push_in f roots h i v;
              do m' <- vmap_insert m v (N.of_nat n);
              do xi <- ix_push ix idx (N.of_nat n);
              Ok (put_cell h' a (NLow i (fst xi) (snd xi) (Some m')))
          end
      | Some (NView _ _) | Some (NConcat _ _) => Panic PUnimplemented
      end
  end.

(** [clone_instance]: the data of the storage are copied, the [Arc]s in it are cloned and
    point where they did: nullable.rs 86-91, array.rs 102-107, map.rs 113-120,
    simple_agg_func.rs 58-63, low_cardinality.rs 336-342 (which forgets the table of known
    values), and numeric.rs 229, string.rs 198, fixed_string.rs 91, date.rs 215,
    datetime64.rs 79, chrono_datetime.rs 108, ip.rs 310, decimal.rs 184, enums.rs 79 and 321.
    chunk.rs 54, concat.rs 65 and the adapters are [unimplemented!()]. *)
Definition clone_node (n : node) : res node :=
  match n with
  | NView _ _ | NConcat _ _ => Panic PUnimplemented
  | NLow i ix idx _ => Ok (NLow i ix idx None)
  | _ => Ok n
  end.

(** src/types/column/mod.rs 464-476: [Column::push] of the column at [a], where the other
    columns of the program are at [others]. When the storage is shared it is copied, and the
    next round of the loop finds the copy unshared. *)
Definition column_push (others : list addr) (h : heap) (a : addr) (v : value) : res (heap * addr) :=
  if strong h (a :: others) a =? 1 then
    do h' <- push_in (S a) (a :: others) h a v; Ok (h', a)
  else
    match nth_error h a with
    | None => Panic PUndefined
    | Some n =>
        do n' <- clone_node n;
        let a' := length h in
        do h' <- push_in (S a') (a' :: others) (h ++ [n']) a' v; Ok (h', a')
    end.

(** src/types/block/mod.rs 77-82 and src/types/column/mod.rs 57-62, with addresses. *)
Definition hcolumn : Type := bytes * addr.
Record hblock := mk_hblock { hb_info : binfo; hb_cols : list hcolumn }.
Definition block_at (h : heap) (b : hblock) : res block :=
  do cs <- mapM (fun x => do c <- content h (snd x); Ok (fst x, c)) (hb_cols b);
  Ok (mk_block (hb_info b) cs).

(** The blocks a program has, each in its variable; [None] for one that was dropped. *)
Record memory := mk_memory { m_heap : heap; m_blocks : list (option hblock) }.
Definition cells (o : option hblock) : list addr :=
  match o with Some b => map snd (hb_cols b) | None => [] end.
Definition set_nth {A} (l : list A) (i : nat) (x : A) : list A := firstn i l ++ x :: skipn (S i) l.
Definition drop_nth {A} (l : list A) (i : nat) : list A := firstn i l ++ skipn (S i) l.

(** The columns of a program other than column [k] of block [i]. *)
Definition others (bs : list (option hblock)) (i k : nat) : list addr :=
  flat_map cells (drop_nth bs i) ++
  match nth_error bs i with Some o => drop_nth (cells o) k | None => [] end.

(** What a program does with blocks:
    - [ONew]: makes one, from vectors, rows, or bytes of the server;
    - [OClone]: clones one, src/types/block/mod.rs 99-107 with src/types/column/mod.rs 106-114;
    - [ODrop]: drops one;
    - [OPut]: puts one field of a row, src/types/block/builder.rs 82-113;
    - [OTake]: adds a clone of a column of one block to another, src/types/column/mod.rs 84-88
      and src/types/block/mod.rs 228-245;
    - [OSlice]: makes the chunk of the rows from [a] to [b], src/types/block/chunk_iterator.rs
      14-37 with src/types/column/mod.rs 220-227;
    - [OConcat]: concatenates some, src/types/block/mod.rs 278-301 with
      src/types/column/mod.rs 117-135. *)
Inductive op :=
| ONew (b : block)
| OClone (i : nat)
| ODrop (i : nat)
| OPut (i : nat) (key : bytes) (v : value)
| OTake (i : nat) (x : colidx) (j : nat) (name : bytes)
| OSlice (i a b : nat)
| OConcat (is : list nat).

(** The block in a variable. That programs use no variable that holds no block is what the
    compiler checks; [PUndefined] stands for one that does. *)
Definition var {A} (bs : list (option A)) (i : nat) : res A :=
  match nth_error bs i with Some (Some b) => Ok b | _ => Panic PUndefined end.

Fixpoint build_columns (cs : list column) (h : heap) : heap * list hcolumn :=
  match cs with
  | [] => (h, [])
  | (n, c) :: cs' =>
      let '(h1, a) := build c h in let '(h2, r) := build_columns cs' h1 in (h2, (n, a) :: r)
  end.

(** builder.rs 112: [block.columns[k].push(value)]. *)
Definition put_at (m : memory) (i : nat) (b : hblock) (k : nat) (v : value) : res memory :=
  do x <- index (hb_cols b) k;
  do ha <- column_push (others (m_blocks m) i k) (m_heap m) (snd x) v;
  Ok (mk_memory (fst ha)
        (set_nth (m_blocks m) i (Some (mk_hblock (hb_info b) (set_nth (hb_cols b) k (fst x, snd ha)))))).

(** builder.rs 82-113: [put_param]. *)
Definition put_field (m : memory) (i : nat) (key : bytes) (v : value) : res memory :=
  do hb <- var (m_blocks m) i;
  do b <- block_at (m_heap m) hb;
  match find_name key (b_cols b) 0 with
  | Some k => put_at m i hb k v
  | None =>
      do n <- row_count b;
      if n <=? 1 then
        do c <- from_type (type_of_value v) (extract_timezone v);
        let '(h1, a) := build c (m_heap m) in
        let hb' := mk_hblock (hb_info hb) (hb_cols hb ++ [(key, a)]) in
        put_at (mk_memory h1 (set_nth (m_blocks m) i (Some hb'))) i hb' (length (hb_cols hb)) v
      else Err EOutOfRange
  end.

(** One storage made over each column: chunk.rs 19-23. *)
Fixpoint slices (cs : list hcolumn) (a b : nat) (h : heap) : heap * list hcolumn :=
  match cs with
  | [] => (h, [])
  | (n, x) :: cs' =>
      let '(h1, y) := new_cell h (NView x (WChunk a b)) in
      let '(h2, r) := slices cs' a b h1 in (h2, (n, y) :: r)
  end.

(** concat.rs 17-38: one storage over the columns at each position. *)
Fixpoint concats (rows : list (bytes * (addr * list addr))) (h : heap) : heap * list hcolumn :=
  match rows with
  | [] => (h, [])
  | (n, (x, xs)) :: rows' =>
      let '(h1, y) := new_cell h (NConcat x xs) in
      let '(h2, r) := concats rows' h1 in (h2, (n, y) :: r)
  end.
Definition column_row (bs : list hblock) (k : nat) : res (bytes * (addr * list addr)) :=
  do xs <- mapM (fun b => index (hb_cols b) k) bs;
  match xs with
  | (n, a) :: r => Ok (n, (a, map snd r))
  | [] => Panic PUnreachable
  end.

(** One step of a program. The checks of lengths, positions and types are those of Block.v
    on what the blocks hold. *)
Definition perform (m : memory) (o : op) : res memory :=
  let h := m_heap m in
  let bs := m_blocks m in
  match o with
  | ONew b =>
      let '(h', cs) := build_columns (b_cols b) h in
      Ok (mk_memory h' (bs ++ [Some (mk_hblock (b_info b) cs)]))
  | OClone i => do b <- var bs i; Ok (mk_memory h (bs ++ [Some b]))
  | ODrop i => do b <- var bs i; Ok (mk_memory h (set_nth bs i None))
  | OPut i key v => put_field m i key v
  | OTake i x j name =>
      do from <- var bs i; do vfrom <- block_at h from;
      do k <- get_index x vfrom; do c <- index (hb_cols from) k;
      do to <- var bs j; do vto <- block_at h to;
      do vc <- content h (snd c);
      do _ <- append_column vto (name, vc);
      Ok (mk_memory h (set_nth bs j (Some (mk_hblock (hb_info to) (hb_cols to ++ [(name, snd c)])))))
  | OSlice i a b =>
      do hb <- var bs i; do vb <- block_at h hb;
      do _ <- slice_columns (b_cols vb) a b block_default;
      let '(h', cs) := slices (hb_cols hb) a b h in
      Ok (mk_memory h' (bs ++ [Some (mk_hblock info_default cs)]))
  | OConcat is =>
      do hbs <- mapM (var bs) is; do vbs <- mapM (block_at h) hbs;
      do vb <- block_concat vbs;
      match hbs with
      | [] => Panic PUnwrap
      | b0 :: _ =>
          do rows <- mapM (column_row hbs) (seq 0 (length (hb_cols b0)));
          let '(h', cs) := concats rows h in
          Ok (mk_memory h' (bs ++ [Some (mk_hblock (hb_info b0) cs)]))
      end
  end.
Fixpoint program (m : memory) (os : list op) : res memory :=
  match os with
  | [] => Ok m
  | o :: os' => do m' <- perform m o; program m' os'
  end.
Definition fresh_memory : memory := mk_memory [] [].
