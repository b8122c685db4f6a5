(** Column storages: src/types/column/*.rs. *)
From Verif Require Import Base Bytes Reader Wire Types Text TypeNames Decimal DateTime Values.

(** src/types/column/low_cardinality.rs 28-34 and 51-56: the width of the index. *)
Inductive ixtype := X8 | X16 | X32 | X64.
Definition ix_scalar (x : ixtype) : scalar :=
  match x with X8 => U8 | X16 => U16 | X32 => U32 | X64 => U64 end.

(** One constructor per implementation of [ColumnData].

    - [CVec]: numeric.rs 137-146, [VectorColumnData<T>]; a Bool column loaded from the wire
      holds the raw bytes, so its elements can be any byte.
    - [CString]: string.rs 23-25; the string pool is the list of its strings, see
      StringPool.v for the pool itself.
    - [CFixed]: fixed_string.rs 20-23, one flat buffer.
    - [CDate], [CDateTime]: date.rs 25-40 for u16 and u32.
    - [CDateTime64]: datetime64.rs 22-25.
    - [CChrono]: chrono_datetime.rs 19-22; each entry is seconds, nanoseconds and zone.
    - [CIp]: ip.rs 262-265, one flat buffer for IPv4, IPv6 or UUID.
    - [CNullable]: nullable.rs 18-21. [CArray]: array.rs 18-21.
    - [CMap]: map.rs 16-21; the field [size] is never read and is left out.
    - [CDecimal]: decimal.rs 22-27; its inner column is a vector of i32 or i64 as
      [nobits] says, and is represented by its elements.
    - [CEnum8], [CEnum16]: enums.rs 264-267 and 22-25, likewise over i8 and i16.
    - [CAgg]: simple_agg_func.rs 16-19. [CLow]: low_cardinality.rs 183-187.
    - [CChunk]: chunk.rs 14-17.
    - [CConcat]: concat.rs 11-14; never empty (lines 24-26), the index is recomputed.
    - The adapters made by casts: fixed_string.rs 25-33, string.rs 27-29, decimal.rs 29-41,
      enums.rs 27-35 and 269-277, chrono_datetime.rs 31-34. *)
Inductive col :=
| CVec (s : scalar) (zs : list Z)
| CString (l : list bytes)
| CFixed (n : N) (buf : bytes)
| CDate (l : list N) (tz : bytes)
| CDateTime (l : list N) (tz : bytes)
| CDateTime64 (l : list Z) (p : N) (tz : bytes)
| CChrono (l : list (Z * N * bytes)) (tz : bytes)
| CIp (k : ip_kind) (buf : bytes)
| CNullable (inner : col) (nulls : bytes)
| CArray (inner : col) (offs : list N)
| CMap (keys values : col) (offs : list N)
| CDecimal (l : list Z) (p s : N) (nb : nobits)
| CEnum8 (vals : list (bytes * Z)) (l : list Z)
| CEnum16 (vals : list (bytes * Z)) (l : list Z)
| CAgg (f : agg_func) (inner : col)
| CLow (inner : col) (ix : ixtype) (idx : list N) (vmap : option (list (value * N)))
| CChunk (inner : col) (a b : nat)
| CConcat (c0 : col) (cs : list col)
| CFixedAdapter (inner : col) (n : N)
| CNullFixedAdapter (inner : col) (n : N)
| CStringAdapter (inner : col)
| CDecimalAdapter (inner : col) (p s : N) (nb : nobits)
| CNullDecimalAdapter (inner : col) (p s : N) (nb : nobits)
| CEnum8Adapter (inner : col) (vals : list (bytes * Z))
| CEnum16Adapter (inner : col) (vals : list (bytes * Z))
| CNullEnum8Adapter (inner : col) (vals : list (bytes * Z))
| CNullEnum16Adapter (inner : col) (vals : list (bytes * Z))
| CChronoAdapter (inner : col) (dst : sqltype).

(** ip.rs 30-112: [IpVersion::sql_type], [size], [get]. *)
Definition ip_type (k : ip_kind) : sqltype :=
  match k with IpV4 => TIpv4 | IpV6 => TIpv6 | IpUuid => TUuid end.
Definition ip_size (k : ip_kind) : nat := match k with IpV4 => 4 | _ => 16 end.
Definition ip_value (k : ip_kind) (b : bytes) : value :=
  match k with IpV4 => VIpv4 b | IpV6 => VIpv6 b | IpUuid => VUuid b end.

(** [ColumnData::sql_type] of each storage: numeric.rs 197, string.rs 171, fixed_string.rs
    64, date.rs 195 with date_converter.rs 27 and 41, datetime64.rs 54, chrono_datetime.rs
    86, ip.rs 286, nullable.rs 39, array.rs 46, map.rs 52, decimal.rs 141, enums.rs 54 and
    296, simple_agg_func.rs 36, low_cardinality.rs 287, chunk.rs 26, concat.rs 43, and
    the adapters at fixed_string.rs 120 and 170, string.rs 224, decimal.rs 211 and 263,
    enums.rs 104, 142, 346 and 384, chrono_datetime.rs 170. *)
Fixpoint ctype (c : col) : sqltype :=
  match c with
  | CVec s _ => TNum s
  | CString _ => TString
  | CFixed n _ => TFixedString n
  | CDate _ _ => TDate
  | CDateTime _ _ => TDateTime DateTime32
  | CDateTime64 _ p tz => TDateTime (DateTime64 p tz)
  | CChrono _ _ => TDateTime DtChrono
  | CIp k _ => ip_type k
  | CNullable i _ => TNullable (ctype i)
  | CArray i _ => TArray (ctype i)
  | CMap k v _ => TMap (ctype k) (ctype v)
  | CDecimal _ p s _ => TDecimal p s
  | CEnum8 vals _ => TEnum8 vals
  | CEnum16 vals _ => TEnum16 vals
  | CAgg f i => TAgg f (ctype i)
  | CLow i _ _ _ => TLowCardinality (ctype i)
  | CChunk i _ _ => ctype i
  | CConcat c0 _ => ctype c0
  | CFixedAdapter _ n => TFixedString n
  | CNullFixedAdapter _ n => TNullable (TFixedString n)
  | CStringAdapter _ => TString
  | CDecimalAdapter _ p s _ => TDecimal p s
  | CNullDecimalAdapter _ p s _ => TNullable (TDecimal p s)
  | CEnum8Adapter _ vals => TEnum8 vals
  | CEnum16Adapter _ vals => TEnum16 vals
  | CNullEnum8Adapter _ vals => TNullable (TEnum8 vals)
  | CNullEnum16Adapter _ vals => TNullable (TEnum16 vals)
  | CChronoAdapter _ dst => dst
  end.

(** [ColumnData::len]. fixed_string.rs 74 divides by the row length, nullable.rs 50-53
    asserts, chunk.rs 38 is [Range::len], concat.rs 51 the sum. *)
Fixpoint clen (c : col) : res nat :=
  match c with
  | CVec _ l => Ok (length l)
  | CString l => Ok (length l)
  | CFixed n buf => if (n =? 0)%N then Panic PArith else Ok (length buf / N.to_nat n)%nat
  | CDate l _ | CDateTime l _ => Ok (length l)
  | CDateTime64 l _ _ => Ok (length l)
  | CChrono l _ => Ok (length l)
  | CIp k buf => Ok (length buf / ip_size k)%nat
  | CNullable i nulls =>
      do n <- clen i; if (length nulls =? n)%nat then Ok n else Panic PAssert
  | CArray _ offs => Ok (length offs)
  | CMap _ _ offs => Ok (length offs)
  | CDecimal l _ _ _ => Ok (length l)
  | CEnum8 _ l | CEnum16 _ l => Ok (length l)
  | CAgg _ i => clen i
  | CLow _ _ idx _ => Ok (length idx)
  | CChunk _ a b => Ok (b - a)%nat
  | CConcat c0 cs =>
      do n <- clen c0;
      do m <- (fix sum (cs : list col) : res nat :=
                 match cs with
                 | [] => Ok O
                 | c :: cs' => do x <- clen c; do y <- sum cs'; Ok (x + y)%nat
                 end) cs;
      Ok (n + m)%nat
  | CFixedAdapter i _ | CNullFixedAdapter i _ | CStringAdapter i
  | CDecimalAdapter i _ _ _ | CNullDecimalAdapter i _ _ _
  | CEnum8Adapter i _ | CEnum16Adapter i _ | CNullEnum8Adapter i _ | CNullEnum16Adapter i _
  | CChronoAdapter i _ => clen i
  end.

(** Indexing and slicing of a [Vec]. *)
Definition index {A} (l : list A) (i : nat) : res A := or_panic PIndex (nth_error l i).
Definition cut {A} (l : list A) (a b : nat) : res (list A) := or_panic PIndex (slice l a b).

(** concat.rs 88-101: [build_index]. *)
Fixpoint build_index (acc : nat) (sizes : list nat) : list nat :=
  match sizes with
  | [] => [acc]
  | n :: l => acc :: build_index (acc + n) l
  end.

(** concat.rs 103-125: [find_chunk]; every round shrinks [hi - lo], which starts at the
    number of pieces. *)
Fixpoint find_chunk_loop (fuel : nat) (ixs : list nat) (ix lo hi : nat) : res nat :=
  match fuel with
  | O => Panic PFuel
  | S fuel' =>
      if (lo <? hi)%nat then
        let mid := (lo + (hi - lo) / 2)%nat in
        do a <- index ixs lo; do b <- index ixs (lo + 1);
        if (a =? b)%nat then find_chunk_loop fuel' ixs ix (lo + 1) hi
        else
          do m <- index ixs mid;
          if (ix <? m)%nat then find_chunk_loop fuel' ixs ix lo mid
          else
            do m' <- index ixs (mid + 1);
            if (m' <=? ix)%nat then find_chunk_loop fuel' ixs ix (mid + 1) hi
            else Ok mid
      else Ok O
  end.
Definition find_chunk (ixs : list nat) (ix : nat) : res nat :=
  find_chunk_loop (S (length ixs)) ixs ix 0 (length ixs - 1).

(** concat.rs 17-39: [ConcatColumnData::concat] with [check_columns]; the empty case is the
    [unreachable!()] of src/types/column/mod.rs 125. Building the index takes the length of every
    piece, which may panic. *)
Definition concat_cols (l : list col) : res col :=
  match l with
  | [] => Panic PUnreachable
  | c0 :: cs =>
      if forallb (fun c => sqltype_eqb (ctype c0) (ctype c)) cs
      then do _ <- mapM clen l; Ok (CConcat c0 cs)
      else Panic PExplicit
  end.

(** [HashMap::insert] into the map [m] by [ValueRef] keys: hashing a key of an unsupported
    variant panics; an existing key keeps its place and gets the new value. *)
Fixpoint vref_put (m : list (value * value)) (k v : value) : res (list (value * value)) :=
  match m with
  | [] => Ok [(k, v)]
  | (k', v') :: m' =>
      do e <- vref_eq k' k;
      if e then Ok ((k', v) :: m') else do r <- vref_put m' k v; Ok ((k', v') :: r)
  end.
Definition vref_insert (m : list (value * value)) (k v : value) : res (list (value * value)) :=
  if value_ref_hashable k then vref_put m k v else Panic PUnimplemented.

(** The bounds of row [i] in a list of offsets: array.rs 88-93, map.rs 98-103. The capacity
    request [end - start] underflows (line 94 and 104) when the offsets decrease. *)
Definition row_bounds (offs : list N) (i : nat) : res (nat * nat) :=
  do s <- match i with O => Ok 0%N | S j => index offs j end;
  do e <- index offs i;
  if (e <? s)%N then Panic PArith else Ok (N.to_nat s, N.to_nat e).

(** [Option::<T>::from_sql(v).unwrap()], from_sql.rs 297-318: the value inside, if any. *)
Definition unwrap_option (v : value) : res (option value) :=
  match v with
  | VNull _ => Ok None
  | VSome x => Ok (Some x)
  | _ => Panic PUnwrap
  end.

(** [ColumnData::at]: numeric.rs 211-234, string.rs 191, fixed_string.rs 86-90, date.rs
    213, datetime64.rs 74, chrono_datetime.rs 103-106, ip.rs 55-59, nullable.rs 76-84, array.rs
    85-100, map.rs 94-111, decimal.rs 170-182, enums.rs 74 and 316, simple_agg_func.rs 54,
    low_cardinality.rs 331-334, chunk.rs 46-52, concat.rs 59-63; adapters: fixed_string.rs
    156 and 198, string.rs 243, decimal.rs 240-249 and 293-305, enums.rs 126-132, 175-184,
    368-374 and 418-427, chrono_datetime.rs 206. A capacity request for more elements than
    the inner column has may panic earlier than the element access does. *)
Fixpoint at_ (c : col) (i : nat) {struct c} : res value :=
  match c with
  | CVec s l => do z <- index l i; Ok (VNum s z)
  | CString l => do b <- index l i; Ok (VString b)
  | CFixed n buf =>
      do b <- cut buf (i * N.to_nat n) (i * N.to_nat n + N.to_nat n); Ok (VString b)
  | CDate l _ => do d <- index l i; Ok (VDate d)
  | CDateTime l tz => do t <- index l i; Ok (VDateTime t tz)
  | CDateTime64 l p tz => do t <- index l i; Ok (VDateTime64 t p tz)
  | CChrono l _ => do t <- index l i; let '(s, _, z) := t in Ok (VDateTime (as_u32 s) z)
  | CIp k buf => do b <- cut buf (i * ip_size k) ((i + 1) * ip_size k); Ok (ip_value k b)
  | CNullable inner nulls =>
      do n <- index nulls i;
      if (n =? 1)%N then Ok (VNull (ctype inner))
      else do v <- at_ inner i; Ok (VSome v)
  | CArray inner offs =>
      do se <- row_bounds offs i;
      do vs <- mapM (at_ inner) (seq (fst se) (snd se - fst se));
      Ok (VArray (ctype inner) vs)
  | CMap ks vs offs =>
      do se <- row_bounds offs i;
      do m <- (fix loop (js : list nat) (m : list (value * value)) : res (list (value * value)) :=
                 match js with
                 | [] => Ok m
                 | j :: js' =>
                     do k <- at_ ks j; do v <- at_ vs j;
                     do m' <- vref_insert m k v; loop js' m'
                 end) (seq (fst se) (snd se - fst se)) [];
      Ok (VMap (ctype ks) (ctype vs) m)
  | CDecimal l p s nb => do z <- index l i; Ok (VDecimal (mk_decimal z nb p s))
  | CEnum8 vals l => do z <- index l i; Ok (VEnum8 vals z)
  | CEnum16 vals l => do z <- index l i; Ok (VEnum16 vals z)
  | CAgg _ inner => at_ inner i
  | CLow inner _ idx _ => do j <- index idx i; at_ inner (N.to_nat j)
  | CChunk inner a b => if (b - a <=? i)%nat then Panic PExplicit else at_ inner (i + a)
  | CConcat c0 cs =>
      do n0 <- clen c0;
      do ns <- mapM clen cs;
      let ixs := build_index 0 (n0 :: ns) in
      do k <- find_chunk ixs i;
      do s <- index ixs k;
      if (i <? s)%nat then Panic PArith
      else match k with
           | O => at_ c0 (i - s)
           | S k' =>
               (fix pick (cs : list col) (k : nat) : res value :=
                  match cs, k with
                  | c :: _, O => at_ c (i - s)
                  | _ :: cs', S k' => pick cs' k'
                  | [], _ => Panic PIndex
                  end) cs k'
           end
  | CFixedAdapter inner _ | CNullFixedAdapter inner _ | CStringAdapter inner => at_ inner i
  | CDecimalAdapter inner p s nb =>
      do v <- at_ inner i;
      match v with
      | VDecimal d => do d' <- set_scale d s; Ok (VDecimal (mk_decimal (d_underlying d') nb p s))
      | _ => Panic PExplicit
      end
  | CNullDecimalAdapter inner p s nb =>
      do v <- at_ inner i;
      do o <- unwrap_option v;
      match o with
      | None => Ok (VNull (TNullable (TDecimal p s)))
      | Some (VDecimal d) =>
          do d' <- set_scale d s; Ok (VSome (VDecimal (mk_decimal (d_underlying d') nb p s)))
      | Some _ => Panic PUnwrap
      end
  | CEnum8Adapter inner _ =>
      do v <- at_ inner i; match v with VEnum8 vals z => Ok (VEnum8 vals z) | _ => Panic PExplicit end
  | CEnum16Adapter inner _ =>
      do v <- at_ inner i; match v with VEnum16 vals z => Ok (VEnum16 vals z) | _ => Panic PExplicit end
  | CNullEnum8Adapter inner vals =>
      do v <- at_ inner i;
      do o <- unwrap_option v;
      match o with
      | None => Ok (VNull (TNullable (TEnum8 vals)))
      | Some (VEnum8 _ z) => Ok (VSome (VEnum8 vals z))
      | Some _ => Panic PUnwrap
      end
  | CNullEnum16Adapter inner vals =>
      do v <- at_ inner i;
      do o <- unwrap_option v;
      match o with
      | None => Ok (VNull (TNullable (TEnum16 vals)))
      | Some (VEnum16 _ z) => Ok (VSome (VEnum16 vals z))
      | Some _ => Panic PUnwrap
      end
  | CChronoAdapter _ _ => Panic PUnimplemented
  end.

(** The memory image of a vector of scalars ([List::as_ref], list.rs 75-84). *)
Definition image (s : scalar) (l : list Z) : bytes := concat (map (marshal s) l).

(** [Vec::resize(n, 0)] of a byte string. *)
Definition resize (n : nat) (b : bytes) : bytes := firstn n b ++ repeat 0%N (n - length b).

(** low_cardinality.rs 59-75: [get_flags]. *)
Definition ix_tag (x : ixtype) : N := match x with X8 => 0 | X16 => 1 | X32 => 2 | X64 => 3 end.
Definition ix_flags (x : ixtype) : N := N.lor (N.lor (ix_tag x) 512) 1024.

Definition put_u64 (n : N) : bytes := marshal U64 (Z.of_N n).

(** array.rs 54-57, map.rs 59-62: the offsets of rows start..end as they are, and the last
    of them. *)
Definition save_offsets (offs : list N) (a b : nat) : res (bytes * N) :=
  do l <- mapM (index offs) (seq a (b - a));
  Ok (concat (map put_u64 l), last l 0%N).

(** The cells start..end of a column whose cells are read by [f]. *)
Definition rows (f : nat -> res value) (a b : nat) : res (list value) := mapM f (seq a (b - a)).

(** util.rs 6-28 [extract_nulls_and_values] and enums.rs 147-158, 389-400: null marks and
    optional contents of cells start..end; [end - start] underflows. *)
Definition null_mark (o : option value) : N := match o with None => 1 | Some _ => 0 end.
Definition extract (f : nat -> res value) (a b : nat) : res (list (option value)) :=
  if (b <? a)%nat then Panic PArith
  else do vs <- rows f a b; mapM unwrap_option vs.

(** [u8::from(ValueRef)]. *)
Definition value_byte (v : value) : res N :=
  match v with VNum U8 z => Ok (Z.to_N z) | _ => Panic PExplicit end.

(** fixed_string.rs 128-142: one cell of a string (or byte array) column. *)
Definition fixed_cell (v : value) : res bytes :=
  match v with
  | VString b => Ok b
  | VArray (TNum U8) vs => mapM value_byte vs
  | _ => Panic PUnimplemented
  end.

(** string.rs 229-231: [Vec::<u8>::from_sql(..).unwrap()], from_sql.rs 228-242. *)
Definition string_cell (v : value) : res bytes :=
  match v with
  | VArray (TNum U8) vs => mapM value_byte vs
  | VString b => Ok b
  | _ => Panic PUnwrap
  end.

Definition nb_scalar (nb : nobits) : scalar := match nb with N32 => I32 | N64 => I64 end.

(** decimal.rs 215-231 and 267-283, enums.rs 108-116 and 350-358: writing one cell. *)
Definition decimal_cell (nb : nobits) (v : value) : res bytes :=
  match v with
  | VDecimal d => Ok (marshal (nb_scalar nb) (internal nb d))
  | _ => Panic PExplicit
  end.
Definition decimal_opt_cell (nb : nobits) (o : option value) : res bytes :=
  match o with
  | Some (VDecimal d) => Ok (marshal (nb_scalar nb) (internal nb d))
  | Some _ => Panic PUnwrap
  | None => Ok (marshal (nb_scalar nb) 0)
  end.
Definition enum_cell (s : scalar) (v : value) : res bytes :=
  match s, v with
  | I8, VEnum8 _ z => Ok (marshal I8 z)
  | I16, VEnum16 _ z => Ok (marshal I16 z)
  | _, _ => Panic PExplicit
  end.
Definition enum_opt_cell (s : scalar) (o : option value) : res bytes :=
  match s, o with
  | I8, Some (VEnum8 _ z) => Ok (marshal I8 z)
  | I16, Some (VEnum16 _ z) => Ok (marshal I16 z)
  | _, Some _ => Panic PUnwrap
  | _, None => Ok (marshal s 0)
  end.
Definition fixed_opt_cell (n : nat) (o : option value) : res bytes :=
  match o with
  | Some (VString b) => Ok (resize n b)
  | Some _ => Panic PUnwrap
  | None => Ok (resize n [])
  end.

(** chrono_datetime.rs 182-193: one date as DateTime64 or DateTime. *)
Definition chrono_cell (dst : sqltype) (t : Z * N * bytes) : res bytes :=
  let '(s, n, _) := t in
  match dst with
  | TDateTime (DateTime64 p _) => do v <- from_datetime s n p; Ok (marshal I64 v)
  | TDateTime DateTime32 => Ok (marshal U32 (Z.of_N (as_u32 s)))
  | _ => Panic PUnimplemented
  end.

(** [ColumnData::save] of rows start..end: numeric.rs 201 with 252-256, string.rs 175-180,
    fixed_string.rs 68-72, date.rs 199, datetime64.rs 59, chrono_datetime.rs 90, ip.rs 290-296,
    nullable.rs 44-48, array.rs 51-60, map.rs 56-66, decimal.rs 145, enums.rs 58 and 300,
    simple_agg_func.rs 41, low_cardinality.rs 291-304, chunk.rs 30-36, concat.rs 47; adapters:
    fixed_string.rs 124-146 and 174-188, string.rs 228-233, decimal.rs 215-231 and 267-283,
    enums.rs 108-116, 146-166, 350-358 and 388-409, chrono_datetime.rs 174-194. The
    bounds written with [start..end] loops do nothing when start >= end; those computing
    [end - start] on usize underflow. *)
Fixpoint save (c : col) (a b : nat) {struct c} : res bytes :=
  match c with
  | CVec s l => do x <- cut l a b; Ok (image s x)
  | CString l =>
      if (b <? a)%nat then Panic PArith
      else do parts <- mapM enc_string (firstn (b - a) (skipn a l)); Ok (concat parts)
  | CFixed n buf => cut buf (a * N.to_nat n) (b * N.to_nat n)
  | CDate l _ => do x <- cut l a b; Ok (image U16 (map Z.of_N x))
  | CDateTime l _ => do x <- cut l a b; Ok (image U32 (map Z.of_N x))
  | CDateTime64 _ _ _ => Panic PUnimplemented
  | CChrono _ _ => Panic PUnimplemented
  | CIp k buf => cut buf (a * ip_size k) (b * ip_size k)
  | CNullable inner nulls => do n <- cut nulls a b; do x <- save inner a b; Ok (n ++ x)
  | CArray inner offs =>
      do ol <- save_offsets offs a b;
      do x <- save inner 0 (N.to_nat (snd ol)); Ok (fst ol ++ x)
  | CMap ks vs offs =>
      do ol <- save_offsets offs a b;
      do x <- save ks 0 (N.to_nat (snd ol));
      do y <- save vs 0 (N.to_nat (snd ol)); Ok (fst ol ++ x ++ y)
  | CDecimal l _ _ nb => do x <- cut l a b; Ok (image (nb_scalar nb) x)
  | CEnum8 _ l => do x <- cut l a b; Ok (image I8 x)
  | CEnum16 _ l => do x <- cut l a b; Ok (image I16 x)
  | CAgg _ inner => save inner a b
  | CLow inner ix idx _ =>
      if (a =? b)%nat then Ok []
      else do n <- clen inner;
           do x <- save inner 0 n;
           if (b <? a)%nat then Panic PArith
           else do y <- cut idx a b;
                Ok (put_u64 1 ++ put_u64 (ix_flags ix) ++ put_u64 (N.of_nat n) ++ x
                      ++ put_u64 (N.of_nat (b - a)) ++ image (ix_scalar ix) (map Z.of_N y))
  | CChunk inner s e => save inner (s + a) (Nat.min e (s + b))
  | CConcat _ _ => Panic PUnimplemented
  | CFixedAdapter inner n =>
      do vs <- rows (at_ inner) a b;
      do bs <- mapM fixed_cell vs;
      Ok (concat (map (resize (N.to_nat n)) bs))
  | CNullFixedAdapter inner n =>
      do os <- extract (at_ inner) a b;
      do xs <- mapM (fixed_opt_cell (N.to_nat n)) os;
      Ok (map null_mark os ++ concat xs)
  | CStringAdapter inner =>
      do vs <- rows (at_ inner) a b;
      do bs <- mapM string_cell vs;
      do xs <- mapM enc_string bs; Ok (concat xs)
  | CDecimalAdapter _ _ _ nb =>
      do vs <- rows (at_ c) a b; do xs <- mapM (decimal_cell nb) vs; Ok (concat xs)
  | CNullDecimalAdapter _ _ _ nb =>
      do os <- extract (at_ c) a b;
      do xs <- mapM (decimal_opt_cell nb) os; Ok (map null_mark os ++ concat xs)
  | CEnum8Adapter _ _ =>
      do vs <- rows (at_ c) a b; do xs <- mapM (enum_cell I8) vs; Ok (concat xs)
  | CEnum16Adapter _ _ =>
      do vs <- rows (at_ c) a b; do xs <- mapM (enum_cell I16) vs; Ok (concat xs)
  | CNullEnum8Adapter _ _ =>
      do os <- extract (at_ c) a b;
      do xs <- mapM (enum_opt_cell I8) os; Ok (map null_mark os ++ concat xs)
  | CNullEnum16Adapter _ _ =>
      do os <- extract (at_ c) a b;
      do xs <- mapM (enum_opt_cell I16) os; Ok (map null_mark os ++ concat xs)
  | CChronoAdapter inner dst =>
      if sqltype_eqb (ctype inner) (TDateTime DtChrono) then
        match inner with
        | CChrono l _ => do x <- cut l a b; do xs <- mapM (chrono_cell dst) x; Ok (concat xs)
        | _ => Panic PUnwrap
        end
      else Panic PExplicit
  end.

(** [HashMap<Value, usize>] of low_cardinality.rs. Lookup in an empty map does not hash the
    key; inserting always does. Keys whose hash input differs are taken never to be compared,
    which matters only for DateTime64, whose comparison can panic: src/types/value.rs 77 hashes
    the ticks and the precision. (std's table compares keys when seven bits of their hashes
    agree, so that it may panic where the model does not.) *)
Definition key_eq (a b : value) : res bool :=
  match a, b with
  | VDateTime64 x p _, VDateTime64 y q _ =>
      if (x =? y)%Z && (p =? q)%N then value_eq a b else Ok false
  | _, _ => value_eq a b
  end.
Fixpoint vmap_find (m : list (value * N)) (k : value) : res (option N) :=
  match m with
  | [] => Ok None
  | (k', n) :: m' => do e <- key_eq k' k; if e then Ok (Some n) else vmap_find m' k
  end.
Definition vmap_get (m : list (value * N)) (k : value) : res (option N) :=
  match m with
  | [] => Ok None
  | _ => if value_hashable k then vmap_find m k else Panic PUnimplemented
  end.
Fixpoint vmap_put (m : list (value * N)) (k : value) (n : N) : res (list (value * N)) :=
  match m with
  | [] => Ok [(k, n)]
  | (k', n') :: m' =>
      do e <- key_eq k' k;
      if e then Ok ((k', n) :: m') else do r <- vmap_put m' k n; Ok ((k', n') :: r)
  end.
Definition vmap_insert (m : list (value * N)) (k : value) (n : N) : res (list (value * N)) :=
  if value_hashable k then vmap_put m k n else Panic PUnimplemented.

(** low_cardinality.rs 275-283: [get_value_map]. *)
Fixpoint value_map_loop (f : nat -> res value) (idx : list N) (m : list (value * N))
  : res (list (value * N)) :=
  match idx with
  | [] => Ok m
  | j :: idx' => do v <- f (N.to_nat j); do m' <- vmap_insert m v j; value_map_loop f idx' m'
  end.

(** low_cardinality.rs 116-143: [max_len], [inc_max_len]; 145-155: [push], which casts the
    value to the width of the index. *)
Definition ix_max (x : ixtype) : N :=
  match x with X8 => 2 ^ 8 - 1 | X16 => 2 ^ 16 - 1 | X32 => 2 ^ 32 - 1 | X64 => 2 ^ 64 - 1 end.
Definition ix_wider (x : ixtype) : res ixtype :=
  match x with X8 => Ok X16 | X16 => Ok X32 | X32 => Ok X64 | X64 => Panic PUnreachable end.
Definition ix_push (x : ixtype) (idx : list N) (v : N) : res (ixtype * list N) :=
  do x' <- (if (ix_max x <? lenN idx + 1)%N then ix_wider x else Ok x);
  Ok (x', idx ++ [v mod (ix_max x' + 1)]%N).

(** Pushing several values one after the other. *)
Fixpoint push_each (f : col -> value -> res col) (c : col) (vs : list value) : res col :=
  match vs with
  | [] => Ok c
  | v :: vs' => do c' <- f c v; push_each f c' vs'
  end.

(** map.rs 84-88: keys and values pushed in turn, in the iteration order of the map. *)
Fixpoint push_pairs (f g : col -> value -> res col) (ks vs : col) (kvs : list (value * value))
  : res (col * col) :=
  match kvs with
  | [] => Ok (ks, vs)
  | (k, v) :: kvs' => do ks' <- f ks k; do vs' <- g vs v; push_pairs f g ks' vs' kvs'
  end.

(** [ColumnData::push]: numeric.rs 209, string.rs 186-190, fixed_string.rs 78-84, date.rs 209
    with date_converter.rs 23 and 37, datetime64.rs 67-72, chrono_datetime.rs 98-101, ip.rs
    46-52, 75-81, 104-110, nullable.rs 55-74, array.rs 66-83, map.rs 72-92, decimal.rs
    153-168, enums.rs 66 and 308, simple_agg_func.rs 49, low_cardinality.rs 310-329; the
    others are [unimplemented!()]. The inner columns are assumed not to be shared.

    The first argument is a column of the same build as the second; it drives the
    recursion, because an array pushes many times into its changing inner column. Pushing
    never changes the build, so the two never differ ([PFuel] is not reached). *)
Fixpoint push_as (shape c : col) (v : value) {struct shape} : res col :=
  match c with
  | CVec s l => do z <- value_num s v; Ok (CVec s (l ++ [z]))
  | CString l => do b <- value_bytes v; Ok (CString (l ++ [b]))
  | CFixed n buf =>
      do b <- value_bytes v;
      let l := Nat.min (length b) (N.to_nat n) in
      Ok (CFixed n (resize (length buf + N.to_nat n) (buf ++ firstn l b)))
  | CDate l tz => do d <- value_date v; Ok (CDate (l ++ [get_days d]) tz)
  | CDateTime l tz =>
      do t <- value_datetime v; let '(s, _, _) := t in Ok (CDateTime (l ++ [as_u32 s]) tz)
  | CDateTime64 l p tz =>
      do t <- value_datetime v; let '(s, n, _) := t in
      do x <- from_datetime s n p; Ok (CDateTime64 (l ++ [x]) p tz)
  | CChrono l tz => do t <- value_datetime v; Ok (CChrono (l ++ [t]) tz)
  | CIp k buf =>
      match k, v with
      | IpV4, VIpv4 b | IpV6, VIpv6 b | IpUuid, VUuid b => Ok (CIp k (buf ++ b))
      | _, _ => Panic PExplicit
      end
  | CNullable inner nulls =>
      match shape with
      | CNullable si _ =>
          match v with
          | VNull t => do i <- push_as si inner (value_default t); Ok (CNullable i (nulls ++ [1%N]))
          | VSome x => do i <- push_as si inner x; Ok (CNullable i (nulls ++ [0%N]))
          | _ => do i <- push_as si inner v; Ok (CNullable i (nulls ++ [0%N]))
          end
      | _ => Panic PFuel
      end
  | CArray inner offs =>
      match v with
      | VArray _ vs =>
          match shape with
          | CArray si _ =>
              do i <- push_each (push_as si) inner vs;
              Ok (CArray i (offs ++ [last offs 0 + lenN vs]%N))
          | _ => Panic PFuel
          end
      | _ => Panic PExplicit
      end
  | CMap ks vs offs =>
      match v with
      | VMap _ _ kvs =>
          match shape with
          | CMap sk sv _ =>
              do kv <- push_pairs (push_as sk) (push_as sv) ks vs kvs;
              Ok (CMap (fst kv) (snd kv) (offs ++ [last offs 0 + lenN kvs]%N))
          | _ => Panic PFuel
          end
      | _ => Panic PExplicit
      end
  | CDecimal l p s nb =>
      match v with
      | VDecimal d => Ok (CDecimal (l ++ [internal nb d]) p s nb)
      | _ => Panic PExplicit
      end
  | CEnum8 vals l =>
      match v with VEnum8 _ z => Ok (CEnum8 vals (l ++ [z])) | _ => Panic PExplicit end
  | CEnum16 vals l =>
      match v with VEnum16 _ z => Ok (CEnum16 vals (l ++ [z])) | _ => Panic PExplicit end
  | CAgg f inner =>
      match shape with
      | CAgg _ si => do i <- push_as si inner v; Ok (CAgg f i)
      | _ => Panic PFuel
      end
  | CLow inner ix idx vmap =>
      match shape with
      | CLow si _ _ _ =>
          do m <- match vmap with
                  | Some m => Ok m
                  | None => value_map_loop (at_ inner) idx []
                  end;
          do g <- vmap_get m v;
          match g with
          | Some j => do xi <- ix_push ix idx j; Ok (CLow inner (fst xi) (snd xi) (Some m))
          | None =>
              do n <- clen inner;
              do i <- push_as si inner v;
              do m' <- vmap_insert m v (N.of_nat n);
              do xi <- ix_push ix idx (N.of_nat n);
              Ok (CLow i (fst xi) (snd xi) (Some m'))
          end
      | _ => Panic PFuel
      end
  | _ => Panic PUnimplemented
  end.
Definition push (c : col) (v : value) : res col := push_as c c v.

(** src/types/column/mod.rs 464-476: [Column::push] on a column that is shared (its block
    was cloned): the outer storage is copied by [clone_instance], but its inner columns stay
    shared, and [Arc::get_mut(..).unwrap()] on them panics (nullable.rs 56, array.rs 75,
    map.rs 81-82, simple_agg_func.rs 50, low_cardinality.rs 322-324 unless the value is
    already in the dictionary). [clone_instance] of chunk, concat and the adapters is
    [unimplemented!()]. *)
Definition push_shared (c : col) (v : value) : res col :=
  match c with
  | CNullable _ _ | CAgg _ _ => Panic PUnwrap
  | CArray _ _ => match v with VArray _ _ => Panic PUnwrap | _ => Panic PExplicit end
  | CMap _ _ _ => match v with VMap _ _ _ => Panic PUnwrap | _ => Panic PExplicit end
  | CLow inner ix idx _ =>
      do m <- value_map_loop (at_ inner) idx [];
      do g <- vmap_get m v;
      match g with
      | Some j => do xi <- ix_push ix idx j; Ok (CLow inner (fst xi) (snd xi) (Some m))
      | None => do _ <- clen inner; Panic PUnwrap
      end
  | _ => push c v
  end.

(** src/types/column/factory.rs 118-242: [from_type]; the capacity only reserves memory. *)
Fixpoint from_type (t : sqltype) (tz : bytes) : res col :=
  match t with
  | TNum s => Ok (CVec s [])
  | TString => Ok (CString [])
  | TFixedString n => Ok (CFixed n [])
  | TIpv4 => Ok (CIp IpV4 [])
  | TIpv6 => Ok (CIp IpV6 [])
  | TUuid => Ok (CIp IpUuid [])
  | TDate => Ok (CDate [] tz)
  | TDateTime (DateTime64 p z) => Ok (CDateTime64 [] p z)
  | TDateTime _ => Ok (CChrono [] tz)
  | TNullable i => do c <- from_type i tz; Ok (CNullable c [])
  | TArray i => do c <- from_type i tz; Ok (CArray c [])
  | TAgg f i => do c <- from_type i tz; Ok (CAgg f c)
  | TDecimal p s => do nb <- or_panic PUnwrap (from_precision p); Ok (CDecimal [] p s nb)
  | TEnum8 vals => Ok (CEnum8 vals [])
  | TEnum16 vals => Ok (CEnum16 vals [])
  | TMap k v => do ck <- from_type k tz; do cv <- from_type v tz; Ok (CMap ck cv [])
  | TLowCardinality i => do c <- from_type i tz; Ok (CLow c X8 [] None)
  end.

(** [get_timezone] of each storage. *)
Fixpoint ctimezone (c : col) : option bytes :=
  match c with
  | CDate _ tz | CDateTime _ tz | CChrono _ tz => Some tz
  | CDateTime64 _ _ tz => Some tz
  | CNullable i _ | CArray i _ | CAgg _ i | CLow i _ _ _ | CChunk i _ _ => ctimezone i
  | CMap _ v _ => ctimezone v
  | CConcat c0 _ => ctimezone c0
  | CNullDecimalAdapter i _ _ _ | CEnum8Adapter i _ | CEnum16Adapter i _
  | CNullEnum8Adapter i _ | CNullEnum16Adapter i _ | CChronoAdapter i _ => ctimezone i
  | _ => None
  end.

(** Splitting a buffer of [n] rows of [w] bytes. *)
Fixpoint chunks (w n : nat) (l : bytes) : list bytes :=
  match n with
  | O => []
  | S n' => firstn w l :: chunks w n' (skipn w l)
  end.

(** One element of a [List<T>] filled by reading raw bytes into it (list.rs 86-96,
    numeric.rs 163-170): the native little-endian value; for bool whatever the byte is. *)
Definition raw_scalar (s : scalar) (l : bytes) : Z :=
  match s with SBool => Z.of_N (hd 0%N l) | _ => unmarshal s l end.

(** numeric.rs 163-170, date.rs 61-72, datetime64.rs 28-43: allocate [size] elements and read
    them in one go. *)
Definition read_vec (s : scalar) (size : N) : P (list Z) :=
  let bytes := (size * N.of_nat (width s))%N in
  let! _ := alloc bytes in
  Get bytes (fun l => Ret (map (raw_scalar s) (chunks (width s) (N.to_nat size) l))).

(** usize multiplication with an overflow check. *)
Definition mul_usize (a b : N) : P N :=
  if (a * b <? 2 ^ 64)%N then Ret (a * b)%N else Crash PArith.

(** string.rs 38-46 and read_ex.rs 100-105 with string_pool.rs 54-104. The pool asks for 24
    bytes per expected string, and for a chunk of max(80 * size, len) bytes when a string
    does not fit in the current one; a request that once succeeded succeeds again, so both
    checks are made for every string. *)
Definition read_strings (size : N) : P (list bytes) :=
  let! _ := alloc (24 * size) in
  prepeatN size
    (let! n := read_uvarint in
     let! m := mul_usize size 80 in
     let! _ := alloc (N.max m n) in
     Get n (fun l => Ret l)).

(** low_cardinality.rs 37-47: [from_flags]. *)
Definition ix_of_flags (flags : N) : option ixtype :=
  match N.land flags 255 with
  | 0%N => Some X8 | 1%N => Some X16 | 2%N => Some X32 | 3%N => Some X64
  | _ => None
  end.

Definition read_u64 : P N := let! z := read_scalar U64 in Ret (Z.to_N z).

Section Load.
(** [Tz::from_str] of chrono-tz: whether a name is known. *)
Variable tz_known : bytes -> bool.

(** factory.rs 542-547: [get_timezone]; a parse error becomes [Error::Other]. *)
Definition get_timezone (o : option bytes) (tz : bytes) : P bytes :=
  match o with
  | None => Ret tz
  | Some t => if tz_known t then Ret t else Fail EOther
  end.

(** low_cardinality.rs 189-201 and 220-272: [read_inner], with the loader of the inner
    column as argument. *)
Definition load_low (load : N -> P col) (size : N) : P col :=
  if (size =? 0)%N then
    let! inner := load 0%N in
    let! idx := read_vec U8 0 in
    Ret (CLow inner X8 (map Z.to_N idx) None)
  else
    let! version := read_u64 in
    if negb (version =? 1)%N then Fail EOther else
    let! flags := read_u64 in
    match ix_of_flags flags with
    | None => Fail EOther
    | Some ix =>
        if negb (N.land flags 256 =? 0)%N then Fail EOther
        else if (N.land flags 512 =? 0)%N then Fail EOther
        else
          let! count := read_u64 in
          let! inner := load count in
          let! keys := read_u64 in
          let! idx := read_vec (ix_scalar ix) keys in
          if (flags =? ix_flags ix)%N then Ret (CLow inner ix (map Z.to_N idx) None)
          else Crash PAssert
    end.

(** array.rs 30-38, map.rs 30-38: the offsets, and the last one as the size of what
    follows. *)
Definition read_offsets (size : N) : P (list N * N) :=
  let! l := read_vec U64 size in
  let offs := map Z.to_N l in
  Ret (offs, last offs 0%N).

(** src/types/column/factory.rs 57-116: [load_data]; 24-35 of nullable.rs, 34-54 of
    fixed_string.rs, 24-42 of array.rs, 24-48 of map.rs, 44-65 of decimal.rs, 38-52 and
    279-293 of enums.rs, 22-32 of simple_agg_func.rs, 271-279 of ip.rs. A type name is
    longer than the names nested in it, so its length is fuel enough. *)
Fixpoint load_data (fuel : nat) (name : bytes) (size : N) (tz : bytes) : P col :=
  match fuel with
  | O => Crash PFuel
  | S fuel' =>
      let! o := lift (classify name) in
      match o with
      | None => Fail EOther
      | Some k =>
          match k with
          | KNum s => let! l := read_vec s size in Ret (CVec s l)
          | KString => let! l := read_strings size in Ret (CString l)
          | KDate => let! l := read_vec U16 size in Ret (CDate (map Z.to_N l) tz)
          | KIp ik =>
              let! n := mul_usize size (N.of_nat (ip_size ik)) in
              let! _ := alloc n in
              Get n (fun l => Ret (CIp ik l))
          | KNullable i =>
              let! _ := alloc size in
              Get size (fun nulls =>
                let! inner := load_data fuel' i size tz in
                Ret (CNullable inner nulls))
          | KFixed n =>
              let! m := mul_usize size n in
              let! _ := alloc m in
              let! rows := prepeatN size (Get n (fun l => Ret l)) in
              Ret (CFixed n (concat rows))
          | KArray i =>
              let! ol := read_offsets size in
              let! inner := load_data fuel' i (snd ol) tz in
              Ret (CArray inner (fst ol))
          | KMap kn vn =>
              let! ol := read_offsets size in
              let! ks := load_data fuel' kn (snd ol) tz in
              let! vs := load_data fuel' vn (snd ol) tz in
              Ret (CMap ks vs (fst ol))
          | KDecimal p s nb =>
              let! l := read_vec (nb_scalar nb) size in Ret (CDecimal l p s nb)
          | KEnum8 vals => let! l := read_vec I8 size in Ret (CEnum8 vals l)
          | KEnum16 vals => let! l := read_vec I16 size in Ret (CEnum16 vals l)
          | KDateTime o =>
              let! z := get_timezone o tz in
              let! l := read_vec U32 size in Ret (CDateTime (map Z.to_N l) z)
          | KDateTime64 p o =>
              let! z := get_timezone o tz in
              let! l := read_vec I64 size in Ret (CDateTime64 l p z)
          | KAgg f i => let! inner := load_data fuel' i size tz in Ret (CAgg f inner)
          | KLow i => load_low (fun n => load_data fuel' i n tz) size
          end
      end
  end.
Definition load_column (name : bytes) (size : N) (tz : bytes) : P col :=
  load_data (S (List.length name)) name size tz.
End Load.
