(** Writing Rust values: src/types/value.rs (to and from [Value]) and the [ColumnFrom]
    implementations of src/types/column. *)
From Verif Require Import Base Bytes Utf8 Types Decimal DateTime Values TypeNames Columns Block FromSql.

(** src/types/mod.rs 188-232: the Rust types that implement [HasSqlType]: the numbers and
    [bool], [&str] and [String] ([HText]), [NaiveDate], [DateTime<Tz>], [HashMap<K, V>]; and
    [get_sql_type]. *)
Inductive htype := HNum (s : scalar) | HText | HDate | HTime | HMap (k v : htype).
Fixpoint sql_type_of (h : htype) : sqltype :=
  match h with
  | HNum s => TNum s
  | HText => TString
  | HDate => TDate
  | HTime => TDateTime DateTime32
  | HMap k v => TMap (sql_type_of k) (sql_type_of v)
  end.

(** The Rust types [T] with [Value: From<T>], src/types/value.rs 322-510: those above, [Decimal],
    [Enum8], [Enum16], [DateTime<Utc>], [&[u8]] and [Vec<u8>] ([WBytes]), [Vec<String>],
    [Vec<number>], [Uuid], [[u8; 4]], [[u8; 16]] and [Option<T>] of those above. There is no
    [Vec<bool>], and [Vec<u8>] is a byte string. *)
Inductive wtype :=
| WHas (h : htype)
| WDecimal
| WEnum8
| WEnum16
| WUtc
| WBytes
| WStrings
| WNums (s : scalar)
| WUuid
| WOctets4
| WOctets16
| WOption (h : htype).

(** [HashMap<Value, Value>::insert]: the key is hashed first (src/types/value.rs 61-81), then
    compared to keys of the same hash (83-149). An existing key keeps its place and gets the
    new value. The order of the entries of a [HashMap] is arbitrary; here a new entry comes last. *)
Fixpoint value_put (m : list (value * value)) (k v : value) : res (list (value * value)) :=
  match m with
  | [] => Ok [(k, v)]
  | (k', v') :: m' =>
      do e <- value_eq k' k;
      if e then Ok ((k', v) :: m') else do r <- value_put m' k v; Ok ((k', v') :: r)
  end.
Definition value_insert (m : list (value * value)) (k v : value) : res (list (value * value)) :=
  if value_hashable k then value_put m k v else Panic PUnimplemented.

(** src/types/value.rs 362-366, 380-384, 392-396, 432-470, 510-515: [Value::from] for the types
    with [HasSqlType]. A value of another type cannot be passed; the last line stands for that. *)
Fixpoint has_value (h : htype) (x : rval) {struct h} : res value :=
  match h, x with
  | HNum _, XNum s z => Ok (VNum s z)
  | HText, XText b => Ok (VString b)
  | HDate, XDate d => Ok (VDate (get_days d))
  | HTime, XTime s n tz => Ok (VChrono s n tz)
  | HMap hk hv, XMap kvs =>
      do m <- (fix loop (kvs : list (rval * rval)) (m : list (value * value))
                 : res (list (value * value)) :=
                 match kvs with
                 | [] => Ok m
                 | (k, v) :: kvs' =>
                     do k' <- has_value hk k; do v' <- has_value hv v;
                     do m' <- value_insert m k' v'; loop kvs' m'
                 end) kvs [];
      Ok (VMap (sql_type_of hk) (sql_type_of hv) m)
  | _, _ => Panic PUnreachable
  end.

(** src/types/value.rs 384-390: the zone named UTC. *)
Definition utc : bytes := [85; 84; 67]%N.

(** src/types/value.rs 322-515: [Value::from] for all of them. *)
Definition into_value (w : wtype) (x : rval) : res value :=
  match w, x with
  | WHas h, _ => has_value h x
  | WDecimal, XDecimal d => Ok (VDecimal d)
  | WEnum8, XEnum8 z => Ok (VEnum8 [] z)
  | WEnum16, XEnum16 z => Ok (VEnum16 [] z)
  | WUtc, XTime s _ _ => Ok (VDateTime (as_u32 s) utc)
  | WBytes, XBytes b => Ok (VString b)
  | WStrings, XVec xs => do vs <- mapM (has_value HText) xs; Ok (VArray TString vs)
  | WNums s, XVec xs => do vs <- mapM (has_value (HNum s)) xs; Ok (VArray (TNum s) vs)
  | WUuid, XUuid b => Ok (VUuid (flip_halves b))
  | WOctets4, XBytes b => Ok (VIpv4 b)
  | WOctets16, XBytes b => Ok (VIpv6 b)
  | WOption h, XOption None => Ok (VNull (sql_type_of h))
  | WOption h, XOption (Some y) => do v <- has_value h y; Ok (VSome v)
  | _, _ => Panic PUnreachable
  end.

(** src/types/value.rs 517-610: [T::from(value)] for the types that have it: the numbers and
    [bool], [String], [Vec<u8>], [NaiveDate], [DateTime<Tz>] and [[u8; 4]]. The last line
    stands for the types that do not. *)
Definition value_as (w : wtype) (v : value) : res rval :=
  match w with
  | WHas (HNum s) => do z <- value_num s v; Ok (XNum s z)
  | WHas HText =>
      match v with
      | VString b => if utf8_valid b then Ok (XText b) else Panic PExplicit
      | _ => Panic PExplicit
      end
  | WHas HDate => do d <- value_date v; Ok (XDate d)
  | WHas HTime => do t <- value_datetime v; let '(s, n, tz) := t in Ok (XTime s n tz)
  | WBytes => do b <- value_bytes v; Ok (XBytes b)
  | WOctets4 => match v with VIpv4 b => Ok (XBytes b) | _ => Panic PExplicit end
  | _ => Panic PUnreachable
  end.

(** src/lib.rs 199-221 and src/types/block/builder.rs 31-80: the fields of a row, each made from a
    Rust value; [fs] has their names and types. *)
Definition row_fields (fs : list (bytes * wtype)) (xs : list rval) : res (list (bytes * value)) :=
  mapM (fun fx => do v <- into_value (snd (fst fx)) (snd fx); Ok (fst (fst fx), v)) (combine fs xs).

(** The element types of the vectors that implement [ColumnFrom]: the numbers and [bool],
    [String] and [&str], bytes ([&[u8]], or [Vec<u8>] inside [Option]), [NaiveDate],
    [DateTime<Tz>], [Ipv4Addr], [Ipv6Addr], [Uuid], [Decimal], [Enum8], [Enum16]. *)
Inductive ltype :=
| LNum (s : scalar) | LText | LBytes | LDate | LTime | LIpv4 | LIpv6 | LUuid | LDecimal | LEnum8 | LEnum16.

(** The vectors: [Vec<T>], [Vec<Option<T>>], [Vec<Vec<T>>], [Vec<HashMap<String, V>>] and
    [Vec<HashMap<K, V>>] with numbers [K] and [V]. [Vec<Vec<T>>] exists for numbers, text, dates,
    times and enums only. *)
Inductive ftype :=
| FVec (l : ltype) | FOption (l : ltype) | FArray (l : ltype) | FTextMap (s : scalar) | FNumMap (k v : scalar).

(** The element a typed vector has; the last line of each stands for elements a program cannot
    pass. *)
Definition the_num (x : rval) : res Z :=
  match x with XNum _ z | XEnum8 z | XEnum16 z => Ok z | _ => Panic PUnreachable end.
Definition the_bytes (x : rval) : res bytes :=
  match x with XText b | XBytes b => Ok b | _ => Panic PUnreachable end.
Definition the_date (x : rval) : res N :=
  match x with XDate d => Ok (get_days d) | _ => Panic PUnreachable end.
Definition the_time (x : rval) : res (Z * N * bytes) :=
  match x with XTime s n tz => Ok (s, n, tz) | _ => Panic PUnreachable end.
Definition the_decimal (x : rval) : res decimal :=
  match x with XDecimal d => Ok d | _ => Panic PUnreachable end.
Definition the_option (x : rval) : res (option rval) :=
  match x with XOption o => Ok o | _ => Panic PUnreachable end.

(** src/types/column/ip.rs 119-165 and 167-258: the bytes of one address. *)
Definition the_address (k : ip_kind) (x : rval) : res bytes :=
  match k, x with
  | IpV4, XIpv4 b => Ok (rev b)
  | IpV6, XIpv6 b => Ok b
  | IpUuid, XUuid b => Ok (flip_halves b)
  | _, _ => Panic PUnreachable
  end.

(** src/types/column/decimal.rs 68-97 and 99-137: one round of the loop over decimals. *)
Definition decimal_round (st : N * option N * list Z) (d : decimal) : res (N * option N * list Z) :=
  let '(precision, scale, l) := st in
  let precision := N.max precision (d_precision d) in
  match scale with
  | Some old =>
      if (old =? d_scale d)%N then Ok (precision, scale, l ++ [internal N64 d]) else Panic PExplicit
  | None => Ok (precision, Some (d_scale d), l ++ [internal N64 d])
  end.
Fixpoint decimals (st : N * option N * list Z) (ds : list (option decimal)) : res (N * option N * list Z) :=
  match ds with
  | [] => Ok st
  | Some d :: ds' => do st' <- decimal_round st d; decimals st' ds'
  | None :: ds' => let '(p, s, l) := st in decimals (p, s, l ++ [0%Z]) ds'
  end.
Definition decimal_column (ds : list (option decimal)) : res col :=
  do st <- decimals (18%N, None, []) ds;
  let '(p, s, l) := st in
  Ok (CDecimal l p (match s with Some s => s | None => 4%N end) N64).

(** The zone of a column of times, src/types/column/chrono_datetime.rs 42-51. *)
Definition first_zone (ts : list (Z * N * bytes)) : bytes :=
  match ts with [] => default_tz | (_, _, tz) :: _ => tz end.

(** [Vec<T>]: numeric.rs 38-57, string.rs 49-66, date.rs 75-88, chrono_datetime.rs 42-51, ip.rs
    119-165, decimal.rs 68-97, enums.rs 196-212 and 439-455, all in src/types/column. *)
Definition plain_column (l : ltype) (xs : list rval) : res col :=
  match l with
  | LNum s => do zs <- mapM the_num xs; Ok (CVec s zs)
  | LText | LBytes => do bs <- mapM the_bytes xs; Ok (CString bs)
  | LDate => do ds <- mapM the_date xs; Ok (CDate ds default_tz)
  | LTime => do ts <- mapM the_time xs; Ok (CChrono ts (first_zone ts))
  | LIpv4 => do bs <- mapM (the_address IpV4) xs; Ok (CIp IpV4 (concat bs))
  | LIpv6 => do bs <- mapM (the_address IpV6) xs; Ok (CIp IpV6 (concat bs))
  | LUuid => do bs <- mapM (the_address IpUuid) xs; Ok (CIp IpUuid (concat bs))
  | LDecimal => do ds <- mapM the_decimal xs; decimal_column (map Some ds)
  | LEnum8 => do zs <- mapM the_num xs; Ok (CEnum8 [] zs)
  | LEnum16 => do zs <- mapM the_num xs; Ok (CEnum16 [] zs)
  end.

(** One optional element put in place by hand: what is stored, and its null mark. *)
Definition optional_part {A} (zero : A) (f : rval -> res A) (o : option rval) : res A :=
  match o with None => Ok zero | Some x => f x end.
Definition mark (o : option rval) : N := match o with None => 1%N | Some _ => 0%N end.

(** One optional element that is pushed: string.rs 126-160, date.rs 139-161, numeric.rs 60-88
    with src/types/value.rs 322-336. *)
Definition optional_value (t : sqltype) (f : rval -> res value) (o : option rval) : res value :=
  match o with None => Ok (VNull t) | Some x => do v <- f x; Ok (VSome v) end.
Definition text_value (x : rval) : res value := do b <- the_bytes x; Ok (VString b).
Definition date_value (x : rval) : res value := do d <- the_date x; Ok (VDate d).
Definition pushed (c : col) (f : rval -> res value) (xs : list rval) : res col :=
  do vs <- mapM f xs; push_each push c vs.

(** [Vec<Option<T>>]: numeric.rs 60-88, string.rs 126-160, date.rs 139-161, chrono_datetime.rs
    53-82, ip.rs 167-258, decimal.rs 99-137, enums.rs 237-262 and 480-505. *)
Definition optional_column (l : ltype) (xs : list rval) : res col :=
  do os <- mapM the_option xs;
  let by_hand (c : res col) : res col := do i <- c; Ok (CNullable i (map mark os)) in
  let by_push (c : col) (t : sqltype) (f : rval -> res value) : res col :=
    do vs <- mapM (optional_value t f) os; push_each push (CNullable c []) vs in
  match l with
  | LNum s => by_push (CVec s []) (TNum s) (has_value (HNum s))
  | LText | LBytes => by_push (CString []) TString text_value
  | LDate => by_push (CDate [] default_tz) TDate date_value
  | LTime =>
      do us <- mapM (optional_part None (fun x => do t <- the_time x; Ok (Some t))) os;
      let tz := first_zone (flat_map (fun o => match o with Some t => [t] | None => [] end) us) in
      let ts := map (fun o => match o with Some t => t | None => (0%Z, 0%N, tz) end) us in
      by_hand (Ok (CChrono ts (first_zone ts)))
  | LIpv4 => by_hand (do bs <- mapM (optional_part (repeat 0%N 4) (the_address IpV4)) os; Ok (CIp IpV4 (concat bs)))
  | LIpv6 => by_hand (do bs <- mapM (optional_part (repeat 0%N 16) (the_address IpV6)) os; Ok (CIp IpV6 (concat bs)))
  | LUuid => by_hand (do bs <- mapM (optional_part (repeat 0%N 16) (the_address IpUuid)) os; Ok (CIp IpUuid (concat bs)))
  | LDecimal =>
      by_hand (do ds <- mapM (optional_part None (fun x => do d <- the_decimal x; Ok (Some d))) os; decimal_column ds)
  | LEnum8 => by_hand (do zs <- mapM (optional_part 0%Z the_num) os; Ok (CEnum8 [] zs))
  | LEnum16 => by_hand (do zs <- mapM (optional_part 0%Z the_num) os; Ok (CEnum16 [] zs))
  end.

(** One element of a vector inside: src/types/column/numeric.rs 120-137, string.rs 104-124,
    date.rs 90-137, enums.rs 214-235 and 457-478. *)
Definition array_elem (l : ltype) (x : rval) : res value :=
  match l, x with
  | LNum s, _ => has_value (HNum s) x
  | LText, XText b => Ok (VString b)
  | LDate, XDate d => Ok (VDate (get_days d))
  | LTime, XTime s _ tz => Ok (VDateTime (as_u32 s) tz)
  | LEnum8, XEnum8 z => Ok (VEnum8 [] z)
  | LEnum16, XEnum16 z => Ok (VEnum16 [] z)
  | _, _ => Panic PUnreachable
  end.
Definition array_value (l : ltype) (t : sqltype) (x : rval) : res value :=
  match x with
  | XVec ys => do vs <- mapM (array_elem l) ys; Ok (VArray t vs)
  | _ => Panic PUnreachable
  end.

(** [Vec<Vec<T>>]: numeric.rs 91-118, string.rs 90-124, date.rs 90-137, enums.rs as above. The
    inner column is the one made from an empty vector. *)
Definition array_column (l : ltype) (xs : list rval) : res col :=
  do inner <- plain_column l [];
  pushed (CArray inner []) (array_value l (ctype inner)) xs.

(** src/types/column/map.rs 163-199 with 242-254, and 201-240 with 256-268: [Vec<HashMap<K, V>>].
    The maps are built as [Value::from] builds them. *)
Definition map_column (kl : ltype) (hk : htype) (s : scalar) (xs : list rval) : res col :=
  do ks <- plain_column kl []; do vs <- plain_column (LNum s) [];
  pushed (CMap ks vs []) (has_value (HMap hk (HNum s))) xs.

(** [ColumnFrom::column_from]. A [Column] itself (src/types/column/mod.rs 84-88) is left out:
    it is handed on as it is. *)
Definition column_from (f : ftype) (xs : list rval) : res col :=
  match f with
  | FVec l => plain_column l xs
  | FOption l => optional_column l xs
  | FArray l => array_column l xs
  | FTextMap s => map_column LText HText s xs
  | FNumMap k v => map_column (LNum k) (HNum k) v xs
  end.

(** src/types/block/mod.rs 228-245: [column], or [add_column]; and a chain of them. *)
Definition block_column (b : block) (name : bytes) (f : ftype) (xs : list rval) : res block :=
  do c <- column_from f xs; append_column b (name, c).
Fixpoint block_columns (b : block) (cols : list (bytes * ftype * list rval)) : res block :=
  match cols with
  | [] => Ok b
  | (name, f, xs) :: cols' => do b' <- block_column b name f xs; block_columns b' cols'
  end.
