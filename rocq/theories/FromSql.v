(** Reading a cell as a Rust type: src/types/from_sql.rs, and writing a Rust value as a cell:
    src/types/value.rs. *)
From Verif Require Import Base Bytes Utf8 Types Decimal DateTime Values Columns Block.

(** The element types of the vectors that implement [FromSql]: src/types/from_sql.rs 207-216,
    228 and 270-290. [ENum U8] is [Vec<u8>]. *)
Inductive elem :=
| EStr | EString | ESlice | EBytes | EDate | EDateTime | EEnum8 | EEnum16 | ENum (s : scalar).

(** The Rust types that implement [FromSql], src/types/from_sql.rs: the numbers and [bool],
    [Decimal], [Enum8], [Enum16], [&str], [&[u8]], [String], [HashMap<K, V>], [Ipv4Addr],
    [Ipv6Addr], [Uuid], [Vec<_>], [Option<T>], [NaiveDate], [DateTime<Tz>]. *)
Inductive rtype :=
| RNum (s : scalar)
| RDecimal
| REnum8
| REnum16
| RStr
| RSlice
| RString
| RMap (k v : rtype)
| RIpv4
| RIpv6
| RUuid
| RVec (e : elem)
| ROption (t : rtype)
| RDate
| RDateTime.

(** Values of these types. [&str] and [String] are [XText], their UTF-8 bytes; byte slices
    and [Vec<u8>] are [XBytes], except that a [Vec<u8>] filled from an array is an [XVec] of
    numbers. A date is its days since 1970, a time its seconds, nanoseconds and zone; addresses
    and UUIDs are their octets as written, first to last. A [HashMap] lists its entries in
    iteration order. *)
Inductive rval :=
| XNum (s : scalar) (z : Z)
| XDecimal (d : decimal)
| XEnum8 (z : Z)
| XEnum16 (z : Z)
| XText (b : bytes)
| XBytes (b : bytes)
| XMap (kvs : list (rval * rval))
| XIpv4 (b : bytes)
| XIpv6 (b : bytes)
| XUuid (b : bytes)
| XVec (xs : list rval)
| XOption (o : option rval)
| XDate (days : Z)
| XTime (secs : Z) (nanos : N) (tz : bytes).

(** [==] of the types that can be keys of a [HashMap] ([Eq + Hash]): chrono compares points in
    time, whatever their zones; decimals compare as src/types/decimal.rs 123-139 does. Maps
    and floats are no keys. *)
Fixpoint key_eq (a b : rval) {struct a} : res bool :=
  match a, b with
  | XNum s x, XNum t y => Ok ((if scalar_eq_dec s t then true else false) && (x =? y)%Z)
  | XDecimal x, XDecimal y => decimal_eq x y
  | XEnum8 x, XEnum8 y | XEnum16 x, XEnum16 y | XDate x, XDate y => Ok (x =? y)%Z
  | XText x, XText y | XBytes x, XBytes y
  | XIpv4 x, XIpv4 y | XIpv6 x, XIpv6 y | XUuid x, XUuid y => Ok (bytes_eqb x y)
  | XVec xs, XVec ys =>
      (fix loop (xs ys : list rval) : res bool :=
         match xs, ys with
         | x :: xs', y :: ys' => res_and (key_eq x y) (loop xs' ys')
         | [], [] => Ok true
         | _, _ => Ok false
         end) xs ys
  | XOption None, XOption None => Ok true
  | XOption (Some x), XOption (Some y) => key_eq x y
  | XTime s n _, XTime t m _ => Ok ((s =? t)%Z && (n =? m)%N)
  | _, _ => Ok false
  end.

(** [HashMap::insert]: an existing key keeps its place and gets the new value. *)
Fixpoint xmap_put (m : list (rval * rval)) (k v : rval) : res (list (rval * rval)) :=
  match m with
  | [] => Ok [(k, v)]
  | (k', v') :: m' =>
      do e <- key_eq k' k;
      if e then Ok ((k', v) :: m') else do r <- xmap_put m' k v; Ok ((k', v') :: r)
  end.

(** src/types/value_ref.rs 245-271: [as_str], [as_string], [as_bytes]. *)
Definition as_str (v : value) : res rval :=
  match v with
  | VString b => if utf8_valid b then Ok (XText b) else Err EUtf8
  | _ => Err EInvalidType
  end.
Definition as_bytes (v : value) : res rval :=
  match v with VString b => Ok (XBytes b) | _ => Err EInvalidType end.

(** src/types/value_ref.rs 425-500: [From<ValueRef>] for the numbers, dates, enums and times;
    any other variant panics. *)
Definition into_num (s : scalar) (v : value) : res rval :=
  match v with
  | VNum t z => if scalar_eq_dec s t then Ok (XNum s z) else Panic PExplicit
  | _ => Panic PExplicit
  end.
Definition into_date (v : value) : res rval :=
  match v with VDate d => Ok (XDate (Z.of_N d)) | _ => Panic PExplicit end.
Definition into_enum8 (v : value) : res rval :=
  match v with VEnum8 _ z => Ok (XEnum8 z) | _ => Panic PExplicit end.
Definition into_enum16 (v : value) : res rval :=
  match v with VEnum16 _ z => Ok (XEnum16 z) | _ => Panic PExplicit end.
Definition into_time (v : value) : res rval :=
  match v with
  | VDateTime t tz => Ok (XTime (Z.of_N t) 0 tz)
  | VDateTime64 t p tz => do x <- to_datetime t p; Ok (XTime (fst x) (snd x) tz)
  | _ => Panic PExplicit
  end.

(** src/types/from_sql.rs 207-216 and 249-290: the type an array must be tagged with, and
    how each of its elements is read. *)
Definition elem_tag (e : elem) (t : sqltype) : bool :=
  match e, t with
  | (EStr | EString | ESlice | EBytes), TString => true
  | EDate, TDate => true
  | EDateTime, TDateTime _ => true
  | EEnum8, TEnum8 _ => true
  | EEnum16, TEnum16 _ => true
  | ENum s, TNum s' => if scalar_eq_dec s s' then true else false
  | _, _ => false
  end.
Definition elem_from (e : elem) (v : value) : res rval :=
  match e with
  | EStr | EString => as_str v
  | ESlice | EBytes => as_bytes v
  | EDate => into_date v
  | EDateTime => into_time v
  | EEnum8 => into_enum8 v
  | EEnum16 => into_enum16 v
  | ENum s => into_num s v
  end.

(** src/types/value.rs 594-598 [decode_ipv4] reverses the octets; src/types/from_sql.rs 161-166
    reverses either half of a UUID. *)
Definition flip_halves (b : bytes) : bytes := rev (firstn 8 b) ++ rev (skipn 8 b).

(** src/types/from_sql.rs: [FromSql::from_sql] for each type; lines as above. *)
Fixpoint from_sql (r : rtype) (v : value) {struct r} : res rval :=
  match r with
  | RNum s =>
      match v with
      | VNum t z => if scalar_eq_dec s t then Ok (XNum s z) else Err EInvalidType
      | _ => Err EInvalidType
      end
  | RDecimal => match v with VDecimal d => Ok (XDecimal d) | _ => Err EInvalidType end
  | REnum8 => match v with VEnum8 _ z => Ok (XEnum8 z) | _ => Err EInvalidType end
  | REnum16 => match v with VEnum16 _ z => Ok (XEnum16 z) | _ => Err EInvalidType end
  | RStr | RString => as_str v
  | RSlice => as_bytes v
  | RMap rk rv =>
      match v with
      | VMap _ _ kvs =>
          do m <- (fix loop (kvs : list (value * value)) (m : list (rval * rval))
                     : res (list (rval * rval)) :=
                     match kvs with
                     | [] => Ok m
                     | (k, x) :: kvs' =>
                         do k' <- from_sql rk k; do x' <- from_sql rv x;
                         do m' <- xmap_put m k' x'; loop kvs' m'
                     end) kvs [];
          Ok (XMap m)
      | _ => Err EOther
      end
  | RIpv4 => match v with VIpv4 b => Ok (XIpv4 (rev b)) | _ => Err EInvalidType end
  | RIpv6 => match v with VIpv6 b => Ok (XIpv6 b) | _ => Err EInvalidType end
  | RUuid => match v with VUuid b => Ok (XUuid (flip_halves b)) | _ => Err EInvalidType end
  | RVec e =>
      match v with
      | VArray t vs =>
          if elem_tag e t then do xs <- mapM (elem_from e) vs; Ok (XVec xs) else Err EInvalidType
      | _ => match e with ENum U8 => as_bytes v | _ => Err EInvalidType end
      end
  | ROption r' =>
      match v with
      | VNull _ => Ok (XOption None)
      | VSome x => do y <- from_sql r' x; Ok (XOption (Some y))
      | _ => Err EInvalidType
      end
  | RDate => match v with VDate d => Ok (XDate (Z.of_N d)) | _ => Err EInvalidType end
  | RDateTime =>
      match v with
      | VDateTime _ _ | VDateTime64 _ _ _ => into_time v
      | _ => Err EInvalidType
      end
  end.

(** src/types/block/mod.rs 217-225: [Block::get]. *)
Definition get (r : rtype) (b : block) (row : nat) (x : colidx) : res rval :=
  do v <- get_cell b row x; from_sql r v.
