(** Column types and cell values: src/types/mod.rs, src/types/value.rs,
    src/types/value_ref.rs, src/types/decimal.rs, src/types/enums.rs. *)
From Verif Require Import Base Bytes.

(** src/types/mod.rs 240-258: [SimpleAggFunc]. *)
Inductive agg_func :=
| AAny | AAnyLast | AMin | AMax | ASum | ASumWithOverflow | AGroupBitAnd | AGroupBitOr
| AGroupBitXor | AGroupArrayArray | AGroupUniqArrayArray | ASumMap | AMinMap | AMaxMap
| AArgMin | AArgMax.

(** src/types/mod.rs 233-238: [DateTimeType]. A time zone [Tz] is its name. *)
Inductive dt_type := DateTime32 | DateTime64 (precision : N) (tz : bytes) | DtChrono.

(** src/types/mod.rs 309-339: [SqlType]. The numeric variants Bool, UInt8..UInt128,
    Int8..Int128, Float32 and Float64 are [TNum] of the scalar type; usize and
    u8 parameters are [N], i8 and i16 enum values are [Z]. The cache of
    src/types/mod.rs 341-371, which hands out a shared copy of a type, is the
    identity here; Interning.v has it with its memory, and C108 says why this
    is right. *)
Inductive sqltype :=
| TNum (s : scalar)
| TString
| TFixedString (n : N)
| TDate
| TDateTime (d : dt_type)
| TIpv4
| TIpv6
| TUuid
| TNullable (t : sqltype)
| TArray (t : sqltype)
| TLowCardinality (t : sqltype)
| TDecimal (precision scale : N)
| TEnum8 (vals : list (bytes * Z))
| TEnum16 (vals : list (bytes * Z))
| TAgg (f : agg_func) (t : sqltype)
| TMap (k v : sqltype).

(** src/types/mod.rs 374-376. *)
Definition is_datetime (t : sqltype) : bool := match t with TDateTime _ => true | _ => false end.

(** src/types/mod.rs 378-394. *)
Definition is_inner_low_cardinality (t : sqltype) : bool :=
  match t with
  | TString | TFixedString _ | TDate | TDateTime _ => true
  | TNum (U8 | U16 | U32 | U64 | I8 | I16 | I32 | I64) => true
  | _ => false
  end.

(** src/types/mod.rs 447-455: [level]. u8 overflow needs 256 nested types and is
    not modelled. *)
Fixpoint level (t : sqltype) : nat :=
  match t with
  | TNullable i => 1 + level i
  | TArray i => 1 + level i
  | TMap _ v => 1 + level v
  | TLowCardinality _ => 1
  | _ => 0
  end.

(** src/types/decimal.rs 36-40: [NoBits], and 111-121: [from_precision]. *)
Inductive nobits := N32 | N64.
Definition from_precision (p : N) : option nobits :=
  if (p <=? 9)%N then Some N32 else if (p <=? 18)%N then Some N64 else None.

(** src/types/decimal.rs 43-49: [Decimal]. *)
Record decimal := mk_decimal {
  d_underlying : Z; d_nobits : nobits; d_precision : N; d_scale : N }.

(** src/types/value.rs 26-59 [Value] and src/types/value_ref.rs 24-56 [ValueRef]. The two
    differ only in ownership and in [ChronoDateTime], which only [Value] has; the
    conversions between them (src/types/value_ref.rs 273-325 and 370-423, modelled in
    Copies.v) copy field by field. One type stands for both. A [HashMap] is the list of its
    entries in iteration order, without repeated keys. A [DateTime<Tz>] is its
    number of seconds since the epoch, its nanoseconds within the second, and its
    zone. *)
Inductive value :=
| VNum (s : scalar) (z : Z)
| VString (b : bytes)
| VDate (days : N)
| VDateTime (secs : N) (tz : bytes)
| VDateTime64 (ticks : Z) (precision : N) (tz : bytes)
| VChrono (secs : Z) (nanos : N) (tz : bytes)
| VIpv4 (b : bytes)
| VIpv6 (b : bytes)
| VUuid (b : bytes)
| VNull (t : sqltype)
| VSome (v : value)
| VArray (t : sqltype) (vs : list value)
| VDecimal (d : decimal)
| VEnum8 (vals : list (bytes * Z)) (z : Z)
| VEnum16 (vals : list (bytes * Z)) (z : Z)
| VMap (k v : sqltype) (kvs : list (value * value)).

(** Equality of types: [#[derive(PartialEq)]] at src/types/mod.rs 233, 240, 309. *)
Definition agg_func_eq_dec (a b : agg_func) : {a = b} + {a <> b}.
Proof. decide equality. Defined.
Definition scalar_eq_dec (a b : scalar) : {a = b} + {a <> b}.
Proof. decide equality. Defined.
Definition bytes_eq_dec (a b : bytes) : {a = b} + {a <> b} := list_eq_dec N.eq_dec a b.
Definition enum_vals_eq_dec (a b : list (bytes * Z)) : {a = b} + {a <> b}.
Proof. apply list_eq_dec. decide equality; [apply Z.eq_dec | apply bytes_eq_dec]. Defined.
Definition dt_type_eq_dec (a b : dt_type) : {a = b} + {a <> b}.
Proof. decide equality; [apply bytes_eq_dec | apply N.eq_dec]. Defined.
Definition sqltype_eq_dec (a b : sqltype) : {a = b} + {a <> b}.
Proof.
  decide equality; auto using N.eq_dec, scalar_eq_dec, dt_type_eq_dec, enum_vals_eq_dec, agg_func_eq_dec.
Defined.
Definition sqltype_eqb (a b : sqltype) : bool := if sqltype_eq_dec a b then true else false.
Definition bytes_eqb (a b : bytes) : bool := if bytes_eq_dec a b then true else false.
Definition nobits_eq_dec (a b : nobits) : {a = b} + {a <> b}.
Proof. decide equality. Defined.

(** src/types/column/datetime64.rs 18-20: [DEFAULT_TZ], the zone named Zulu. *)
Definition default_tz : bytes := [90; 117; 108; 117]%N.

(** src/types/value.rs 151-192: [Value::default]. *)
Fixpoint value_default (t : sqltype) : value :=
  match t with
  | TNum s => VNum s 0
  | TString => VString []
  | TLowCardinality i => value_default i
  | TFixedString n => VString (repeat 0%N (N.to_nat n))
  | TDate => VDate 0
  | TDateTime (DateTime64 _ _) => VDateTime64 0 1 default_tz
  | TAgg _ i => value_default i
  | TDateTime _ => VDateTime 0 default_tz
  | TNullable i => VNull i
  | TArray i => VArray i []
  | TDecimal p s => VDecimal (mk_decimal 0 N64 p s)
  | TIpv4 => VIpv4 (repeat 0%N 4)
  | TIpv6 => VIpv6 (repeat 0%N 16)
  | TUuid => VUuid (repeat 0%N 16)
  | TEnum8 vals => VEnum8 vals 0
  | TEnum16 vals => VEnum16 vals 0
  | TMap k v => VMap k v []
  end.

(** src/types/value.rs 279-320 [From<Value> for SqlType] and src/types/value_ref.rs
    205-242 [From<ValueRef> for SqlType]. *)
Fixpoint type_of_value (v : value) : sqltype :=
  match v with
  | VNum s _ => TNum s
  | VString _ => TString
  | VDate _ => TDate
  | VDateTime _ _ => TDateTime DateTime32
  | VChrono _ _ _ => TDateTime DateTime32
  | VDateTime64 _ p tz => TDateTime (DateTime64 p tz)
  | VIpv4 _ => TIpv4
  | VIpv6 _ => TIpv6
  | VUuid _ => TUuid
  | VNull t => TNullable t
  | VSome v => TNullable (type_of_value v)
  | VArray t _ => TArray t
  | VDecimal d => TDecimal (d_precision d) (d_scale d)
  | VEnum8 vals _ => TEnum8 vals
  | VEnum16 vals _ => TEnum16 vals
  | VMap k v _ => TMap k v
  end.

(** src/types/value.rs 61-81: the variants [Hash for Value] supports; the others are
    [unimplemented!()]. *)
Definition value_hashable (v : value) : bool :=
  match v with
  | VString _ | VDate _ | VDateTime _ _ | VDateTime64 _ _ _ => true
  | VNum (I8 | I16 | I32 | I64 | I128 | U8 | U16 | U32 | U64 | U128) _ => true
  | _ => false
  end.

(** src/types/value_ref.rs 58-75: the variants [Hash for ValueRef] supports. *)
Definition value_ref_hashable (v : value) : bool :=
  match v with
  | VString _ => true
  | VNum (I8 | I16 | I32 | I64 | I128 | U8 | U16 | U32 | U64 | U128) _ => true
  | _ => false
  end.
