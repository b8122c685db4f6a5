(** Equality and conversions of cell values: src/types/value.rs, src/types/value_ref.rs. *)
From Verif Require Import Base Bytes Types Decimal DateTime.

(** Rust's [==] on f32/f64, on bit patterns: a NaN is not equal to itself, and the two
    zeros are equal. *)
Definition float_parts (w : nat) : Z * Z :=
  match w with
  | 4%nat => (2 ^ 31, 255 * 2 ^ 23)%Z
  | _ => (2 ^ 63, 2047 * 2 ^ 52)%Z
  end.
Definition float_eqb (w : nat) (a b : Z) : bool :=
  let (sign, inf) := float_parts w in
  let ma := (a mod sign)%Z in
  let mb := (b mod sign)%Z in
  if (inf <? ma)%Z || (inf <? mb)%Z then false
  else if (ma =? 0)%Z && (mb =? 0)%Z then true
  else (a =? b)%Z.
Definition scalar_eqb (s : scalar) (a b : Z) : bool :=
  match s with
  | F32 => float_eqb 4 a b
  | F64 => float_eqb 8 a b
  | _ => (a =? b)%Z
  end.

(** [a && b] where evaluating [b] may panic. *)
Definition res_and (a b : res bool) : res bool :=
  do x <- a; if x then b else Ok false.

(** src/types/value.rs 118-143: equality of DateTime64 cells; equal times in any zones are
    equal. [MULTIPLIERS] has ten entries. *)
Definition dt64_nanos (a : Z) (p : N) : res Z :=
  if (p <? 10)%N then i64_mul a (10 ^ (9 - Z.of_N p)) else Panic PIndex.
Definition dt64_value_eq (a : Z) (pa : N) (b : Z) (pb : N) : res bool :=
  if (pa =? pb)%N then
    do x <- dt64_nanos a pa; do y <- dt64_nanos b pb; Ok (x =? y)%Z
  else Ok false.

(** src/types/value.rs 85-149: [PartialEq for Value]. Maps, and values of different
    variants, are never equal. *)
Fixpoint value_eq (a b : value) {struct a} : res bool :=
  match a, b with
  | VNum s x, VNum t y => Ok (if scalar_eq_dec s t then scalar_eqb s x y else false)
  | VString x, VString y => Ok (bytes_eqb x y)
  | VDate x, VDate y => Ok (x =? y)%N
  | VDateTime x _, VDateTime y _ => Ok (x =? y)%N
  | VChrono x n _, VChrono y m _ => Ok ((x =? y)%Z && (n =? m)%N)
  | VNull s, VNull t => Ok (sqltype_eqb s t)
  | VSome x, VSome y => value_eq x y
  | VArray s xs, VArray t ys =>
      if sqltype_eqb s t then
        if (length xs =? length ys)%nat then
          (fix loop (xs ys : list value) : res bool :=
             match xs, ys with
             | x :: xs', y :: ys' => res_and (value_eq x y) (loop xs' ys')
             | _, _ => Ok true
             end) xs ys
        else Ok false
      else Ok false
  | VDecimal x, VDecimal y => decimal_eq x y
  | VEnum8 l x, VEnum8 m y => Ok ((if enum_vals_eq_dec l m then true else false) && (x =? y)%Z)
  | VEnum16 l x, VEnum16 m y => Ok ((if enum_vals_eq_dec l m then true else false) && (x =? y)%Z)
  | VIpv4 x, VIpv4 y | VIpv6 x, VIpv6 y | VUuid x, VUuid y => Ok (bytes_eqb x y)
  | VDateTime64 x p _, VDateTime64 y q _ => dt64_value_eq x p y q
  | _, _ => Ok false
  end.

(** src/types/value_ref.rs 79-124: [PartialEq for ValueRef]. There is no case for Bool,
    IPv4, IPv6 and UUID: such cells are never equal. A map is looked up by key in the
    other one (std's [HashMap ==]); its keys are hashable, or the map could not have been
    built. [ValueRef] has no chrono variant. *)
Fixpoint vref_eq (a b : value) {struct a} : res bool :=
  match a, b with
  | VNum SBool _, _ => Ok false
  | VNum s x, VNum t y => Ok (if scalar_eq_dec s t then scalar_eqb s x y else false)
  | VString x, VString y => Ok (bytes_eqb x y)
  | VDate x, VDate y => Ok (x =? y)%N
  | VDateTime x _, VDateTime y _ => Ok (x =? y)%N
  | VNull s, VNull t => Ok (sqltype_eqb s t)
  | VSome x, VSome y => vref_eq x y
  | VArray s xs, VArray t ys =>
      if sqltype_eqb s t then
        if (length xs =? length ys)%nat then
          (fix loop (xs ys : list value) : res bool :=
             match xs, ys with
             | x :: xs', y :: ys' => res_and (vref_eq x y) (loop xs' ys')
             | _, _ => Ok true
             end) xs ys
        else Ok false
      else Ok false
  | VDecimal x, VDecimal y => decimal_eq x y
  | VEnum8 l x, VEnum8 m y => Ok ((x =? y)%Z && (if enum_vals_eq_dec l m then true else false))
  | VEnum16 l x, VEnum16 m y => Ok ((x =? y)%Z && (if enum_vals_eq_dec l m then true else false))
  | VDateTime64 x p _, VDateTime64 y q _ =>
      do t <- to_datetime x p; do u <- to_datetime y q;
      Ok ((fst t =? fst u)%Z && (snd t =? snd u)%N)
  | VMap k v xs, VMap k' v' ys =>
      if negb (length xs =? length ys)%nat || negb (sqltype_eqb k k') || negb (sqltype_eqb v v')
      then Ok false
      else
        (fix all (xs : list (value * value)) : res bool :=
           match xs with
           | [] => Ok true
           | (kx, vx) :: xs' =>
               res_and
                 ((fix get (ys : list (value * value)) : res bool :=
                     match ys with
                     | [] => Ok false
                     | (ky, vy) :: ys' =>
                         do e <- vref_eq kx ky;
                         if e then vref_eq vx vy else get ys'
                     end) ys)
                 (all xs')
           end) xs
  | _, _ => Ok false
  end.

(** src/types/value.rs 532-545 and 577-592: [From<Value> for T] of the numeric types. *)
Definition value_num (s : scalar) (v : value) : res Z :=
  match v with
  | VNum t z => if scalar_eq_dec s t then Ok z else Panic PExplicit
  | _ => Panic PExplicit
  end.

(** src/types/value.rs 510-530: the bytes of a string value. *)
Definition value_bytes (v : value) : res bytes :=
  match v with VString b => Ok b | _ => Panic PExplicit end.

(** src/types/value.rs 548-558: [From<Value> for NaiveDate], as days since the epoch. *)
Definition value_date (v : value) : res Z :=
  match v with VDate d => Ok (Z.of_N d) | _ => Panic PExplicit end.

(** src/types/value.rs 560-575: [From<Value> for DateTime<Tz>]. *)
Definition value_datetime (v : value) : res (Z * N * bytes) :=
  match v with
  | VDateTime u tz => Ok (Z.of_N u, 0%N, tz)
  | VDateTime64 u p tz => do t <- to_datetime u p; Ok (fst t, snd t, tz)
  | VChrono s n tz => Ok (s, n, tz)
  | _ => Panic PExplicit
  end.

(** src/types/value.rs 363-367: the [Value] of a [NaiveDate] given as days since 1970. *)
Definition value_of_date (days : Z) : value := VDate (get_days days).
