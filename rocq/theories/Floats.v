(** Decimals and floats: src/types/decimal.rs 72-86 for f32 and f64, 166-176 and 194-211. *)
From Verif Require Import Base Bytes Types Decimal.
Open Scope Z_scope.

(** The binary formats of IEEE 754: a float is kept as its bits, as everywhere in this model. A finite
    one is a whole number of the smallest positive one, which is 2^-[f_unit]; [f_prec] is the number of its
    significant bits. *)
Record format : Type := mk_format { f_width : nat; f_prec : Z; f_unit : Z }.
Definition f32 : format := mk_format 4 24 149.
Definition f64 : format := mk_format 8 53 1074.
Definition top_bit (f : format) : Z := 2 ^ (8 * Z.of_nat (f_width f) - 1).
Definition hidden (f : format) : Z := 2 ^ (f_prec f - 1).
(** The bits of infinity: exponent of all ones, fraction zero; above them is NaN. *)
Definition infinity (f : format) : Z := top_bit f - hidden f.
Definition negative (f : format) (b : Z) : bool := top_bit f <=? b.
Definition magnitude (f : format) (b : Z) : Z := if negative f b then b - top_bit f else b.
Definition signed (f : format) (neg : bool) (mag : Z) : Z := if neg then mag + top_bit f else mag.
(** How many of the smallest float the float of magnitude [mag] is. *)
Definition units (f : format) (mag : Z) : Z :=
  let field := mag / hidden f in
  let frac := mag mod hidden f in
  if field =? 0 then frac else (frac + hidden f) * 2 ^ (field - 1).

(** The magnitude of the float that is nearest to [a / b] units; of two, the one whose last bit is 0. Infinity
    if all finite ones are too small. This is how IEEE 754 rounds what an operation would give
    exactly. *)
Definition nearest_even (a b : Z) : Z :=
  let k := a / b in
  match 2 * (a mod b) ?= b with
  | Lt => k
  | Eq => if Z.even k then k else k + 1
  | Gt => k + 1
  end.
Definition round (f : format) (a b : Z) : Z :=
  let e := Z.max 0 (Z.log2 (a / b) - (f_prec f - 1)) in
  Z.min (infinity f) (e * hidden f + nearest_even a (b * 2 ^ e)).

(** Rust's [as f32] and [as f64] of an i64. *)
Definition int_to_float (f : format) (z : Z) : Z :=
  signed f (z <? 0) (round f (Z.abs z * 2 ^ f_unit f) 1).

(** The product of any float and a finite positive one. *)
Definition float_mul (f : format) (x y : Z) : Z :=
  let mag := magnitude f x in
  if infinity f <=? mag then x
  else signed f (negative f x) (round f (units f mag * units f y) (2 ^ f_unit f)).

(** The quotient of a finite float and a finite positive one. *)
Definition float_div (f : format) (x y : Z) : Z :=
  signed f (negative f x) (round f (units f (magnitude f x) * 2 ^ f_unit f) (units f y)).

(** Rust's [as i64] of a float: towards zero, to the limits beyond them, NaN to 0. *)
Definition float_to_int (f : format) (x : Z) : Z :=
  let mag := magnitude f x in
  if infinity f <? mag then 0
  else if mag =? infinity f then (if negative f x then - 2 ^ 63 else 2 ^ 63 - 1)
  else
    let n := units f mag / 2 ^ f_unit f in
    if negative f x then Z.max (- 2 ^ 63) (- n) else Z.min (2 ^ 63 - 1) n.

(** src/types/decimal.rs 72-86: [Base::scale] of f32 and f64; 194-211: [Decimal::of] for them. The factor is at most
    10^18, which is finite in both formats. *)
Definition decimal_of_float (f : format) (x : Z) (scale : N) : res decimal :=
  if (18 <? scale)%N then Panic PExplicit
  else do t <- factors10 scale;
       let u := float_to_int f (float_mul f x (int_to_float f t)) in
       if 10 ^ 18 <? u then Panic PExplicit else Ok (mk_decimal u N64 18 scale).

(** src/types/decimal.rs 166-176: [From<Decimal>] for f32 and f64. *)
Definition decimal_to_float (f : format) (d : decimal) : res Z :=
  do t <- factors10 (d_scale d);
  Ok (float_div f (int_to_float f (d_underlying d)) (int_to_float f t)).
