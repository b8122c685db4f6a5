(** Fixed-point decimals: src/types/decimal.rs. *)
From Coq Require Import String.
From Verif Require Import Base Bytes Types Text.
Open Scope list_scope.
Open Scope Z_scope.

(** i64 arithmetic with overflow checks. *)
Definition i64_ok (z : Z) : bool := (- 2 ^ 63 <=? z) && (z <? 2 ^ 63).
Definition i64_mul (a b : Z) : res Z := if i64_ok (a * b) then Ok (a * b) else Panic PArith.

(** src/types/decimal.rs 7-27: [FACTORS10], powers of ten up to 10^18; an index above 18 is
    out of bounds. *)
Definition factors10 (d : N) : res Z :=
  if (d <=? 18)%N then Ok (10 ^ Z.of_N d) else Panic PIndex.

(** src/types/decimal.rs 97-109 and 234-237: [internal], the mantissa [as i32] or [as i64]. *)
Definition as_i32 (z : Z) : Z := to_signed 4 (to_unsigned 4 z).
Definition internal (nb : nobits) (d : decimal) : Z :=
  match nb with N32 => as_i32 (d_underlying d) | N64 => d_underlying d end.

(** src/types/decimal.rs 123-139: [PartialEq]. *)
Definition decimal_eq (a b : decimal) : res bool :=
  match N.compare (d_scale a) (d_scale b) with
  | Lt => do f <- factors10 (d_scale b - d_scale a);
          do u <- i64_mul (d_underlying a) f;
          Ok (d_underlying b =? u)
  | Eq => Ok (d_underlying a =? d_underlying b)
  | Gt => do f <- factors10 (d_scale a - d_scale b);
          do u <- i64_mul (d_underlying b) f;
          Ok (d_underlying a =? u)
  end.

(** src/types/decimal.rs 141-152: [decimal2str]. *)
Definition pad_zeros (n : nat) (r : bytes) : bytes := repeat 48%N (n - List.length r) ++ r.
Definition insert_at (pos : nat) (b : N) (r : bytes) : bytes := firstn pos r ++ [b] ++ skipn pos r.
Definition decimal_to_str (d : decimal) : bytes :=
  let scale := N.to_nat (d_scale d) in
  let r := pad_zeros scale (print_Z (d_underlying d)) in
  let r := insert_at (List.length r - scale) 46%N r in
  match r with 46%N :: _ => 48%N :: r | _ => r end.

(** src/types/decimal.rs 180-192: [Decimal::new]; [underlying] is an i64. *)
Definition decimal_new (u : Z) (scale : N) : res decimal :=
  if (18 <? scale)%N then Panic PExplicit else Ok (mk_decimal u N64 18 scale).

(** src/types/decimal.rs 72-95: [Base::scale] of the integer types: the factor is first
    cast to the source's own type, then multiplied in it with an overflow check, and
    the product is widened (for u64: cast) to i64. *)
Definition cast_to_scalar (t : scalar) (z : Z) : Z :=
  if is_signed t then to_signed (width t) (to_unsigned (width t) z)
  else Z.of_N (to_unsigned (width t) z).
Definition base_scale (t : scalar) (v f : Z) : res Z :=
  let p := v * cast_to_scalar t f in
  if scalar_ok t p then Ok (to_signed 8 (to_unsigned 8 p)) else Panic PArith.

(** src/types/decimal.rs 194-211: [Decimal::of] for an integer of type [t]. The float
    instances are in Floats.v. *)
Definition decimal_of (t : scalar) (v : Z) (scale : N) : res decimal :=
  if (18 <? scale)%N then Panic PExplicit
  else do f <- factors10 scale;
       do u <- base_scale t v f;
       if (10 ^ 18 <? u) then Panic PExplicit else Ok (mk_decimal u N64 18 scale).

(** src/types/decimal.rs 244-264: [set_scale]; i64 division truncates. *)
Definition set_scale (d : decimal) (scale : N) : res decimal :=
  match N.compare scale (d_scale d) with
  | Lt => do f <- factors10 (d_scale d - scale);
          Ok (mk_decimal (Z.quot (d_underlying d) f) (d_nobits d) (d_precision d) scale)
  | Eq => Ok d
  | Gt => do f <- factors10 (scale - d_scale d);
          do u <- i64_mul (d_underlying d) f;
          Ok (mk_decimal u (d_nobits d) (d_precision d) scale)
  end.

(** src/types/decimal.rs 62-69: what [Hash] feeds the hasher. *)
Definition decimal_hash_input (d : decimal) : Z * nobits * N * N :=
  (d_underlying d, d_nobits d, d_precision d, d_scale d).
