(** Binary floats by their value, for decimals that become floats and floats that become decimals. *)
From Verif Require Import Base Types Floats.
Open Scope Z_scope.

(** A finite float whose bits without the sign are [mag] is [n] times the smallest positive float: [h] = 2^(p-1) for a format
    of [p] significant bits. *)
Definition counts (h mag n : Z) : Prop :=
  (0 <= mag < h /\ n = mag) \/
  exists e t, 0 <= e /\ 0 <= t < h /\ mag = (e + 1) * h + t /\ n = (h + t) * 2 ^ e.

(** No finite float is nearer to [a / b] than the one of magnitude [mag], and if another one is as near, [mag] is even.
    [top] is the first magnitude that is not finite. *)
Definition nearest_to (h top a b mag : Z) : Prop :=
  0 <= mag < top /\ exists n, counts h mag n /\
  forall mag' n', 0 <= mag' < top -> counts h mag' n' ->
    Z.abs (n * b - a) <= Z.abs (n' * b - a) /\
    (Z.abs (n * b - a) = Z.abs (n' * b - a) -> mag' <> mag -> Z.even mag = true).

(** Bits with a sign. *)
Definition with_sign (sign : Z) (neg : bool) (mag : Z) : Z := if neg then sign + mag else mag.

(** The two formats: bits of the sign, [h], how many of the smallest float make 1, and up to which scale the powers of ten are floats
    of the format. *)
Inductive binary : format -> Z -> Z -> Z -> N -> Prop :=
| Single : binary f32 (2 ^ 31) (2 ^ 23) (2 ^ 149) 10
| Double : binary f64 (2 ^ 63) (2 ^ 52) (2 ^ 1074) 18.
