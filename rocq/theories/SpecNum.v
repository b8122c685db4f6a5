(** What numbers written in decimal, decimals and points in time mean, independently of the code. *)
From Verif Require Import Base.
Open Scope Z_scope.

(** The number a list of decimal digits (each below ten) denotes, most significant first. *)
Definition dec_value (ds : list N) : Z := fold_left (fun a d => 10 * a + Z.of_N d) ds 0.
Definition digits_ok (ds : list N) : Prop := Forall (fun d => (d < 10)%N) ds.

(** The text of a number: optional minus sign, integer digits, a point, fraction digits. *)
Definition decimal_text (neg : bool) (ip fp : list N) : bytes :=
  (if neg then [45%N] else []) ++ map (fun d => (48 + d)%N) ip ++ [46%N] ++ map (fun d => (48 + d)%N) fp.

(** [s] is the decimal expansion of [m / 10^k] with exactly [k] fraction digits, at least one
    integer digit, and no superfluous leading zero. *)
Definition expansion (s : bytes) (m : Z) (k : nat) : Prop :=
  exists neg ip fp, s = decimal_text neg ip fp /\ digits_ok ip /\ digits_ok fp /\
    length fp = k /\ ip <> [] /\ (hd 1%N ip = 0%N -> length ip = 1%nat) /\
    m = (if neg then - dec_value (ip ++ fp) else dec_value (ip ++ fp)).

(** [m1 / 10^s1] and [m2 / 10^s2] are the same rational. *)
Definition same_number (m1 : Z) (s1 : N) (m2 : Z) (s2 : N) : Prop :=
  m1 * 10 ^ Z.of_N s2 = m2 * 10 ^ Z.of_N s1.

(** [q] is [x / 10^k] with the fraction dropped (rounded towards zero). *)
Definition truncated (x : Z) (k : N) (q : Z) : Prop :=
  Z.abs (q * 10 ^ Z.of_N k) <= Z.abs x < Z.abs (q * 10 ^ Z.of_N k) + 10 ^ Z.of_N k /\ 0 <= q * x.

(** A 64-bit signed integer. *)
Definition is_i64 (z : Z) : Prop := - 2 ^ 63 <= z < 2 ^ 63.

(** [t] nanoseconds since 1970 as whole seconds (rounded down) and the rest. *)
Definition instant (t : Z) (secs : Z) (nanos : N) : Prop :=
  t = secs * 1000000000 + Z.of_N nanos /\ (nanos < 1000000000)%N.
