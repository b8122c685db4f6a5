(** What equality of values is about. *)
From Verif Require Import Base Bytes Types SpecColumns SpecBlock.
Open Scope list_scope.

(** The maps in a value are maps: their keys are of the types that can be hashed, and distinct. *)
Fixpoint keyed (v : value) : Prop :=
  match v with
  | VSome x => keyed x
  | VArray _ vs => fold_right (fun x P => keyed x /\ P) True vs
  | VMap _ _ kvs => distinct_keys (map fst kvs) = true /\ fold_right (fun kv P => keyed (snd kv) /\ P) True kvs
  | _ => True
  end.

(** A float that is a number. *)
Definition number (s : scalar) (z : Z) : Prop :=
  match s with
  | F32 => (z mod 2 ^ 31 <= 255 * 2 ^ 23)%Z
  | F64 => (z mod 2 ^ 63 <= 2047 * 2 ^ 52)%Z
  | _ => True
  end.

(** The values that are equal to themselves: there is no NaN and no map in them, and the times with
    fractions are within the range that counting nanoseconds in 64 bits has. *)
Fixpoint itself (v : value) : Prop :=
  match v with
  | VNum s z => number s z
  | VDateTime64 x p _ => (p < 10)%N /\ (- 2 ^ 63 <= x * 10 ^ (9 - Z.of_N p) < 2 ^ 63)%Z
  | VSome x => itself x
  | VArray _ vs => fold_right (fun x P => itself x /\ P) True vs
  | VMap _ _ _ => False
  | _ => True
  end.
