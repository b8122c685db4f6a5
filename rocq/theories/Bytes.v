(** Scalars on the wire: src/types/marshal.rs, src/types/unmarshal.rs,
    src/types/stat_buffer.rs. *)
From Verif Require Import Base.

(** [to_le_bytes] of an unsigned integer of [w] bytes. The standard library
    functions [to_le_bytes]/[from_le_bytes] called at src/types/marshal.rs 10, 23
    and src/types/unmarshal.rs 12, 26 are written out here. *)
Fixpoint le_enc (w : nat) (n : N) : bytes :=
  match w with
  | O => []
  | S w' => (n mod 256)%N :: le_enc w' (n / 256)%N
  end.

(** [from_le_bytes]. *)
Fixpoint le_dec (l : bytes) : N :=
  match l with
  | [] => 0%N
  | b :: l' => (b + 256 * le_dec l')%N
  end.

(** Two's complement: a signed integer of [w] bytes as its bit pattern
    ([v as uN]) and back ([n as iN]). *)
Definition to_unsigned (w : nat) (z : Z) : N := Z.to_N (z mod 2 ^ (8 * Z.of_nat w))%Z.
Definition to_signed (w : nat) (n : N) : Z :=
  let m := (2 ^ (8 * Z.of_nat w))%Z in
  let z := (Z.of_N n mod m)%Z in
  if (z <? m / 2)%Z then z else (z - m)%Z.

(** The scalar types that implement [Marshal]/[Unmarshal]/[StatBuffer]:
    src/types/marshal.rs 30-37, src/types/stat_buffer.rs 9-150. *)
Inductive scalar :=
| U8 | U16 | U32 | U64 | U128 | I8 | I16 | I32 | I64 | I128 | F32 | F64 | SBool.

(** src/types/stat_buffer.rs: size of [Buffer] of each type. *)
Definition width (t : scalar) : nat :=
  match t with
  | U8 | I8 | SBool => 1 | U16 | I16 => 2 | U32 | I32 | F32 => 4
  | U64 | I64 | F64 => 8 | U128 | I128 => 16
  end.

Definition is_signed (t : scalar) : bool :=
  match t with I8 | I16 | I32 | I64 | I128 => true | _ => false end.

(** A scalar value is carried as a [Z]: the number itself for integers, the
    bit pattern for floats, 0 or 1 for bool. [scalar_ok t z]: [z] is a value of [t]. *)
Definition scalar_ok (t : scalar) (z : Z) : bool :=
  match t with
  | SBool => (0 <=? z)%Z && (z <=? 1)%Z
  | I8 | I16 | I32 | I64 | I128 =>
      let h := (2 ^ (8 * Z.of_nat (width t) - 1))%Z in ((- h <=? z) && (z <? h))%Z
  | _ => ((0 <=? z) && (z <? 2 ^ (8 * Z.of_nat (width t))))%Z
  end.

(** src/types/marshal.rs 5-37: [Marshal::marshal] into a buffer of the type's
    width. [bool as u8] is 0 or 1. *)
Definition marshal (t : scalar) (z : Z) : bytes :=
  le_enc (width t) (to_unsigned (width t) z).

(** src/types/unmarshal.rs 5-41: [Unmarshal::unmarshal]; bool is "first byte is
    not zero" (line 39). *)
Definition unmarshal (t : scalar) (l : bytes) : Z :=
  match t with
  | SBool => if (hd 0 l =? 0)%N then 0%Z else 1%Z
  | _ => if is_signed t then to_signed (width t) (le_dec l) else Z.of_N (le_dec l)
  end.
