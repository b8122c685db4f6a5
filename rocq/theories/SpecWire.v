(** What the wire formats mean, independently of the code. *)
From Verif Require Import Base Bytes.

(** A variable-length integer: base-128 digits, least significant first; every
    byte but the last has its top bit set. *)
Fixpoint is_varint (l : bytes) : Prop :=
  match l with
  | [] => False
  | [b] => (b < 128)%N
  | b :: l' => (128 <= b < 256)%N /\ is_varint l'
  end.

(** The number such digits denote. *)
Fixpoint varint_value (l : bytes) : N :=
  match l with
  | [] => 0
  | b :: l' => (b mod 128 + 128 * varint_value l')%N
  end.

(** Little-endian positional value: [bytes] denotes [sum b_i * 256^i]. *)
Fixpoint positional (l : bytes) : Z :=
  match l with
  | [] => 0%Z
  | b :: l' => (Z.of_N b + 256 * positional l')%Z
  end.

(** The Unicode scalar values: all code points except the surrogates. *)
Definition unicode_scalar (c : N) : Prop := (c < 0x110000 /\ ~ (0xD800 <= c <= 0xDFFF))%N.

(** UTF-8 encoding of one scalar value, by length class. *)
Definition utf8_encode (c : N) : bytes :=
  (if c <? 0x80 then [c]
   else if c <? 0x800 then [0xC0 + c / 64; 0x80 + c mod 64]
   else if c <? 0x10000 then [0xE0 + c / 4096; 0x80 + (c / 64) mod 64; 0x80 + c mod 64]
   else [0xF0 + c / 262144; 0x80 + (c / 4096) mod 64; 0x80 + (c / 64) mod 64; 0x80 + c mod 64])%N.

(** Text: the encodings of some scalar values, one after the other. *)
Definition is_utf8 (l : bytes) : Prop :=
  exists cs, Forall unicode_scalar cs /\ l = concat (map utf8_encode cs).
