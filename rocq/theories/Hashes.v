(** What values and cells feed a hasher: src/types/value.rs 61-81, src/types/value_ref.rs 58-75. *)
From Verif Require Import Base Bytes Wire Types.
Open Scope list_scope.

(** Each integer is fed as its bytes, a byte string as its length and its bytes (std's [Hash]). *)
Definition hash_bytes (b : bytes) : bytes := marshal U64 (Z.of_nat (length b)) ++ b.

(** src/types/value.rs 61-81. A pair is fed one part after the other; a point in time is hashed
    without its zone. *)
Definition value_hash (v : value) : res bytes :=
  match v with
  | VString b => Ok (hash_bytes b)
  | VNum ((I8 | I16 | I32 | I64 | I128 | U8 | U16 | U32 | U64 | U128) as s) z => Ok (marshal s z)
  | VDate d => Ok (marshal U16 (Z.of_N d))
  | VDateTime t _ => Ok (marshal U32 (Z.of_N t))
  | VDateTime64 t p _ => Ok (marshal I64 t ++ marshal U32 (Z.of_N p))
  | _ => Panic PUnimplemented
  end.

(** src/types/value_ref.rs 58-75. *)
Definition vref_hash (v : value) : res bytes :=
  match v with
  | VString b => Ok (hash_bytes b)
  | VNum ((I8 | I16 | I32 | I64 | I128 | U8 | U16 | U32 | U64 | U128) as s) z => Ok (marshal s z)
  | _ => Panic PUnimplemented
  end.
