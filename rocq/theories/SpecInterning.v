(** What C108 talks of. *)
From Verif Require Import Base Bytes Types.

(** A type is inside another one, or is it. *)
Inductive part (u : sqltype) : sqltype -> Prop :=
| part_self : part u u
| part_nullable t : part u t -> part u (TNullable t)
| part_array t : part u t -> part u (TArray t)
| part_low t : part u t -> part u (TLowCardinality t)
| part_agg f t : part u t -> part u (TAgg f t)
| part_key k v : part u k -> part u (TMap k v)
| part_value k v : part u v -> part u (TMap k v).

(** The twelve types that are constants of the program. *)
Definition twelve (t : sqltype) : Prop :=
  t = TString \/ t = TDate \/ exists s, t = TNum s /\ s <> SBool /\ s <> U128 /\ s <> I128.
