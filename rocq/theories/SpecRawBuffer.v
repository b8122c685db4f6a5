(** What C113 talks of. *)
From Verif Require Import Base Bytes Transport RawBuffer.
Open Scope list_scope.
Open Scope nat_scope.

(** The vector holds these bytes, all of them written; what is beyond its length cannot be seen. *)
Definition holds (v : vec) (b : bytes) : Prop := v_len v <= length (v_cells v) /\ firstn (v_len v) (v_cells v) = map Some b.

(** More rounds than there are bytes and events. *)
Fixpoint enough (evs : list rd_event) : nat :=
  match evs with [] => 1 | RData d :: l => S (length d + enough l) | _ :: l => S (enough l) end.

(** How many bytes come. *)
Fixpoint announced (evs : list rd_event) : nat :=
  match evs with [] => 0 | RData d :: l => length d + announced l | _ :: l => announced l end.
