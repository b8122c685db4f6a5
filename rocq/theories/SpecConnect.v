(** When a future settles, independently of who asks it. *)
From Verif Require Import Base Connect.
Open Scope nat_scope.

(** Asked for the k-th time, counted from 0, and no earlier, the future answers [r]. *)
Definition settles {A E} (f : future A E) (k : nat) (r : outcome A E) : Prop :=
  f k = Ready r /\ forall j, j < k -> f j = Pending.
Definition fails {A E} (f : future A E) : Prop := exists k e, settles f k (Failed e).
