(** What the pool with several threads is stated with. *)
From Verif Require Import Base Pool SpecPool.
Open Scope list_scope.
Open Scope nat_scope.

(** Executions in which never more than [k] threads run at the same time. *)
Inductive few_steps (c : config) (k : nat) : sys -> sys -> Prop :=
| few_refl s : few_steps c k s s
| few_more s s' s'' : few_steps c k s s' -> step c s' s'' -> length (s_threads s'') <= k -> few_steps c k s s''.

(** The same, written down move by move. *)
Fixpoint exec_few (c : config) (k : nat) (l : list amove) (s : sys) : option sys :=
  match l with
  | [] => Some s
  | m :: l' => match move c m s with Some s' => if length (s_threads s') <=? k then exec_few c k l' s' else None | None => None end
  end.
