(** Histories of pools in which references are followed. *)
From Verif Require Import Base Pool SpecPool PoolFree.
Open Scope list_scope. Open Scope nat_scope.

(** One thread at a time; and connections are given back or lost only while none is being opened. *)
Inductive calm_steps (c : config) : bsys -> bsys -> Prop :=
| calm_refl y : calm_steps c y y
| calm_more y y' y'' : calm_steps c y y' -> bstep c y' y'' ->
    length (s_threads (y_sys y'')) <= 1 ->
    (length (s_held (y_sys y'')) < length (s_held (y_sys y')) -> p_new (s_pool (y_sys y')) = []) ->
    calm_steps c y y''.

(** One thread at a time. *)
Inductive bsolo_steps (c : config) : bsys -> bsys -> Prop :=
| bsolo_refl y : bsolo_steps c y y
| bsolo_more y y' y'' : bsolo_steps c y y' -> bstep c y' y'' -> length (s_threads (y_sys y'')) <= 1 -> bsolo_steps c y y''.

(** Nobody is inside the pool any more, or comes back. *)
Inductive unused_steps (c : config) : bsys -> bsys -> Prop :=
| unused_refl y : unused_steps c y y
| unused_more y y' y'' : unused_steps c y y' -> bstep c y' y'' -> s_threads (y_sys y'') = [] -> unused_steps c y y''.

(** The moves of [SpecPool.move], with references. *)
Definition bmove (c : config) (m : amove) (y : bsys) : option bsys :=
  match move c m (y_sys y) with
  | Some s' =>
      Some (mk_bsys s' match m with
                       | MRun k => match skipn k (s_threads (y_sys y)) with x :: _ => rebind (y_sys y) x (y_bound y) | [] => y_bound y end
                       | _ => y_bound y
                       end)
  | None => None
  end.
(** One thread at a time; if [calm], handles are given back or lost only while no connection is being opened. *)
Definition allowed (calm : bool) (m : amove) (y : bsys) : bool :=
  match m with
  | MDrop _ _ | MLose _ => negb calm || match p_new (s_pool (y_sys y)) with [] => true | _ => false end
  | _ => true
  end.
Fixpoint bexec (calm : bool) (c : config) (l : list amove) (y : bsys) : option bsys :=
  match l with
  | [] => Some y
  | m :: l' =>
      match bmove c m y with
      | Some y' => if allowed calm m y && (length (s_threads (y_sys y')) <=? 1) then bexec calm c l' y' else None
      | None => None
      end
  end.
