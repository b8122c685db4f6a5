(** What the pool is stated with: where a connection is, and which connections count. *)
From Verif Require Import Base Pool.
Open Scope list_scope.
Open Scope nat_scope.

(** How often a number is in a list. *)
Fixpoint cnt (i : nat) (l : list nat) : nat :=
  match l with [] => 0 | x :: l' => (if i =? x then 1 else 0) + cnt i l' end.
Definition total {A} (f : A -> nat) (l : list A) : nat := list_sum (map f l).

(** The attempt or connection that a thread has in its hands. *)
Definition in_hands (x : pc) : list attempt :=
  match x with
  | PPoll _ f | PIdle _ f | PBack _ f => [f]
  | PInside _ t | PAdd _ t | RInside t _ | RLen t _ | RPush t | DLoad t | DSub t => [t]
  | RSub (Some t) | RWake (Some t) => [t]
  | _ => []
  end.

(** The connections and attempts there are: being opened, idle, in use, and in threads' hands. *)
Definition connections (s : sys) : list attempt :=
  p_new (s_pool s) ++ p_idle (s_pool s) ++ s_held s ++ flat_map in_hands (s_threads s).

(** A thread that is giving a connection back and has not yet counted that. *)
Definition giving_back (p : pool) (x : pc) : bool :=
  match x with
  | RInside _ _ | RLen _ _ | RPush _ | RSub _ | DSub _ => true
  | DLoad t => p_out p t
  | _ => false
  end.

(** Executions in which no two threads run at the same time, as those of tasks on a single-threaded
    executor: a thread starts only when there is none. *)
Inductive solo_steps (c : config) : sys -> sys -> Prop :=
| solo_refl s : solo_steps c s s
| solo_more s s' s'' : solo_steps c s s' -> step c s' s'' -> length (s_threads s'') <= 1 -> solo_steps c s s''.

(** The threads run until none is left. *)
Fixpoint run_threads (c : config) (n : nat) (s : sys) : sys :=
  match n with
  | O => s
  | S n' => match s_threads s with [] => s | x :: b => run_threads c n' (step_thread c s [] x b) end
  end.
Inductive runs_to (c : config) : sys -> sys -> Prop :=
| runs_done s : s_threads s = [] -> runs_to c s s
| runs_step s x b s' : s_threads s = x :: b -> runs_to c (step_thread c s [] x b) s' -> runs_to c s s'.

(** The tasks woken among some events. *)
Definition woken (l : list event) : list task := flat_map (fun e => match e with Wakes w => [w] | _ => [] end) l.

(** Whether a task's last poll ended in waiting and it has not been woken since. *)
Definition waiting (w : task) (l : list event) : bool :=
  fold_left (fun b e => match e with Waits v => if v =? w then true else b | Wakes v => if v =? w then false else b | _ => b end) l false.

(** Executions written down move by move: a task polls, the k-th thread takes a step, the k-th
    connection in use is dropped with its handle, or without, an attempt comes to its end. *)
Inductive amove := MPoll (w : task) | MRun (k : nat) | MDrop (k : nat) (attached : bool) | MLose (k : nat) | MResolve (f : attempt) (ok : bool).
Definition move (c : config) (m : amove) (s : sys) : option sys :=
  match m with
  | MPoll w => Some (with_threads s (s_threads s ++ [PPop w]))
  | MRun k => match skipn k (s_threads s) with x :: b => Some (step_thread c s (firstn k (s_threads s)) x b) | [] => None end
  | MDrop k att => match skipn k (s_held s) with t :: b => Some (with_held (with_threads s (s_threads s ++ [RInside t att])) (firstn k (s_held s) ++ b)) | [] => None end
  | MLose k => match skipn k (s_held s) with t :: b => Some (with_held (with_threads s (s_threads s ++ [DLoad t])) (firstn k (s_held s) ++ b)) | [] => None end
  | MResolve f ok =>
      if f <? s_next s then
        match s_resolved s f with
        | None => Some (mk_sys (s_pool s) (s_threads s) (s_held s) (s_next s)
                (fun i => if (i =? f)%nat then Some ok else s_resolved s i) (s_waker s)
                (s_events s ++ match s_waker s f with Some w => [Wakes w] | None => [] end))
        | Some _ => None
        end
      else None
  end.
Fixpoint exec (c : config) (l : list amove) (s : sys) : option sys :=
  match l with [] => Some s | m :: l' => match move c m s with Some s' => exec c l' s' | None => None end end.
(** The same with one thread at a time. *)
Fixpoint exec_solo (c : config) (l : list amove) (s : sys) : option sys :=
  match l with
  | [] => Some s
  | m :: l' => match move c m s with Some s' => if length (s_threads s') <=? 1 then exec_solo c l' s' else None | None => None end
  end.
