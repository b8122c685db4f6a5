(** When a pool goes away: who holds a reference to [Inner] (src/pool/mod.rs). *)
From Verif Require Import Base Pool.
Open Scope list_scope. Open Scope nat_scope.

(** The pool, and which attempts and connections have a [Pool] in them. A new attempt has one
    (src/pool/mod.rs 217-221), which becomes the [PoolBinding::Detached] of its client (src/lib.rs
    286-293); taking a connection binds it (src/pool/mod.rs 246), giving it back unbinds it (259). *)
Record bsys := mk_bsys { y_sys : sys; y_bound : attempt -> bool }.
Definition bound_new : bsys := mk_bsys sys_new (fun _ => true).

Definition rebind (s : sys) (x : pc) (b : attempt -> bool) : attempt -> bool :=
  match x with
  | PTake _ =>
      match p_idle (s_pool s) with
      | [] => b
      | t :: _ => fun i => if i =? t then true else b i
      end
  | RInside t _ => fun i => if i =? t then false else b i
  | _ => b
  end.

(** The steps of [Pool.step], with the references. *)
Inductive bstep (c : config) : bsys -> bsys -> Prop :=
| bstep_poll s b w : bstep c (mk_bsys s b) (mk_bsys (with_threads s (s_threads s ++ [PPop w])) b)
| bstep_run s b l1 x l2 : s_threads s = l1 ++ x :: l2 ->
    bstep c (mk_bsys s b) (mk_bsys (step_thread c s l1 x l2) (rebind s x b))
| bstep_drop s b t attached h h' : s_held s = h ++ t :: h' ->
    bstep c (mk_bsys s b) (mk_bsys (with_held (with_threads s (s_threads s ++ [RInside t attached])) (h ++ h')) b)
| bstep_lose s b t h h' : s_held s = h ++ t :: h' ->
    bstep c (mk_bsys s b) (mk_bsys (with_held (with_threads s (s_threads s ++ [DLoad t])) (h ++ h')) b)
| bstep_resolve s b f ok : f < s_next s -> s_resolved s f = None ->
    bstep c (mk_bsys s b)
      (mk_bsys (mk_sys (s_pool s) (s_threads s) (s_held s) (s_next s)
                 (fun i => if (i =? f)%nat then Some ok else s_resolved s i) (s_waker s)
                 (s_events s ++ match s_waker s f with Some w => [Wakes w] | None => [] end)) b).

(** The references to [Inner] that come from [Inner] itself: what is in [new] and what is in [idle]. Others are in
    handles in use, in threads that are inside the pool, and in the [Pool]s and [GetHandle]s of the
    program; when all of those are gone, the [Arc] is freed if there are none of these. *)
Definition references (y : bsys) : list attempt :=
  p_new (s_pool (y_sys y)) ++ filter (y_bound y) (p_idle (s_pool (y_sys y))).
