(** The pool of connections: src/pool/mod.rs, src/pool/futures/get_handle.rs, and the parts of
    src/io/transport.rs and src/lib.rs that count connections. Every access to a shared queue or
    counter is a step of its own, so that threads can be interleaved between any two of them. *)
From Verif Require Import Base.
Open Scope list_scope.
Open Scope nat_scope.

(** A connection attempt and the connection that comes out of it have the same number. A task is
    known by the number of its waker. *)
Definition attempt := nat.
Definition task := nat.

(** src/pool/mod.rs 24-31, 101-108: [Inner] and [Pool]. [new] holds at most one element (162), [idle]
    at most [max] (163). [p_out] says which connections have [inside] false (src/io/transport.rs
    68-71). [ongoing] is an integer here: below zero means that the counter has wrapped. *)
Record pool := mk_pool {
  p_new : list attempt; p_idle : list attempt; p_tasks : list task; p_ongoing : Z; p_out : attempt -> bool }.
Record config := mk_config { c_min : nat; c_max : nat }.

Definition set_new (p : pool) (l : list attempt) : pool := mk_pool l (p_idle p) (p_tasks p) (p_ongoing p) (p_out p).
Definition set_idle (p : pool) (l : list attempt) : pool := mk_pool (p_new p) l (p_tasks p) (p_ongoing p) (p_out p).
Definition set_tasks (p : pool) (l : list task) : pool := mk_pool (p_new p) (p_idle p) l (p_ongoing p) (p_out p).
Definition set_ongoing (p : pool) (z : Z) : pool := mk_pool (p_new p) (p_idle p) (p_tasks p) z (p_out p).
Definition set_out (p : pool) (t : attempt) (b : bool) : pool :=
  mk_pool (p_new p) (p_idle p) (p_tasks p) (p_ongoing p) (fun i => if (i =? t)%nat then b else p_out p i).

(** Where a thread is.

    In [Pool::poll] (src/pool/mod.rs 192-215, with [handle_futures] 223-242 and [take_conn] 244-253)
    for a task: *)
Inductive pc :=
| PPop (w : task)                      (* 224: take the attempt out of [new] *)
| PPoll (w : task) (f : attempt)       (* 225: poll it *)
| PIdle (w : task) (f : attempt)       (* 227: it is a connection: put it into [idle] *)
| PBack (w : task) (f : attempt)       (* 233: it is not ready: put it back *)
| PTake (w : task)                     (* 245: take a connection out of [idle] *)
| PInside (w : task) (t : attempt)     (* 247 *)
| PAdd (w : task) (t : attempt)        (* 248: count it *)
| PNewLen (w : task)                   (* 42 *)
| POngoing (w : task) (n : Z)          (* 43 *)
| PIdleLen (w : task) (n : Z)          (* 44, 201 *)
| PNew (w : task)                      (* 201: put a new attempt into [new] *)
| PWait (w : task)                     (* 204: queue the waker *)
(** In [Pool::return_conn] (255-270), from the [Drop] of a handle that has its connection
    (279-294), with whether the handle was attached: *)
| RInside (t : attempt) (attached : bool)   (* 260 *)
| RLen (t : attempt) (attached : bool)      (* 262 *)
| RPush (t : attempt)                       (* 263 *)
| RSub (drop : option attempt)              (* 265 *)
| RWake (drop : option attempt)             (* 267-269 *)
(** In the [Drop] of a connection's status (src/io/transport.rs 128-140), with [release_conn]
    (src/pool/mod.rs 34-39): *)
| DLoad (t : attempt)
| DSub (t : attempt)
| DWake.

(** What a step of a thread has to say. *)
Inductive event :=
| Nothing | Registers (f : attempt) (w : task) | Wakes (w : task)
| Gives (w : task) (t : attempt)  (* [Poll::Ready(Ok(client))] *)
| Refuses (w : task)              (* [Poll::Ready(Err(err))] *)
| Waits (w : task)                (* [Poll::Pending] *)
| Crashes.                        (* the [unwrap] of 227 *)

(** [ArrayQueue::push]. *)
Definition queue_push (cap : nat) (l : list attempt) (x : attempt) : option (list attempt) :=
  if length l <? cap then Some (l ++ [x]) else None.

(** One step; [fresh] is the number for a new attempt and [resolved] what has become of an attempt.
    The thread goes on from the state given, or is through. *)
Definition step_pc (c : config) (fresh : attempt) (resolved : attempt -> option bool) (p : pool) (x : pc)
  : pool * option pc * event :=
  match x with
  | PPop w => match p_new p with [] => (p, Some (PTake w), Nothing) | f :: l => (set_new p l, Some (PPoll w f), Nothing) end
  | PPoll w f =>
      match resolved f with
      | None => (p, Some (PBack w f), Registers f w)
      | Some true => (p, Some (PIdle w f), Nothing)
      | Some false => (p, None, Refuses w)
      end
  | PIdle w f =>
      match queue_push (c_max c) (p_idle p) f with
      | Some l => (set_idle p l, Some (PTake w), Nothing)
      | None => (p, None, Crashes)
      end
  | PBack w f =>
      match queue_push 1 (p_new p) f with
      | Some l => (set_new p l, Some (PTake w), Nothing)
      | None => (p, Some (PTake w), Nothing)
      end
  | PTake w => match p_idle p with [] => (p, Some (PNewLen w), Nothing) | t :: l => (set_idle p l, Some (PInside w t), Nothing) end
  | PInside w t => (set_out p t true, Some (PAdd w t), Nothing)
  | PAdd w t => (set_ongoing p (p_ongoing p + 1), None, Gives w t)
  | PNewLen w => (p, Some (POngoing w (Z.of_nat (length (p_new p)))), Nothing)
  | POngoing w n => (p, Some (PIdleLen w (n + p_ongoing p)), Nothing)
  | PIdleLen w n =>
      (p, Some (if (n + Z.of_nat (length (p_idle p)) <? Z.of_nat (c_max c))%Z then PNew w else PWait w), Nothing)
  | PNew w =>
      match queue_push 1 (p_new p) fresh with
      | Some l => (set_new p l, Some (PPop w), Nothing)
      | None => (p, Some (PWait w), Nothing)
      end
  | PWait w => (set_tasks p (p_tasks p ++ [w]), None, Waits w)
  | RInside t a => (set_out p t false, Some (RLen t a), Nothing)
  | RLen t a => (p, Some (if (length (p_idle p) <? c_min c) && a then RPush t else RSub (Some t)), Nothing)
  | RPush t =>
      match queue_push (c_max c) (p_idle p) t with
      | Some l => (set_idle p l, Some (RSub None), Nothing)
      | None => (p, Some (RSub None), Nothing)
      end
  | RSub d => (set_ongoing p (p_ongoing p - 1), Some (RWake d), Nothing)
  | RWake d =>
      match p_tasks p with
      | w :: l => (set_tasks p l, Some (RWake d), Wakes w)
      | [] => (p, match d with Some t => Some (DLoad t) | None => None end, Nothing)
      end
  | DLoad t => (p, if p_out p t then Some (DSub t) else None, Nothing)
  | DSub t => (set_ongoing p (p_ongoing p - 1), Some DWake, Nothing)
  | DWake => match p_tasks p with w :: l => (set_tasks p l, Some DWake, Wakes w) | [] => (p, None, Nothing) end
  end.

(** Everything: the pool, the running threads, the connections in users' hands, the number for the
    next attempt, what has become of the attempts, the task that each attempt wakes, and what the
    threads have said, in order. *)
Record sys := mk_sys {
  s_pool : pool; s_threads : list pc; s_held : list attempt; s_next : attempt;
  s_resolved : attempt -> option bool; s_waker : attempt -> option task; s_events : list event }.

Definition with_pool (s : sys) (p : pool) : sys :=
  mk_sys p (s_threads s) (s_held s) (s_next s) (s_resolved s) (s_waker s) (s_events s).
Definition with_threads (s : sys) (l : list pc) : sys :=
  mk_sys (s_pool s) l (s_held s) (s_next s) (s_resolved s) (s_waker s) (s_events s).
Definition with_held (s : sys) (l : list attempt) : sys :=
  mk_sys (s_pool s) (s_threads s) l (s_next s) (s_resolved s) (s_waker s) (s_events s).

(** What an event changes outside of the pool. A new attempt's number is used up whether it finds
    room or not. *)
Definition say (s : sys) (e : event) : sys :=
  mk_sys (s_pool s) (s_threads s)
    (match e with Gives _ t => t :: s_held s | _ => s_held s end)
    (s_next s) (s_resolved s)
    (match e with Registers f w => fun i => if (i =? f)%nat then Some w else s_waker s i | _ => s_waker s end)
    (s_events s ++ match e with Nothing | Registers _ _ => [] | e => [e] end).
Definition next_after (x : pc) (n : attempt) : attempt := match x with PNew _ => S n | _ => n end.
Definition step_thread (c : config) (s : sys) (a : list pc) (x : pc) (b : list pc) : sys :=
  let '(p, y, e) := step_pc c (s_next s) (s_resolved s) (s_pool s) x in
  let s' := say s e in
  mk_sys p (a ++ match y with Some y => [y] | None => [] end ++ b) (s_held s') (next_after x (s_next s))
    (s_resolved s') (s_waker s') (s_events s').

(** src/pool/mod.rs 161-176: a new pool. *)
Definition pool_new : pool := mk_pool [] [] [] 0 (fun _ => false).
Definition sys_new : sys := mk_sys pool_new [] [] 0 (fun _ => None) (fun _ => None) [].

(** What can happen: a task polls [GetHandle] (src/pool/futures/get_handle.rs 24-30), a thread takes
    a step, a user drops a handle that has its connection, a connection that is in use is dropped
    (with its handle's [inner] empty: src/pool/mod.rs 281 does nothing then), or an attempt comes to
    its end and wakes the task that polled it last. *)
Inductive step (c : config) : sys -> sys -> Prop :=
| step_poll s w : step c s (with_threads s (s_threads s ++ [PPop w]))
| step_run s a x b : s_threads s = a ++ x :: b -> step c s (step_thread c s a x b)
| step_drop s t attached h h' : s_held s = h ++ t :: h' ->
    step c s (with_held (with_threads s (s_threads s ++ [RInside t attached])) (h ++ h'))
| step_lose s t h h' : s_held s = h ++ t :: h' ->
    step c s (with_held (with_threads s (s_threads s ++ [DLoad t])) (h ++ h'))
| step_resolve s f ok : f < s_next s -> s_resolved s f = None ->
    step c s (mk_sys (s_pool s) (s_threads s) (s_held s) (s_next s)
                (fun i => if (i =? f)%nat then Some ok else s_resolved s i) (s_waker s)
                (s_events s ++ match s_waker s f with Some w => [Wakes w] | None => [] end)).

Inductive steps (c : config) : sys -> sys -> Prop :=
| steps_refl s : steps c s s
| steps_more s s' s'' : steps c s s' -> step c s' s'' -> steps c s s''.

(** src/pool/mod.rs 272-276: [get_addr]; the counter wraps. A pool without addresses divides by
    zero. *)
Definition get_addr (hosts : nat) (counter : N) : res (nat * N) :=
  if hosts =? 0 then Panic PArith
  else Ok (N.to_nat (counter mod N.of_nat hosts), ((counter + 1) mod 2 ^ 64)%N).
