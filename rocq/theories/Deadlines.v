(** How long operations take: the deadlines of src/lib.rs 255-302, 331-366, 381-478 and 623-642, src/types/query_result/mod.rs 28-49, and the pauses of
    src/retry_guard.rs. *)
From Verif Require Import Base Bytes Types Options.
Open Scope list_scope.
Open Scope N_scope.

(** What a future comes to: a result after so many nanoseconds, or none ever. The clock is ideal: who can go on goes on at once. *)
Inductive eventually (A : Type) := After (t : N) (r : A) | Never.
Arguments After {A} t r.
Arguments Never {A}.

(** src/lib.rs 636-642 ([tokio::time::timeout]: the future is polled first, then the clock is looked at) with src/errors/mod.rs 189-194. Durations that
    cannot be added to the time of day, which tokio cuts to thirty years, are left out. *)
Definition within {A} (d : N) (x : eventually (res A)) : eventually (res A) :=
  match x with
  | After t r => if t <=? d then After t r else After d (Err ETimeout)
  | Never => After d (Err ETimeout)
  end.

(** What the futures inside come to without a deadline is given. lib.rs 255-302: [open]. *)
Definition open_in {A} (o : opts) (body : eventually (res A)) : eventually (res A) := within (op_connection_timeout o) body.
(** lib.rs 331-366: [ping]. *)
Definition ping_in {A} (o : opts) (body : eventually (res A)) : eventually (res A) := within (op_ping_timeout o) body.
(** lib.rs 390-433: [execute_]. *)
Definition execute_in {A} (o : opts) (body : eventually (res A)) : eventually (res A) :=
  within (match op_execute_timeout o with Some d => d | None => 0 end) body.
(** lib.rs 447-478: [insert_]. *)
Definition insert_in {A} (o : opts) (body : eventually (res A)) : eventually (res A) :=
  within (match op_insert_timeout o with Some d => d | None => 0 end) body.
(** query_result/mod.rs 28-49: [fetch_all]. *)
Definition fetch_all_in {A} (o : opts) (body : eventually (res A)) : eventually (res A) := within (op_query_timeout o) body.

Section Retry.
Variable o : opts.
(** Whether the handle is of a pool: then a new connection is asked of the pool (retry_guard.rs 63-64), which has a deadline for opening connections but
    none for waiting until one is free. *)
Variable pooled : bool.
(** What the n-th ping, and the n-th attempt to get another connection, come to without a deadline. *)
Variable ping_ : nat -> eventually (res unit).
Variable get_ : nat -> eventually (res unit).
Definition get_in (j : nat) : eventually (res unit) := if pooled then get_ j else open_in o (get_ j).

(** retry_guard.rs 7-54, and src/lib.rs 575-593, which has no deadline of its own: [i] pings and [j] attempts have been, and it is the time [t]. [inr]: the
    time after that many rounds if it is still at it. *)
Fixpoint retry (fuel : nat) (attempt : N) (skip : bool) (i j : nat) (t : N) : eventually (res unit) + N :=
  match fuel with
  | O => inr t
  | S n =>
      let again (i : nat) (t : N) :=
        match get_in j with
        | Never => inl Never
        | After u (Ok _) => retry n attempt false i (S j) (t + u)
        | After u (Panic p) => inl (After (t + u) (Panic p))
        | After u (Err e) =>
            if op_send_retries o <=? attempt then inl (After (t + u) (Err e))
            else retry n (attempt + 1) true i (S j) (t + u + op_retry_timeout o)
        end in
      if skip then again i t
      else
        match ping_in o (ping_ i) with
        | Never => inl Never
        | After u (Err e) => if op_send_retries o <=? attempt then inl (After (t + u) (Err e)) else again (S i) (t + u)
        | After u x => inl (After (t + u) x)
        end
  end.
Definition check_in (fuel : nat) : eventually (res unit) + N := retry fuel 0 false 0 0 0.
End Retry.
