(** What happens before an operation, as the attempts that were made. *)
From Verif Require Import Base Bytes Types.
Open Scope list_scope.
Open Scope nat_scope.

(** A check of the connection at hand, or an attempt to get another one, with its outcome. *)
Inductive attempt := Checked (r : res unit) | Connected (r : res unit).

(** How many attempts to get a connection were made, and how many failed. *)
Fixpoint connections (t : list attempt) : nat :=
  match t with [] => 0 | Connected _ :: t => S (connections t) | Checked _ :: t => connections t end.
Fixpoint refused (t : list attempt) : nat :=
  match t with [] => 0 | Connected (Err _) :: t => S (refused t) | _ :: t => refused t end.

(** In the right order, where [due] tells whether a check is next: a check of each connection, and nothing after one that succeeds;
    another connection after a check that fails and after an attempt that fails; nothing after a panic. *)
Inductive orderly : bool -> list attempt -> Prop :=
| o_stop due : orderly due []
| o_passed : orderly true [Checked (Ok tt)]
| o_checked e t : orderly false t -> orderly true (Checked (Err e) :: t)
| o_connected t : orderly true t -> orderly false (Connected (Ok tt) :: t)
| o_refused e t : orderly false t -> orderly false (Connected (Err e) :: t)
| o_panic_check p : orderly true [Checked (Panic p)]
| o_panic_connect p : orderly false [Connected (Panic p)].

(** The attempts are what checking and connecting give, one after the other. *)
Inductive happened {K} (check connect : K -> res unit * K) : K -> list attempt -> K -> Prop :=
| h_nothing k : happened check connect k [] k
| h_check k r k1 t k' : check k = (r, k1) -> happened check connect k1 t k' -> happened check connect k (Checked r :: t) k'
| h_connect k r k1 t k' : connect k = (r, k1) -> happened check connect k1 t k' -> happened check connect k (Connected r :: t) k'.

Definition last_was (t : list attempt) (a : attempt) : Prop := exists t0, t = t0 ++ [a].
