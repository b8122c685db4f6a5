(** What C112 talks of. *)
From Verif Require Import Base Bytes Types Options Deadlines.
Open Scope N_scope.

(** An operation comes to [x]: to its own end if that is in time, and to a timeout at the time that is set otherwise; to its own end if none is set. *)
Inductive keeps {A} (limit : option N) (body : eventually (res A)) : eventually (res A) -> Prop :=
| KEnds t r : body = After t r -> (forall d, limit = Some d -> t <= d) -> keeps limit body (After t r)
| KCut d : limit = Some d -> (forall t r, body = After t r -> d < t) -> keeps limit body (After d (Err ETimeout))
| KEver : limit = None -> body = Never -> keeps limit body Never.

(** A new connection answers the ping that comes after it. The attempts before it fail, so it is the second ping. *)
Definition answers (o : opts) (ping_ : nat -> eventually (res unit)) : Prop :=
  exists t, ping_ 1%nat = After t (Ok tt) /\ t <= op_ping_timeout o.
