(** Property C114: who asks while a connection is idle gets it. *)
From Coq Require Import Lia.
From Verif Require Import Base Pool SpecPool PoolProofs PropPool.
Open Scope list_scope.
Open Scope nat_scope.

Lemma polled_steps c s w : s_threads s = [] -> solo_steps c sys_new s -> solo_steps c sys_new (with_threads s [PPop w]).
Proof. intros E S. eapply solo_more; [exact S| |cbn; lia]. pose proof (step_poll c s w) as P. rewrite E in P. exact P. Qed.
Lemma ran_steps c s s' : runs_to c s s' -> length (s_threads s) <= 1 -> solo_steps c sys_new s -> solo_steps c sys_new s'.
Proof.
  induction 1 as [s E|s x b s' E R IH]; intros L S; [exact S|]. apply IH.
  - rewrite E in L. cbn [length] in L. destruct b; [|cbn in L; lia]. unfold step_thread.
    destruct (step_pc c (s_next s) (s_resolved s) (s_pool s) x) as [[p y] e]. cbn [s_threads app]. destruct y; cbn; lia.
  - rewrite E in L. cbn [length] in L. destruct b; [|cbn in L; lia]. eapply solo_more; [exact S|apply step_run; rewrite E; reflexivity|].
    unfold step_thread. destruct (step_pc c (s_next s) (s_resolved s) (s_pool s) x) as [[p y] e]. cbn [s_threads app]. destruct y; cbn; lia.
Qed.

Ltac runs1 := eapply runs_step; [reflexivity|]; unfold step_thread, step_pc;
  cbn [s_pool s_threads s_held s_next s_resolved s_waker s_events with_threads with_pool p_new p_idle p_tasks p_ongoing p_out set_new set_idle set_out set_ongoing say next_after app].

(** C114, the part that holds, with one thread at a time: the connection that has been idle for longest is given, none is opened. What is missing is false:
    an attempt of somebody else that has failed since is reported instead, below. *)
Theorem c114_given_partial : forall c s w t l, solo_steps c sys_new s -> s_threads s = [] -> p_idle (s_pool s) = t :: l ->
  (forall f, In f (p_new (s_pool s)) -> s_resolved s f <> Some false) ->
  exists s', runs_to c (with_threads s [PPop w]) s' /\ s_threads s' = [] /\ s_events s' = s_events s ++ [Gives w t] /\
    s_held s' = t :: s_held s /\ s_next s' = s_next s /\ length (connections s') = length (connections s).
Proof.
  intros c s w t l So E I F. pose proof (bounded_solo c s So) as (B1 & _ & _).
  assert (1 <= c_max c) as Mx by (rewrite length_connections, I in B1; cbn [length] in B1; lia).
  destruct (somebody_solo c s Mx So) as [N1 _]. rewrite length_connections, E in B1.
  destruct s as [p th he nx rs wk ev]. destruct p as [nw il tk on out]. cbn [s_pool s_threads s_held s_next s_resolved s_waker s_events p_new p_idle] in *. subst th il.
  destruct nw as [|f [|]]; [| |cbn in N1; lia].
  - eexists. split.
    + runs1. runs1. runs1. runs1. apply runs_done. reflexivity.
    + cbn [s_threads s_events s_held s_next]. rewrite ?app_nil_r. repeat split. rewrite !length_connections. cbn [s_pool s_threads s_held p_new p_idle set_new set_idle set_out set_ongoing length total map list_sum fold_right]. lia.
  - specialize (F f (or_introl eq_refl)). destruct (rs f) as [[|]|] eqn:R; [|congruence|].
    + assert (Q : queue_push (c_max c) (t :: l) f = Some ((t :: l) ++ [f])).
      { unfold queue_push. cbn [length total map list_sum fold_right] in *. destruct (Nat.ltb_spec (Datatypes.S (length l)) (c_max c)); [reflexivity|lia]. }
      eexists. split.
      * runs1. runs1. rewrite R. runs1. rewrite Q. runs1. runs1. runs1. apply runs_done. reflexivity.
      * cbn [s_threads s_events s_held s_next]. rewrite ?app_nil_r. repeat split. rewrite !length_connections.
        cbn [s_pool s_threads s_held p_new p_idle set_new set_idle set_out set_ongoing length total map list_sum fold_right]. rewrite app_length. cbn [length]. lia.
    + eexists. split.
      * runs1. runs1. rewrite R. runs1. cbn [queue_push length Nat.ltb Nat.leb app]. runs1. runs1. runs1. apply runs_done. reflexivity.
      * cbn [s_threads s_events s_held s_next]. rewrite ?app_nil_r. repeat split. rewrite !length_connections.
        cbn [s_pool s_threads s_held p_new p_idle set_new set_idle set_out set_ongoing length total map list_sum fold_right]. lia.
Qed.
Print Assumptions c114_given_partial.

(** An attempt of somebody else that has failed: its error is reported to whoever asks next, the idle connections stay where they are, and are given to those who
    ask after that. *)
Theorem c114_failed_refuted : forall c s w f, solo_steps c sys_new s -> s_threads s = [] -> p_new (s_pool s) = [f] -> s_resolved s f = Some false ->
  exists s', runs_to c (with_threads s [PPop w]) s' /\ solo_steps c sys_new s' /\ s_threads s' = [] /\ s_events s' = s_events s ++ [Refuses w] /\
    p_idle (s_pool s') = p_idle (s_pool s) /\ p_new (s_pool s') = [] /\ s_held s' = s_held s.
Proof.
  intros c s w f So E N R.
  assert (X : exists s', runs_to c (with_threads s [PPop w]) s' /\ s_threads s' = [] /\ s_events s' = s_events s ++ [Refuses w] /\
    p_idle (s_pool s') = p_idle (s_pool s) /\ p_new (s_pool s') = [] /\ s_held s' = s_held s).
  { destruct s as [p th he nx rs wk ev]. destruct p as [nw il tk on out]. cbn [s_pool s_threads s_held s_next s_resolved s_waker s_events p_new p_idle] in *. subst th nw.
    eexists. split.
    - runs1. runs1. rewrite R. apply runs_done. reflexivity.
    - cbn [s_threads s_events s_held s_next s_pool p_idle p_new set_new]. rewrite ?app_nil_r. repeat split. }
  destruct X as (s' & Rn & X). exists s'. split; [exact Rn|]. split; [|exact X].
  eapply ran_steps; [exact Rn|cbn; lia|]. apply polled_steps; [exact E|exact So].
Qed.
Print Assumptions c114_failed_refuted.

(** A pool for two: one connection is idle after being given back. *)
Definition one_idle : list amove :=
  [MPoll 1] ++ runs 0 15 ++ [MResolve 0 true; MPoll 1] ++ runs 0 6 ++ [MDrop 0 true] ++ runs 0 6.
Example c114_case : exists s, exec_solo (mk_config 1 2) one_idle sys_new = Some s /\ solo_steps (mk_config 1 2) sys_new s /\
  s_threads s = [] /\ p_idle (s_pool s) = [0] /\ p_new (s_pool s) = [].
Proof.
  destruct (exec_solo (mk_config 1 2) one_idle sys_new) as [s|] eqn:E; [|exfalso; revert E; vm_compute; discriminate].
  exists s. split; [reflexivity|]. split; [apply (exec_solo_steps _ _ _ _ E)|]. vm_compute in E. injection E as <-. repeat split.
Qed.

(** Task 1 has a connection, task 2 asks for a second one, task 1 gives its own back and the attempt fails: task 3, which asks now, is told of that although a
    connection is idle. *)
Definition others_failure : list amove :=
  [MPoll 1] ++ runs 0 15 ++ [MResolve 0 true; MPoll 1] ++ runs 0 6 ++ [MPoll 2] ++ runs 0 14 ++ [MDrop 0 true] ++ runs 0 7 ++ [MResolve 2 false].
Example c114_failed_case : exists s, exec_solo (mk_config 1 2) others_failure sys_new = Some s /\ solo_steps (mk_config 1 2) sys_new s /\
  s_threads s = [] /\ p_idle (s_pool s) = [0] /\ p_new (s_pool s) = [2] /\ s_resolved s 2 = Some false /\ s_held s = [].
Proof.
  destruct (exec_solo (mk_config 1 2) others_failure sys_new) as [s|] eqn:E; [|exfalso; revert E; vm_compute; discriminate].
  exists s. split; [reflexivity|]. split; [apply (exec_solo_steps _ _ _ _ E)|]. vm_compute in E. injection E as <-. repeat split.
Qed.
