(** C34 with several threads: how far the pool can exceed its maximum. *)
From Verif Require Import Base Pool SpecPool SpecPoolMany PoolProofs.
Open Scope list_scope.
Open Scope nat_scope.

(** A thread that has read the counter and may still open a connection for it. *)
Definition window (c : config) (x : pc) : nat :=
  match x with PIdleLen _ n => if (n <? Z.of_nat (c_max c))%Z then 1 else 0 | PNew _ => 1 | _ => 0 end.
Definition has_read (x : pc) : Prop := match x with POngoing _ n => (0 <= n)%Z | PIdleLen _ n => (0 <= n)%Z | _ => True end.

Record many (c : config) (k : nat) (s : sys) : Prop := mk_many {
  ma_sum : length (connections s) + total (window c) (s_threads s) <= 2 * c_max c + k;
  ma_new : length (p_new (s_pool s)) <= 1;
  ma_idle : length (p_idle (s_pool s)) <= c_max c;
  ma_read : Forall has_read (s_threads s) }.

Lemma one_each c x : length (in_hands x) + window c x <= 1.
Proof. destruct x; try (destruct drop); cbn [in_hands window length]; try lia. destruct (_ <? _)%Z; lia. Qed.
Lemma total_each c l : total (fun x => length (in_hands x)) l + total (window c) l <= length l.
Proof. induction l as [|x l IH]; [apply le_n|]. rewrite !total_cons. pose proof (one_each c x). cbn [length]. lia. Qed.

Lemma many_thread c k s a x b : s_threads s = a ++ x :: b -> length (s_threads s) <= k -> sound s -> many c k s -> many c k (step_thread c s a x b).
Proof.
  intros E Le Sd [M1 M2 M3 M4]. pose proof (so_count _ Sd) as C. rewrite giving_back_owing in C. clear Sd. unfold step_thread.
  pose proof (total_each c a) as Ta. pose proof (total_each c b) as Tb.
  destruct s as [p th h n rs wk ev]. destruct p as [nw il tk og out].
  cbn [s_pool s_threads s_held s_next s_resolved s_waker s_events p_new p_idle p_tasks p_ongoing p_out] in *. subst th.
  rewrite length_connections in M1. cbn [s_pool s_threads s_held p_new p_idle] in M1.
  apply Forall_app in M4 as [Fa Fb]. inversion Fb as [|? ? Fx Fb']; subst. clear Fb.
  rewrite ?total_app, ?total_cons, ?app_length in *. cbn [length] in *.
  destruct x; cbn [step_pc p_new p_idle p_tasks p_ongoing p_out has_read] in *; cases_pc nw il tk rs.
  all: try match goal with Q : queue_push _ _ _ = None |- _ => apply queue_push_none in Q end.
  all: constructor; rewrite ?length_connections;
    cbn [say s_pool s_threads s_held p_new p_idle set_new set_idle set_tasks set_ongoing set_out Pool.set_out app] in *;
    rewrite ?total_app, ?total_cons, ?total_nil, ?app_length in *; cbn [length in_hands window] in *.
  all: try lia.
  all: try (apply Forall_app; split; [exact Fa|]; try exact Fb'; constructor; [cbn [has_read]; try exact I; lia|exact Fb']).
  all: try (repeat match goal with H : context [if (?x <? ?y)%Z then _ else _] |- _ => destruct (Z.ltb_spec x y)
                              | |- context [if (?x <? ?y)%Z then _ else _] => destruct (Z.ltb_spec x y) end; try lia).
  all: try (match goal with Q : (_ <? _)%Z = true |- _ => apply Z.ltb_lt in Q end; lia).
  all: apply Forall_app; split; assumption.
Qed.

Lemma many_steps c k s : few_steps c k sys_new s -> sound s /\ length (s_threads s) <= k /\ many c k s.
Proof.
  assert (G : forall s0 s, few_steps c k s0 s -> s0 = sys_new -> sound s /\ length (s_threads s) <= k /\ many c k s);
    [clear s|intros F; exact (G _ _ F eq_refl)].
  intros s0 s1 F E0. induction F as [s|s s' s'' F IH St Le].
  - subst s. split; [apply sound_new|]. split; [cbn; lia|]. constructor; cbn; try lia. constructor.
  - destruct (IH E0) as (Sd & Le' & M). clear IH. split; [exact (sound_step c _ _ St Sd)|]. split; [exact Le|].
    destruct St as [s1 w|s1 a x b E|s1 t att h h' E|s1 t h h' E|s1 f ok Lt No]; [| apply many_thread; assumption | | | ].
    all: destruct M as [M1 M2 M3 M4]; constructor; rewrite ?length_connections in *;
      cbn [s_pool s_threads s_held with_threads with_held] in *; try assumption;
      rewrite ?total_app, ?total_cons, ?total_nil, ?app_length in *; cbn [length in_hands window] in *; try assumption; try lia.
    all: try (apply Forall_app; split; [exact M4|constructor; [exact I|constructor]]).
    all: rewrite E in M1; rewrite ?app_length in *; cbn [length] in *; lia.
Qed.

(** With at most [k] threads at a time there are never more than twice the maximum and [k]
    connections and attempts, in use, idle, being opened and in threads' hands together; and never
    more idle than the maximum. Missing for the full property: [c34_double_refuted]. *)
Theorem c34_threads_partial : forall c k s, few_steps c k sys_new s ->
  length (connections s) <= 2 * c_max c + k /\ length (s_held s) <= 2 * c_max c + k /\ length (p_idle (s_pool s)) <= c_max c.
Proof.
  intros c k s F. destruct (many_steps c k s F) as (_ & _ & [M1 M2 M3 M4]). rewrite length_connections in *. lia.
Qed.
Print Assumptions c34_threads_partial.

Lemma exec_few_steps c k : forall l s0 s s', few_steps c k s0 s -> exec_few c k l s = Some s' -> few_steps c k s0 s'.
Proof.
  induction l as [|m l IH]; intros s0 s s' F E; cbn [exec_few] in E; [injection E as <-; exact F|].
  destruct (move c m s) as [s1|] eqn:M; [|discriminate E].
  destruct (Nat.leb_spec (length (s_threads s1)) k) as [L|L]; [|discriminate E].
  eapply IH; [|exact E]. exact (few_more c k s0 s s1 F (move_step c m s s1 M) L).
Qed.

(** Two threads are enough for twice the maximum: while one of them is between reading the counter
    and reading the length of [idle], the other takes all the idle connections. A pool for three
    ends with six connections in use, and nothing under way. *)
Definition twice : list amove :=
     [MPoll 1] ++ repeat (MRun 0) 6 ++ [MResolve 0 true] ++ repeat (MRun 0) 6 ++ [MPoll 1] ++ repeat (MRun 0) 6 ++ [MResolve 1 true] ++
     repeat (MRun 0) 6 ++ [MPoll 1] ++ repeat (MRun 0) 6 ++ [MResolve 2 true] ++ repeat (MRun 0) 6 ++ [MPoll 1] ++ repeat (MRun 0) 2 ++
     [MDrop 2 true] ++ repeat (MRun 1) 5 ++ [MDrop 1 true] ++ repeat (MRun 1) 5 ++ [MDrop 0 true] ++ repeat (MRun 1) 5 ++ repeat (MRun
     0) 2 ++ [MPoll 1] ++ repeat (MRun 1) 4 ++ [MPoll 1] ++ repeat (MRun 1) 4 ++ [MPoll 1] ++ repeat (MRun 1) 4 ++ repeat (MRun 0) 2 ++
     [MResolve 3 true] ++ repeat (MRun 0) 6 ++ [MPoll 1] ++ repeat (MRun 0) 2 ++ [MDrop 3 true] ++ repeat (MRun 1) 5 ++ [MDrop 2 true]
     ++ repeat (MRun 1) 5 ++ [MDrop 1 true] ++ repeat (MRun 1) 5 ++ repeat (MRun 0) 2 ++ [MPoll 1] ++ repeat (MRun 1) 4 ++ [MPoll 1] ++
     repeat (MRun 1) 4 ++ [MPoll 1] ++ repeat (MRun 1) 4 ++ repeat (MRun 0) 2 ++ [MResolve 4 true] ++ repeat (MRun 0) 6 ++ [MPoll 1] ++
     repeat (MRun 0) 2 ++ [MDrop 4 true] ++ repeat (MRun 1) 5 ++ [MDrop 3 true] ++ repeat (MRun 1) 5 ++ [MDrop 2 true] ++ repeat (MRun
     1) 5 ++ repeat (MRun 0) 2 ++ [MPoll 1] ++ repeat (MRun 1) 4 ++ [MPoll 1] ++ repeat (MRun 1) 4 ++ [MPoll 1] ++ repeat (MRun 1) 4 ++
     repeat (MRun 0) 2 ++ [MResolve 5 true] ++ repeat (MRun 0) 6.
Theorem c34_double_refuted : exists c s, c_max c = 3 /\ few_steps c 2 sys_new s /\ s_threads s = [] /\ length (s_held s) = 6.
Proof.
  exists (mk_config 3 3).
  destruct (exec_few (mk_config 3 3) 2 twice sys_new) as [s|] eqn:E; [|exfalso; revert E; vm_compute; discriminate].
  exists s. split; [reflexivity|]. split; [exact (exec_few_steps _ _ _ _ _ _ (few_refl _ _ _) E)|].
  vm_compute in E. injection E as <-. split; vm_compute; reflexivity.
Qed.
Print Assumptions c34_double_refuted.

(** The same execution meets the hypothesis of [c34_threads_partial], whose bound is eight. *)
Example c34_threads_case : exists s, few_steps (mk_config 3 3) 2 sys_new s /\ length (connections s) = 6.
Proof.
  destruct (exec_few (mk_config 3 3) 2 twice sys_new) as [s|] eqn:E; [|exfalso; revert E; vm_compute; discriminate].
  exists s. split; [exact (exec_few_steps _ _ _ _ _ _ (few_refl _ _ _) E)|].
  vm_compute in E. injection E as <-. vm_compute. reflexivity.
Qed.
