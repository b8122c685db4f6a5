(** Properties C34 to C37: the pool of connections. *)
From Verif Require Import Base Pool SpecPool PoolProofs.
From Coq Require Import Sorting.Permutation.
Open Scope list_scope.
Open Scope nat_scope.

(** ** C34: the pool never exceeds its maximum size *)

(** With one thread at a time it does not, whatever the tasks, the users and the server do and
    wherever between two accesses the pool is looked at; and the [unwrap] of the queue that is
    never full holds. What is missing is false: see below. *)
Theorem c34_one_thread_partial : forall c s, solo_steps c sys_new s ->
  length (connections s) <= c_max c /\ ~ In Crashes (s_events s).
Proof. intros c s So. destruct (bounded_solo c s So) as (B1 & B2 & _). auto. Qed.
Print Assumptions c34_one_thread_partial.

Definition runs (k n : nat) : list amove := repeat (MRun k) n.

(** Two tasks and a connection in use, one idle: the history of a pool with room for two. *)
Example c34_example :
  let c := mk_config 1 2 in
  exists s, solo_steps c sys_new s /\ s_held s = [2] /\ p_idle (s_pool s) = [0] /\ length (connections s) = c_max c.
Proof.
  intros c.
  destruct (exec_solo c ([MPoll 1] ++ runs 0 15 ++ [MResolve 0 true; MPoll 1] ++ runs 0 6 ++ [MPoll 2] ++ runs 0 14 ++
     [MResolve 2 true; MPoll 2] ++ runs 0 6 ++ [MDrop 1 true] ++ runs 0 7) sys_new) as [s|] eqn:E; [|exfalso; revert E; vm_compute; discriminate].
  exists s. split; [apply (exec_solo_steps c _ _ _ E)|]. vm_compute in E. injection E as <-. vm_compute. auto.
Qed.

(** A thread that has taken an idle connection has not counted it yet: another one opens a new
    connection meanwhile. Both are in use in the end, in a pool for one. *)
Theorem c34_refuted : exists c s, c_max c = 1 /\ steps c sys_new s /\ s_threads s = [] /\ length (s_held s) = 2.
Proof.
  exists (mk_config 1 1).
  destruct (exec (mk_config 1 1) ([MPoll 1] ++ runs 0 14 ++ [MResolve 0 true; MPoll 1] ++ runs 0 4 ++ [MPoll 2] ++ runs 1 6 ++
     runs 0 2 ++ runs 0 8 ++ [MResolve 1 true; MPoll 2] ++ runs 0 6) sys_new) as [s|] eqn:E; [|exfalso; revert E; vm_compute; discriminate].
  exists s. split; [reflexivity|]. split; [apply (exec_steps _ _ _ _ E)|]. vm_compute in E. injection E as <-. split; vm_compute; reflexivity.
Qed.
Print Assumptions c34_refuted.

(** ** C35: the pool accounts for every connection *)

(** However threads are interleaved: every connection is in one place only, and the counter is the
    number of connections in use and of those that are being given back, no more and no less; with
    no thread under way it is the number of connections in use. It never goes below zero. *)
Theorem c35_accounts : forall c s, steps c sys_new s ->
  NoDup (connections s) /\
  p_ongoing (s_pool s) = Z.of_nat (length (s_held s) + length (filter (giving_back (s_pool s)) (s_threads s))) /\
  (0 <= p_ongoing (s_pool s))%Z /\
  (s_threads s = [] -> p_ongoing (s_pool s) = Z.of_nat (length (s_held s))).
Proof.
  intros c s St. pose proof (sound_steps c _ _ St sound_new) as [S1 S2 S3 S4 S5].
  assert (F : forall l, total (fun x => if giving_back (s_pool s) x then 1 else 0) l = length (filter (giving_back (s_pool s)) l)).
  { intros l. induction l as [|x l IH]; [reflexivity|]. rewrite total_cons, IH. cbn [filter]. destruct (giving_back (s_pool s) x); reflexivity. }
  rewrite F in S5. split; [apply cnt_NoDup, S1|]. split; [exact S5|]. split; [lia|]. intros E. rewrite S5, E. cbn [filter length]. lia.
Qed.
Print Assumptions c35_accounts.

(** A handle that is dropped with its connection, and a connection that is lost without one, count
    once, each. *)
Theorem c35_given_back : forall c s s1 s', steps c sys_new s -> s_threads s = [] -> step c s s1 ->
  length (s_held s1) < length (s_held s) -> runs_to c s1 s' ->
  p_ongoing (s_pool s') = (p_ongoing (s_pool s) - 1)%Z.
Proof.
  intros c s s1 s' St E S1 L R.
  assert (D : forall s a b, runs_to c s a -> runs_to c s b -> a = b).
  { clear. intros s a b Ra. revert b. induction Ra as [s E|s x l a E Ra IH]; intros b Rb; inversion Rb; subst; try congruence.
    apply IH. rewrite E in H. injection H as <- <-. assumption. }
  pose proof (sound_steps c _ _ St sound_new) as Sd. pose proof (so_out _ Sd) as O.
  destruct S1 as [s w|s a x b E'|s t att h h' E'|s t h h' E'|s f ok Lt No].
  - cbn in L. lia.
  - rewrite E in E'. destruct a; discriminate.
  - destruct (release_runs c (with_held (with_threads s (s_threads s ++ [RInside t att])) (h ++ h')) t att) as (s2 & R2 & _ & _ & _ & _ & G);
      [cbn [with_held with_threads s_threads]; rewrite E; reflexivity|].
    rewrite (D _ _ _ R R2). exact G.
  - destruct (lost_runs c (with_held (with_threads s (s_threads s ++ [DLoad t])) (h ++ h')) t) as (s2 & R2 & _ & _ & _ & _ & G);
      [cbn [with_held with_threads s_threads]; rewrite E; reflexivity
      |cbn [with_held with_threads s_pool]; apply O; rewrite E', cnt_app; cbn [cnt]; rewrite Nat.eqb_refl; lia|].
    rewrite (D _ _ _ R R2). exact G.
  - cbn in L. lia.
Qed.
Print Assumptions c35_given_back.

(** With one thread at a time, no more than the minimum stays idle. *)
Theorem c35_idle_partial : forall c s, solo_steps c sys_new s -> s_threads s = [] -> length (p_idle (s_pool s)) <= c_min c.
Proof. intros c s So E. pose proof (few_idle_solo c s So) as F. unfold few_idle in F. rewrite E in F. exact F. Qed.
Print Assumptions c35_idle_partial.

(** With a connection idle, one in use and one being given back while another thread polls. *)
Example c35_example :
  let c := mk_config 1 3 in
  exists s, steps c sys_new s /\ s_held s = [2] /\ s_threads s = [RSub None; PIdleLen 3 2] /\ p_ongoing (s_pool s) = 2%Z /\ p_idle (s_pool s) = [0].
Proof.
  intros c.
  destruct (exec c ([MPoll 1] ++ runs 0 15 ++ [MResolve 0 true; MPoll 1] ++ runs 0 6 ++ [MPoll 2] ++ runs 0 15 ++
     [MResolve 2 true; MPoll 2] ++ runs 0 6 ++ [MDrop 1 true] ++ runs 0 2 ++ [MPoll 3] ++ runs 1 4 ++ runs 0 1) sys_new) as [s|] eqn:E; [|exfalso; revert E; vm_compute; discriminate].
  exists s. split; [apply (exec_steps c _ _ _ E)|]. vm_compute in E. injection E as <-. vm_compute. auto.
Qed.

(** Two threads that give connections back at the same time both see room. *)
Theorem c35_idle_refuted : exists c s, c_min c = 1 /\ steps c sys_new s /\ s_threads s = [] /\ length (p_idle (s_pool s)) = 2.
Proof.
  exists (mk_config 1 2).
  destruct (exec (mk_config 1 2) ([MPoll 1] ++ runs 0 15 ++ [MResolve 0 true; MPoll 1] ++ runs 0 6 ++ [MPoll 2] ++ runs 0 14 ++
     [MResolve 2 true; MPoll 2] ++ runs 0 6 ++ [MDrop 0 true; MDrop 0 true] ++ runs 0 2 ++ runs 1 7 ++ runs 0 3) sys_new) as [s|] eqn:E; [|exfalso; revert E; vm_compute; discriminate].
  exists s. split; [reflexivity|]. split; [apply (exec_steps _ _ _ _ E)|]. vm_compute in E. injection E as <-. split; vm_compute; reflexivity.
Qed.
Print Assumptions c35_idle_refuted.

(** ** C36: waiting for a connection always ends *)

(** A task whose poll has ended in waiting, and that has not been woken since, has its waker in the
    queue: no interleaving loses it there. *)
Theorem c36_queued_partial : forall c s w, steps c sys_new s -> waiting w (s_events s) = true -> In w (p_tasks (s_pool s)).
Proof. intros c s w. apply queued_steps. Qed.
Print Assumptions c36_queued_partial.

(** A connection that is given back or lost, with no other thread under way: that ends, and wakes
    every task that waits. *)
Theorem c36_woken_partial : forall c s s1, steps c sys_new s -> s_threads s = [] -> step c s s1 -> length (s_held s1) < length (s_held s) ->
  exists s' l, runs_to c s1 s' /\ s_threads s' = [] /\ s_events s' = s_events s ++ l /\
    (forall w, waiting w (s_events s) = true -> In w (woken l)) /\ (forall w, waiting w (s_events s') = false).
Proof.
  intros c s s1 St E S1 L.
  pose proof (sound_steps c _ _ St sound_new) as Sd. pose proof (so_out _ Sd) as O.
  assert (W : forall tk, woken (map Wakes tk) = tk) by (intros tk; induction tk as [|w tk IH]; [reflexivity|]; cbn; f_equal; exact IH).
  assert (N : forall w tk l, waiting w l = true -> In w tk -> waiting w (l ++ map Wakes tk) = false).
  { intros w tk l _ I. unfold waiting. rewrite fold_left_app. generalize (fold_left (fun b e => match e with Waits v => if v =? w then true else b | Wakes v => if v =? w then false else b | _ => b end) l false) as b0.
    assert (K : forall tk, fold_left (fun b e => match e with Waits v => if v =? w then true else b | Wakes v => if v =? w then false else b | _ => b end) (map Wakes tk) false = false).
    { intros tk'. induction tk' as [|v tk' IH]; [reflexivity|]. cbn [map fold_left]. destruct (v =? w); exact IH. }
    clear l. revert I. induction tk as [|v tk IH]; intros I b0; [destruct I|]. cbn [map fold_left]. destruct (Nat.eqb_spec v w) as [->|Ne]; [apply K|].
    destruct I as [I|I]; [contradiction|]. apply IH. exact I. }
  assert (G : forall w tk l, waiting w l = false -> waiting w (l ++ map Wakes tk) = false).
  { intros w tk l Hl. unfold waiting in *. rewrite fold_left_app, Hl. clear Hl l. induction tk as [|v tk IH]; [reflexivity|]. cbn [map fold_left]. destruct (v =? w); exact IH. }
  assert (End : forall s' l, s_events s' = s_events s ++ l -> l = map Wakes (p_tasks (s_pool s)) ->
    (forall w, waiting w (s_events s) = true -> In w (woken l)) /\ (forall w, waiting w (s_events s') = false)).
  { intros s' l Ev ->. split.
    - intros w Hw. rewrite W. exact (queued_steps c s w St Hw).
    - intros w. rewrite Ev. destruct (waiting w (s_events s)) eqn:Hw; [apply N; [exact Hw|exact (queued_steps c s w St Hw)]|apply G; exact Hw]. }
  destruct S1 as [s w|s a x b E'|s t att h h' E'|s t h h' E'|s f ok Lt No].
  - cbn in L. lia.
  - rewrite E in E'. destruct a; discriminate.
  - destruct (release_runs c (with_held (with_threads s (s_threads s ++ [RInside t att])) (h ++ h')) t att) as (s2 & R2 & E2 & _ & _ & V2 & _);
      [cbn [with_held with_threads s_threads]; rewrite E; reflexivity|].
    exists s2, (map Wakes (p_tasks (s_pool s))). split; [exact R2|]. split; [exact E2|]. split; [exact V2|]. apply End; [exact V2|reflexivity].
  - destruct (lost_runs c (with_held (with_threads s (s_threads s ++ [DLoad t])) (h ++ h')) t) as (s2 & R2 & E2 & _ & _ & V2 & _);
      [cbn [with_held with_threads s_threads]; rewrite E; reflexivity
      |cbn [with_held with_threads s_pool]; apply O; rewrite E', cnt_app; cbn [cnt]; rewrite Nat.eqb_refl; lia|].
    exists s2, (map Wakes (p_tasks (s_pool s))). split; [exact R2|]. split; [exact E2|]. split; [exact V2|]. apply End; [exact V2|reflexivity].
  - cbn in L. lia.
Qed.
Print Assumptions c36_woken_partial.

(** With one thread at a time, as long as no attempt has failed, there is always something to wait
    for: a connection in use, whose return wakes everybody, or an attempt that wakes a task. *)
Theorem c36_something_partial : forall c s w, 1 <= c_max c -> solo_steps c sys_new s -> s_threads s = [] ->
  (forall v, ~ In (Refuses v) (s_events s)) -> waiting w (s_events s) = true ->
  s_held s <> [] \/ exists f v, p_new (s_pool s) = [f] /\ s_waker s f = Some v.
Proof.
  intros c s w Mx So E No Hw. pose proof (queued_steps c s w (solo_all c _ _ So) Hw) as Q.
  destruct (somebody_solo c s Mx So) as [L B]. unfold somebody in B. rewrite E in B.
  destruct B as [[v B]|[B K]]; [exfalso; exact (No v B)|].
  assert (T : p_tasks (s_pool s) <> []) by (intros T; rewrite T in Q; destruct Q).
  destruct (B T) as [H|H]; [left; exact H|right].
  destruct (p_new (s_pool s)) as [|f [|f' l]]; [contradiction| |cbn [length] in L; lia].
  specialize (K f (or_introl eq_refl)). destruct (s_waker s f) as [v|] eqn:Ev; [|contradiction]. exists f, v. auto.
Qed.
Print Assumptions c36_something_partial.

(** A pool for one, its connection in use, a task waiting. *)
Example c36_example :
  let c := mk_config 1 1 in
  exists s, solo_steps c sys_new s /\ s_threads s = [] /\ s_held s = [0] /\ waiting 2 (s_events s) = true /\
    forallb (fun e => match e with Refuses _ => false | _ => true end) (s_events s) = true.
Proof.
  intros c.
  destruct (exec_solo c ([MPoll 1] ++ runs 0 14 ++ [MResolve 0 true; MPoll 1] ++ runs 0 6 ++ [MPoll 2] ++ runs 0 6) sys_new)
    as [s|] eqn:E; [|exfalso; revert E; vm_compute; discriminate].
  exists s. split; [apply (exec_solo_steps c _ _ _ E)|]. vm_compute in E. injection E as <-. vm_compute. auto 6.
Qed.

(** Two tasks wait for the same attempt. It fails: only the one that polled it last hears of it, and
    takes the failure with it. The other one waits with nothing open and nothing in use, in a pool
    that could open a connection. *)
Theorem c36_refuted : exists c s, c_max c = 1 /\ solo_steps c sys_new s /\ s_threads s = [] /\
  waiting 1 (s_events s) = true /\ ~ In (Wakes 1) (s_events s) /\ In (Refuses 2) (s_events s) /\ connections s = [].
Proof.
  exists (mk_config 1 1).
  destruct (exec_solo (mk_config 1 1) ([MPoll 1] ++ runs 0 14 ++ [MPoll 2] ++ runs 0 8 ++ [MResolve 0 false; MPoll 2] ++ runs 0 2) sys_new)
    as [s|] eqn:E; [|exfalso; revert E; vm_compute; discriminate].
  exists s. split; [reflexivity|]. split; [apply (exec_solo_steps _ _ _ _ E)|]. vm_compute in E. injection E as <-. vm_compute.
  repeat (split; [reflexivity|]). split; [intuition discriminate|]. auto 6.
Qed.
Print Assumptions c36_refuted.

(** The same when the attempt succeeds and the task that polled it last has been cancelled: the
    connection is ready, nobody is told. (A task that is cancelled does not poll any more.) *)
Theorem c36_cancelled_refuted : exists c s, c_max c = 1 /\ solo_steps c sys_new s /\ s_threads s = [] /\
  waiting 1 (s_events s) = true /\ ~ In (Wakes 1) (s_events s) /\ s_held s = [] /\
  exists f, p_new (s_pool s) = [f] /\ s_resolved s f = Some true.
Proof.
  exists (mk_config 1 1).
  destruct (exec_solo (mk_config 1 1) ([MPoll 1] ++ runs 0 14 ++ [MPoll 2] ++ runs 0 8 ++ [MResolve 0 true]) sys_new)
    as [s|] eqn:E; [|exfalso; revert E; vm_compute; discriminate].
  exists s. split; [reflexivity|]. split; [apply (exec_solo_steps _ _ _ _ E)|]. vm_compute in E. injection E as <-.
  split; [reflexivity|]. split; [reflexivity|]. split; [vm_compute; intuition discriminate|]. split; [reflexivity|]. exists 0. split; reflexivity.
Qed.
Print Assumptions c36_cancelled_refuted.

(** A task that has found the pool full and not queued its waker yet, while the connection is
    given back: it waits although a connection is idle and nothing is in use. *)
Theorem c36_interleaved_refuted : exists c s, c_max c = 1 /\ steps c sys_new s /\ s_threads s = [] /\
  waiting 2 (s_events s) = true /\ ~ In (Wakes 2) (s_events s) /\ s_held s = [] /\ p_new (s_pool s) = [] /\ p_idle (s_pool s) = [0].
Proof.
  exists (mk_config 1 1).
  destruct (exec (mk_config 1 1) ([MPoll 1] ++ runs 0 14 ++ [MResolve 0 true; MPoll 1] ++ runs 0 6 ++ [MPoll 2] ++ runs 0 5 ++ [MDrop 0 true] ++ runs 1 6 ++ runs 0 1) sys_new)
    as [s|] eqn:E; [|exfalso; revert E; vm_compute; discriminate].
  exists s. split; [reflexivity|]. split; [apply (exec_steps _ _ _ _ E)|]. vm_compute in E. injection E as <-.
  split; [reflexivity|]. split; [reflexivity|]. split; [vm_compute; intuition discriminate|]. repeat split.
Qed.
Print Assumptions c36_interleaved_refuted.

(** ** C37: server addresses are used in turn *)

(** The addresses that some attempts use one after the other. *)
Fixpoint addresses (hosts : nat) (counter : N) (attempts : nat) : res (list nat) :=
  match attempts with
  | O => Ok []
  | S k => do x <- get_addr hosts counter; do l <- addresses hosts (snd x) k; Ok (fst x :: l)
  end.

Lemma NoDup_map_in {A B} (f : A -> B) l : (forall x y, In x l -> In y l -> f x = f y -> x = y) -> NoDup l -> NoDup (map f l).
Proof.
  intros H N. induction N as [|x l Nx N IH]; [constructor|]. cbn [map]. constructor.
  - intros I. apply in_map_iff in I as (y & E & Iy). apply Nx. rewrite <- (H y x); [exact Iy|right; exact Iy|left; reflexivity|exact E].
  - apply IH. intros a b Ia Ib. apply H; right; assumption.
Qed.

(** As many attempts as there are addresses use each of them once, up to the 2^64-th attempt of the
    pool; and they go on in the same order. *)
Theorem c37_in_turn_partial : forall n counter l, (counter + N.of_nat n <= 2 ^ 64)%N -> addresses n counter n = Ok l ->
  Permutation l (seq 0 n).
Proof.
  intros n counter l B E. destruct (Nat.eq_dec n 0) as [->|Z]; [injection E as <-; constructor|].
  assert (G : forall k c l, (c + N.of_nat k <= 2 ^ 64)%N -> addresses n c k = Ok l -> l = map (fun i => N.to_nat ((c + N.of_nat i) mod N.of_nat n)) (seq 0 k)).
  { intros k. induction k as [|k IH]; intros c l' Bc E'; [injection E' as <-; reflexivity|].
    cbn [addresses] in E'. unfold get_addr in E'. destruct (Nat.eqb_spec n 0); [contradiction|]. cbn [rbind fst snd] in E'.
    destruct k as [|k].
    - cbn [addresses rbind] in E'. injection E' as <-. cbn [seq map]. rewrite N.add_0_r. reflexivity.
    - rewrite N.mod_small in E' by lia. destruct (addresses n (c + 1) (S k)) as [l1| |] eqn:E1; try discriminate. cbn [rbind] in E'. injection E' as <-.
      rewrite (IH (c + 1)%N l1) by (assumption || lia). change (seq 0 (S (S k))) with (0 :: seq 1 (S k)). rewrite <- (seq_shift (S k) 0). rewrite map_cons. rewrite N.add_0_r. f_equal. rewrite map_map. apply map_ext.
      intros i. do 2 f_equal. lia. }
  rewrite (G n counter l B E). apply NoDup_Permutation_bis.
  - apply NoDup_map_in; [|apply seq_NoDup].
    intros i j Hi Hj Eij. apply in_seq in Hi, Hj. apply N2Nat.inj in Eij.
    pose proof (N.div_mod (counter + N.of_nat i) (N.of_nat n) ltac:(lia)) as D1. pose proof (N.div_mod (counter + N.of_nat j) (N.of_nat n) ltac:(lia)) as D2.
    rewrite Eij in D1.
    assert ((counter + N.of_nat i) / N.of_nat n = (counter + N.of_nat j) / N.of_nat n)%N as Ed; [|rewrite Ed in D1; lia].
    set (q1 := ((counter + N.of_nat i) / N.of_nat n)%N) in *. set (q2 := ((counter + N.of_nat j) / N.of_nat n)%N) in *.
    destruct (N.lt_trichotomy q1 q2) as [H|[H|H]]; [exfalso; nia|exact H|exfalso; nia].
  - rewrite map_length, seq_length. lia.
  - intros x Hx. apply in_map_iff in Hx as (i & <- & Hi). apply in_seq. pose proof (N.mod_lt (counter + N.of_nat i) (N.of_nat n) ltac:(lia)). lia.
Qed.
Print Assumptions c37_in_turn_partial.

(** The same address again after as many attempts as there are addresses. *)
Theorem c37_cyclic_partial : forall n counter i j, (n <> 0)%nat -> (counter + N.of_nat n < 2 ^ 64)%N ->
  get_addr n counter = Ok i -> get_addr n (counter + N.of_nat n) = Ok j -> fst i = fst j.
Proof.
  intros n counter i j Z B E1 E2. unfold get_addr in *. destruct (Nat.eqb_spec n 0); [contradiction|].
  injection E1 as <-. injection E2 as <-. cbn [fst]. f_equal.
  replace (counter + N.of_nat n)%N with (counter + 1 * N.of_nat n)%N by lia. rewrite N.mod_add by lia. reflexivity.
Qed.
Print Assumptions c37_cyclic_partial.

Example c37_example : addresses 3 7 3 = Ok [1; 2; 0] /\ addresses 3 7 4 = Ok [1; 2; 0; 1].
Proof. split; reflexivity. Qed.

(** The counter wraps: with three addresses the first one is used twice in a row then. *)
Theorem c37_wraps_refuted : addresses 3 (2 ^ 64 - 1) 3 = Ok [0; 0; 1].
Proof. reflexivity. Qed.
Print Assumptions c37_wraps_refuted.
