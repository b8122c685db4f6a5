(** Property C115: what asking the pool comes to. *)
From Coq Require Import Lia.
From Verif Require Import Base Pool SpecPool PoolProofs PropPool PropIdle.
Open Scope list_scope.
Open Scope nat_scope.

Lemma unborn c s : steps c sys_new s -> forall f, s_next s <= f -> s_resolved s f = None.
Proof.
  intros St. assert (G : forall a b, steps c a b -> (forall f, s_next a <= f -> s_resolved a f = None) -> forall f, s_next b <= f -> s_resolved b f = None).
  { clear. induction 1 as [a|a b d _ IH S]; intros H; [exact H|]. specialize (IH H). inversion S; subst; try exact IH.
    - intros f. unfold step_thread. destruct (step_pc c (s_next b) (s_resolved b) (s_pool b) x) as [[p y] e]. cbn [s_next s_resolved say].
      intros L. apply IH. destruct x; cbn [next_after] in L; lia.
    - cbn [s_next s_resolved]. intros g L. destruct (Nat.eqb_spec g f); [lia|]. apply IH, L. }
  apply (G sys_new s St). reflexivity.
Qed.

Lemma tail_waits c nxt rs wk ev he f tk on out w : exists s', runs_to c (mk_sys (mk_pool [f] [] tk on out) [PTake w] he nxt rs wk ev) s' /\
  s_threads s' = [] /\ s_events s' = ev ++ [Waits w] /\ s_held s' = he /\ In w (p_tasks (s_pool s')) /\ p_new (s_pool s') = [f] /\ s_waker s' = wk /\ s_resolved s' = rs.
Proof.
  set (full := (Z.of_nat 1 + on + Z.of_nat 0 <? Z.of_nat (c_max c))%Z). eexists. split.
  - runs1. runs1. runs1. runs1. cbn [length]. fold full. instantiate (1 := if full then _ else _). destruct full.
    + runs1. cbn [queue_push length Nat.ltb Nat.leb]. runs1. apply runs_done. reflexivity.
    + runs1. apply runs_done. reflexivity.
  - destruct full; cbn [s_threads s_events s_held s_pool p_tasks p_new s_waker s_resolved set_tasks]; rewrite ?app_nil_r; (repeat split); apply in_or_app; right; left; reflexivity.
Qed.

(** C115. With one thread at a time: a task that asks is given a connection, is told of an attempt that failed, or waits; and when it waits an attempt is under way
    that wakes it, or as many connections are in use as there may be. *)
Theorem c115_waits : forall c s w, solo_steps c sys_new s -> s_threads s = [] -> 1 <= c_max c ->
  exists s' e, runs_to c (with_threads s [PPop w]) s' /\ s_threads s' = [] /\ s_events s' = s_events s ++ [e] /\
    match e with
    | Gives v t => v = w /\ s_held s' = t :: s_held s
    | Refuses v => v = w /\ s_held s' = s_held s /\ exists f, p_new (s_pool s) = [f] /\ s_resolved s f = Some false
    | Waits v => v = w /\ s_held s' = s_held s /\ In w (p_tasks (s_pool s')) /\
        ((exists f, p_new (s_pool s') = [f] /\ s_waker s' f = Some w /\ s_resolved s' f = None) \/
         (p_new (s_pool s') = [] /\ p_idle (s_pool s') = [] /\ length (s_held s') = c_max c))
    | _ => False
    end.
Proof.
  intros c s w So E Mx. pose proof (solo_all c _ _ So) as St. pose proof (unborn c s St) as U.
  destruct (c35_accounts c s St) as (_ & _ & _ & On). specialize (On E).
  destruct (p_idle (s_pool s)) as [|t l] eqn:I.
  2: { destruct (p_new (s_pool s)) as [|f [|g nw]] eqn:N.
       - destruct (c114_given_partial c s w t l So E I) as (s' & R & A1 & A2 & A3 & _); [rewrite N; intros f []|]. exists s', (Gives w t). auto.
       - destruct (s_resolved s f) as [[|]|] eqn:Q.
         + destruct (c114_given_partial c s w t l So E I) as (s' & R & A1 & A2 & A3 & _); [rewrite N; intros g [<-|[]]; congruence|]. exists s', (Gives w t). auto.
         + destruct (c114_failed_refuted c s w f So E N Q) as (s' & R & _ & A1 & A2 & _ & _ & A3). exists s', (Refuses w). repeat (split; auto). exists f. auto.
         + destruct (c114_given_partial c s w t l So E I) as (s' & R & A1 & A2 & A3 & _); [rewrite N; intros g [<-|[]]; congruence|]. exists s', (Gives w t). auto.
       - destruct (somebody_solo c s Mx So) as [N1 _]. rewrite N in N1. cbn in N1. lia. }
  destruct (somebody_solo c s Mx So) as [N1 _]. pose proof (bounded_solo c s So) as (B1 & _ & _). rewrite length_connections, E in B1.
  destruct s as [p th he nx rs wk ev]. destruct p as [nw il tk on out]. cbn [s_pool s_threads s_held s_next s_resolved s_waker s_events p_new p_idle p_ongoing] in *. subst th il on.
  destruct nw as [|f [|]]; [| |cbn in N1; lia].
  - destruct (Nat.lt_ge_cases (length he) (c_max c)) as [L|L].
    + destruct (tail_waits c (Datatypes.S nx) rs (fun i => if (i =? nx)%nat then Some w else wk i) ev he nx tk (Z.of_nat (length he)) out w) as (s' & R & A1 & A2 & A3 & A4 & A5 & A6 & A7).
      exists s', (Waits w). split.
      { runs1. runs1. runs1. runs1. runs1. cbn [length]. replace (Z.of_nat 0 + Z.of_nat (length he) + Z.of_nat 0 <? Z.of_nat (c_max c))%Z with true by (symmetry; apply Z.ltb_lt; lia).
        runs1. cbn [queue_push length Nat.ltb Nat.leb app]. runs1. runs1. rewrite (U nx) by lia. runs1. cbn [queue_push length Nat.ltb Nat.leb app]. rewrite ?app_nil_r. exact R. }
      split; [exact A1|]. split; [exact A2|]. split; [reflexivity|]. split; [exact A3|]. split; [exact A4|]. left. exists nx. rewrite A6, A7, Nat.eqb_refl. auto.
    + eexists. exists (Waits w). split.
      { runs1. runs1. runs1. runs1. runs1. cbn [length]. replace (Z.of_nat 0 + Z.of_nat (length he) + Z.of_nat 0 <? Z.of_nat (c_max c))%Z with false by (symmetry; apply Z.ltb_ge; lia).
        runs1. apply runs_done. reflexivity. }
      cbn [s_threads s_events s_held s_pool p_tasks p_new p_idle s_waker s_resolved set_tasks]. rewrite ?app_nil_r. repeat split.
      * apply in_or_app. right. left. reflexivity.
      * right. cbn [length total map list_sum fold_right] in B1. repeat split. lia.
  - destruct (rs f) as [[|]|] eqn:Q.
    + eexists. exists (Gives w f). split.
      { runs1. runs1. rewrite Q. runs1. unfold queue_push. cbn [length]. destruct (Nat.ltb_spec 0 (c_max c)) as [_|]; [|lia]. runs1. runs1. runs1. apply runs_done. reflexivity. }
      cbn [s_threads s_events s_held]. rewrite ?app_nil_r. repeat split.
    + eexists. exists (Refuses w). split.
      { runs1. runs1. rewrite Q. apply runs_done. reflexivity. }
      cbn [s_threads s_events s_held]. rewrite ?app_nil_r. repeat split. exists f. auto.
    + destruct (tail_waits c nx rs (fun i => if (i =? f)%nat then Some w else wk i) ev he f tk (Z.of_nat (length he)) out w) as (s' & R & A1 & A2 & A3 & A4 & A5 & A6 & A7).
      exists s', (Waits w). split.
      { runs1. runs1. rewrite Q. runs1. cbn [queue_push length Nat.ltb Nat.leb app]. rewrite ?app_nil_r. exact R. }
      split; [exact A1|]. split; [exact A2|]. split; [reflexivity|]. split; [exact A3|]. split; [exact A4|]. left. exists f. rewrite A6, A7, Nat.eqb_refl. auto.
Qed.
Print Assumptions c115_waits.

(** The states of a pool for two in which a connection is idle, in which somebody's attempt has failed, and a new pool. *)
Example c115_case : forall l, In l [one_idle; others_failure; []] ->
  exists s, exec_solo (mk_config 1 2) l sys_new = Some s /\ solo_steps (mk_config 1 2) sys_new s /\ s_threads s = [].
Proof.
  intros l [<-|[<-|[<-|[]]]].
  - destruct c114_case as (s & A & B & C & _). eauto.
  - destruct c114_failed_case as (s & A & B & C & _). eauto.
  - exists sys_new. split; [reflexivity|]. split; [apply solo_refl|reflexivity].
Qed.
