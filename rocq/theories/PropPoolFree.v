(** C79: what becomes of a pool that nobody uses any more. *)
From Verif Require Import Base Pool SpecPool PoolProofs PoolFree SpecPoolFree.
Open Scope list_scope. Open Scope nat_scope.

Definition clear (b : attempt -> bool) (l : list attempt) : Prop := Forall (fun t => b t = false) l.
Definition tidy (y : bsys) : Prop :=
  let p := s_pool (y_sys y) in let b := y_bound y in
  length (p_new p) <= 1 /\
  match s_threads (y_sys y) with
  | [] | [PPop _] => clear b (p_idle p) /\ (p_new p = [] \/ p_idle p = [])
  | [PPoll _ _] | [PIdle _ _] | [PBack _ _] => p_new p = [] /\ p_idle p = []
  | [PTake _] => (clear b (p_idle p) /\ (p_new p = [] \/ p_idle p = [])) \/ (p_new p = [] /\ exists f, p_idle p = [f])
  | [PInside _ t] => clear b (p_idle p) /\ p_new p = []
  | [PAdd _ _] => clear b (p_idle p) /\ p_new p = []
  | [PNewLen _] | [POngoing _ _] | [PIdleLen _ _] | [PNew _] | [PWait _] => p_idle p = []
  | [RInside t _] => clear b (p_idle p) /\ p_new p = []
  | [RLen t _] | [RPush t] => clear b (p_idle p) /\ p_new p = [] /\ b t = false
  | [RSub _] | [RWake _] | [DLoad _] | [DSub _] | [DWake] => clear b (p_idle p) /\ p_new p = []
  | _ => False
  end.

Lemma bstep_step c y y' : bstep c y y' -> step c (y_sys y) (y_sys y').
Proof. intros H. destruct H; cbn [y_sys]; econstructor; eassumption. Qed.
Lemma calm_all c y y' : calm_steps c y y' -> steps c (y_sys y) (y_sys y').
Proof. induction 1; [constructor|]. econstructor; [eassumption|]. apply bstep_step. assumption. Qed.

Lemma short {A} (l : list A) l1 x l2 : l = l1 ++ x :: l2 -> length l <= 1 -> l1 = [] /\ l2 = [] /\ l = [x].
Proof. intros -> H. rewrite app_length in H. cbn [length] in H. destruct l1, l2; cbn [length] in H; try lia. auto. Qed.



Lemma tidy_run c s b x : NoDup (p_idle (s_pool s)) -> s_threads s = [x] -> tidy (mk_bsys s b) ->
  tidy (mk_bsys (step_thread c s [] x []) (rebind s x b)).
Proof.
  intros ND Th T. unfold tidy in *. cbn [y_sys y_bound] in *. rewrite Th in T. destruct s as [p th held nx rs wk ev].
  unfold step_thread. cbn [s_pool s_threads s_next s_resolved] in *. destruct p as [nw idle tasks og out]. cbn [p_new p_idle] in *.
  destruct T as [L T].
  destruct x; cbn [step_pc rebind p_new p_idle p_tasks p_out s_pool]; unfold queue_push; cbn [p_new p_idle p_tasks p_out].
  - destruct nw as [|f l]; cbn in *; [auto|]. destruct T as [C [D|D]]; [discriminate D|].
    destruct l; [|cbn in L; lia]. auto.
  - destruct T as [-> ->]. destruct (rs f) as [[]|]; cbn; auto. split; [lia|]. split; [constructor|auto].
  - destruct T as [-> ->]. cbn [length]. destruct (0 <? c_max c); cbn; (split; [lia|]).
    + right. split; [reflexivity|]. exists f. reflexivity.
    + split; [constructor|auto].
  - destruct T as [-> ->]. cbn. split; [lia|]. left. split; [constructor|auto].
  - destruct idle as [|t idle]; cbn [step_pc app say s_pool s_threads set_idle p_new p_idle].
    + split; [exact L|reflexivity].
    + split; [exact L|]. inversion_clear ND as [|? ? NI ND'].
      assert (clear (fun i => if i =? t then true else b i) idle /\ (clear b (t :: idle) \/ idle = [])) as [C _].
      { destruct T as [[C _]|[_ (f & D)]].
        - split; [|left; exact C]. inversion_clear C as [|? ? _ C']. apply Forall_forall. intros y Iy.
          destruct (Nat.eqb_spec y t) as [->|]; [contradiction|]. exact (proj1 (Forall_forall _ _) C' y Iy).
        - injection D as _ ->. split; [constructor|auto]. }
      split; [exact C|]. destruct T as [[_ [D|D]]|[D _]]; [exact D|discriminate D|exact D].
  - cbn. auto.
  - cbn. destruct T as [C ->]. auto.
  - cbn. auto.
  - cbn. auto.
  - cbn [app say s_pool s_threads p_new p_idle]. split; [exact L|]. destruct (_ <? _)%Z; exact T.
  - destruct nw as [|f l]; cbn in *; [|destruct l; [|cbn in L; lia]; cbn; auto]. rewrite T. split; [lia|]. split; [constructor|auto].
  - cbn. rewrite T. split; [exact L|]. split; [constructor|auto].
  - cbn. destruct T as [C ->]. split; [lia|]. split; [|rewrite Nat.eqb_refl; auto].
    apply Forall_forall. intros y Iy. destruct (y =? t); [reflexivity|]. exact (proj1 (Forall_forall _ _) C y Iy).
  - cbn [app say s_pool s_threads p_new p_idle]. split; [exact L|]. destruct ((_ <? _) && _); tauto.
  - destruct T as (C & -> & B). destruct (_ <? _); cbn; split; auto. split; [|reflexivity].
    apply Forall_app. split; [exact C|]. constructor; [exact B|constructor].
  - cbn. auto.
  - destruct tasks as [|w l]; cbn; [|auto]. split; [exact L|]. destruct drop; [exact T|]. destruct T as [C ->]. cbn. auto.
  - cbn. split; [exact L|]. destruct (out t); [exact T|]. destruct T as [C ->]. cbn. auto.
  - cbn. auto.
  - destruct tasks as [|w l]; cbn; [|auto]. destruct T as [C ->]. auto.
Qed.

Lemma tidy_step c y y' : NoDup (p_idle (s_pool (y_sys y))) -> tidy y -> bstep c y y' -> length (s_threads (y_sys y)) <= 1 ->
  length (s_threads (y_sys y')) <= 1 ->
  (length (s_held (y_sys y')) < length (s_held (y_sys y)) -> p_new (s_pool (y_sys y)) = []) -> tidy y'.
Proof.
  intros ND T St L L' Q. destruct St as [s b w|s b l1 x l2 E|s b t att h h' E|s b t h h' E|s b f ok Lt No]; cbn [y_sys] in *.
  - cbn [with_threads s_threads] in L'. rewrite app_length in L'. destruct (s_threads s) eqn:E; [|cbn in L'; lia].
    unfold tidy in *. cbn [y_sys y_bound with_threads s_threads s_pool] in *. rewrite E in *. exact T.
  - destruct (short _ _ _ _ E L) as (-> & -> & E1). apply tidy_run; assumption.
  - cbn [with_held with_threads s_threads s_held] in *. rewrite app_length in L'. destruct (s_threads s) eqn:E1; [|cbn in L'; lia].
    assert (p_new (s_pool s) = []) as N. { apply Q. rewrite E, !app_length. cbn [length]. lia. }
    unfold tidy in *. cbn [y_sys y_bound with_held with_threads s_threads s_pool] in *. rewrite E1 in *. cbn [app]. tauto.
  - cbn [with_held with_threads s_threads s_held] in *. rewrite app_length in L'. destruct (s_threads s) eqn:E1; [|cbn in L'; lia].
    assert (p_new (s_pool s) = []) as N. { apply Q. rewrite E, !app_length. cbn [length]. lia. }
    unfold tidy in *. cbn [y_sys y_bound with_held with_threads s_threads s_pool] in *. rewrite E1 in *. cbn [app]. tauto.
  - exact T.
Qed.

Lemma NoDup_mid {A} (a b c : list A) : NoDup (a ++ b ++ c) -> NoDup b.
Proof.
  induction a as [|x a IH]; cbn [app]; intros H; [|apply IH; inversion H; assumption].
  induction b as [|y b IHb]; [constructor|]. inversion_clear H as [|? ? N ND]. constructor; [|exact (IHb ND)].
  intros I. apply N, in_or_app. left. exact I.
Qed.
Lemma calm_tidy c y : calm_steps c bound_new y -> tidy y /\ length (s_threads (y_sys y)) <= 1.
Proof.
  intros H. remember bound_new as y0 eqn:E0. induction H as [y|y y1 y2 C IH St L Q].
  - subst y. unfold tidy. cbn. split; [|lia]. split; [lia|]. split; [constructor|auto].
  - destruct (IH E0) as [T L1]. split; [|exact L]. eapply tidy_step; try eassumption.
    pose proof (calm_all c _ _ C) as Cs. rewrite E0 in Cs. pose proof (sound_steps c _ _ Cs sound_new) as S.
    pose proof (cnt_NoDup _ (so_once _ S)) as ND. unfold connections in ND. apply NoDup_mid in ND. exact ND.
Qed.

(** A pool whose connections are given back or lost only while none is being opened has no reference
    to itself but the one of an attempt that is under way: without one it goes away with the last handle, [Pool] and
    [GetHandle] of the program. *)
Theorem c79_calm_partial : forall c y, calm_steps c bound_new y -> s_threads (y_sys y) = [] ->
  references y = p_new (s_pool (y_sys y)).
Proof.
  intros c y C Th. destruct (calm_tidy c y C) as [T _]. unfold tidy in T. rewrite Th in T. destruct T as (_ & T & _).
  unfold references. rewrite <- app_nil_r. f_equal. induction (p_idle (s_pool (y_sys y))) as [|t l IH]; [reflexivity|].
  inversion_clear T as [|? ? B T']. cbn [filter]. rewrite B. exact (IH T').
Qed.
Print Assumptions c79_calm_partial.

Lemma bmove_bstep c m y y' : bmove c m y = Some y' -> bstep c y y'.
Proof.
  destruct y as [s b]. unfold bmove, move. cbn [y_sys y_bound]. intros H. destruct m as [w|k|k att|k|f ok].
  - injection H as <-. constructor.
  - destruct (skipn k (s_threads s)) as [|x l] eqn:E; [discriminate H|]. injection H as <-. constructor.
    rewrite <- E. symmetry. apply firstn_skipn.
  - destruct (skipn k (s_held s)) as [|x l] eqn:E; [discriminate H|]. injection H as <-. constructor.
    rewrite <- E. symmetry. apply firstn_skipn.
  - destruct (skipn k (s_held s)) as [|x l] eqn:E; [discriminate H|]. injection H as <-. constructor.
    rewrite <- E. symmetry. apply firstn_skipn.
  - destruct (f <? s_next s) eqn:Lt; [|discriminate H]. destruct (s_resolved s f) eqn:No; [discriminate H|]. injection H as <-.
    constructor; [apply Nat.ltb_lt, Lt|exact No].
Qed.
Lemma bexec_solo c l y1 y' : forall y, bexec false c l y = Some y' -> bsolo_steps c y1 y -> bsolo_steps c y1 y'.
Proof.
  induction l as [|m l IH]; cbn [bexec]; intros y H S; [injection H as <-; exact S|].
  destruct (bmove c m y) as [y2|] eqn:M; [|discriminate H]. destruct (allowed false m y && _) eqn:A; [|discriminate H].
  apply andb_prop in A as [_ A]. apply (IH y2 H). econstructor; [exact S|apply (bmove_bstep _ _ _ _ M)|apply Nat.leb_le, A].
Qed.
Lemma bexec_calm c l y1 y' : forall y, bexec true c l y = Some y' -> calm_steps c y1 y -> length (s_threads (y_sys y)) <= 1 -> calm_steps c y1 y'.
Proof.
  induction l as [|m l IH]; cbn [bexec]; intros y H S L; [injection H as <-; exact S|].
  destruct (bmove c m y) as [y2|] eqn:M; [|discriminate H]. destruct (allowed true m y && _) eqn:A; [|discriminate H].
  apply andb_prop in A as [A B]. apply Nat.leb_le in B. apply (IH y2 H); [|exact B].
  econstructor; [exact S|apply (bmove_bstep _ _ _ _ M)|exact B|].
  intros Sh. assert (allowed true m y = true -> match m with MDrop _ _ | MLose _ => True | _ => False end -> p_new (s_pool (y_sys y)) = []) as P.
  { destruct m; cbn; try contradiction; destruct (p_new (s_pool (y_sys y))); auto; discriminate. }
  apply P; [exact A|]. clear - M Sh L. unfold bmove in M. destruct (move c m (y_sys y)) as [s'|] eqn:E; [|discriminate M].
  injection M as <-. cbn [y_sys] in Sh. destruct m as [w|k|k att|k|f ok]; try exact I; cbn [move] in E.
  - injection E as <-. cbn in Sh. lia.
  - destruct (skipn k (s_threads (y_sys y))) as [|x l2]; [discriminate E|]. injection E as <-. unfold step_thread in Sh.
    destruct (step_pc c (s_next (y_sys y)) (s_resolved (y_sys y)) (s_pool (y_sys y)) x) as [[p o] e]. cbn [s_held say] in Sh. destruct e; cbn [length] in Sh; lia.
  - destruct (f <? s_next (y_sys y)); [|discriminate E]. destruct (s_resolved (y_sys y) f); [discriminate E|]. injection E as <-. cbn in Sh. lia.
Qed.

Definition runs (k n : nat) : list amove := repeat (MRun k) n.
(** A connection is opened, used and given back: nothing but the program's references keep the pool. *)
Example c79_case : exists y, calm_steps (mk_config 1 2) bound_new y /\ s_threads (y_sys y) = [] /\
  p_idle (s_pool (y_sys y)) = [0] /\ references y = [].
Proof.
  destruct (bexec true (mk_config 1 2) ([MPoll 1] ++ runs 0 15 ++ [MResolve 0 true; MPoll 1] ++ runs 0 6 ++ [MDrop 0 true] ++ runs 0 6) bound_new)
    as [y|] eqn:E; [|exfalso; revert E; vm_compute; discriminate].
  exists y. split; [apply (bexec_calm _ _ _ _ _ E); [constructor|cbn; lia]|]. vm_compute in E. injection E as <-. repeat split; reflexivity.
Qed.

(** Without anybody inside nothing changes any more. *)
Lemma unused_keeps c y y' : unused_steps c y y' -> s_threads (y_sys y) = [] -> s_held (y_sys y) = [] ->
  references y' = references y /\ s_threads (y_sys y') = [] /\ s_held (y_sys y') = [].
Proof.
  induction 1 as [y|y y1 y2 U IH St E]; intros T H; [auto|]. destruct (IH T H) as (R & T1 & H1). rewrite <- R. clear R IH U.
  destruct St as [s b w|s b l1 x l2 E1|s b t att h h' E1|s b t h h' E1|s b f ok Lt No]; cbn [y_sys] in *.
  - cbn in E. destruct (s_threads s); discriminate E.
  - rewrite T1 in E1. destruct l1; discriminate E1.
  - rewrite H1 in E1. destruct h; discriminate E1.
  - rewrite H1 in E1. destruct h; discriminate E1.
  - cbn. auto.
Qed.

(** A connection that was opened while another one came back stays in the pool with a reference to it: when the program has
    dropped everything, the pool and the connection stay for ever. *)
Theorem c79_cycle_refuted : exists c y, bsolo_steps c bound_new y /\ s_threads (y_sys y) = [] /\ s_held (y_sys y) = [] /\
  p_new (s_pool (y_sys y)) = [] /\ p_idle (s_pool (y_sys y)) <> [] /\
  forall y', unused_steps c y y' -> references y' <> [].
Proof.
  exists (mk_config 2 2).
  destruct (bexec false (mk_config 2 2) ([MPoll 1] ++ runs 0 15 ++ [MResolve 0 true; MPoll 1] ++ runs 0 6 ++
     [MPoll 2] ++ runs 0 14 ++ [MDrop 0 true] ++ runs 0 7 ++ [MResolve 2 true; MPoll 2] ++ runs 0 6 ++ [MDrop 0 true] ++ runs 0 5) bound_new)
    as [y|] eqn:E; [|exfalso; revert E; vm_compute; discriminate].
  exists y. split; [apply (bexec_solo _ _ _ _ _ E); constructor|]. vm_compute in E. injection E as <-.
  do 3 (split; [reflexivity|]). split; [discriminate|]. intros y' U. destruct (unused_keeps _ _ _ U) as [-> _]; [reflexivity|reflexivity|]. discriminate.
Qed.
Print Assumptions c79_cycle_refuted.

(** So does an attempt that the program has given up waiting for. *)
Theorem c79_abandoned_refuted : exists c y, calm_steps c bound_new y /\ s_threads (y_sys y) = [] /\ s_held (y_sys y) = [] /\
  forall y', unused_steps c y y' -> references y' <> [].
Proof.
  exists (mk_config 1 1).
  destruct (bexec true (mk_config 1 1) ([MPoll 1] ++ runs 0 14) bound_new)
    as [y|] eqn:E; [|exfalso; revert E; vm_compute; discriminate].
  exists y. split; [apply (bexec_calm _ _ _ _ _ E); [constructor|cbn; lia]|]. vm_compute in E. injection E as <-.
  do 2 (split; [reflexivity|]). intros y' U. destruct (unused_keeps _ _ _ U) as [-> _]; [reflexivity|reflexivity|]. discriminate.
Qed.
Print Assumptions c79_abandoned_refuted.
