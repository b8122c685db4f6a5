(** Proofs about Pool.v. *)
From Verif Require Import Base Pool SpecPool.
Open Scope list_scope.
Open Scope nat_scope.

Lemma cnt_app i a b : cnt i (a ++ b) = cnt i a + cnt i b.
Proof. induction a as [|x a IH]; [reflexivity|]. cbn [app cnt]. rewrite IH. lia. Qed.
Lemma total_app {A} (f : A -> nat) a b : total f (a ++ b) = total f a + total f b.
Proof. unfold total. rewrite map_app, list_sum_app. reflexivity. Qed.
Lemma total_cons {A} (f : A -> nat) x b : total f (x :: b) = f x + total f b.
Proof. reflexivity. Qed.
Lemma cnt_flat i (l : list pc) : cnt i (flat_map in_hands l) = total (fun x => cnt i (in_hands x)) l.
Proof. induction l as [|x l IH]; [reflexivity|]. cbn [flat_map]. rewrite cnt_app, IH. reflexivity. Qed.
Lemma cnt_In i l : In i l <-> 1 <= cnt i l.
Proof.
  induction l as [|x l IH]; cbn [In cnt]; [lia|]. destruct (Nat.eqb_spec i x) as [->|N].
  - split; [lia|auto].
  - rewrite IH. split; [intros [->|H]; [contradiction|lia]|intros H; right; lia].
Qed.
Lemma cnt_NoDup l : (forall i, cnt i l <= 1) -> NoDup l.
Proof.
  induction l as [|x l IH]; intros H; [constructor|]. constructor.
  - intros I. apply cnt_In in I. specialize (H x). cbn [cnt] in H. rewrite Nat.eqb_refl in H. lia.
  - apply IH. intros i. specialize (H i). cbn [cnt] in H. lia.
Qed.

(** What threads hold of connections that are inside, and of those that are outside. *)
Definition hold_in (x : pc) : list attempt :=
  match x with
  | PPoll _ f | PIdle _ f | PBack _ f => [f]
  | PInside _ t | RLen t _ | RPush t => [t]
  | RSub (Some t) | RWake (Some t) => [t]
  | _ => []
  end.
Definition hold_out (x : pc) : list attempt :=
  match x with PAdd _ t | RInside t _ | DSub t => [t] | _ => [] end.

Record sound (s : sys) : Prop := mk_sound {
  so_once : forall i, cnt i (connections s) <= 1;
  so_fresh : forall i, s_next s <= i -> cnt i (connections s) = 0 /\ p_out (s_pool s) i = false;
  so_in : forall i, 1 <= cnt i (p_new (s_pool s)) + cnt i (p_idle (s_pool s)) + total (fun x => cnt i (hold_in x)) (s_threads s) ->
          p_out (s_pool s) i = false;
  so_out : forall i, 1 <= cnt i (s_held s) + total (fun x => cnt i (hold_out x)) (s_threads s) -> p_out (s_pool s) i = true;
  so_count : p_ongoing (s_pool s) = Z.of_nat (length (s_held s) + total (fun x => if giving_back (s_pool s) x then 1 else 0) (s_threads s)) }.

Lemma connections_cnt s i : cnt i (connections s) =
  cnt i (p_new (s_pool s)) + cnt i (p_idle (s_pool s)) + cnt i (s_held s) + total (fun x => cnt i (in_hands x)) (s_threads s).
Proof. unfold connections. rewrite !cnt_app, cnt_flat. lia. Qed.

Lemma sound_new : sound sys_new.
Proof. constructor; intros; cbn in *; try lia; auto. Qed.

Lemma queue_push_some cap l x l' : queue_push cap l x = Some l' -> l' = l ++ [x] /\ length l < cap.
Proof. unfold queue_push. destruct (Nat.ltb_spec (length l) cap); [|discriminate]. intros E. injection E as <-. auto. Qed.

Lemma total_nil {A} (f : A -> nat) : total f [] = 0.
Proof. reflexivity. Qed.
Ltac norm := repeat (rewrite ?connections_cnt, ?total_app, ?total_cons, ?total_nil, ?cnt_app, ?app_length in *;
  cbn [s_pool s_threads s_held s_next s_resolved s_waker s_events p_new p_idle p_tasks p_ongoing p_out
       set_new set_idle set_tasks set_ongoing set_out with_threads with_held app cnt length in_hands hold_in hold_out next_after] in *).
Ltac eqbs := repeat match goal with
  | H : context [Nat.eqb ?x ?y] |- _ => destruct (Nat.eqb_spec x y); subst
  | |- context [Nat.eqb ?x ?y] => destruct (Nat.eqb_spec x y); subst
  end.
Ltac facts i := 
  match goal with S1 : forall i, cnt i (connections _) <= 1, S2 : forall i, _ <= i -> _, S3 : forall i, _ -> _ = false, S4 : forall i, _ -> _ = true |- _ =>
    pose proof (S1 i); pose proof (S2 i); pose proof (S3 i); pose proof (S4 i) end.

Definition owes (out : attempt -> bool) (x : pc) : nat :=
  match x with
  | RInside _ _ | RLen _ _ | RPush _ | RSub _ | DSub _ => 1
  | DLoad t => if out t then 1 else 0
  | _ => 0
  end.
Definition owing (out : attempt -> bool) (l : list pc) : nat := total (owes out) l.
Lemma owing_app out a b : owing out (a ++ b) = owing out a + owing out b.
Proof. apply total_app. Qed.
Lemma owing_cons out x b : owing out (x :: b) = owes out x + owing out b.
Proof. reflexivity. Qed.
Lemma owing_nil out : owing out [] = 0.
Proof. reflexivity. Qed.
Lemma giving_back_owing p l : total (fun x => if giving_back p x then 1 else 0) l = owing (p_out p) l.
Proof. unfold owing. induction l as [|x l IH]; [reflexivity|]. rewrite !total_cons, IH. f_equal. destruct x; reflexivity. Qed.
Lemma owing_out (o o' : attempt -> bool) l t : (forall i, i <> t -> o' i = o i) ->
  total (fun x => cnt t (in_hands x)) l = 0 -> owing o' l = owing o l.
Proof.
  intros H. induction l as [|x l IH]; intros Z; [reflexivity|]. rewrite total_cons in Z. rewrite !owing_cons, IH by lia. f_equal.
  destruct x; try reflexivity. cbn [owes]. cbn [in_hands cnt] in Z. rewrite H; [reflexivity|].
  intros ->. rewrite Nat.eqb_refl in Z. lia.
Qed.

Lemma hold_le i l : total (fun x => cnt i (hold_in x)) l + total (fun x => cnt i (hold_out x)) l <= total (fun x => cnt i (in_hands x)) l.
Proof.
  induction l as [|x l IH]; [apply le_n|]. rewrite !total_cons.
  enough (cnt i (hold_in x) + cnt i (hold_out x) <= cnt i (in_hands x)) by lia.
  destruct x; try (destruct drop); cbn [hold_in hold_out in_hands cnt]; lia.
Qed.

Lemma sound_thread c s a x b : s_threads s = a ++ x :: b -> sound s -> sound (step_thread c s a x b).
Proof.
  intros E [S1 S2 S3 S4 S5]. unfold step_thread.
  destruct s as [p th h n rs wk ev]. cbn [s_pool s_threads s_held s_next s_resolved s_waker s_events] in *. subst th.
  destruct p as [nw il tk og out]. cbn [p_new p_idle p_tasks p_ongoing p_out] in *.
  destruct x; cbn [step_pc p_new p_idle p_tasks p_ongoing p_out];
  repeat (match goal with
   | |- context [match nw with _ => _ end] => destruct nw as [|f0 nw]
   | |- context [match il with _ => _ end] => destruct il as [|f0 il]
   | |- context [match tk with _ => _ end] => destruct tk as [|f0 tk]
   | |- context [match rs ?f with _ => _ end] => destruct (rs f) as [[]|]
   | |- context [match ?d with Some _ => _ | None => _ end] => is_var d; destruct d
   | |- context [match queue_push ?a ?b ?c with _ => _ end] => let Q := fresh "Q" in destruct (queue_push a b c) eqn:Q; [apply queue_push_some in Q as [-> Q]|]
   | |- context [(if ?b then PNew _ else PWait _)] => let Q := fresh "Q" in destruct b eqn:Q
   | |- context [(if ?b then RPush _ else RSub _)] => let Q := fresh "Q" in destruct b eqn:Q
   | |- context [(if ?b then Some _ else _)] => let Q := fresh "Q" in destruct b eqn:Q
   end; cbn [step_pc p_new p_idle p_tasks p_ongoing p_out]).
  all: constructor; cbn [say s_pool s_threads s_held s_next]; intros; try (facts i); rewrite ?giving_back_owing in *; norm.
  all: rewrite ?owing_app, ?owing_cons, ?owing_nil in *; cbn [owes] in *.
  all: try solve [eqbs; lia].
  all: try match goal with |- ?o ?i = ?b => match goal with H : _ -> o i = b |- _ => solve [apply H; eqbs; lia] end end.
  all: try match goal with |- _ /\ ?o ?i = false => match goal with H : _ -> _ /\ o i = false |- _ => solve [destruct H as [H' H]; [lia|split; [eqbs; lia|exact H]]] end end.
  all: try match goal with i : nat, a : list pc, b : list pc |- _ => pose proof (hold_le i a); pose proof (hold_le i b) end.
  all: try match goal with |- _ /\ (if ?i =? ?t then _ else _) = _ => match goal with H : _ -> _ /\ ?o i = false |- _ => destruct H as [H' H]; [lia|split; [exact H'|]] end end.
  all: try match goal with |- (if ?i =? ?t then _ else _) = _ => destruct (Nat.eqb_spec i t); subst; try reflexivity; rewrite ?Nat.eqb_refl in *; try lia;
    match goal with H : _ -> ?o i = ?b |- ?o i = ?b => apply H; eqbs; lia end end.
  - destruct (Nat.eqb_spec i t); [subst; rewrite ?Nat.eqb_refl in *; lia|assumption].
  - facts t; norm; rewrite ?Nat.eqb_refl in *.
    assert (O : forall i, i <> t -> (if i =? t then true else out i) = out i) by (intros i Hi; destruct (Nat.eqb_spec i t); [contradiction|reflexivity]).
    rewrite (owing_out out _ a t O), (owing_out out _ b t O) by lia. lia.
  - destruct (Nat.eqb_spec i n); [apply H1; lia|apply H2; lia].
  - destruct (Nat.eqb_spec i t); [reflexivity|assumption].
  - facts t; norm; rewrite ?Nat.eqb_refl in *.
    assert (O : forall i, i <> t -> (if i =? t then false else out i) = out i) by (intros i Hi; destruct (Nat.eqb_spec i t); [contradiction|reflexivity]).
    rewrite (owing_out out _ a t O), (owing_out out _ b t O) by lia. lia.
  - facts a0; norm; rewrite ?Nat.eqb_refl in *. rewrite H1 by lia. lia.
  - destruct (Nat.eqb_spec i t); [subst; assumption|apply H3; lia].
  - rewrite Q in *. lia.
  - rewrite Q in *. lia.
Qed.

Lemma sound_step c s s' : step c s s' -> sound s -> sound s'.
Proof.
  intros St. destruct St as [s w|s a x b E|s t att h h' E|s t h h' E|s f ok Lt No]; [| apply sound_thread; exact E | | | ].
  all: intros [S1 S2 S3 S4 S5]; destruct s as [p th hd n rs wk ev]; cbn [s_pool s_threads s_held s_next s_resolved s_waker s_events] in *; subst.
  all: destruct p as [nw il tk og out]; cbn [p_new p_idle p_tasks p_ongoing p_out] in *.
  all: constructor; cbn [s_pool s_threads s_held s_next with_held with_threads]; intros; try (facts i); rewrite ?giving_back_owing in *; norm.
  all: rewrite ?owing_app, ?owing_cons, ?owing_nil in *; cbn [owes] in *.
  all: try solve [eqbs; lia].
  all: try match goal with |- ?o ?i = ?b => match goal with H : _ -> o i = b |- _ => solve [apply H; eqbs; lia] end end.
  all: try match goal with |- _ /\ ?o ?i = false => match goal with H : _ -> _ /\ o i = false |- _ => solve [destruct H as [H' H]; [lia|split; [eqbs; lia|exact H]]] end end.
  facts t; norm. rewrite Nat.eqb_refl in *. rewrite H2 by lia. lia.
Qed.
Lemma sound_steps c s s' : steps c s s' -> sound s -> sound s'.
Proof. intros St. induction St as [s|s s' s'' _ IH St]; [auto|]. intros S. exact (sound_step c _ _ St (IH S)). Qed.
Lemma solo_induction c (P : sys -> Prop) :
  P sys_new ->
  (forall s w, solo_steps c sys_new s -> sound s -> s_threads s = [] -> P s -> P (with_threads s [PPop w])) ->
  (forall s x, solo_steps c sys_new s -> sound s -> s_threads s = [x] -> P s -> P (step_thread c s [] x [])) ->
  (forall s t att h h', solo_steps c sys_new s -> sound s -> s_threads s = [] -> s_held s = h ++ t :: h' -> P s -> P (with_held (with_threads s [RInside t att]) (h ++ h'))) ->
  (forall s t h h', solo_steps c sys_new s -> sound s -> s_threads s = [] -> s_held s = h ++ t :: h' -> P s -> P (with_held (with_threads s [DLoad t]) (h ++ h'))) ->
  (forall s f ok, solo_steps c sys_new s -> sound s -> P s -> P (mk_sys (s_pool s) (s_threads s) (s_held s) (s_next s)
                (fun i => if (i =? f)%nat then Some ok else s_resolved s i) (s_waker s)
                (s_events s ++ match s_waker s f with Some w => [Wakes w] | None => [] end))) ->
  forall s, solo_steps c sys_new s -> P s.
Proof.
  intros P0 P1 P2 P3 P4 P5 s So.
  enough (sound s /\ P s) by tauto.
  assert (G : forall s0 s, solo_steps c s0 s -> s0 = sys_new -> sound s /\ P s); [clear s So|exact (G _ _ So eq_refl)].
  intros s0 s So E0. induction So as [s|s s' s'' So IH St Le]; [subst s; split; [apply sound_new|exact P0]|].
  destruct (IH E0) as [Sd Ps]. subst s. clear IH. split; [exact (sound_step c _ _ St Sd)|].
  destruct St as [s' w|s' a x b E|s' t att h h' E|s' t h h' E|s' f ok Lt No].
  - cbn [with_threads s_threads] in Le. rewrite app_length in Le. cbn [length] in Le.
    destruct (s_threads s') as [|y l] eqn:Es; [|cbn [length] in Le; lia]. cbn [app]. auto.
  - assert (L1 : length (s_threads s') <= 1). { inversion So; subst; [cbn; lia|assumption]. }
    rewrite E in L1. rewrite app_length in L1. cbn [length] in L1. destruct a; [|cbn [length] in L1; lia]. destruct b; [|cbn [length] in L1; lia]. auto.
  - cbn [with_threads with_held s_threads] in Le. rewrite app_length in Le. cbn [length] in Le.
    destruct (s_threads s') as [|y l] eqn:Es; [|cbn [length] in Le; lia]. cbn [app]. auto.
  - cbn [with_threads with_held s_threads] in Le. rewrite app_length in Le. cbn [length] in Le.
    destruct (s_threads s') as [|y l] eqn:Es; [|cbn [length] in Le; lia]. cbn [app]. auto.
  - auto.
Qed.

(** One thread at a time: the bound. *)
Definition bounded (c : config) (s : sys) : Prop :=
  length (connections s) <= c_max c /\ ~ In Crashes (s_events s) /\
  match s_threads s with
  | [PNewLen _] => p_idle (s_pool s) = []
  | [POngoing _ n] => n = Z.of_nat (length (p_new (s_pool s)))
  | [PIdleLen _ n] => n = Z.of_nat (length (p_new (s_pool s)) + length (s_held s))
  | [PNew _] => length (connections s) < c_max c
  | _ => True
  end.

Lemma length_connections s : length (connections s) =
  length (p_new (s_pool s)) + length (p_idle (s_pool s)) + length (s_held s) + total (fun x => length (in_hands x)) (s_threads s).
Proof.
  unfold connections. rewrite !app_length.
  enough (forall l, length (flat_map in_hands l) = total (fun x => length (in_hands x)) l) as -> by lia.
  intros l. induction l as [|x l IH]; [reflexivity|]. cbn [flat_map]. rewrite app_length, IH. reflexivity.
Qed.

Ltac open_state s := destruct s as [p th h n rs wk ev]; destruct p as [nw il tk og out];
  cbn [s_pool s_threads s_held s_next s_resolved s_waker s_events p_new p_idle p_tasks p_ongoing p_out with_threads with_held] in *; subst.
Ltac cases_pc nw il tk rs := repeat (match goal with
   | |- context [match nw with _ => _ end] => destruct nw as [|? nw]
   | |- context [match il with _ => _ end] => destruct il as [|? il]
   | |- context [match tk with _ => _ end] => destruct tk as [|? tk]
   | |- context [match rs ?f with _ => _ end] => destruct (rs f) as [[]|]
   | |- context [match ?d with Some _ => _ | None => _ end] => is_var d; destruct d
   | |- context [match queue_push ?a ?b ?c with _ => _ end] => let Q := fresh "Q" in destruct (queue_push a b c) eqn:Q; [apply queue_push_some in Q as [-> Q]|]
   | |- context [(if ?b then PNew _ else PWait _)] => let Q := fresh "Q" in destruct b eqn:Q
   | |- context [(if ?b then RPush _ else RSub _)] => let Q := fresh "Q" in destruct b eqn:Q
   | |- context [(if ?b then Some _ else _)] => let Q := fresh "Q" in destruct b eqn:Q
   end; cbn [step_pc p_new p_idle p_tasks p_ongoing p_out]).

Lemma queue_push_none cap l x : queue_push cap l x = None -> cap <= length l.
Proof. unfold queue_push. destruct (Nat.ltb_spec (length l) cap); [discriminate|auto]. Qed.

Lemma not_In_app {A} (x : A) l m : ~ In x l -> ~ In x m -> ~ In x (l ++ m).
Proof. intros H1 H2 H. apply in_app_or in H as [H|H]; auto. Qed.

Ltac lens := rewrite length_connections in *;
  cbn [s_pool s_threads s_held s_events p_new p_idle p_ongoing with_threads with_held total map list_sum fold_right in_hands owing owes length say app
       set_new set_idle set_tasks set_ongoing set_out] in *;
  rewrite ?app_length in *; cbn [length] in *.
Lemma bounded_solo c s : solo_steps c sys_new s -> bounded c s.
Proof.
  revert s. apply solo_induction.
  - split; [cbn; lia|]. split; [intros []|exact I].
  - intros s w _ _ E (B1 & B2 & _). open_state s. split; [|split; [exact B2|exact I]].
    lens. lia.
  - intros s x So Sd E (B1 & B2 & B3). pose proof (so_count _ Sd) as C. unfold step_thread. rewrite giving_back_owing in C. open_state s.
    rewrite length_connections in *. unfold bounded. 
    destruct x; cbn [step_pc p_new p_idle p_tasks p_ongoing p_out]; cases_pc nw il tk rs.
    all: lens.
    all: try match goal with Q : queue_push _ _ _ = None |- _ => apply queue_push_none in Q end.
    all: try (split; [lia|]).
    all: try (split; [apply not_In_app; [exact B2|cbn [In]; intuition discriminate]|]).
    all: try exact I.
    all: try reflexivity; try assumption; try (rewrite C; lia).
    + exfalso. lia.
    + rewrite B3. lia.
    + apply Z.ltb_lt in Q. lia.
  - intros s t att hl hr _ Sd E E' (B1 & B2 & _). open_state s. split; [|split; [exact B2|exact I]]. lens. lia.
  - intros s t hl hr _ Sd E E' (B1 & B2 & _). open_state s. split; [|split; [exact B2|exact I]]. lens. lia.
  - intros s f ok _ Sd (B1 & B2 & B3). split; [exact B1|]. split; [|exact B3].
    apply not_In_app; [exact B2|]. destruct (s_waker s f); cbn [In]; intuition discriminate.
Qed.

(** One thread at a time: what is idle. *)
Definition few_idle (c : config) (s : sys) : Prop :=
  match s_threads s with
  | [PTake _] => length (p_idle (s_pool s)) <= S (c_min c)
  | [RPush _] => length (p_idle (s_pool s)) < c_min c
  | _ => length (p_idle (s_pool s)) <= c_min c
  end.
Lemma few_idle_solo c s : solo_steps c sys_new s -> few_idle c s.
Proof.
  revert s. apply solo_induction.
  - cbn. lia.
  - intros s w _ _ E B. open_state s. exact B.
  - intros s x So Sd E B. unfold step_thread. open_state s. unfold few_idle in *.
    destruct x; cbn [step_pc p_new p_idle p_tasks p_ongoing p_out]; cases_pc nw il tk rs.
    all: cbn [s_pool s_threads s_held s_events p_new p_idle p_ongoing length say app set_new set_idle set_tasks set_ongoing set_out] in *.
    all: rewrite ?app_length; cbn [length] in *; try lia.
  - intros s t att hl hr _ Sd E E' B. open_state s. exact B.
  - intros s t hl hr _ Sd E E' B. open_state s. exact B.
  - intros s f ok _ Sd B. exact B.
Qed.

(** One thread at a time: who is there to end the waiting. *)
Definition somebody (c : config) (s : sys) : Prop :=
  let p := s_pool s in
  let busy := s_held s <> [] \/ p_new p <> [] in
  let known := forall f, In f (p_new p) -> s_waker s f <> None in
  (exists w, In (Refuses w) (s_events s)) \/
  match s_threads s with
  | [] => (p_tasks p <> [] -> busy) /\ known
  | [PPop _] => p_tasks p <> [] -> busy
  | [PPoll _ f] | [PIdle _ f] => p_new p = []
  | [PBack _ f] => p_new p = [] /\ s_waker s f <> None
  | [PTake _] => (p_tasks p <> [] -> busy \/ p_idle p <> []) /\ known
  | [PNewLen _] | [POngoing _ _] | [PIdleLen _ _] => (p_tasks p <> [] -> busy) /\ p_idle p = [] /\ known
  | [PNew _] => (p_tasks p <> [] -> busy) /\ known
  | [PWait _] => busy /\ known
  | [DLoad t] => (p_out p t = true \/ p_tasks p = []) /\ known
  | [_] => known
  | _ => True
  end.
Lemma somebody_solo c s : 1 <= c_max c -> solo_steps c sys_new s -> length (p_new (s_pool s)) <= 1 /\ somebody c s.
Proof.
  intros Mx. revert s. apply solo_induction.
  - split; [cbn; lia|]. right. split; [intros []; reflexivity|intros f []].
  - intros s w So _ E [B1 B2]. split; [exact B1|]. unfold somebody in *. open_state s. destruct B2 as [B2|[B2 _]]; [left; exact B2|right; exact B2].
  - intros s x So Sd E [B1 B2]. pose proof (bounded_solo c s So) as (Bo1 & Bo2 & Bo3). unfold step_thread. rewrite length_connections in Bo1, Bo3. open_state s. unfold somebody in *.
    destruct x; cbn [step_pc p_new p_idle p_tasks p_ongoing p_out]; cases_pc nw il tk rs.
    all: cbn [s_pool s_threads s_held s_events s_waker s_next s_resolved p_new p_idle p_ongoing p_tasks p_out with_threads with_held total map list_sum fold_right in_hands length say app set_new set_idle set_tasks set_ongoing set_out] in *.
    all: try match goal with Q : queue_push _ _ _ = None |- _ => apply queue_push_none in Q end.
    all: rewrite ?app_length; cbn [length] in *; (split; [lia|]).
    all: destruct B2 as [[w' B2]|B2]; [left; exists w'; apply in_or_app; left; exact B2|].
    all: try (left; exists w; apply in_or_app; right; left; reflexivity).
    all: right.
    all: try (intuition congruence).
    + destruct nw; [reflexivity|cbn [length] in *; lia].
    + rewrite Nat.eqb_refl. split; [exact B2|discriminate].
    + subst nw. split; [|intros f0 []]. intros _. right. destruct il; discriminate.
    + exfalso. lia.
    + destruct B2 as [-> B2]. split; [intros _; left; right; discriminate|]. intros f0 [<-|[]]. exact B2.
    + destruct B2 as [-> B2]. cbn [length] in *. exfalso. lia.
    + destruct B2 as (_ & -> & B2). split; [|exact B2]. apply Z.ltb_ge in Q. cbn [length] in Q.
      destruct h; [|left; discriminate]. destruct nw; [|right; discriminate]. cbn [length] in *. exfalso. lia.
    + intros _. right. destruct nw; discriminate.
    + destruct B2 as [_ B2]. split; [|exact B2]. right. destruct nw; [cbn [length] in *; lia|discriminate].
  - intros s t att hl hr _ Sd E E' [B1 B2]. split; [exact B1|]. unfold somebody in *. open_state s. destruct B2 as [B2|[_ B2]]; [left; exact B2|right; exact B2].
  - intros s t hl hr _ Sd E E' [B1 B2]. split; [exact B1|]. pose proof (so_out _ Sd t) as Ot. unfold somebody in *. open_state s.
    destruct B2 as [B2|[_ B2]]; [left; exact B2|right]. split; [left|exact B2]. apply Ot. rewrite cnt_app. cbn [cnt]. rewrite Nat.eqb_refl. lia.
  - intros s f ok _ Sd [B1 B2]. split; [exact B1|]. unfold somebody in *. cbn [s_pool s_threads s_held s_events s_waker].
    destruct B2 as [[w B2]|B2]; [left; exists w; apply in_or_app; left; exact B2|right; exact B2].
Qed.

(** A task that is waiting has its waker in the queue. *)
Lemma queued_steps c s w : steps c sys_new s -> waiting w (s_events s) = true -> In w (p_tasks (s_pool s)).
Proof.
  intros St. remember sys_new as s0 eqn:E0. revert E0. induction St as [s|s s' s'' St IH S1]; intros ->; [discriminate|].
  specialize (IH eq_refl). clear St. destruct S1 as [s' w'|s' a x b E|s' t att h h' E|s' t h h' E|s' f ok Lt No].
  - exact IH.
  - unfold step_thread. open_state s'.
    destruct x; cbn [step_pc p_new p_idle p_tasks p_ongoing p_out]; cases_pc nw il tk rs;
      cbn [say s_events s_pool p_tasks set_new set_idle set_tasks set_ongoing set_out]; rewrite ?app_nil_r; try exact IH.
    all: unfold waiting in *; rewrite fold_left_app; cbn [fold_left]; try exact IH.
    + destruct (Nat.eqb_spec w0 w) as [->|N]; intros H; apply in_or_app; [right; left; reflexivity|left; exact (IH H)].
    + destruct (Nat.eqb_spec t w) as [->|N]; intros H; [discriminate|]. destruct (IH H) as [G|G]; [congruence|exact G].
    + destruct (Nat.eqb_spec t w) as [->|N]; intros H; [discriminate|]. destruct (IH H) as [G|G]; [congruence|exact G].
  - exact IH.
  - exact IH.
  - cbn [s_events s_pool]. destruct (s_waker s' f) as [w'|]; [|rewrite app_nil_r; exact IH].
    unfold waiting in *. rewrite fold_left_app. cbn [fold_left]. destruct (w' =? w); [discriminate|exact IH].
Qed.

(** A thread on its own comes to its end. *)
Lemma wake_runs c s d b : s_threads s = RWake d :: b ->
  exists s1, s_threads s1 = match d with Some t => [DLoad t] | None => [] end ++ b /\ s_pool s1 = set_tasks (s_pool s) [] /\
    s_held s1 = s_held s /\ s_events s1 = s_events s ++ map Wakes (p_tasks (s_pool s)) /\
    forall s', runs_to c s1 s' -> runs_to c s s'.
Proof.
  intros E. remember (p_tasks (s_pool s)) as tk eqn:T. revert s E T. induction tk as [|w tk IH]; intros s E T.
  - exists (step_thread c s [] (RWake d) b). unfold step_thread. cbn [step_pc]. rewrite <- T. cbn [say s_events s_pool s_threads s_held app map].
    split; [destruct d; reflexivity|]. split; [unfold set_tasks; rewrite T; destruct (s_pool s); reflexivity|]. split; [reflexivity|]. split; [reflexivity|].
    intros s' R. eapply runs_step; [exact E|]. unfold step_thread. cbn [step_pc]. rewrite <- T. exact R.
  - set (s1 := step_thread c s [] (RWake d) b).
    assert (E1 : s1 = step_thread c s [] (RWake d) b) by reflexivity. unfold step_thread in E1. cbn [step_pc] in E1. rewrite <- T in E1. cbn [say s_events s_pool s_threads s_held app] in E1.
    destruct (IH s1) as (s2 & H1 & H2 & H3 & H4 & H5); [rewrite E1; reflexivity|rewrite E1; reflexivity|].
    exists s2. split; [exact H1|]. split; [rewrite H2, E1; reflexivity|]. split; [rewrite H3, E1; reflexivity|].
    split; [rewrite H4, E1; cbn [s_events]; rewrite <- app_assoc; reflexivity|].
    intros s' R. eapply runs_step; [exact E|]. exact (H5 s' R).
Qed.

Lemma release_drop c s t att b : s_threads s = RInside t att :: b ->
  exists s1 d, s_threads s1 = RWake d :: b /\ (d = Some t \/ d = None) /\ p_tasks (s_pool s1) = p_tasks (s_pool s) /\ p_out (s_pool s1) t = false /\
    s_events s1 = s_events s /\ s_held s1 = s_held s /\ p_ongoing (s_pool s1) = (p_ongoing (s_pool s) - 1)%Z /\
    forall s', runs_to c s1 s' -> runs_to c s s'.
Proof.
  intros E. destruct s as [p th h n rs wk ev]; destruct p as [nw il tk og out]. cbn in E. subst th.
  set (o' := fun i => if (i =? t)%nat then false else out i).
  assert (O : o' t = false) by (unfold o'; rewrite Nat.eqb_refl; reflexivity).
  assert (Last : forall il' d, forall s', runs_to c (mk_sys (mk_pool nw il' tk (og - 1) o') (RWake d :: b) h n rs wk ev) s' ->
     runs_to c (mk_sys (mk_pool nw il' tk og o') (RSub d :: b) h n rs wk ev) s').
  { intros il' d s' R. eapply runs_step; [reflexivity|]. unfold step_thread. cbn [step_pc say s_pool s_threads s_held s_next s_resolved s_waker s_events next_after set_ongoing p_new p_idle p_tasks p_ongoing p_out app]. rewrite app_nil_r. exact R. }
  assert (First : forall s', runs_to c (mk_sys (mk_pool nw il tk og o') ((if (length il <? c_min c) && att then RPush t else RSub (Some t)) :: b) h n rs wk ev) s' ->
    runs_to c (mk_sys (mk_pool nw il tk og out) (RInside t att :: b) h n rs wk ev) s').
  { intros s' R. eapply runs_step; [reflexivity|]. eapply runs_step; [reflexivity|]. unfold step_thread.
    cbn [step_pc say s_pool s_threads s_held s_next s_resolved s_waker s_events next_after set_out p_new p_idle p_tasks p_ongoing p_out app]. rewrite !app_nil_r. exact R. }
  destruct ((length il <? c_min c) && att) eqn:Q.
  - destruct (queue_push (c_max c) il t) as [l|] eqn:P.
    + exists (mk_sys (mk_pool nw l tk (og - 1) o') (RWake None :: b) h n rs wk ev), None.
      repeat (split; [try reflexivity; try exact O; try (right; reflexivity)|]). intros s' R. apply First. eapply runs_step; [reflexivity|].
      unfold step_thread. cbn [step_pc s_pool p_idle]. rewrite P.
      cbn [say s_pool s_threads s_held s_next s_resolved s_waker s_events next_after set_idle p_new p_idle p_tasks p_ongoing p_out app]. rewrite app_nil_r. exact (Last l None s' R).
    + exists (mk_sys (mk_pool nw il tk (og - 1) o') (RWake None :: b) h n rs wk ev), None.
      repeat (split; [try reflexivity; try exact O; try (right; reflexivity)|]). intros s' R. apply First. eapply runs_step; [reflexivity|].
      unfold step_thread. cbn [step_pc s_pool p_idle]. rewrite P.
      cbn [say s_pool s_threads s_held s_next s_resolved s_waker s_events next_after set_idle p_new p_idle p_tasks p_ongoing p_out app]. rewrite app_nil_r. exact (Last il None s' R).
  - exists (mk_sys (mk_pool nw il tk (og - 1) o') (RWake (Some t) :: b) h n rs wk ev), (Some t).
    repeat (split; [try reflexivity; try exact O; try (left; reflexivity)|]). intros s' R. apply First. exact (Last il (Some t) s' R).
Qed.

Lemma release_runs c s t att : s_threads s = [RInside t att] ->
  exists s', runs_to c s s' /\ s_threads s' = [] /\ p_tasks (s_pool s') = [] /\ s_held s' = s_held s /\
    s_events s' = s_events s ++ map Wakes (p_tasks (s_pool s)) /\ p_ongoing (s_pool s') = (p_ongoing (s_pool s) - 1)%Z.
Proof.
  intros E. destruct (release_drop c s t att [] E) as (s1 & d & E1 & D & T1 & O1 & V1 & H1 & G1 & R1).
  destruct (wake_runs c s1 d [] E1) as (s2 & E2 & P2 & H2 & V2 & R2).
  destruct D as [-> | ->].
  - exists (step_thread c s2 [] (DLoad t) []). cbn [app] in E2. split.
    + apply R1, R2. eapply runs_step; [exact E2|]. apply runs_done. unfold step_thread. cbn [step_pc].
      rewrite P2. cbn [set_tasks p_out]. rewrite O1. reflexivity.
    + unfold step_thread. cbn [step_pc]. rewrite P2. cbn [set_tasks p_out]. rewrite O1. cbn [say s_pool s_threads s_held s_events set_tasks p_tasks p_ongoing app].
      rewrite app_nil_r, V2, V1, T1, H2, H1, G1. auto.
  - exists s2. split; [apply R1, R2, runs_done; exact E2|]. rewrite P2, V2, V1, T1, H2, H1. cbn [set_tasks p_tasks p_ongoing]. auto.
Qed.

Lemma dwake_runs c s : s_threads s = [DWake] ->
  exists s', runs_to c s s' /\ s_threads s' = [] /\ s_pool s' = set_tasks (s_pool s) [] /\ s_held s' = s_held s /\
    s_events s' = s_events s ++ map Wakes (p_tasks (s_pool s)).
Proof.
  intros E. remember (p_tasks (s_pool s)) as tk eqn:T. revert s E T. induction tk as [|w tk IH]; intros s E T.
  - exists (step_thread c s [] DWake []). split.
    + eapply runs_step; [exact E|]. apply runs_done. unfold step_thread. cbn [step_pc]. rewrite <- T. reflexivity.
    + unfold step_thread. cbn [step_pc]. rewrite <- T. cbn [say s_events s_pool s_threads s_held app map].
      split; [reflexivity|]. split; [unfold set_tasks; rewrite T; destruct (s_pool s); reflexivity|]. split; reflexivity.
  - set (s1 := step_thread c s [] DWake []).
    assert (E1 : s1 = step_thread c s [] DWake []) by reflexivity. unfold step_thread in E1. cbn [step_pc] in E1. rewrite <- T in E1. cbn [say s_events s_pool s_threads s_held app] in E1.
    destruct (IH s1) as (s2 & H1 & H2 & H3 & H4 & H5); [rewrite E1; reflexivity|rewrite E1; reflexivity|].
    exists s2. split; [eapply runs_step; [exact E|exact H1]|]. split; [exact H2|]. split; [rewrite H3, E1; reflexivity|]. split; [rewrite H4, E1; reflexivity|].
    rewrite H5, E1; cbn [s_events]. rewrite <- app_assoc. reflexivity.
Qed.
Lemma lost_runs c s t : s_threads s = [DLoad t] -> p_out (s_pool s) t = true ->
  exists s', runs_to c s s' /\ s_threads s' = [] /\ p_tasks (s_pool s') = [] /\ s_held s' = s_held s /\
    s_events s' = s_events s ++ map Wakes (p_tasks (s_pool s)) /\ p_ongoing (s_pool s') = (p_ongoing (s_pool s) - 1)%Z.
Proof.
  intros E O. destruct s as [p th h n rs wk ev]; destruct p as [nw il tk og out]. cbn in E, O. subst th.
  destruct (dwake_runs c (mk_sys (mk_pool nw il tk (og - 1) out) [DWake] h n rs wk ev) eq_refl) as (s' & R & E' & P' & H' & V').
  exists s'. split.
  - eapply runs_step; [reflexivity|]. unfold step_thread. cbn [step_pc s_pool p_out]. rewrite O.
    cbn [say s_pool s_threads s_held s_next s_resolved s_waker s_events next_after app]. rewrite app_nil_r.
    eapply runs_step; [reflexivity|]. unfold step_thread.
    cbn [step_pc say s_pool s_threads s_held s_next s_resolved s_waker s_events next_after set_ongoing p_new p_idle p_tasks p_ongoing p_out app]. rewrite app_nil_r. exact R.
  - rewrite E', P', H', V'. cbn [s_pool s_held s_events set_tasks p_tasks p_ongoing]. auto.
Qed.

(** Moves written down. *)
Lemma move_step c m s s' : move c m s = Some s' -> step c s s'.
Proof. intros E.
  destruct m as [w|k|k att|k|f ok]; cbn [move] in E.
  - injection E as <-. constructor.
  - destruct (skipn k (s_threads s)) as [|x b] eqn:K; [discriminate|]. injection E as <-. apply step_run.
    rewrite <- K. symmetry. apply firstn_skipn.
  - destruct (skipn k (s_held s)) as [|t b] eqn:K; [discriminate|]. injection E as <-. apply step_drop.
    rewrite <- K. symmetry. apply firstn_skipn.
  - destruct (skipn k (s_held s)) as [|t b] eqn:K; [discriminate|]. injection E as <-. apply step_lose.
    rewrite <- K. symmetry. apply firstn_skipn.
  - destruct (Nat.ltb_spec f (s_next s)); [|discriminate]. destruct (s_resolved s f) eqn:R; [discriminate|]. injection E as <-. constructor; assumption.
Qed.
Lemma exec_steps c l s s' : exec c l s = Some s' -> steps c s s'.
Proof.
  revert s s'. induction l as [|m l IH] using rev_ind; intros s s'; [intros E; injection E as <-; constructor|].
  assert (A : forall l s, exec c (l ++ [m]) s = match exec c l s with Some s1 => move c m s1 | None => None end).
  { clear. induction l as [|x l IH]; intros s; cbn [app exec]; [destruct (move c m s); reflexivity|]. destruct (move c x s); [apply IH|reflexivity]. }
  rewrite A. destruct (exec c l s) as [s1|] eqn:E1; [|discriminate]. intros E. exact (steps_more c s s1 s' (IH s s1 E1) (move_step c m s1 s' E)).
Qed.
Lemma exec_solo_steps c l s s' : exec_solo c l s = Some s' -> solo_steps c s s'.
Proof.
  revert s s'. induction l as [|m l IH] using rev_ind; intros s s'; [intros E; injection E as <-; constructor|].
  assert (A : forall l s, exec_solo c (l ++ [m]) s = match exec_solo c l s with Some s1 => exec_solo c [m] s1 | None => None end).
  { clear. induction l as [|x l IH]; intros s; [reflexivity|]. cbn [app]. change (exec_solo c (x :: l ++ [m]) s) with (match move c x s with Some s' => if length (s_threads s') <=? 1 then exec_solo c (l ++ [m]) s' else None | None => None end).
    cbn [exec_solo]. destruct (move c x s) as [s1|]; [|reflexivity]. destruct (length (s_threads s1) <=? 1); [apply IH|reflexivity]. }
  rewrite A. destruct (exec_solo c l s) as [s1|] eqn:E1; [|discriminate]. cbn [exec_solo].
  destruct (move c m s1) as [s2|] eqn:M; [|discriminate]. destruct (Nat.leb_spec (length (s_threads s2)) 1) as [L|L]; [|discriminate].
  intros E. injection E as <-. apply (solo_more c s s1); [apply IH; exact E1|exact (move_step c m s1 s2 M)|exact L].
Qed.
Lemma solo_all c s s' : solo_steps c s s' -> steps c s s'.
Proof. intros S. induction S as [|s s1 s2 _ IH St _]; [constructor|]. exact (steps_more c s s1 s2 IH St). Qed.
