(** Proofs about programs on blocks that share storage: whole programs, columns of which
    nothing is shared, and columns of which something is. *)
From Verif Require Import Base Bytes Types Values Columns Block SpecColumns PushProofs CastSendProofs CastMainProofs
  Sharing SpecSharing SharingProofs ShareBlockProofs ShareStepProofs.
Open Scope nat_scope.

Lemma good_fresh : good fresh_memory [].
Proof.
  constructor; cbn.
  - intros a k H. unfold kids_at in H. destruct a; destruct H.
  - intros [|i] b a H; discriminate.
  - reflexivity.
  - intros [|i] b H; discriminate.
  - intros [|i] x H; destruct H.
  - intros [|i] b H; discriminate.
  - intros [|i] j b c _ H; discriminate.
Qed.
Lemma shows_fresh : shows fresh_memory [].
Proof. reflexivity. Qed.

Lemma program_spec os : forall m st vs, good m st -> shows m vs ->
  match program m os with
  | Ok m' => exists vs', steps_of vs os (Ok vs') /\ shows m' vs' /\ good m' (fold_left origin_step os st)
  | Err e => steps_of vs os (Err e)
  | Panic p => steps_of vs os (Panic p) \/
      (p = PUnwrap /\ exists os1 o os2 vs1, os = os1 ++ o :: os2 /\ steps_of vs os1 (Ok vs1) /\ stuck vs1 o)
  end.
Proof.
  induction os as [|o os IH]; intros m st vs G S; cbn [program fold_left].
  - exists vs. split; [constructor|auto].
  - pose proof (perform_spec m st vs o G S) as T. destruct (perform m o) as [m1|e|p]; cbn [rbind].
    + destruct T as (vs1 & T1 & S1 & G1). pose proof (IH m1 _ vs1 G1 S1) as T. destruct (program m1 os) as [m2|e|p].
      * destruct T as (vs2 & T2 & S2 & G2). exists vs2. split; [econstructor; eassumption|auto].
      * econstructor; eassumption.
      * destruct T as [T|(-> & os1 & o' & os2 & vs2 & -> & T2 & T3)]; [left; econstructor; eassumption|]. right. split; [reflexivity|].
        exists (o :: os1), o', os2, vs2. split; [reflexivity|]. split; [econstructor; eassumption|exact T3].
    + apply steps_err, T.
    + destruct T as [T|(-> & T)]; [left; apply steps_panic, T|]. right. split; [reflexivity|].
      exists [], o, os, vs. split; [reflexivity|]. split; [constructor|exact T].
Qed.
Lemma shows_unique m vs vs' : shows m vs -> shows m vs' -> vs = vs'.
Proof.
  intros H H'. unfold shows in *. rewrite H in H'. clear H. revert vs' H'. induction vs as [|x vs IH]; intros [|y vs'] H'; try discriminate; [reflexivity|].
  cbn [map] in H'. assert (E1 : match x with Some b => Some (Ok b) | None => None end = match y with Some b => Some (Ok b) | None => None end) by congruence.
  assert (E2 : map (fun o => match o with Some b => Some (Ok b) | None => None end) vs = map (fun o => match o with Some b => Some (Ok b) | None => None end) vs') by congruence.
  f_equal; [|apply IH, E2]. destruct x, y; congruence.
Qed.
Lemma program_good os m : program fresh_memory os = Ok m -> good m (origins os).
Proof. intros H. pose proof (program_spec os _ _ _ good_fresh shows_fresh) as T. rewrite H in T. destruct T as (vs & _ & _ & G). exact G. Qed.

(** Nothing shared. *)
Lemma alone_strong m st i hb k x : good m st -> nth_error (m_blocks m) i = Some (Some hb) -> nth_error (hb_cols hb) k = Some x ->
  NoDup (ids_of st i) -> (forall j, j <> i -> apart (ids_of st i) (ids_of st j)) ->
  forall y, In y (under (m_heap m) (snd x)) -> strong (m_heap m) (snd x :: others (m_blocks m) i k) y = 1.
Proof.
  intros G Hi Hk N A y Hy. pose proof (g_nodup _ _ G _ _ Hi N) as D. unfold others. rewrite Hi. cbn [cells].
  apply strong_alone; [apply (g_sound _ _ G)| | |exact Hy].
  - destruct (trees_set (m_heap m) hb k x x Hk) as (T & _). rewrite T in D. apply NoDup_perm3 in D. unfold drop_nth. cbn [flat_map].
    rewrite flat_map_app'. exact D.
  - intros b z Hb Hz H. apply in_flat_map in Hb. destruct Hb as ([c|] & Hc & Hb); [|destruct Hb]. apply drop_nth_in in Hc.
    destruct Hc as (j & Nj & Hj). apply (g_apart _ _ G i j hb c (fun e => Nj (eq_sym e)) Hi Hj (A j Nj) z).
    + apply in_flat_map. exists (snd x). split; [|exact Hz]. apply in_map. eapply nth_error_In, Hk.
    + apply in_flat_map. exists b. auto.
Qed.
Lemma put_alone m st vs i key v hb b : good m st -> shows m vs -> nth_error (m_blocks m) i = Some (Some hb) ->
  block_at (m_heap m) hb = Ok b -> NoDup (ids_of st i) -> (forall j, j <> i -> apart (ids_of st i) (ids_of st j)) ->
  match put_field m i key v with
  | Ok m' => exists b', put_param key v b = Ok b' /\ shows m' (set_nth vs i (Some b'))
  | Err e => put_param key v b = Err e
  | Panic p => put_param key v b = Panic p
  end.
Proof.
  intros G S Hi Hb N A. pose proof (put_field_spec m st vs i key v hb b G S Hi Hb) as T.
  destruct (find_name key (b_cols b) 0) as [k|] eqn:Ef.
  - clear T. unfold put_field, var. rewrite Hi. cbn [rbind]. rewrite Hb. cbn [rbind]. rewrite Ef.
    destruct (find_name_at_nth _ _ _ _ Ef) as (c & _ & Hk). rewrite Nat.sub_0_r in Hk.
    pose proof Hb as Hb'. apply block_at_eq in Hb'. destruct Hb' as (_ & HF).
    destruct (F2_nth _ _ _ HF k _ Hk) as ([n a] & Hx & En & Ca). cbn [fst snd] in En, Ca. subst n.
    pose proof (put_at_exact m st vs i hb b k v key c a G S Hi Hb Hk Hx (alone_strong m st i hb k (key, a) G Hi Hx N A)) as T.
    rewrite (put_param_at key v b k key c Ef Hk). destruct (put_at m i hb k v) as [m'|e|p].
    + destruct T as (c' & P & Sh & _). exists (put_back b k key c'). rewrite P. split; [reflexivity|exact Sh].
    + rewrite T. reflexivity.
    + rewrite T. reflexivity.
  - assert (Q : forall r, puts key v b r -> put_param key v b = r).
    { intros r [P|(k & n & c & P & _)]; [exact P|congruence]. }
    destruct (put_field m i key v) as [m'|e|p].
    + destruct T as (b' & P & Sh & _). exists b'. split; [apply Q, P|exact Sh].
    + apply Q, T.
    + destruct T as [T|(_ & k & n & c & P & _)]; [apply Q, T|congruence].
Qed.

(** Something shared. *)
Lemma sum_two (f : addr -> nat) l (p q : addr) : In p l -> In q l -> p <> q -> 1 <= f p -> 1 <= f q -> 2 <= list_sum (map f l).
Proof.
  assert (One : forall l (p : addr), In p l -> 1 <= f p -> 1 <= list_sum (map f l)).
  { clear. induction l as [|x l IH]; intros p [] L; change (list_sum (map f (x :: l))) with (f x + list_sum (map f l)).
    - subst. lia.
    - specialize (IH p H L). lia. }
  induction l as [|x l IH]; intros Hp Hq N Lp Lq; [destruct Hp|]. change (list_sum (map f (x :: l))) with (f x + list_sum (map f l)).
  destruct Hp as [->|Hp], Hq as [->|Hq].
  - congruence.
  - specialize (One l q Hq Lq). lia.
  - specialize (One l p Hp Lp). lia.
  - specialize (IH Hp Hq N Lp Lq). lia.
Qed.
Lemma occurs_in (a : addr) l : In a l -> 1 <= occurrences a l.
Proof. intros H. apply (count_occ_In Nat.eq_dec) in H. unfold occurrences. lia. Qed.
Lemma shared_push (others : list addr) (h : heap) (a : addr) v c : sound h -> a < length h -> In a others ->
  content h a = Ok c -> kids_at h a <> [] -> goes_inside c v = true -> column_push others h a v = Panic PUnwrap.
Proof.
  intros W La Ia C Kn Gi. unfold column_push. assert (S : strong h (a :: others) a <> 1).
  { unfold strong. rewrite occurs_head. pose proof (occurs_in a others Ia). lia. }
  apply Nat.eqb_neq in S. rewrite S. clear S. rewrite content_eq in C by exact W.
  destruct (nth_error h a) as [n|] eqn:En; [|discriminate C].
  assert (Un : forall i, In i (kids n) -> owned (h ++ [n]) (length h :: others) i = Panic PUnwrap).
  { intros i Hi. unfold owned. assert (Ka : forall k, In k (kids n) -> k < length h).
    { intros k Hk. assert (In k (kids_at h a)) as Hk' by (unfold kids_at; rewrite En; exact Hk). apply W in Hk'. lia. }
    destruct (new_cell_spec h n W Ka) as (W' & X & _ & _).
    assert (2 <= strong (h ++ [n]) (length h :: others) i) as L.
    { unfold strong. enough (2 <= list_sum (map (fun b => occurrences i (kids_at (h ++ [n]) b)) (alive (h ++ [n]) (length h :: others)))) by lia.
      apply (sum_two _ _ a (length h)).
      - apply alive_in. exists a. split; [right; exact Ia|apply under_self, W'].
      - apply alive_in. exists (length h). split; [left; reflexivity|apply under_self, W'].
      - lia.
      - apply occurs_in. unfold kids_at. rewrite nth_error_app1 by exact La. rewrite En. exact Hi.
      - apply occurs_in. unfold kids_at. rewrite nth_error_last. exact Hi. }
    destruct (Nat.eqb_spec (strong (h ++ [n]) (length h :: others) i) 1); [lia|reflexivity]. }
  assert (P : forall n', n' = n -> push_in (Datatypes.S (length h)) (length h :: others) (h ++ [n]) (length h) v = Panic PUnwrap -> 
    (do n' <- Ok n'; let a' := length h in do h' <- push_in (Datatypes.S a') (a' :: others) (h ++ [n']) a' v; Ok (h', a')) = Panic PUnwrap).
  { intros n' -> E. cbn [rbind]. cbv zeta. rewrite E. reflexivity. }
  destruct n as [c0|i nulls|i offs|k0 v0 offs|f i|i ix idx vm|i w|i is]; cbn [read_node] in C.
  - exfalso. apply Kn. unfold kids_at. rewrite En. reflexivity.
  - apply P; [reflexivity|]. cbn [push_in]. rewrite nth_error_last, Un by (left; reflexivity). reflexivity.
  - apply bind_ok in C. destruct C as (ci & _ & C). injection C as <-. destruct v; try discriminate Gi.
    apply P; [reflexivity|]. cbn [push_in]. rewrite nth_error_last, Un by (left; reflexivity). reflexivity.
  - apply bind_ok in C. destruct C as (ck & _ & C). apply bind_ok in C. destruct C as (cv & _ & C). injection C as <-. destruct v; try discriminate Gi.
    apply P; [reflexivity|]. cbn [push_in]. rewrite nth_error_last, Un by (left; reflexivity). reflexivity.
  - apply P; [reflexivity|]. cbn [push_in]. rewrite nth_error_last, Un by (left; reflexivity). reflexivity.
  - apply bind_ok in C. destruct C as (ci & _ & C). injection C as <-. discriminate Gi.
  - apply bind_ok in C. destruct C as (ci & _ & C). injection C as <-. destruct w; discriminate Gi.
  - apply bind_ok in C. destruct C as (ci & _ & C). apply bind_ok in C. destruct C as (cs & _ & C). injection C as <-. discriminate Gi.
Qed.

Lemma build_inside c v h : goes_inside c v = true -> sound h -> let '(h', a) := build c h in kids_at h' a <> [].
Proof.
  intros Gi W.
  destruct c; try discriminate Gi; cbn [build]; try (destruct (build c h) as [h1 a]; cbn [new_cell]; unfold kids_at; rewrite nth_error_last; discriminate).
  destruct (build c1 h) as [h1 a1]. destruct (build c2 h1) as [h2 a2]. cbn [new_cell]. unfold kids_at. rewrite nth_error_last. discriminate.
Qed.
Lemma build_columns_inside cs v : forall h k n c, sound h -> nth_error cs k = Some (n, c) -> goes_inside c v = true ->
  let '(h', r) := build_columns cs h in exists a, nth_error r k = Some (n, a) /\ a < length h' /\ content h' a = Ok c /\ kids_at h' a <> [].
Proof.
  induction cs as [|[n0 c0] cs IH]; intros h k n c W Hk Gi; [destruct k; discriminate|]. cbn [build_columns].
  pose proof (build_spec c0 h W) as B. pose proof (build_inside c0 v h) as I0. destruct (build c0 h) as [h1 a]. pose proof B as (W1 & X1 & L1 & C1 & _ & _).
  pose proof (build_columns_spec cs h1 W1) as Q. specialize (IH h1). destruct (build_columns cs h1) as [h2 r].
  destruct Q as (W2 & X2 & _). destruct k as [|k]; cbn [nth_error] in Hk |- *.
  - injection Hk as -> ->. exists a. destruct (built_later h c h1 a h2 B X2 W2) as (C1' & _). pose proof (extends_length _ _ X2).
    split; [reflexivity|]. split; [lia|]. split; [exact C1'|]. rewrite (extends_kids h1 h2) by (assumption || apply L1). apply I0; assumption.
  - exact (IH k n c W1 Hk Gi).
Qed.
Lemma cloned_put b key v k c j : find_name key (b_cols b) 0 = Some k -> nth_error (b_cols b) k = Some (key, c) ->
  goes_inside c v = true -> j < 2 -> program fresh_memory [ONew b; OClone 0; OPut j key v] = Panic PUnwrap.
Proof.
  intros Ef Hk Gi Lj.
  pose proof (perform_spec fresh_memory [] [] (ONew b) good_fresh shows_fresh) as T.
  pose proof (build_columns_inside (b_cols b) v [] k key c (g_sound _ _ good_fresh) Hk Gi) as Q.
  cbn [program]. cbn [perform] in T |- *. change (m_heap fresh_memory) with (@nil node) in *.
  destruct (build_columns (b_cols b) []) as [h cs]. destruct T as (vs1 & T1 & S1 & G1). destruct Q as (a & Ha & La & Ca & Kn).
  cbn [rbind m_blocks fresh_memory app] in S1, G1 |- *. set (hb := mk_hblock (b_info b) cs) in *.
  change (var [Some hb] 0) with (Ok hb). cbn [rbind app m_heap].
  assert (B : block_at h hb = Ok b).
  { destruct (shows_nth _ _ 0 hb S1 eq_refl) as (b' & Hb' & B). cbn [m_heap] in B. inversion T1; subst. cbn in Hb'. injection Hb' as <-. exact B. }
  assert (P : put_field (mk_memory h [Some hb; Some hb]) j key v = Panic PUnwrap).
  { unfold put_field, var. cbn [m_blocks m_heap].
    assert (Hj : nth_error [Some hb; Some hb] j = Some (Some hb)) by (destruct j as [|[|j]]; [reflexivity|reflexivity|lia]).
    rewrite Hj. cbn [rbind]. rewrite B. cbn [rbind]. rewrite Ef. unfold put_at, index. cbn [hb_cols hb]. rewrite Ha. cbn [or_panic rbind fst snd m_blocks m_heap].
    rewrite (shared_push _ h a v c); [reflexivity|apply (g_sound _ _ G1)|exact La| |exact Ca|exact Kn|exact Gi].
    unfold others. apply in_or_app. left. apply in_flat_map. exists (Some hb). split.
    - destruct j as [|[|j]]; [left; reflexivity|left; reflexivity|lia].
    - cbn [cells hb hb_cols]. apply (in_map snd) with (x := (key, a)). eapply nth_error_In, Ha. }
  rewrite P. reflexivity.
Qed.

(** Columns that were pushed to. *)
Lemma pad_or_cut_twice n b : pad_or_cut n (pad_or_cut n b) = pad_or_cut n b.
Proof.
  unfold pad_or_cut. assert (L : length (firstn n (b ++ repeat 0%N n)) = n).
  { rewrite firstn_length, app_length, repeat_length. lia. }
  rewrite firstn_app, L, Nat.sub_diag. cbn [firstn]. rewrite app_nil_r. apply firstn_all2. lia.
Qed.
Lemma low_again i v w : low_key i v = true -> reads_as i v = Some w -> low_key i w = true /\ reads_as i w = Some w.
Proof.
  intros Hk Hr. destruct i; try discriminate Hk; destruct v; try discriminate Hk; cbn [reads_as] in Hr.
  - destruct (scalar_eq_dec s s0) as [<-|]; [|discriminate]. injection Hr as <-. split; [exact Hk|]. cbn [reads_as].
    destruct (scalar_eq_dec s s); [reflexivity|congruence].
  - injection Hr as <-. auto.
  - injection Hr as <-. split; [reflexivity|]. cbn [reads_as]. rewrite pad_or_cut_twice. reflexivity.
  - match type of Hr with (if ?x then _ else _) = _ => destruct x eqn:E end; [|discriminate]. injection Hr as <-. split; [reflexivity|]. cbn [reads_as]. rewrite E. reflexivity.
  - match type of Hr with (if ?x then _ else _) = _ => destruct x eqn:E end; [|discriminate]. injection Hr as <-. split; [reflexivity|]. cbn [reads_as]. rewrite E. reflexivity.
  - match type of Hr with (if ?x then _ else _) = _ => destruct x eqn:E end; [|discriminate]. injection Hr as <-. split; [exact Hk|]. cbn [reads_as]. rewrite E. reflexivity.
Qed.

Lemma wf_forget c ws : wf c -> holds c ws -> (forall w, In w ws -> exists v, reads_as c v = Some w) -> wf (forget c).
Proof.
  intros Hw (Hl & Ha) Hr. destruct c; try exact Hw. cbn [forget wf] in *. destruct Hw as (W & n & L & F & B1 & B2 & _).
  split; [exact W|]. exists n. repeat (split; [assumption|]). apply Forall_forall. intros j Hj. apply In_nth_error in Hj. destruct Hj as (r & Hj).
  cbn [clen] in Hl. assert (r < length ws) as Lr.
  { assert (r < length idx) by (apply nth_error_Some; congruence). injection Hl as Hl. lia. }
  destruct (nth_error ws r) as [w|] eqn:Ew; [|apply nth_error_None in Ew; lia]. specialize (Ha r w Ew). cbn [at_] in Ha.
  unfold index in Ha. rewrite Hj in Ha. cbn [or_panic rbind] in Ha. exists w. split; [exact Ha|].
  destruct (Hr w (nth_error_In _ _ Ew)) as (v & Hv). cbn [reads_as] in Hv. destruct (low_key c v) eqn:Hk; [|discriminate]. exact (low_again c v w Hk Hv).
Qed.
Lemma forget_reads c v : reads_as (forget c) v = reads_as c v.
Proof. destruct c; reflexivity. Qed.
Lemma forget_holds c ws : holds c ws -> holds (forget c) ws.
Proof. destruct c; exact (fun H => H). Qed.
Lemma forget_rows c : low_rows (forget c) = low_rows c.
Proof. destruct c; reflexivity. Qed.
Lemma forget_type c : ctype (forget c) = ctype c.
Proof. destruct c; reflexivity. Qed.
Lemma grown_spec c ws k : grown c ws k ->
  wf c /\ holds c ws /\ (low_rows c <= k)%N /\ (forall w, In w ws -> exists v, reads_as c v = Some w).
Proof.
  induction 1 as [t tz c F N|c ws k v w c' G (W & H & L & R) Hr Hb P].
  - destruct (from_type_wf t tz c F N) as (W & L & R). split; [exact W|]. split; [apply holds_empty, L|]. split; [lia|intros w []].
  - assert (Q : forall d, wf d -> holds d ws -> (low_rows d <= k)%N -> (forall x, reads_as d x = reads_as c x) -> push d v = Ok c' ->
      wf c' /\ holds c' (ws ++ [w]) /\ (low_rows c' <= k + weight v)%N /\ (forall w0, In w0 (ws ++ [w]) -> exists v0, reads_as c' v0 = Some w0)).
    { intros d Wd Hd Ld Rd Pd. assert (Hr' : reads_as d v = Some w) by (rewrite Rd; exact Hr).
      destruct (push_step d d v w (similar_refl d) Wd Hr' ltac:(lia)) as (c1 & P1 & St).
      change (push_as d d v) with (push d v) in P1. rewrite Pd in P1. injection P1 as <-.
      split; [apply (st_wf _ _ _ _ St)|]. split; [exact (step_holds _ _ _ _ _ St Hd)|]. split; [pose proof (st_rows _ _ _ _ St); lia|].
      intros w0 Hw. apply in_app_or in Hw. destruct Hw as [Hw|[<-|[]]].
      - destruct (R w0 Hw) as (v0 & Hv0). exists v0. rewrite (st_reads _ _ _ _ St), Rd. exact Hv0.
      - exists v. rewrite (st_reads _ _ _ _ St). exact Hr'. }
    destruct P as [P|P].
    + exact (Q c W H L (fun x => eq_refl) P).
    + refine (Q (forget c) (wf_forget c ws W H R) (forget_holds c ws H) _ (forget_reads c) P). rewrite forget_rows. exact L.
Qed.
