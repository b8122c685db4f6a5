(** Proofs about shared storages (Sharing.v). *)
From Verif Require Import Base Bytes Types Values Columns Block Sharing SpecColumns SpecSharing PushProofs.
Open Scope nat_scope.

(** Storages hold older storages. *)
Definition sound (h : heap) : Prop := forall a k, In k (kids_at h a) -> k < a.

Lemma kids_at_some h a n : nth_error h a = Some n -> kids_at h a = kids n.
Proof. intros H. unfold kids_at. rewrite H. reflexivity. Qed.

Lemma tree_fuel h : sound h -> forall f a, a <= f -> tree f h a = under h a.
Proof.
  intros W. enough (forall n a f g, a <= n -> a <= f -> a <= g -> tree f h a = tree g h a) as E
    by (intros f a Ha; unfold under; eapply E; eauto).
  assert (K0 : kids_at h 0 = []) by
    (destruct (kids_at h 0) as [|k ks] eqn:E; [reflexivity|]; specialize (W 0 k); rewrite E in W; specialize (W (or_introl eq_refl)); lia).
  induction n as [|n IH]; intros a f g Ha Hf Hg.
  - assert (a = 0) as -> by lia. destruct f, g; cbn [tree]; rewrite ?K0; reflexivity.
  - destruct a as [|a].
    + destruct f, g; cbn [tree]; rewrite ?K0; reflexivity.
    + destruct f as [|f], g as [|g]; try lia. cbn [tree]. f_equal.
      rewrite !flat_map_concat_map. f_equal. apply map_ext_in. intros k Hk. apply W in Hk. apply IH; lia.
Qed.

Lemma under_eq h a : sound h -> under h a = a :: flat_map (under h) (kids_at h a).
Proof.
  intros W. transitivity (tree (S a) h a); [symmetry; apply tree_fuel; [exact W|lia]|].
  cbn [tree]. f_equal. rewrite !flat_map_concat_map. f_equal. apply map_ext_in. intros k Hk.
  apply W in Hk. apply tree_fuel; [exact W|lia].
Qed.

Lemma under_self h a : sound h -> In a (under h a).
Proof. intros W. rewrite under_eq by exact W. left. reflexivity. Qed.
Lemma under_kid h a k : sound h -> In k (kids_at h a) -> In k (under h a).
Proof.
  intros W Hk. rewrite under_eq by exact W. right. apply in_flat_map. exists k. split; [exact Hk|].
  apply under_self, W.
Qed.
Lemma under_le h : sound h -> forall a b, In b (under h a) -> b <= a.
Proof.
  intros W. induction a as [a IH] using lt_wf_ind. intros b Hb. rewrite under_eq in Hb by exact W.
  destruct Hb as [->|Hb]; [lia|]. apply in_flat_map in Hb. destruct Hb as (k & Hk & Hb).
  apply W in Hk. apply IH in Hb; lia.
Qed.
Lemma under_trans h : sound h -> forall a b c, In b (under h a) -> In c (under h b) -> In c (under h a).
Proof.
  intros W. induction a as [a IH] using lt_wf_ind. intros b c Hb Hc. rewrite under_eq in Hb by exact W.
  destruct Hb as [->|Hb]; [exact Hc|]. apply in_flat_map in Hb. destruct Hb as (k & Hk & Hb).
  rewrite under_eq by exact W. right. apply in_flat_map. exists k. split; [exact Hk|].
  eapply IH; eauto.
Qed.
Lemma under_parent h : sound h -> forall a b, In b (under h a) -> b = a \/ exists p, In p (under h a) /\ In b (kids_at h p).
Proof.
  intros W. induction a as [a IH] using lt_wf_ind. intros b Hb. rewrite under_eq in Hb by exact W.
  destruct Hb as [->|Hb]; [left; reflexivity|right]. apply in_flat_map in Hb. destruct Hb as (k & Hk & Hb).
  destruct (IH k (W _ _ Hk) b Hb) as [->|(p & Hp & Hb')].
  - exists a. split; [apply under_self, W|exact Hk].
  - exists p. split; [|exact Hb']. eapply under_trans; [exact W|apply under_kid; eauto|exact Hp].
Qed.

(** What is read at an address. *)
Lemma read_node_ext f g n : (forall k, In k (kids n) -> f k = g k) -> read_node f n = read_node g n.
Proof.
  intros H. destruct n; cbn [read_node kids] in *; try reflexivity;
    try (rewrite (H i (or_introl eq_refl)); reflexivity).
  - rewrite (H k (or_introl eq_refl)), (H v (or_intror (or_introl eq_refl))). reflexivity.
  - rewrite (H i (or_introl eq_refl)). rewrite (mapM_ext f g is); [reflexivity|].
    intros x Hx. apply H. right. exact Hx.
Qed.
Lemma content_eq h a : sound h ->
  content h a = match nth_error h a with Some n => read_node (content h) n | None => Panic PUndefined end.
Proof.
  intros W. enough (forall f a, a < f -> read_at f h a = content h a) as E.
  { unfold content at 1. cbn [read_at]. destruct (nth_error h a) as [n|] eqn:En; [|reflexivity].
    apply read_node_ext. intros k Hk. apply E. apply (W a k). rewrite (kids_at_some _ _ _ En). exact Hk. }
  enough (forall n a f g, a < n -> a < f -> a < g -> read_at f h a = read_at g h a) as E
    by (intros f b Hb; unfold content; eapply (E f); lia).
  induction n as [|n IH]; intros b f g Hb Hf Hg; [lia|]. destruct f as [|f], g as [|g]; try lia.
  cbn [read_at]. destruct (nth_error h b) as [x|] eqn:Ex; [|reflexivity]. apply read_node_ext.
  intros k Hk. assert (k < b) by (apply (W b k); rewrite (kids_at_some _ _ _ Ex); exact Hk). apply IH; lia.
Qed.
Lemma content_same h h' : sound h -> sound h' -> forall a,
  (forall m, In m (under h a) -> nth_error h' m = nth_error h m) -> content h' a = content h a.
Proof.
  intros W W'. induction a as [a IH] using lt_wf_ind. intros H.
  rewrite (content_eq h a W), (content_eq h' a W'). rewrite (H a) by (apply under_self, W).
  destruct (nth_error h a) as [n|] eqn:En; [|reflexivity]. apply read_node_ext. intros k Hk.
  rewrite <- (kids_at_some _ _ _ En) in Hk. apply IH; [exact (W _ _ Hk)|]. intros m Hm. apply H.
  eapply under_trans; [exact W|apply under_kid; eauto|exact Hm].
Qed.
Lemma mapM_total {A B} (f : A -> res B) l : (forall x, In x l -> exists y, f x = Ok y) -> exists ys, mapM f l = Ok ys.
Proof.
  induction l as [|x l IH]; intros H; [eexists; reflexivity|]. cbn [mapM].
  destruct (H x (or_introl eq_refl)) as (y & ->). destruct IH as (ys & ->); [intros z Hz; apply H; right; exact Hz|].
  eexists. reflexivity.
Qed.
Lemma content_ok h : sound h -> forall a, a < length h -> exists c, content h a = Ok c.
Proof.
  intros W. induction a as [a IH] using lt_wf_ind. intros Ha. rewrite content_eq by exact W.
  destruct (nth_error h a) as [n|] eqn:En; [|apply nth_error_None in En; lia].
  assert (K : forall k, In k (kids n) -> exists c, content h k = Ok c).
  { intros k Hk. assert (k < a) by (apply (W a k); rewrite (kids_at_some _ _ _ En); exact Hk). apply IH; lia. }
  destruct n; cbn [read_node kids] in *; try (eexists; reflexivity);
    try (destruct (K i (or_introl eq_refl)) as (c & ->); eexists; reflexivity).
  - destruct (K k (or_introl eq_refl)) as (ck & ->). destruct (K v (or_intror (or_introl eq_refl))) as (cv & ->).
    eexists; reflexivity.
  - destruct (K i (or_introl eq_refl)) as (c & ->). cbn [rbind].
    destruct (mapM_total (content h) is) as (cs & ->); [intros x Hx; apply K; right; exact Hx|]. eexists; reflexivity.
Qed.

(** Changing storages without changing what they hold. *)
Definition same_graph (h h' : heap) : Prop := length h' = length h /\ forall a, kids_at h' a = kids_at h a.
Lemma same_graph_refl h : same_graph h h.
Proof. split; auto. Qed.
Lemma same_graph_trans a b c : same_graph a b -> same_graph b c -> same_graph a c.
Proof. intros [H1 H2] [H3 H4]. split; [congruence|]. intros x. rewrite H4. apply H2. Qed.
Lemma same_sound h h' : same_graph h h' -> sound h -> sound h'.
Proof. intros [_ G] W a k Hk. rewrite G in Hk. apply (W _ _ Hk). Qed.
Lemma same_tree h h' : same_graph h h' -> forall f a, tree f h' a = tree f h a.
Proof.
  intros [_ G]. induction f as [|f IH]; intros a; [reflexivity|]. cbn [tree]. rewrite G. f_equal.
  rewrite !flat_map_concat_map. f_equal. apply map_ext. exact IH.
Qed.
Lemma same_alive h h' roots : same_graph h h' -> alive h' roots = alive h roots.
Proof.
  intros G. unfold alive. f_equal. rewrite !flat_map_concat_map. f_equal. apply map_ext.
  intros a. unfold under. apply same_tree, G.
Qed.
Lemma same_strong h h' roots a : same_graph h h' -> strong h' roots a = strong h roots a.
Proof.
  intros G. unfold strong. rewrite (same_alive h h' roots G). f_equal. f_equal. apply map_ext.
  intros b. rewrite (proj2 G). reflexivity.
Qed.

Lemma put_cell_length h : forall a n, length (put_cell h a n) = length h.
Proof. induction h as [|x h IH]; intros [|a] n; cbn; auto. Qed.
Lemma put_cell_at h : forall a n, a < length h -> nth_error (put_cell h a n) a = Some n.
Proof. induction h as [|x h IH]; intros [|a] n H; cbn in *; try lia; [reflexivity|apply IH; lia]. Qed.
Lemma put_cell_other h : forall a n b, b <> a -> nth_error (put_cell h a n) b = nth_error h b.
Proof.
  induction h as [|x h IH]; intros [|a] n [|b] H; cbn; try reflexivity; try lia. apply IH. lia.
Qed.
Lemma put_cell_graph h a n x : nth_error h a = Some x -> kids n = kids x -> same_graph h (put_cell h a n).
Proof.
  intros Hx K. split; [apply put_cell_length|]. intros b. destruct (Nat.eq_dec b a) as [->|Hb].
  - unfold kids_at. rewrite put_cell_at by (apply nth_error_Some; congruence). rewrite Hx. exact K.
  - unfold kids_at. rewrite put_cell_other by exact Hb. reflexivity.
Qed.

(** A storage with one holder. *)
Lemma alive_in h roots b : In b (alive h roots) <-> exists r, In r roots /\ In b (under h r).
Proof. unfold alive. rewrite nodup_In, in_flat_map. reflexivity. Qed.
Lemma sum_one (f : addr -> nat) l x : In x l -> f x <= list_sum (map f l).
Proof.
  induction l as [|y l IH]; intros []; change (list_sum (map f (y :: l))) with (f y + list_sum (map f l)); [subst; lia|].
  apply IH in H. lia.
Qed.
Lemma sum_two (f : addr -> nat) l x y : NoDup l -> In x l -> In y l -> x <> y -> f x + f y <= list_sum (map f l).
Proof.
  induction l as [|z l IH]; intros N Hx Hy D; [destruct Hx|]. inversion N as [|? ? N1 N2]; subst.
  change (list_sum (map f (z :: l))) with (f z + list_sum (map f l)).
  destruct Hx as [->|Hx], Hy as [->|Hy]; [lia| | |].
  - pose proof (sum_one f l y Hy). lia.
  - pose proof (sum_one f l x Hx). lia.
  - specialize (IH N2 Hx Hy D). lia.
Qed.
Lemma occurs_in a l : In a l <-> 1 <= occurrences a l.
Proof. unfold occurrences. rewrite (count_occ_In Nat.eq_dec). unfold gt, lt. reflexivity. Qed.

Lemma one_holder h roots y x : In x (alive h roots) -> In y (kids_at h x) -> strong h roots y = 1 ->
  ~ In y roots /\ occurrences y (kids_at h x) = 1 /\ forall p, In p (alive h roots) -> In y (kids_at h p) -> p = x.
Proof.
  intros Hx Hy S. unfold strong in S.
  pose proof (sum_one (fun b => occurrences y (kids_at h b)) _ x Hx) as S1. cbn beta in S1.
  apply occurs_in in Hy. split; [|split].
  - intros R. apply occurs_in in R. lia.
  - lia.
  - intros p Hp Hk. apply occurs_in in Hk. destruct (Nat.eq_dec p x) as [|D]; [assumption|exfalso].
    assert (ND : NoDup (alive h roots)) by apply NoDup_nodup.
    pose proof (sum_two (fun b => occurrences y (kids_at h b)) _ x p ND Hx Hp (fun e => D (eq_sym e))) as S2.
    cbn beta in S2. lia.
Qed.
Lemma occurs_head a l : occurrences a (a :: l) = S (occurrences a l).
Proof. unfold occurrences. apply count_occ_cons_eq. reflexivity. Qed.
Lemma one_root h a others p : strong h (a :: others) a = 1 -> In p (alive h (a :: others)) -> ~ In a (kids_at h p).
Proof.
  intros S Hp Hk. unfold strong in S. pose proof (sum_one (fun b => occurrences a (kids_at h b)) _ p Hp) as S1.
  cbn beta in S1. apply occurs_in in Hk. rewrite occurs_head in S. lia.
Qed.
Lemma one_root_other h a others : strong h (a :: others) a = 1 -> ~ In a others.
Proof.
  intros S Hk. unfold strong in S. rewrite occurs_head in S. apply occurs_in in Hk. lia.
Qed.

(** The storages reached from [a] through single holders. *)
Inductive own (h : heap) (roots : list addr) (a : addr) : addr -> Prop :=
| own_self : own h roots a a
| own_kid x y : own h roots a x -> In y (kids_at h x) -> strong h roots y = 1 -> own h roots a y.
Lemma own_trans h roots a b c : own h roots a b -> own h roots b c -> own h roots a c.
Proof. intros H1 H2. induction H2; [exact H1|]. eapply own_kid; eauto. Qed.
Lemma own_same h h' roots a m : same_graph h h' -> own h' roots a m -> own h roots a m.
Proof.
  intros G H. induction H as [|x y H IH Hy S]; [constructor|]. rewrite (proj2 G) in Hy.
  rewrite (same_strong _ _ _ _ G) in S. eapply own_kid; eauto.
Qed.
Lemma own_under h roots a m : sound h -> own h roots a m -> In m (under h a).
Proof.
  intros W H. induction H as [|x y H IH Hy S]; [apply under_self, W|].
  eapply under_trans; [exact W|exact IH|apply under_kid; eauto].
Qed.
Lemma alive_under h roots a b : sound h -> In a (alive h roots) -> In b (under h a) -> In b (alive h roots).
Proof.
  intros W Ha Hb. apply alive_in in Ha. destruct Ha as (r & Hr & Ha). apply alive_in. exists r.
  split; [exact Hr|]. eapply under_trans; eauto.
Qed.
Lemma own_reached h roots a m b : sound h -> In a (alive h roots) -> In b (alive h roots) ->
  own h roots a m -> In m (under h b) -> In a (under h b) \/ own h roots a b.
Proof.
  intros W Ha Hb H. induction H as [|x y H IH Hy S]; intros Hm; [left; exact Hm|].
  destruct (under_parent h W _ _ Hm) as [->|(p & Hp & Hk)].
  - right. eapply own_kid; eauto.
  - apply IH.
    assert (Ax : In x (alive h roots)) by exact (alive_under h roots a x W Ha (own_under _ _ _ _ W H)).
    assert (Ap : In p (alive h roots)) by (eapply alive_under; [exact W|exact Hb|exact Hp]).
    rewrite <- (proj2 (proj2 (one_holder h roots y x Ax Hy S)) p Ap Hk). exact Hp.
Qed.

(** A kid with one holder: it is not reached from its own sibling. *)
Lemma sibling h roots a k b m : sound h -> In a (alive h roots) -> In k (kids_at h a) -> strong h roots k = 1 ->
  In b (kids_at h a) -> strong h roots b = 1 -> occurrences k (kids_at h a) = 1 -> b <> k -> own h roots k m -> ~ In m (under h b).
Proof.
  intros W Ha Hk Sk Hb Sb _ D Om Hm.
  assert (Ak : In k (alive h roots)) by (eapply alive_under; [exact W|exact Ha|apply under_kid; assumption]).
  assert (Ab : In b (alive h roots)) by (eapply alive_under; [exact W|exact Ha|apply under_kid; assumption]).
  destruct (own_reached h roots k m b W Ak Ab Om Hm) as [H|H].
  - destruct (under_parent h W _ _ H) as [->|(p & Hp & Kp)]; [apply D; reflexivity|].
    assert (p = a) as -> by (eapply (proj2 (proj2 (one_holder h roots k a Ha Hk Sk))); [|exact Kp]; eapply alive_under; [exact W|exact Ab|exact Hp]).
    apply under_le in Hp; [|exact W]. specialize (W _ _ Hb). lia.
  - inversion H as [|x y Hx Hy S]; subst; [apply D; reflexivity|].
    assert (x = a) as -> by (eapply (proj2 (proj2 (one_holder h roots b a Ha Hb Sb))); [|exact Hy]; eapply alive_under; [exact W|exact Ak|]; eapply own_under; eauto).
    apply own_under in Hx; [|exact W]. apply under_le in Hx; [|exact W]. specialize (W _ _ Hk). lia.
Qed.

(** A push in place against a push to the value: the outcome is the same unless a storage that
    has another holder is in the way, and only storages owned through single holders change. *)
Definition tracks (roots : list addr) (h : heap) (a : addr) (vr : res col) (r : res heap) : Prop :=
  match r with
  | Ok h' => same_graph h h' /\ (forall m, ~ own h roots a m -> nth_error h' m = nth_error h m) /\
             exists c', vr = Ok c' /\ content h' a = Ok c'
  | Err e => vr = Err e
  | Panic p => vr = Panic p \/
               (p = PUnwrap /\ exists y, In y (under h a) /\ y <> a /\ strong h roots y <> 1)
  end.

Lemma same_under h h' a : same_graph h h' -> under h' a = under h a.
Proof. intros G. unfold under. apply same_tree, G. Qed.
Lemma graph_sym h h' : same_graph h h' -> same_graph h' h.
Proof. intros [H1 H2]. split; [congruence|]. intros a. symmetry. apply H2. Qed.
Lemma own_same_iff h h' roots a m : same_graph h h' -> (own h' roots a m <-> own h roots a m).
Proof. intros G. split; apply own_same; [exact G|apply graph_sym, G]. Qed.

Lemma tracks_change roots h h1 a vr r : same_graph h h1 -> (forall m, ~ own h roots a m -> nth_error h1 m = nth_error h m) ->
  tracks roots h1 a vr r -> tracks roots h a vr r.
Proof.
  intros G U. destruct r as [h'|e|p]; cbn [tracks].
  - intros (G' & U' & C). split; [eapply same_graph_trans; eauto|]. split; [|exact C].
    intros m Hm. rewrite U', U; [reflexivity|exact Hm|]. rewrite own_same_iff by exact G. exact Hm.
  - auto.
  - intros [H|(-> & y & Hy & D & S)]; [left; exact H|right]. split; [reflexivity|]. exists y.
    rewrite (same_under h h1 a G) in Hy. rewrite (same_strong h h1 roots y G) in S. auto.
Qed.

Lemma put_content h a x n : sound h -> nth_error h a = Some x -> kids n = kids x ->
  content (put_cell h a n) a = read_node (content h) n.
Proof.
  intros W Hx K. pose proof (put_cell_graph h a n x Hx K) as G. pose proof (same_sound _ _ G W) as W'.
  rewrite content_eq by exact W'. rewrite put_cell_at by (apply nth_error_Some; congruence).
  apply read_node_ext. intros k Hk. rewrite K in Hk.
  assert (k < a) by (apply (W a k); rewrite (kids_at_some _ _ _ Hx); exact Hk).
  apply content_same; [exact W|exact W'|]. intros m Hm. apply under_le in Hm; [|exact W].
  apply put_cell_other. lia.
Qed.

Lemma not_own_above h roots i a : sound h -> i < a -> ~ own h roots i a.
Proof. intros W H O. apply own_under in O; [|exact W]. apply under_le in O; [lia|exact W]. Qed.

(** The kid has been pushed to, now the storage itself is changed. *)
Lemma tracks_after roots h a n n' i h1 f : sound h -> nth_error h a = Some n -> kids n' = kids n -> In i (kids n) ->
  strong h roots i = 1 -> same_graph h h1 -> (forall m, ~ own h roots i m -> nth_error h1 m = nth_error h m) ->
  read_node (content h1) n' = Ok f ->
  tracks roots h a (Ok f) (Ok (put_cell h1 a n')).
Proof.
  intros W Hn K Hi S G U R. cbn [tracks].
  assert (Hi' : In i (kids_at h a)) by (rewrite (kids_at_some _ _ _ Hn); exact Hi).
  assert (N : ~ own h roots i a) by (apply not_own_above; [exact W|apply (W _ _ Hi')]).
  assert (Hn1 : nth_error h1 a = Some n) by (rewrite U; auto).
  split; [eapply same_graph_trans; [exact G|eapply put_cell_graph; eauto]|]. split.
  - intros m Hm. assert (m <> a) by (intros ->; apply Hm; constructor). rewrite put_cell_other by assumption.
    apply U. intros O. apply Hm. eapply own_trans; [|exact O]. eapply own_kid; [constructor|exact Hi'|exact S].
  - exists f. split; [reflexivity|]. rewrite (put_content h1 a n n' (same_sound _ _ G W) Hn1 K). exact R.
Qed.

Lemma tracks_below roots h a n i (vr : res col) p : sound h -> nth_error h a = Some n -> In i (kids n) ->
  (vr = Panic p \/ (p = PUnwrap /\ exists y, In y (under h i) /\ y <> i /\ strong h roots y <> 1)) ->
  forall vr', (vr = Panic p -> vr' = Panic p) -> tracks roots h a vr' (Panic p).
Proof.
  intros W Hn Hi H vr' V. cbn [tracks]. destruct H as [H|(-> & y & Hy & D & S)]; [left; auto|right].
  split; [reflexivity|]. assert (Hi' : In i (kids_at h a)) by (rewrite (kids_at_some _ _ _ Hn); exact Hi).
  exists y. split; [eapply under_trans; [exact W|apply under_kid; eauto|exact Hy]|]. split; [|exact S].
  intros ->. apply under_le in Hy; [|exact W]. specialize (W _ _ Hi'). lia.
Qed.

Lemma tracks_shared roots h a n i vr : sound h -> nth_error h a = Some n -> In i (kids n) ->
  strong h roots i <> 1 -> tracks roots h a vr (Panic PUnwrap).
Proof.
  intros W Hn Hi S. right. split; [reflexivity|]. exists i.
  assert (Hi' : In i (kids_at h a)) by (rewrite (kids_at_some _ _ _ Hn); exact Hi).
  split; [apply under_kid; auto|]. split; [|exact S]. specialize (W _ _ Hi'). lia.
Qed.

Definition tracked (f : nat) : Prop := forall roots h a v c, sound h -> In a (alive h roots) -> a < f ->
  content h a = Ok c -> tracks roots h a (push c v) (push_in f roots h a v).

Lemma tracks_each f : tracked f -> forall roots vs h a c, sound h -> In a (alive h roots) -> a < f ->
  content h a = Ok c -> tracks roots h a (push_each push c vs) (push_cells (push_in f roots) h a vs).
Proof.
  intros T roots. induction vs as [|v vs IH]; intros h a c W A L C; cbn [push_each push_cells].
  - cbn [tracks]. split; [apply same_graph_refl|]. split; [reflexivity|]. eauto.
  - pose proof (T roots h a v c W A L C) as Tv. destruct (push_in f roots h a v) as [h1|e|p]; cbn [tracks rbind] in *.
    + destruct Tv as (G & U & c' & E & C'). rewrite E. cbn [rbind].
      eapply (tracks_change roots h h1); [exact G|exact U|]. apply IH; [eapply same_sound; eauto| |exact L|exact C'].
      rewrite (same_alive h h1 roots G). exact A.
    + rewrite Tv. reflexivity.
    + destruct Tv as [->|Tv]; [left; reflexivity|right; exact Tv].
Qed.

(** Keys and values of a map. *)
Definition tracks2 (roots : list addr) (h : heap) (k v : addr) (vr : res (col * col)) (r : res heap) : Prop :=
  match r with
  | Ok h' => same_graph h h' /\ (forall m, ~ own h roots k m -> ~ own h roots v m -> nth_error h' m = nth_error h m) /\
             exists ck cv, vr = Ok (ck, cv) /\ content h' k = Ok ck /\ content h' v = Ok cv
  | Err e => vr = Err e
  | Panic p => vr = Panic p \/ (p = PUnwrap /\ exists y, (In y (under h k) /\ y <> k \/ In y (under h v) /\ y <> v) /\ strong h roots y <> 1)
  end.
Lemma tracks_pairs f : tracked f -> forall roots kvs h k v ck cv, sound h ->
  In k (alive h roots) -> In v (alive h roots) -> k < f -> v < f ->
  (forall m, own h roots k m -> ~ In m (under h v)) -> (forall m, own h roots v m -> ~ In m (under h k)) ->
  content h k = Ok ck -> content h v = Ok cv ->
  tracks2 roots h k v (push_pairs push push ck cv kvs) (push_pair_cells (push_in f roots) h k v kvs).
Proof.
  intros T roots. induction kvs as [|[x y] kvs IH]; intros h k v ck cv W Ak Av Lk Lv Dk Dv Ck Cv;
    cbn [push_pairs push_pair_cells].
  - cbn [tracks2]. split; [apply same_graph_refl|]. split; [reflexivity|]. eauto.
  - pose proof (T roots h k x ck W Ak Lk Ck) as T1. destruct (push_in f roots h k x) as [h1|e|p]; cbn [tracks rbind] in T1 |- *.
    2:{ rewrite T1. reflexivity. }
    2:{ cbn [tracks2]. destruct T1 as [->|(-> & z & Hz & D & S)]; [left; reflexivity|right]. eauto 8. }
    destruct T1 as (G1 & U1 & ck' & -> & Ck'). cbn [rbind].
    pose proof (same_sound _ _ G1 W) as W1.
    assert (Cv1 : content h1 v = Ok cv).
    { rewrite <- Cv. apply content_same; [exact W|exact W1|]. intros m Hm. apply U1. intros O. exact (Dk m O Hm). }
    assert (Av1 : In v (alive h1 roots)) by (rewrite (same_alive h h1 roots G1); exact Av).
    pose proof (T roots h1 v y cv W1 Av1 Lv Cv1) as T2. destruct (push_in f roots h1 v y) as [h2|e|p]; cbn [tracks rbind] in T2 |- *.
    2:{ rewrite T2. reflexivity. }
    2:{ cbn [tracks2]. destruct T2 as [->|(-> & z & Hz & D & S)]; [left; reflexivity|right]. split; [reflexivity|].
        exists z. rewrite (same_under h h1 v G1) in Hz. rewrite (same_strong h h1 roots z G1) in S. auto. }
    destruct T2 as (G2 & U2 & cv' & -> & Cv'). cbn [rbind].
    pose proof (same_sound _ _ G2 W1) as W2. pose proof (same_graph_trans _ _ _ G1 G2) as G.
    assert (U : forall m, ~ own h roots k m -> ~ own h roots v m -> nth_error h2 m = nth_error h m).
    { intros m H1 H2. rewrite U2, U1; auto. rewrite own_same_iff by exact G1. exact H2. }
    assert (Ck2 : content h2 k = Ok ck').
    { rewrite <- Ck'. apply content_same; [exact W1|exact W2|]. intros m Hm. apply U2. rewrite own_same_iff by exact G1.
      intros O. rewrite (same_under h h1 k G1) in Hm. exact (Dv m O Hm). }
    specialize (IH h2 k v ck' cv' W2).
    rewrite (same_alive h h2 roots G), !(same_under h h2 _ G) in IH.
    assert (IH' := IH Ak Av Lk Lv (fun m O => Dk m (proj1 (own_same_iff h h2 roots k m G) O))
                     (fun m O => Dv m (proj1 (own_same_iff h h2 roots v m G) O)) Ck2 Cv'). clear IH.
    destruct (push_pair_cells (push_in f roots) h2 k v kvs) as [h3|e|p]; cbn [tracks2] in *.
    + destruct IH' as (G3 & U3 & C3). split; [eapply same_graph_trans; eauto|]. split; [|exact C3].
      intros m H1 H2. rewrite U3, U; auto; rewrite own_same_iff by exact G; assumption.
    + exact IH'.
    + destruct IH' as [H|(-> & z & Hz & S)]; [left; exact H|right]. split; [reflexivity|]. exists z.
      rewrite !(same_under h h2 _ G) in Hz. rewrite (same_strong h h2 roots z G) in S. auto.
Qed.

Lemma push_map ks vs offs a b kvs : push (CMap ks vs offs) (VMap a b kvs) =
  do kv <- push_pairs push push ks vs kvs; Ok (CMap (fst kv) (snd kv) (offs ++ [last offs 0 + lenN kvs]%N)).
Proof.
  unfold push at 1. cbn [push_as].
  rewrite (push_pairs_shape (push_as ks) (push_as vs) push push (similar ks) (similar vs)); auto using similar_refl.
  - intros c v H. apply push_shape; [exact H|apply similar_refl].
  - intros c v c' H E. apply push_alike in E. destruct E as [E _]. auto.
  - intros c v H. apply push_shape; [exact H|apply similar_refl].
  - intros c v c' H E. apply push_alike in E. destruct E as [E _]. auto.
Qed.
Lemma push_agg f i v : push (CAgg f i) v = do i' <- push i v; Ok (CAgg f i').
Proof. reflexivity. Qed.
Lemma push_low inner ix idx vmap v : push (CLow inner ix idx vmap) v =
  do m <- match vmap with Some m => Ok m | None => value_map_loop (at_ inner) idx [] end;
  do g <- vmap_get m v;
  match g with
  | Some j => do xi <- ix_push ix idx j; Ok (CLow inner (fst xi) (snd xi) (Some m))
  | None =>
      do n <- clen inner;
      do i <- push inner v;
      do m' <- vmap_insert m v (N.of_nat n);
      do xi <- ix_push ix idx (N.of_nat n);
      Ok (CLow i (fst xi) (snd xi) (Some m'))
  end.
Proof. reflexivity. Qed.

(** Changing one storage only. *)
Lemma tracks_here roots h a n n' c : sound h -> nth_error h a = Some n -> kids n' = kids n ->
  read_node (content h) n' = Ok c -> tracks roots h a (Ok c) (Ok (put_cell h a n')).
Proof.
  intros W Hn K R. cbn [tracks]. split; [eapply put_cell_graph; eauto|]. split.
  - intros m Hm. apply put_cell_other. intros ->. apply Hm. constructor.
  - exists c. split; [reflexivity|]. rewrite (put_content h a n n' W Hn K). exact R.
Qed.

Lemma push_tracked f : tracked f.
Proof.
  induction f as [|f IH]; intros roots h a v c W A L C; [lia|].
  cbn [push_in]. rewrite content_eq in C by exact W.
  destruct (nth_error h a) as [n|] eqn:En; [|discriminate C].
  pose proof (kids_at_some _ _ _ En) as Ka.
  assert (Alk : forall k, In k (kids n) -> In k (alive h roots)).
  { intros k Hk. eapply alive_under; [exact W|exact A|]. apply under_kid; [exact W|]. rewrite Ka. exact Hk. }
  assert (Ltk : forall k, In k (kids n) -> k < f).
  { intros k Hk. rewrite <- Ka in Hk. apply W in Hk. lia. }
  destruct n as [c0|i nulls|i offs|ki vi offs|g i|i ix idx vmap|i w|i is]; cbn [read_node] in C.
  - injection C as <-. destruct (push c0 v) as [c'|e|p] eqn:E; cbn [rbind]; try (rewrite E; reflexivity);
      [|reflexivity|left; reflexivity].
    eapply tracks_here; [exact W|exact En|reflexivity|reflexivity].
  - inv_do C. injection C as <-. rename x into ci. unfold owned.
    destruct (Nat.eqb_spec (strong h roots i) 1) as [S|S]; cbn [rbind];
      [|eapply tracks_shared; [exact W|exact En|left; reflexivity|exact S]].
    assert (Step : forall x b, push (CNullable ci nulls) v = (do i' <- push ci x; Ok (CNullable i' (nulls ++ [b]))) ->
        tracks roots h a (push (CNullable ci nulls) v)
          (do h' <- push_in f roots h i x; Ok (put_cell h' a (NNullable i (nulls ++ [b]))))).
    { intros x b ->. pose proof (IH roots h i x ci W (Alk i (or_introl eq_refl)) (Ltk i (or_introl eq_refl)) E) as T.
      destruct (push_in f roots h i x) as [h1|e|p]; cbn [tracks rbind] in T |- *.
      - destruct T as (G & U & c' & -> & C'). cbn [rbind].
        eapply tracks_after; [exact W|exact En|reflexivity|left; reflexivity|exact S|exact G|exact U|].
        cbn [read_node]. rewrite C'. reflexivity.
      - rewrite T. reflexivity.
      - eapply tracks_below; [exact W|exact En|left; reflexivity|exact T|]. intros ->. reflexivity. }
    destruct v; apply Step; apply push_nullable.
  - inv_do C. injection C as <-. rename x into ci.
    destruct v; try (left; reflexivity). rewrite push_array. unfold owned.
    destruct (Nat.eqb_spec (strong h roots i) 1) as [S|S]; cbn [rbind];
      [|eapply tracks_shared; [exact W|exact En|left; reflexivity|exact S]].
    pose proof (tracks_each f IH roots vs h i ci W (Alk i (or_introl eq_refl)) (Ltk i (or_introl eq_refl)) E) as T.
    destruct (push_cells (push_in f roots) h i vs) as [h1|e|p]; cbn [tracks rbind] in T |- *.
    + destruct T as (G & U & c' & -> & C'). cbn [rbind].
      eapply tracks_after; [exact W|exact En|reflexivity|left; reflexivity|exact S|exact G|exact U|].
      cbn [read_node]. rewrite C'. reflexivity.
    + rewrite T. reflexivity.
    + eapply tracks_below; [exact W|exact En|left; reflexivity|exact T|]. intros ->. reflexivity.
  - inv_do C. rename x into ck. inv_do C. rename x into cv. injection C as <-.
    destruct v; try (left; reflexivity). rewrite push_map. unfold owned.
    destruct (Nat.eqb_spec (strong h roots ki) 1) as [Sk|Sk]; cbn [rbind];
      [|eapply tracks_shared; [exact W|exact En|left; reflexivity|exact Sk]].
    destruct (Nat.eqb_spec (strong h roots vi) 1) as [Sv|Sv]; cbn [rbind];
      [|eapply tracks_shared; [exact W|exact En|right; left; reflexivity|exact Sv]].
    assert (Hk : In ki (kids_at h a)) by (rewrite Ka; left; reflexivity).
    assert (Hv : In vi (kids_at h a)) by (rewrite Ka; right; left; reflexivity).
    assert (D : ki <> vi).
    { intros ->. destruct (one_holder h roots vi a A Hk Sk) as (_ & O & _). rewrite Ka in O. cbn [kids] in O.
      rewrite !occurs_head in O. lia. }
    assert (Ok1 : occurrences ki (kids_at h a) = 1) by (apply (one_holder h roots ki a A Hk Sk)).
    assert (Ov1 : occurrences vi (kids_at h a) = 1) by (apply (one_holder h roots vi a A Hv Sv)).
    pose proof (tracks_pairs f IH roots kvs h ki vi ck cv W (Alk ki (or_introl eq_refl))
      (Alk vi (or_intror (or_introl eq_refl))) (Ltk ki (or_introl eq_refl)) (Ltk vi (or_intror (or_introl eq_refl)))
      (fun m O => sibling h roots a ki vi m W A Hk Sk Hv Sv Ok1 (fun e => D (eq_sym e)) O)
      (fun m O => sibling h roots a vi ki m W A Hv Sv Hk Sk Ov1 D O) E E0) as T.
    destruct (push_pair_cells (push_in f roots) h ki vi kvs) as [h1|e|p]; cbn [tracks2 rbind] in T |- *.
    + destruct T as (G & U & ck' & cv' & -> & Ck' & Cv'). cbn [rbind fst snd].
      assert (Nk : ~ own h roots ki a) by (apply not_own_above; [exact W|apply (W _ _ Hk)]).
      assert (Nv : ~ own h roots vi a) by (apply not_own_above; [exact W|apply (W _ _ Hv)]).
      assert (Hn1 : nth_error h1 a = Some (NMap ki vi offs)) by (rewrite U; auto).
      cbn [tracks]. split; [eapply same_graph_trans; [exact G|eapply put_cell_graph; [exact Hn1|reflexivity]]|]. split.
      * intros m Hm. assert (m <> a) by (intros ->; apply Hm; constructor). rewrite put_cell_other by assumption.
        apply U; intros O; apply Hm; (eapply own_trans; [|exact O]); (eapply own_kid; [constructor| |]); eassumption.
      * eexists. split; [reflexivity|].
        erewrite put_content; [|exact (same_sound _ _ G W)|exact Hn1|reflexivity].
        cbn [read_node]. rewrite Ck', Cv'. reflexivity.
    + rewrite T. reflexivity.
    + destruct T as [->|(-> & z & [[Hz Dz]|[Hz Dz]] & S)]; [left; reflexivity| |].
      * eapply (tracks_below roots h a _ ki (Ok ck)); [exact W|exact En|left; reflexivity|right; eauto 6|discriminate].
      * eapply (tracks_below roots h a _ vi (Ok ck)); [exact W|exact En|right; left; reflexivity|right; eauto 6|discriminate].
  - inv_do C. injection C as <-. rename x into ci. rewrite push_agg. unfold owned.
    destruct (Nat.eqb_spec (strong h roots i) 1) as [S|S]; cbn [rbind];
      [|eapply tracks_shared; [exact W|exact En|left; reflexivity|exact S]].
    pose proof (IH roots h i v ci W (Alk i (or_introl eq_refl)) (Ltk i (or_introl eq_refl)) E) as T.
    destruct (push_in f roots h i v) as [h1|e|p]; cbn [tracks rbind] in T |- *.
    + destruct T as (G & U & c' & -> & C'). cbn [rbind].
      assert (Hi : In i (kids_at h a)) by (rewrite Ka; left; reflexivity).
      split; [exact G|]. split.
      * intros m Hm. apply U. intros O. apply Hm. eapply own_trans; [|exact O]. eapply own_kid; [constructor|exact Hi|exact S].
      * eexists. split; [reflexivity|]. rewrite content_eq by (eapply same_sound; eauto).
        rewrite U by (apply not_own_above; [exact W|apply (W _ _ Hi)]). rewrite En. cbn [read_node]. rewrite C'. reflexivity.
    + rewrite T. reflexivity.
    + apply (tracks_below roots h a _ i (push ci v) p W En (or_introl eq_refl) T). intros ->. reflexivity.
  - inv_do C. injection C as <-. rename x into ci. rewrite push_low. rewrite E. cbn [rbind].
    destruct (match vmap with Some m => Ok m | None => value_map_loop (at_ ci) idx [] end) as [m|e|p]; cbn [rbind];
      [|reflexivity|left; reflexivity].
    destruct (vmap_get m v) as [g|e|p]; cbn [rbind]; [|reflexivity|left; reflexivity].
    destruct g as [j|].
    + destruct (ix_push ix idx j) as [xi|e|p]; cbn [rbind]; [|reflexivity|left; reflexivity].
      eapply tracks_here; [exact W|exact En|reflexivity|]. cbn [read_node]. rewrite E. reflexivity.
    + destruct (clen ci) as [nn|e|p]; cbn [rbind]; [|reflexivity|left; reflexivity]. unfold owned.
      destruct (Nat.eqb_spec (strong h roots i) 1) as [S|S]; cbn [rbind];
        [|eapply tracks_shared; [exact W|exact En|left; reflexivity|exact S]].
      pose proof (IH roots h i v ci W (Alk i (or_introl eq_refl)) (Ltk i (or_introl eq_refl)) E) as T.
      destruct (push_in f roots h i v) as [h1|e|p]; cbn [tracks rbind] in T |- *.
      * destruct T as (G & U & c' & -> & C'). cbn [rbind].
        destruct (vmap_insert m v (N.of_nat nn)) as [m'|e|p]; cbn [rbind]; [|reflexivity|left; reflexivity].
        destruct (ix_push ix idx (N.of_nat nn)) as [xi|e|p]; cbn [rbind]; [|reflexivity|left; reflexivity].
        eapply tracks_after; [exact W|exact En|reflexivity|left; reflexivity|exact S|exact G|exact U|].
        cbn [read_node]. rewrite C'. reflexivity.
      * rewrite T. reflexivity.
      * eapply tracks_below; [exact W|exact En|left; reflexivity|exact T|]. intros ->. reflexivity.
  - inv_do C. injection C as <-. left. destruct w; reflexivity.
  - inv_do C. inv_do C. injection C as <-. left. reflexivity.
Qed.

(** Adding a storage. *)
Lemma kids_app h n a : a < length h -> kids_at (h ++ [n]) a = kids_at h a.
Proof. intros H. unfold kids_at. rewrite nth_error_app1 by exact H. reflexivity. Qed.
Lemma kids_new h n : kids_at (h ++ [n]) (length h) = kids n.
Proof. unfold kids_at. rewrite nth_error_app2, Nat.sub_diag by lia. reflexivity. Qed.
Lemma kids_inside h a : sound h -> forall k, In k (kids_at h a) -> k < length h /\ a < length h.
Proof.
  intros W k Hk. assert (a < length h).
  { unfold kids_at in Hk. destruct (nth_error h a) eqn:E; [|destruct Hk]. apply nth_error_Some. congruence. }
  apply W in Hk. lia.
Qed.
Lemma sound_app h n : sound h -> (forall k, In k (kids n) -> k < length h) -> sound (h ++ [n]).
Proof.
  intros W K a k Hk. destruct (Nat.lt_ge_cases a (length h)) as [L|L].
  - rewrite kids_app in Hk by exact L. apply (W _ _ Hk).
  - unfold kids_at in Hk. rewrite nth_error_app2 in Hk by exact L.
    destruct (a - length h) as [|x] eqn:E; cbn in Hk; [apply K in Hk; lia|]. destruct x; destruct Hk.
Qed.
Lemma under_app h n : sound h -> sound (h ++ [n]) -> forall a, a < length h -> under (h ++ [n]) a = under h a.
Proof.
  intros W W'. induction a as [a IH] using lt_wf_ind. intros L.
  rewrite (under_eq h a W), (under_eq _ a W'). rewrite kids_app by exact L. f_equal.
  rewrite !flat_map_concat_map. f_equal. apply map_ext_in. intros k Hk. apply IH; [exact (W _ _ Hk)|].
  specialize (W _ _ Hk). lia.
Qed.
Lemma content_app h n : sound h -> sound (h ++ [n]) -> forall a, a < length h -> content (h ++ [n]) a = content h a.
Proof.
  intros W W' a L. apply content_same; [exact W|exact W'|]. intros m Hm. apply under_le in Hm; [|exact W].
  apply nth_error_app1. lia.
Qed.

Lemma clone_kids n n' : clone_node n = Ok n' -> kids n' = kids n.
Proof. destruct n; cbn; intros H; try discriminate; injection H as <-; reflexivity. Qed.
Lemma clone_read f n n' : clone_node n = Ok n' -> read_node f n' = read_node f n \/ read_node f n' = rmap forget (read_node f n).
Proof.
  destruct n; cbn; intros H; try discriminate; injection H as <-; try (left; reflexivity).
  right. cbn [read_node]. destruct (f i); reflexivity.
Qed.

Lemma others_untouched (h : heap) (a : addr) (others : list addr) (m b : addr) : sound h -> strong h (a :: others) a = 1 -> In b others ->
  own h (a :: others) a m -> ~ In m (under h b).
Proof.
  intros W S Hb O Hm.
  assert (Aa : In a (alive h (a :: others))).
  { apply alive_in. exists a. split; [left; reflexivity|apply under_self, W]. }
  assert (Ab : In b (alive h (a :: others))).
  { apply alive_in. exists b. split; [right; exact Hb|apply under_self, W]. }
  destruct (own_reached h _ a m b W Aa Ab O Hm) as [H|H].
  - destruct (under_parent h W _ _ H) as [->|(p & Hp & Kp)].
    + exact (one_root_other h b others S Hb).
    + apply (one_root h a others p S); [|exact Kp]. eapply alive_under; eauto.
  - inversion H as [|x y Hx Hy Sy]; subst.
    + exact (one_root_other h b others S Hb).
    + assert (Ax : In x (alive h (a :: others))) by (eapply alive_under; [exact W|exact Aa|eapply own_under; eauto]).
      destruct (one_holder h _ b x Ax Hy Sy) as (N & _). apply N. right. exact Hb.
Qed.

(** A storage just made, held by one column. *)
Lemma new_alone (h : heap) n (others : list addr) : sound h -> sound (h ++ [n]) -> Forall (fun b => b < length h) others ->
  strong (h ++ [n]) (length h :: others) (length h) = 1.
Proof.
  intros W W' F. unfold strong. rewrite occurs_head.
  assert (Z1 : occurrences (length h) others = 0).
  { apply Nat.lt_1_r. apply Nat.nle_gt. intros H. apply occurs_in in H. rewrite Forall_forall in F. apply F in H. lia. }
  assert (Z2 : forall l, list_sum (map (fun b => occurrences (length h) (kids_at (h ++ [n]) b)) l) = 0).
  { induction l as [|b l IH]; [reflexivity|]. cbn [map]. change (list_sum (?x :: ?l)) with (x + list_sum l). rewrite IH.
    assert (occurrences (length h) (kids_at (h ++ [n]) b) = 0); [|lia].
    apply Nat.lt_1_r. apply Nat.nle_gt. intros H. apply occurs_in in H.
    pose proof (W' _ _ H). pose proof (kids_inside _ _ W' _ H) as [_ L]. rewrite app_length in L. cbn [length] in L. lia. }
  rewrite Z1, Z2. reflexivity.
Qed.

Lemma unwrap_nested f roots h a v c : sound h -> content h a = Ok c ->
  push_in (S f) roots h a v = Panic PUnwrap -> kids_at h a <> [] -> plain (ctype c) = false.
Proof.
  intros W C P K. rewrite content_eq in C by exact W. cbn [push_in] in P. unfold kids_at in K.
  destruct (nth_error h a) as [n|]; [|discriminate C]. destruct n; cbn [read_node kids] in *; try discriminate P.
  - congruence.
  - inv_do C. injection C as <-. reflexivity.
  - inv_do C. injection C as <-. reflexivity.
  - inv_do C. inv_do C. injection C as <-. reflexivity.
  - inv_do C. injection C as <-. reflexivity.
  - inv_do C. injection C as <-. reflexivity.
Qed.

(** [Column::push] against a push to the value. *)
Definition untouched (h h' : heap) (others : list addr) : Prop :=
  forall b, In b others -> content h' b = content h b /\ under h' b = under h b.
Lemma column_push_spec (others : list addr) (h : heap) (a : addr) v c : sound h -> a < length h -> Forall (fun b => b < length h) others ->
  content h a = Ok c ->
  match column_push others h a v with
  | Ok (h', a') =>
      sound h' /\ length h <= length h' /\ a' < length h' /\ untouched h h' others /\
      (a' = a /\ under h' a' = under h a \/
       length h <= a' /\ exists r, under h a = a :: r /\ under h' a' = a' :: r) /\
      exists c', (push c v = Ok c' \/ push (forget c) v = Ok c') /\ content h' a' = Ok c'
  | Err e => push c v = Err e \/ push (forget c) v = Err e
  | Panic p => push c v = Panic p \/ push (forget c) v = Panic p \/ (p = PUnwrap /\ plain (ctype c) = false)
  end.
Proof.
  intros W La F C. unfold column_push. destruct (Nat.eqb_spec (strong h (a :: others) a) 1) as [S|S].
  - assert (Aa : In a (alive h (a :: others))).
    { apply alive_in. exists a. split; [left; reflexivity|apply under_self, W]. }
    pose proof (push_tracked (Datatypes.S a) (a :: others) h a v c W Aa (Nat.lt_succ_diag_r a) C) as T.
    destruct (push_in (Datatypes.S a) (a :: others) h a v) as [h'|e|p] eqn:Ep; cbn [tracks rbind] in T |- *.
    + destruct T as (G & U & c' & E & C'). pose proof (same_sound _ _ G W) as W'.
      split; [exact W'|]. split; [destruct G; lia|]. split; [destruct G; lia|]. split; [|split].
      * intros b Hb. split; [|apply same_under, G]. apply content_same; [exact W|exact W'|]. intros m Hm. apply U.
        intros O. exact (others_untouched h a others m b W S Hb O Hm).
      * left. split; [reflexivity|]. apply same_under, G.
      * eauto.
    + auto.
    + destruct T as [T|(-> & y & Hy & D & _)]; [left; exact T|right; right]. split; [reflexivity|].
      eapply unwrap_nested; [exact W|exact C|exact Ep|]. intros K. rewrite under_eq, K in Hy by exact W. destruct Hy as [Hy|[]]. congruence.
  - destruct (nth_error h a) as [n|] eqn:En; [|apply nth_error_None in En; lia].
    rewrite content_eq, En in C by exact W.
    destruct (clone_node n) as [n'|e|p] eqn:Ec; cbn [rbind].
    2:{ destruct n; discriminate Ec. }
    2:{ left. destruct n; try discriminate Ec; injection Ec as <-; cbn [read_node] in C.
        - inv_do C. injection C as <-. destruct w; reflexivity.
        - inv_do C. inv_do C. injection C as <-. reflexivity. }
    assert (K' : forall k, In k (kids n') -> k < length h).
    { intros k Hk. rewrite (clone_kids _ _ Ec) in Hk. rewrite <- (kids_at_some _ _ _ En) in Hk.
      apply (kids_inside _ _ W _ Hk). }
    pose proof (sound_app h n' W K') as W1.
    assert (C1 : exists c1, content (h ++ [n']) (length h) = Ok c1 /\ (c1 = c \/ c1 = forget c)).
    { rewrite content_eq by exact W1. rewrite nth_error_app2, Nat.sub_diag by lia. cbn [nth_error].
      rewrite (read_node_ext _ (content h)) by (intros k Hk; apply content_app; auto).
      destruct (clone_read (content h) n n' Ec) as [->| ->]; rewrite C; cbn [rmap]; eauto. }
    destruct C1 as (c1 & C1 & Hc1).
    assert (A1 : In (length h) (alive (h ++ [n']) (length h :: others))).
    { apply alive_in. exists (length h). split; [left; reflexivity|apply under_self, W1]. }
    pose proof (new_alone h n' others W W1 F) as S1.
    pose proof (push_tracked (Datatypes.S (length h)) (length h :: others) (h ++ [n']) (length h) v c1 W1 A1
                  (Nat.lt_succ_diag_r _) C1) as T.
    assert (U1 : under (h ++ [n']) (length h) = length h :: flat_map (under h) (kids_at h a)).
    { rewrite under_eq by exact W1. rewrite kids_new, (clone_kids _ _ Ec), (kids_at_some _ _ _ En). f_equal.
      rewrite !flat_map_concat_map. f_equal. apply map_ext_in. intros k Hk. apply under_app; [exact W|exact W1|].
      rewrite <- (clone_kids _ _ Ec) in Hk. exact (K' k Hk). }
    destruct (push_in (Datatypes.S (length h)) (length h :: others) (h ++ [n']) (length h) v) as [h'|e|p] eqn:Ep;
      cbn [tracks rbind] in T |- *.
    + destruct T as (G & U & c' & E & C'). pose proof (same_sound _ _ G W1) as W'.
      assert (L : length h' = Datatypes.S (length h)) by (rewrite (proj1 G), app_length; cbn; lia).
      split; [exact W'|]. split; [lia|]. split; [lia|]. split; [|split].
      * intros b Hb. assert (Lb : b < length h) by (rewrite Forall_forall in F; apply F, Hb).
        rewrite <- (content_app h n' W W1 b Lb), <- (under_app h n' W W1 b Lb). split; [|apply same_under, G].
        apply content_same; [exact W1|exact W'|]. intros m Hm. apply U. intros O.
        exact (others_untouched (h ++ [n']) (length h) others m b W1 S1 Hb O Hm).
      * right. split; [lia|]. exists (flat_map (under h) (kids_at h a)). split; [apply under_eq, W|].
        rewrite (same_under _ _ _ G). exact U1.
      * exists c'. split; [|exact C']. destruct Hc1 as [->| ->]; auto.
    + destruct Hc1 as [->| ->]; auto.
    + destruct T as [T|(-> & y & Hy & D & _)]; [destruct Hc1 as [->| ->]; auto|]. right. right. split; [reflexivity|].
      replace (ctype c) with (ctype c1) by (destruct Hc1 as [->| ->]; [reflexivity|destruct c; reflexivity]).
      eapply unwrap_nested; [exact W1|exact C1|exact Ep|]. rewrite kids_new, (clone_kids _ _ Ec), <- (kids_at_some _ _ _ En).
      intros K. rewrite U1, K in Hy. destruct Hy as [Hy|[]]. congruence.
Qed.

(** Without another holder anywhere, the push is the push to the value. *)
Lemma column_push_alone (others : list addr) (h : heap) (a : addr) v c : sound h -> a < length h -> content h a = Ok c ->
  (forall y, In y (under h a) -> strong h (a :: others) y = 1) ->
  match column_push others h a v with
  | Ok (h', a') => a' = a /\ exists c', push c v = Ok c' /\ content h' a' = Ok c'
  | Err e => push c v = Err e
  | Panic p => push c v = Panic p
  end.
Proof.
  intros W La C A. unfold column_push. rewrite (A a (under_self h a W)), Nat.eqb_refl.
  assert (Aa : In a (alive h (a :: others))).
  { apply alive_in. exists a. split; [left; reflexivity|apply under_self, W]. }
  pose proof (push_tracked (S a) (a :: others) h a v c W Aa (Nat.lt_succ_diag_r a) C) as T.
  destruct (push_in (S a) (a :: others) h a v) as [h'|e|p]; cbn [tracks rbind] in T |- *.
  - destruct T as (_ & _ & T). auto.
  - exact T.
  - destruct T as [T|(_ & y & Hy & _ & S)]; [exact T|]. destruct (S (A y Hy)).
Qed.
