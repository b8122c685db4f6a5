(** Property C108. *)
From Coq Require Import String.
From Verif Require Import Base Bytes Types Interning SpecInterning.
Open Scope list_scope. Open Scope nat_scope.

Definition below (n : nat) (a : address) : Prop := match a with Static _ => True | Heap j => j < n end.
Definition refs (x : node) : list address :=
  match x with NLeaf _ => [] | NNullable a | NArray a | NLowCardinality a | NAgg _ a => [a] | NMap a b => [a; b] end.
Definition older (m : heap) : Prop := forall i x, nth_error m i = Some x -> Forall (below i) (refs x).

Lemma whole_ext f g x : Forall (fun a => f a = g a) (refs x) -> whole f x = whole g x.
Proof.
  destruct x; cbn [refs whole]; intros H; repeat match goal with H : Forall _ (_ :: _) |- _ => inversion H; clear H; subst end;
    repeat match goal with H : f _ = g _ |- _ => rewrite H; clear H end; reflexivity.
Qed.

Lemma whole_some f x : Forall (fun a => f a <> None) (refs x) -> whole f x <> None.
Proof.
  destruct x; cbn [refs whole]; intros H; repeat match goal with H : Forall _ (_ :: _) |- _ => inversion H; clear H; subst end;
    repeat match goal with H : f ?a <> None |- _ => destruct (f a); [clear H|congruence] end; discriminate.
Qed.

(** References to boxes there are can be followed, and more boxes make no difference. *)
Lemma follow_same m : older m -> forall n f g m', n < length m -> n < f -> n < g ->
  follow f m (Heap n) = follow g (m ++ m') (Heap n) /\ follow f m (Heap n) <> None.
Proof.
  intros O. induction n as [n IH] using lt_wf_ind. intros f g m' L F G. destruct f as [|f]; [lia|]. destruct g as [|g]; [lia|]. cbn [follow].
  destruct (nth_error m n) as [x|] eqn:E; [|apply nth_error_None in E; lia].
  rewrite nth_error_app1, E by exact L. pose proof (O n x E) as B. rewrite Forall_forall in B. split.
  - apply whole_ext. apply Forall_forall. intros [t|j] I; [destruct f, g; reflexivity|]. pose proof (B _ I) as J. cbn [below] in J.
    apply IH; lia.
  - apply whole_some. apply Forall_forall. intros [t|j] I; [destruct f; discriminate|]. pose proof (B _ I) as J. cbn [below] in J.
    apply (IH j J f f []); lia.
Qed.

Lemma read_same m m' a : older m -> below (length m) a -> read (m ++ m') a = read m a.
Proof.
  intros O B. unfold read. destruct a as [t|n]; [destruct (length (m ++ m')), (length m); reflexivity|]. cbn [below] in B. symmetry.
  apply follow_same; try assumption. rewrite app_length. lia.
Qed.

Lemma read_static m t : read m (Static t) = Some t.
Proof. unfold read. destruct (length m); reflexivity. Qed.

(** The boxes: each one's references are to older boxes or constants, no two have one type, none has a constant's. *)
Record fine (m : heap) : Prop := {
  f_older : older m;
  f_one : forall i j t, read m (Heap i) = Some t -> read m (Heap j) = Some t -> i = j;
  f_not : forall i t, read m (Heap i) = Some t -> constant t = false }.

Lemma read_bound m i t : read m (Heap i) = Some t -> i < length m.
Proof.
  unfold read. intros H. apply nth_error_Some. destruct (length m); cbn [follow] in H; [discriminate|]. destruct (nth_error m i); congruence.
Qed.

Lemma fine_nil : fine [].
Proof. constructor; [intros [|i] x H; discriminate|intros i j t H; apply read_bound in H; cbn in H; lia|intros i t H; apply read_bound in H; cbn in H; lia]. Qed.

Lemma eqb_iff a b : sqltype_eqb a b = true <-> a = b.
Proof. unfold sqltype_eqb. destruct (sqltype_eq_dec a b); split; congruence. Qed.

Lemma box_some m t i : box_of m t = Some i -> read m (Heap i) = Some t.
Proof.
  unfold box_of. intros H. apply find_some in H as [_ H]. destruct (read m (Heap i)) as [u|]; [|discriminate]. apply eqb_iff in H. congruence.
Qed.

Lemma box_none m t : box_of m t = None -> forall i, read m (Heap i) <> Some t.
Proof.
  unfold box_of. intros H i E. pose proof (find_none _ _ H i) as G. cbv beta in G. rewrite E in G. rewrite (proj2 (eqb_iff t t) eq_refl) in G.
  assert (true = false); [|discriminate]. apply G. apply in_seq. pose proof (read_bound _ _ _ E). lia.
Qed.

(** What interning one node does. *)
Definition good (m : heap) (t : sqltype) (a : address) (m' : heap) : Prop :=
  fine m' /\ below (length m') a /\ read m' a = Some t /\ (constant t = true -> a = Static t) /\ (constant t = false -> exists n, a = Heap n) /\
  (exists e, m' = m ++ e).

Lemma added m x t : fine m -> Forall (below (length m)) (refs x) -> whole (read m) x = Some t -> constant t = false -> box_of m t = None ->
  fine (m ++ [x]) /\ read (m ++ [x]) (Heap (length m)) = Some t.
Proof.
  intros F B W C N.
  assert (O : older (m ++ [x])).
  { intros i y E. destruct (Nat.lt_trichotomy i (length m)) as [L|[->|L]].
    - rewrite nth_error_app1 in E by exact L. exact (f_older m F i y E).
    - rewrite nth_error_app2, Nat.sub_diag in E by lia. injection E as <-. exact B.
    - exfalso. assert (i < length (m ++ [x])) by (apply nth_error_Some; congruence). rewrite app_length in H. cbn in H. lia. }
  assert (R : read (m ++ [x]) (Heap (length m)) = Some t).
  { unfold read. rewrite app_length, Nat.add_1_r. cbn [follow]. rewrite nth_error_app2, Nat.sub_diag by lia. cbn [nth_error].
    rewrite <- W. apply whole_ext. apply Forall_forall. intros [u|j] I; [rewrite read_static; destruct (length m); reflexivity|].
    rewrite Forall_forall in B. pose proof (B _ I) as J. cbn [below] in J. unfold read. symmetry. apply follow_same; try assumption; try lia. apply F. }
  assert (S : forall i u, read (m ++ [x]) (Heap i) = Some u -> i <> length m -> read m (Heap i) = Some u).
  { intros i u E D. pose proof (read_bound _ _ _ E) as L. rewrite app_length in L. cbn [length] in L. rewrite read_same in E; [exact E|apply F|cbn; lia]. }
  split; [|exact R]. constructor; [exact O| |].
  - intros i j u Ei Ej. destruct (Nat.eq_dec i (length m)) as [->|Di], (Nat.eq_dec j (length m)) as [->|Dj]; [reflexivity| | |].
    + exfalso. rewrite R in Ei. injection Ei as <-. exact (box_none _ _ N j (S _ _ Ej Dj)).
    + exfalso. rewrite R in Ej. injection Ej as <-. exact (box_none _ _ N i (S _ _ Ei Di)).
    + exact (f_one m F i j u (S _ _ Ei Di) (S _ _ Ej Dj)).
  - intros i u E. destruct (Nat.eq_dec i (length m)) as [->|D]; [rewrite R in E; congruence|]. exact (f_not m F i u (S _ _ E D)).
Qed.

Lemma intern_good m x t : fine m -> Forall (below (length m)) (refs x) -> whole (read m) x = Some t ->
  exists a m', intern m x = Some (a, m') /\ good m t a m' /\
    (forall u, (exists i, read m' (Heap i) = Some u) <-> (exists i, read m (Heap i) = Some u) \/ constant t = false /\ u = t).
Proof.
  intros F B W. unfold intern. rewrite W. destruct (constant t) eqn:C.
  - exists (Static t), m. split; [reflexivity|]. split.
    { split; [exact F|]. split; [exact I|]. split; [apply read_static|]. split; [reflexivity|]. split; [congruence|]. exists []. symmetry. apply app_nil_r. }
    intros u. split; [auto|]. intros [H|[H _]]; [exact H|discriminate].
  - cbn [look]. destruct (box_of m t) as [i|] eqn:E.
    + apply box_some in E. exists (Heap i), m. split; [reflexivity|]. split.
      { split; [exact F|]. split; [exact (read_bound _ _ _ E)|]. split; [exact E|]. split; [congruence|]. split; [eauto|]. exists []. symmetry. apply app_nil_r. }
      intros u. split; [auto|]. intros [H|[_ ->]]; [exact H|eauto].
    + destruct (added m x t F B W C E) as (F' & R). exists (Heap (length m)), (m ++ [x]).
      assert (Bx : box_of (m ++ [x]) t = Some (length m)).
      { destruct (box_of (m ++ [x]) t) as [j|] eqn:J; [apply box_some in J; f_equal; exact (f_one _ F' _ _ _ J R)|].
        exfalso. exact (box_none _ _ J _ R). }
      rewrite Bx. split; [reflexivity|]. split.
      { split; [exact F'|]. split; [cbn; rewrite app_length; cbn; lia|]. split; [exact R|]. split; [congruence|]. split; [eauto|]. exists [x]. reflexivity. }
      intros u. split.
      * intros (j & J). destruct (Nat.eq_dec j (length m)) as [->|D]; [right; split; [reflexivity|congruence]|]. left. exists j.
        pose proof (read_bound _ _ _ J) as L. rewrite app_length in L. cbn [length] in L. rewrite read_same in J; [exact J|apply F|cbn; lia].
      * intros [(j & J)|[_ ->]]; [|eauto]. exists j. rewrite read_same; [exact J|apply F|exact (read_bound _ _ _ J)].
Qed.

(** The types there are boxes of. *)
Definition boxed (m : heap) (u : sqltype) : Prop := exists i, read m (Heap i) = Some u.

Lemma interned_good t : forall m, fine m -> exists a m', interned m t = Some (a, m') /\ good m t a m' /\
  (forall u, boxed m' u <-> boxed m u \/ constant u = false /\ part u t).
Proof.
  assert (U : forall s k c, (forall m, fine m -> exists a m', interned m s = Some (a, m') /\ good m s a m' /\
      (forall u, boxed m' u <-> boxed m u \/ constant u = false /\ part u s)) ->
      (forall a, refs (k a) = [a]) -> (forall f a, whole f (k a) = option_map c (f a)) -> constant (c s) = false ->
      (forall u, part u (c s) <-> u = c s \/ part u s) ->
      forall m, fine m -> exists a m', (match interned m s with Some (a, m1) => intern m1 (k a) | None => None end) = Some (a, m') /\ good m (c s) a m' /\
      (forall u, boxed m' u <-> boxed m u \/ constant u = false /\ part u (c s))).
  { intros s k c H Hr Hw Hc Hp m F. destruct (H m F) as (a & m1 & -> & (F1 & B1 & R1 & _ & _ & e & ->) & P1).
    destruct (intern_good (m ++ e) (k a) (c s) F1) as (b & m2 & -> & (F2 & B2 & R2 & C2 & N2 & e2 & ->) & P2).
    { rewrite Hr. repeat constructor. exact B1. }
    { rewrite Hw, R1. reflexivity. }
    exists b, ((m ++ e) ++ e2). split; [reflexivity|]. split.
    { split; [exact F2|]. split; [exact B2|]. split; [exact R2|]. split; [exact C2|]. split; [exact N2|]. exists (e ++ e2). rewrite app_assoc. reflexivity. }
    intros u. unfold boxed in *. rewrite P2, P1, Hp. split.
    - intros [[A|[A1 A2]]|[_ ->]]; auto.
    - intros [A|[A [->|A2]]]; auto. }
  assert (L : forall t, (forall u, part u t <-> u = t) -> True -> forall m, fine m ->
      exists a m', intern m (NLeaf t) = Some (a, m') /\ good m t a m' /\ (forall u, boxed m' u <-> boxed m u \/ constant u = false /\ part u t)).
  { intros s Hp _ m F. destruct (intern_good m (NLeaf s) s F) as (a & m' & E & G & P); [constructor|reflexivity|].
    exists a, m'. split; [exact E|]. split; [exact G|]. intros u. unfold boxed in *. rewrite P, Hp. split.
    - intros [A|[A ->]]; auto.
    - intros [A|[A ->]]; auto. }
  induction t as [s| |n| |d| | | |t IH|t IH|t IH|p s|vs|vs|f t IH|k IHk v IHv]; cbn [interned];
    try (apply L; [|exact I]; intros u; split; [intros H; inversion H; reflexivity|intros ->; constructor]).
  - apply (U t NNullable TNullable IH); try reflexivity. intros u. split; [intros H; inversion H; auto|intros [->|H]; constructor; exact H].
  - apply (U t NArray TArray IH); try reflexivity. intros u. split; [intros H; inversion H; auto|intros [->|H]; constructor; exact H].
  - apply (U t NLowCardinality TLowCardinality IH); try reflexivity. intros u. split; [intros H; inversion H; auto|intros [->|H]; constructor; exact H].
  - apply (U t (NAgg f) (TAgg f) IH); try reflexivity. intros u. split; [intros H; inversion H; auto|intros [->|H]; constructor; exact H].
  - intros m F. destruct (IHk m F) as (a & m1 & -> & (F1 & B1 & R1 & _ & _ & e & ->) & P1).
    destruct (IHv (m ++ e) F1) as (b & m2 & -> & (F2 & B2 & R2 & _ & _ & e2 & ->) & P2).
    assert (Ba : below (length ((m ++ e) ++ e2)) a) by (destruct a as [|j]; cbn [below] in *; [exact I|rewrite app_length; lia]).
    destruct (intern_good ((m ++ e) ++ e2) (NMap a b) (TMap k v) F2) as (c & m3 & -> & (F3 & B3 & R3 & C3 & N3 & e3 & ->) & P3).
    { cbn [refs]. repeat constructor; assumption. }
    { cbn [whole]. rewrite R2, read_same, R1 by (apply F1 || exact B1). reflexivity. }
    exists c, (((m ++ e) ++ e2) ++ e3). split; [reflexivity|]. split.
    { split; [exact F3|]. split; [exact B3|]. split; [exact R3|]. split; [exact C3|]. split; [exact N3|]. exists (e ++ e2 ++ e3). rewrite !app_assoc. reflexivity. }
    intros u. unfold boxed in *. rewrite P3, P2, P1. split.
    + intros [[[A|[A1 A2]]|[A1 A2]]|[_ ->]]; [auto|right; split; [exact A1|apply part_key; exact A2]|right; split; [exact A1|apply part_value; exact A2]|].
      right. split; [reflexivity|constructor].
    + intros [A|[A1 A2]]; [auto|]. inversion A2; subst; auto.
Qed.

Lemma both_impl {A B} (P Q : A -> B -> Prop) : (forall a b, P a b -> Q a b) -> forall l k, Forall2 P l k -> Forall2 Q l k.
Proof. intros H l k F. induction F; constructor; auto. Qed.

Lemma constant_iff t : constant t = true <-> twelve t.
Proof.
  unfold twelve. split.
  - destruct t as [s| | | | | | | | | | | | | | |]; cbn [constant]; try discriminate; auto. intros H. right. right. exists s.
    destruct s; try discriminate; repeat split; discriminate.
  - intros [->|[->|(s & -> & A & B & C)]]; [reflexivity|reflexivity|]. destruct s; congruence || reflexivity.
Qed.

(** C108. Whatever types are turned into references, by whomever and in whatever order: every reference can be followed at any later time and leads to
    the type it was made of; references are the same exactly for the same type; and the memory never freed holds one box for each type
    that occurred, be it inside another one, but for the twelve constants. *)
Theorem c108_interned ts us : exists l m k m',
  interned_all [] ts = Some (l, m) /\ interned_all m us = Some (k, m') /\
  Forall2 (fun a t => read m a = Some t /\ read m' a = Some t) l ts /\ Forall2 (fun a t => read m' a = Some t) k us /\
  (forall i j a b t u, nth_error (l ++ k) i = Some a -> nth_error (ts ++ us) i = Some t ->
     nth_error (l ++ k) j = Some b -> nth_error (ts ++ us) j = Some u -> (a = b <-> t = u)) /\
  exists held, NoDup held /\ length held = length m' /\
    forall u, In u held <-> ~ twelve u /\ exists t, In t (ts ++ us) /\ part u t.
Proof.
  assert (A : forall ts m, fine m -> exists l m', interned_all m ts = Some (l, m') /\ fine m' /\ (exists e, m' = m ++ e) /\
     Forall2 (fun a t => below (length m') a /\ read m' a = Some t /\ (constant t = true -> a = Static t) /\ (constant t = false -> exists n, a = Heap n)) l ts /\
     (forall u, boxed m' u <-> boxed m u \/ constant u = false /\ exists t, In t ts /\ part u t)).
  { clear ts us. induction ts as [|t ts IH]; intros m F.
    - exists [], m. split; [reflexivity|]. split; [exact F|]. split; [exists []; symmetry; apply app_nil_r|]. split; [constructor|].
      intros u. split; [auto|]. intros [H|(_ & t & [] & _)]. exact H.
    - destruct (interned_good t m F) as (a & m1 & E & (F1 & B1 & R1 & C1 & N1 & e & ->) & P1).
      destruct (IH _ F1) as (l & m2 & E2 & F2 & (e2 & ->) & L2 & P2). cbn [interned_all]. rewrite E, E2. eexists _, _. split; [reflexivity|].
      split; [exact F2|]. split; [exists (e ++ e2); rewrite app_assoc; reflexivity|]. split.
      + constructor; [|exact L2]. split; [destruct a; cbn [below] in *; [exact I|rewrite app_length; lia]|]. rewrite read_same; [|apply F1|exact B1]. auto.
      + intros u. rewrite P2, P1. split.
        * intros [[H|[H1 H2]]|(H1 & s & H2 & H3)]; [auto|right; split; [exact H1|]; exists t; cbn; auto|right; split; [exact H1|]; exists s; cbn; auto].
        * intros [H|(H1 & s & [<-|H2] & H3)]; [auto|auto|right; eauto]. }
  destruct (A ts [] fine_nil) as (l & m & E1 & F1 & _ & L1 & P1). destruct (A us m F1) as (k & m' & E2 & F2 & (e & ->) & L2 & P2).
  exists l, m, k, (m ++ e). split; [exact E1|]. split; [exact E2|].
  assert (L : Forall2 (fun a t => read (m ++ e) a = Some t /\ (constant t = true -> a = Static t) /\ (constant t = false -> exists n, a = Heap n)) (l ++ k) (ts ++ us)).
  { apply Forall2_app.
    - eapply both_impl; [|exact L1]. intros a t (B & R & C & N). cbv beta. rewrite read_same by (apply F1 || exact B). auto.
    - eapply both_impl; [|exact L2]. intros a t (B & R & C & N). auto. }
  split. { eapply both_impl; [|exact L1]. intros a t (B & R & _). cbv beta. rewrite read_same by (apply F1 || exact B). auto. }
  split. { eapply both_impl; [|exact L2]. intros a t (B & R & _). exact R. }
  split.
  { assert (N : forall (Q : address -> sqltype -> Prop) x y, Forall2 Q x y -> forall i a t, nth_error x i = Some a -> nth_error y i = Some t -> Q a t).
    { intros Q x y H. induction H as [|p q x y Hp H IH]; intros [|i] a t Ha Ht; try discriminate; [injection Ha as <-; injection Ht as <-; exact Hp|exact (IH i a t Ha Ht)]. }
    intros i j a b t u Ha Ht Hb Hu. destruct (N _ _ _ L i a t Ha Ht) as (Ra & Ca & Na). destruct (N _ _ _ L j b u Hb Hu) as (Rb & Cb & Nb). split.
    - intros <-. congruence.
    - intros <-. destruct (constant t); [rewrite Ca, Cb by reflexivity; reflexivity|]. destruct (Na eq_refl) as (n & ->), (Nb eq_refl) as (q & ->).
      f_equal. exact (f_one _ F2 _ _ _ Ra Rb). }
  set (M := m ++ e) in *.
  exists (map (fun i => match read M (Heap i) with Some t => t | None => TString end) (seq 0 (length M))).
  assert (T : forall i, i < length M -> exists t, read M (Heap i) = Some t).
  { intros i Li. destruct (read M (Heap i)) as [t|] eqn:E; [eauto|]. exfalso. unfold read in E.
    destruct (follow_same M (f_older _ F2) i (length M) (length M) [] Li Li Li) as [_ H]. congruence. }
  split.
  { assert (G : forall xs, NoDup xs -> (forall i, In i xs -> i < length M) ->
      NoDup (map (fun i => match read M (Heap i) with Some t => t | None => TString end) xs)).
    { induction xs as [|i xs IH]; intros D H; [constructor|]. inversion D as [|? ? Ni D']. subst. cbn [map]. constructor; [|apply IH; [exact D'|intros j J; apply H; right; exact J]].
      intros J. apply in_map_iff in J as (j & Ej & Ij). destruct (T i) as (t & Et); [apply H; left; reflexivity|]. destruct (T j) as (s & Es); [apply H; right; exact Ij|].
      rewrite Et, Es in Ej. subst s. pose proof (f_one _ F2 _ _ _ Et Es). subst j. exact (Ni Ij). }
    apply G; [apply seq_NoDup|]. intros i H. apply in_seq in H. lia. }
  split; [rewrite map_length, seq_length; reflexivity|].
  intros u. assert (Bu : boxed M u <-> ~ twelve u /\ exists t, In t (ts ++ us) /\ part u t).
  { rewrite P2, P1. rewrite <- constant_iff, Bool.not_true_iff_false. split.
    - intros [[(i & H)|(H1 & t & H2 & H3)]|(H1 & t & H2 & H3)].
      + apply read_bound in H. cbn in H. lia.
      + split; [exact H1|]. exists t. rewrite in_app_iff. auto.
      + split; [exact H1|]. exists t. rewrite in_app_iff. auto.
    - intros (H1 & t & H2 & H3). apply in_app_iff in H2 as [H2|H2]; [left; right|right]; eauto. }
  rewrite <- Bu. rewrite in_map_iff. split.
  - intros (i & H & I). exists i. apply in_seq in I. destruct (T i) as (t & Et); [lia|]. rewrite Et in *. congruence.
  - intros (i & H). exists i. rewrite H. split; [reflexivity|]. apply in_seq. apply read_bound in H. lia.
Qed.
Print Assumptions c108_interned.

Example c108_case :
  interned_all [] [TArray (TNullable TString); TNum U8; TNullable TString; TMap TUuid (TArray (TNullable TString))] =
  Some ([Heap 1; Static (TNum U8); Heap 0; Heap 3], [NNullable (Static TString); NArray (Heap 0); NLeaf TUuid; NMap (Heap 2) (Heap 1)]).
Proof. vm_compute. reflexivity. Qed.
