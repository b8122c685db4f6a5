(** Proofs about programs on blocks that share storage (Sharing.v). *)
From Verif Require Import Base Bytes Types Values Columns Block Sharing SpecColumns SpecSharing PushProofs SharingProofs CastSendProofs CastMainProofs.
Open Scope nat_scope.

(** More storages behind the ones there are. *)
Definition extends (h h' : heap) : Prop := exists e, h' = h ++ e.
Lemma extends_refl h : extends h h.
Proof. exists []. rewrite app_nil_r. reflexivity. Qed.
Lemma extends_trans a b c : extends a b -> extends b c -> extends a c.
Proof. intros (e & ->) (e' & ->). exists (e ++ e'). rewrite app_assoc. reflexivity. Qed.
Lemma extends_length h h' : extends h h' -> length h <= length h'.
Proof. intros (e & ->). rewrite app_length. lia. Qed.
Lemma extends_nth h h' a : extends h h' -> a < length h -> nth_error h' a = nth_error h a.
Proof. intros (e & ->) H. apply nth_error_app1. exact H. Qed.
Lemma extends_kids h h' a : extends h h' -> a < length h -> kids_at h' a = kids_at h a.
Proof. intros E H. unfold kids_at. rewrite (extends_nth h h') by assumption. reflexivity. Qed.
Lemma extends_under h h' : sound h -> sound h' -> extends h h' -> forall a, a < length h -> under h' a = under h a.
Proof.
  intros W W' E. induction a as [a IH] using lt_wf_ind. intros L.
  rewrite (under_eq h a W), (under_eq h' a W'). rewrite (extends_kids h h') by assumption. f_equal.
  rewrite !flat_map_concat_map. f_equal. apply map_ext_in. intros k Hk. pose proof (W _ _ Hk). apply IH; lia.
Qed.
Lemma extends_content h h' : sound h -> sound h' -> extends h h' -> forall a, a < length h -> content h' a = content h a.
Proof.
  intros W W' E a L. apply content_same; [exact W|exact W'|]. intros m Hm. apply under_le in Hm; [|exact W].
  apply extends_nth; [exact E|lia].
Qed.

(** A storage made over others. *)
Lemma new_cell_spec h n : sound h -> (forall k, In k (kids n) -> k < length h) ->
  sound (h ++ [n]) /\ extends h (h ++ [n]) /\ content (h ++ [n]) (length h) = read_node (content h) n /\
  under (h ++ [n]) (length h) = length h :: flat_map (under h) (kids n).
Proof.
  intros W K. pose proof (sound_app h n W K) as W'. assert (X : extends h (h ++ [n])) by (exists [n]; reflexivity).
  split; [exact W'|]. split; [exact X|]. split.
  - rewrite content_eq by exact W'. rewrite nth_error_app2, Nat.sub_diag by lia. cbn [nth_error].
    apply read_node_ext. intros k Hk. apply extends_content; auto.
  - rewrite under_eq by exact W'. rewrite kids_new. f_equal. rewrite !flat_map_concat_map. f_equal. apply map_ext_in.
    intros k Hk. apply extends_under; auto.
Qed.

(** A column built anew. *)
Definition built (h : heap) (c : col) (h' : heap) (a : addr) : Prop :=
  sound h' /\ extends h h' /\ length h <= a < length h' /\ content h' a = Ok c /\
  (forall y, In y (under h' a) -> length h <= y) /\ NoDup (under h' a).
Fixpoint csize (c : col) : nat :=
  match c with
  | CNullable i _ | CArray i _ | CAgg _ i | CLow i _ _ _ | CChunk i _ _ | CFixedAdapter i _ | CNullFixedAdapter i _
  | CStringAdapter i | CDecimalAdapter i _ _ _ | CNullDecimalAdapter i _ _ _ | CEnum8Adapter i _ | CEnum16Adapter i _
  | CNullEnum8Adapter i _ | CNullEnum16Adapter i _ | CChronoAdapter i _ => S (csize i)
  | CMap k v _ => S (csize k + csize v)
  | CConcat c0 cs => S (csize c0 + list_sum (map csize cs))
  | _ => 0
  end.
Fixpoint builds (cs : list col) (h : heap) : heap * list addr :=
  match cs with
  | [] => (h, [])
  | x :: xs => let '(h1, a) := build x h in let '(h2, l) := builds xs h1 in (h2, a :: l)
  end.
Lemma build_concat c0 cs h : build (CConcat c0 cs) h =
  let '(h1, a) := build c0 h in let '(h2, l) := builds cs h1 in new_cell h2 (NConcat a l).
Proof. reflexivity. Qed.

Lemma built_later h c h1 a h2 : built h c h1 a -> extends h1 h2 -> sound h2 ->
  content h2 a = Ok c /\ under h2 a = under h1 a.
Proof.
  intros (W1 & _ & L & C & _) E W2. split; [rewrite (extends_content h1 h2 W1 W2 E) by lia; exact C|].
  apply extends_under; auto; lia.
Qed.
Lemma built_flat h c : sound h -> built h c (h ++ [NFlat c]) (length h).
Proof.
  intros W. destruct (new_cell_spec h (NFlat c) W) as (W' & X & C & U); [intros k []|].
  split; [exact W'|]. split; [exact X|]. rewrite app_length. cbn [length]. split; [lia|]. split; [exact C|].
  rewrite U. cbn. split; [intros y [<-|[]]; lia|]. repeat constructor. intros [].
Qed.
Lemma built_over h i h1 a n c : built h i h1 a -> kids n = [a] -> read_node (content h1) n = Ok c ->
  built h c (h1 ++ [n]) (length h1).
Proof.
  intros (W & X & L & C & F & D) K R. destruct (new_cell_spec h1 n W) as (W' & X' & C' & U).
  { rewrite K. intros k [<-|[]]. lia. }
  split; [exact W'|]. split; [eapply extends_trans; eauto|]. rewrite app_length. cbn [length].
  pose proof (extends_length _ _ X). split; [lia|]. split; [rewrite C'; exact R|].
  rewrite U, K. cbn [flat_map]. rewrite app_nil_r. split.
  - intros y [<-|Hy]; [lia|apply F, Hy].
  - constructor; [|exact D]. intros H0. apply under_le in H0; [lia|exact W].
Qed.

Lemma NoDup_app_intro {A} (l k : list A) : NoDup l -> NoDup k -> (forall x, In x l -> ~ In x k) -> NoDup (l ++ k).
Proof.
  intros Hl. induction Hl as [|x l Hx Hl IH]; intros Hk D; [exact Hk|]. cbn. constructor.
  - intros H. apply in_app_or in H. destruct H as [H|H]; [auto|]. exact (D x (or_introl eq_refl) H).
  - apply IH; [exact Hk|]. intros y Hy. apply D. right. exact Hy.
Qed.
Lemma NoDup_app_elim {A} (l k : list A) : NoDup (l ++ k) -> NoDup l /\ NoDup k /\ forall x, In x l -> ~ In x k.
Proof.
  induction l as [|x l IH]; cbn; intros H; [split; [constructor|split; [exact H|intros ? []]]|].
  inversion H as [|? ? H1 H2]; subst. destruct (IH H2) as (A1 & A2 & A3). split.
  - constructor; [|exact A1]. intros Hx. apply H1. apply in_or_app. left. exact Hx.
  - split; [exact A2|]. intros y [<-|Hy]; [intros Hk; apply H1; apply in_or_app; right; exact Hk|apply A3, Hy].
Qed.

Lemma builds_spec cs : (forall c, In c cs -> forall h, sound h -> let '(h', a) := build c h in built h c h' a) ->
  forall h, sound h -> let '(h', l) := builds cs h in
  sound h' /\ extends h h' /\ Forall2 (fun c a => length h <= a < length h' /\ content h' a = Ok c) cs l /\
  (forall y, In y (flat_map (under h') l) -> length h <= y) /\ NoDup (flat_map (under h') l).
Proof.
  induction cs as [|c cs IH]; intros B h W; cbn [builds].
  - split; [exact W|]. split; [apply extends_refl|]. split; [constructor|]. split; [intros y []|constructor].
  - pose proof (B c (or_introl eq_refl) h W) as B1. destruct (build c h) as [h1 a].
    pose proof B1 as (W1 & X1 & L1 & C1 & F1 & D1).
    specialize (IH (fun x Hx => B x (or_intror Hx)) h1 W1). destruct (builds cs h1) as [h2 l].
    destruct IH as (W2 & X2 & H2 & F2 & D2). destruct (built_later h c h1 a h2 B1 X2 W2) as (C1' & U1).
    pose proof (extends_length _ _ X1). pose proof (extends_length _ _ X2).
    split; [exact W2|]. split; [eapply extends_trans; eauto|]. split; [|split].
    + constructor; [split; [lia|exact C1']|]. eapply F2_impl; [|exact H2]. intros x y (? & ?). split; [lia|assumption].
    + intros y Hy. cbn [flat_map] in Hy. apply in_app_or in Hy. rewrite U1 in Hy. destruct Hy as [Hy|Hy]; [apply F1, Hy|].
      apply F2 in Hy. lia.
    + cbn [flat_map]. rewrite U1. apply NoDup_app_intro; [exact D1|exact D2|]. intros y Hy H'. apply F2 in H'.
      apply under_le in Hy; [lia|exact W1].
Qed.
Lemma mapM_F2 {A B} (f : A -> res B) l k : Forall2 (fun a b => f a = Ok b) l k -> mapM f l = Ok k.
Proof. induction 1 as [|x y l k H _ IH]; [reflexivity|]. cbn [mapM]. rewrite H. cbn [rbind]. rewrite IH. reflexivity. Qed.
Lemma F2_flip {A B} (R : A -> B -> Prop) l k : Forall2 R l k -> Forall2 (fun b a => R a b) k l.
Proof. induction 1; constructor; auto. Qed.

Lemma build_spec : forall c h, sound h -> let '(h', a) := build c h in built h c h' a.
Proof.
  enough (forall n c, csize c < n -> forall h, sound h -> let '(h', a) := build c h in built h c h' a) as G
    by (intros c; apply (G (S (csize c))); lia).
  induction n as [|n IH]; intros c Hn h W; [lia|].
  destruct c; cbn [csize] in Hn; try (cbn [build new_cell]; apply built_flat; exact W);
    try (cbn [build]; match goal with |- context [build ?i h] =>
           assert (B := IH i ltac:(lia) h W); destruct (build i h) as [h1 a']; cbn [new_cell];
           eapply built_over; [exact B|reflexivity|];
           cbn [read_node over]; destruct B as (_ & _ & _ & -> & _); reflexivity end).
  - cbn [build]. assert (B1 := IH c1 ltac:(lia) h W). destruct (build c1 h) as [h1 a1].
    pose proof B1 as (W1 & X1 & L1 & C1 & F1 & D1).
    assert (B2 := IH c2 ltac:(lia) h1 W1). destruct (build c2 h1) as [h2 a2]. cbn [new_cell].
    pose proof B2 as (W2 & X2 & L2 & C2 & F2 & D2).
    destruct (built_later h c1 h1 a1 h2 B1 X2 W2) as (C1' & U1).
    pose proof (extends_length _ _ X1). pose proof (extends_length _ _ X2).
    destruct (new_cell_spec h2 (NMap a1 a2 offs) W2) as (W' & X' & C' & U).
    { intros k [<-|[<-|[]]]; lia. }
    split; [exact W'|]. split; [repeat (eapply extends_trans; [eassumption|]); apply extends_refl|].
    rewrite app_length. cbn [length]. split; [lia|].
    split; [rewrite C'; cbn [read_node]; rewrite C1', C2; reflexivity|].
    rewrite U. cbn [kids flat_map]. rewrite app_nil_r, U1. split.
    + intros y [<-|Hy]; [lia|]. apply in_app_or in Hy. destruct Hy as [Hy|Hy]; [apply F1, Hy|apply F2 in Hy; lia].
    + constructor.
      * intros Hy. apply in_app_or in Hy. destruct Hy as [Hy|Hy]; apply under_le in Hy; auto; lia.
      * apply NoDup_app_intro; [exact D1|exact D2|]. intros y Hy H'. apply F2 in H'. apply under_le in Hy; [lia|exact W1].
  - rewrite build_concat. assert (B1 := IH c ltac:(lia) h W). destruct (build c h) as [h1 a1].
    pose proof B1 as (W1 & X1 & L1 & C1 & F1 & D1).
    assert (Bs : forall x, In x cs -> forall h, sound h -> let '(h', a) := build x h in built h x h' a).
    { intros x Hx. apply IH. enough (csize x <= list_sum (map csize cs)) by lia. clear - Hx.
      induction cs as [|z cs IH]; [destruct Hx|]. change (list_sum (map csize (z :: cs))) with (csize z + list_sum (map csize cs)).
      destruct Hx as [->|Hx]; [lia|apply IH in Hx; lia]. }
    pose proof (builds_spec cs Bs h1 W1) as B2. destruct (builds cs h1) as [h2 l]. cbn [new_cell].
    destruct B2 as (W2 & X2 & H2 & F2 & D2).
    destruct (built_later h c h1 a1 h2 B1 X2 W2) as (C1' & U1).
    pose proof (extends_length _ _ X1). pose proof (extends_length _ _ X2).
    assert (Ll : forall k, In k l -> length h1 <= k < length h2).
    { clear - H2. induction H2 as [|x y ? ? [H _] _ IH]; [intros ? []|]. intros k [<-|Hk]; [exact H|apply IH, Hk]. }
    destruct (new_cell_spec h2 (NConcat a1 l) W2) as (W' & X' & C' & U).
    { intros k [<-|Hk]; [lia|apply Ll in Hk; lia]. }
    split; [exact W'|]. split; [repeat (eapply extends_trans; [eassumption|]); apply extends_refl|].
    rewrite app_length. cbn [length]. split; [lia|]. split.
    { rewrite C'. cbn [read_node]. rewrite C1'. cbn [rbind].
      rewrite (mapM_F2 (content h2) l cs); [reflexivity|]. apply F2_flip. eapply F2_impl; [|exact H2]. intros x y (_ & H1). exact H1. }
    rewrite U. cbn [kids flat_map]. rewrite U1. split.
    + intros y [<-|Hy]; [lia|]. apply in_app_or in Hy. destruct Hy as [Hy|Hy]; [apply F1, Hy|apply F2 in Hy; lia].
    + constructor.
      * intros Hy. apply in_app_or in Hy. destruct Hy as [Hy|Hy].
        -- apply under_le in Hy; [lia|exact W1].
        -- apply in_flat_map in Hy. destruct Hy as (k & Hk & Hy). apply under_le in Hy; [|exact W2]. apply Ll in Hk. lia.
      * apply NoDup_app_intro; [exact D1|exact D2|]. intros y Hy H'. apply F2 in H'. apply under_le in Hy; [lia|exact W1].
Qed.

(** No sharing inside: one holder for each storage. *)
Lemma flat_apart {A B} (f : A -> list B) l x y z : NoDup (flat_map f l) -> In x l -> In y l -> x <> y -> In z (f x) -> ~ In z (f y).
Proof.
  induction l as [|w l IH]; intros D Hx Hy N Hz; [destruct Hx|]. cbn [flat_map] in D.
  apply NoDup_app_elim in D. destruct D as (D1 & D2 & D3). destruct Hx as [->|Hx], Hy as [->|Hy].
  - congruence.
  - intros H. apply (D3 z Hz). apply in_flat_map. eauto.
  - intros H. apply (D3 z H). apply in_flat_map. eauto.
  - apply IH; assumption.
Qed.
Lemma flat_part {A B} (f : A -> list B) l x : NoDup (flat_map f l) -> In x l -> NoDup (f x).
Proof.
  induction l as [|w l IH]; intros D Hx; [destruct Hx|]. cbn [flat_map] in D. apply NoDup_app_elim in D.
  destruct D as (D1 & D2 & _). destruct Hx as [->|Hx]; auto.
Qed.
Lemma flat_keys {A B} (f : A -> list B) l : (forall x, In x l -> f x <> []) -> NoDup (flat_map f l) -> NoDup l.
Proof.
  induction l as [|w l IH]; intros N D; [constructor|]. cbn [flat_map] in D. apply NoDup_app_elim in D.
  destruct D as (D1 & D2 & D3). constructor; [|apply IH; [intros x Hx; apply N; right; exact Hx|exact D2]].
  intros Hw. specialize (N w (or_introl eq_refl)). destruct (f w) as [|z r] eqn:E; [congruence|].
  apply (D3 z (or_introl eq_refl)). apply in_flat_map. exists w. rewrite E. split; [exact Hw|left; reflexivity].
Qed.

Lemma one_parent h : sound h -> forall a, NoDup (under h a) -> forall p q y, In p (under h a) -> In q (under h a) ->
  In y (kids_at h p) -> In y (kids_at h q) -> p = q.
Proof.
  intros W. induction a as [a IH] using lt_wf_ind. intros D p q y Hp Hq Kp Kq.
  rewrite under_eq in D, Hp, Hq by exact W. inversion D as [|? ? D1 D2]; subst.
  assert (Top : forall q, In q (flat_map (under h) (kids_at h a)) -> In y (kids_at h a) -> In y (kids_at h q) -> False).
  { clear q Hq Kq. intros q Hq Ka Kq. apply in_flat_map in Hq. destruct Hq as (k & Hk & Hq).
    assert (Hy : In y (under h k)) by (eapply under_trans; [exact W|exact Hq|apply under_kid; auto]).
    destruct (Nat.eq_dec k y) as [->|N].
    - apply under_le in Hq; [|exact W]. apply W in Kq. lia.
    - exact (flat_apart (under h) _ k y y D2 Hk Ka N Hy (under_self h y W)). }
  destruct Hp as [<-|Hp], Hq as [<-|Hq]; [reflexivity|exfalso; eauto|exfalso; eauto|].
  apply in_flat_map in Hp. destruct Hp as (k & Hk & Hp). apply in_flat_map in Hq. destruct Hq as (k' & Hk' & Hq).
  destruct (Nat.eq_dec k k') as [->|N].
  - exact (IH k' (W _ _ Hk') (flat_part (under h) _ k' D2 Hk') p q y Hp Hq Kp Kq).
  - exfalso. apply (flat_apart (under h) _ k k' y D2 Hk Hk' N).
    + eapply under_trans; [exact W|exact Hp|apply under_kid; auto].
    + eapply under_trans; [exact W|exact Hq|apply under_kid; auto].
Qed.
Lemma under_part h : sound h -> forall a b, NoDup (under h a) -> In b (under h a) -> NoDup (under h b).
Proof.
  intros W. induction a as [a IH] using lt_wf_ind. intros b D Hb. rewrite under_eq in Hb by exact W.
  destruct Hb as [<-|Hb]; [exact D|]. apply in_flat_map in Hb. destruct Hb as (k & Hk & Hb).
  rewrite under_eq in D by exact W. inversion D as [|? ? D1 D2]; subst.
  apply (IH k (W _ _ Hk)); [|exact Hb]. exact (flat_part (under h) _ k D2 Hk).
Qed.
Lemma kids_once h a y : sound h -> NoDup (under h a) -> In y (kids_at h a) -> occurrences y (kids_at h a) = 1.
Proof.
  intros W D Hy. rewrite under_eq in D by exact W. inversion D as [|? ? D1 D2]; subst.
  apply NoDup_count_occ'; [|exact Hy]. apply (flat_keys (under h)); [|exact D2].
  intros x _ E. pose proof (under_self h x W) as H. rewrite E in H. destruct H.
Qed.
Lemma sum_zero (f : addr -> nat) l : (forall q, In q l -> f q = 0) -> list_sum (map f l) = 0.
Proof.
  induction l as [|q l IH]; intros H; [reflexivity|]. change (list_sum (map f (q :: l))) with (f q + list_sum (map f l)).
  rewrite (H q (or_introl eq_refl)), IH; [reflexivity|]. intros x Hx. apply H. right. exact Hx.
Qed.
Lemma sum_single (f : addr -> nat) l p : NoDup l -> In p l -> (forall q, In q l -> q <> p -> f q = 0) -> list_sum (map f l) = f p.
Proof.
  induction l as [|q l IH]; intros D Hp H; [destruct Hp|]. inversion D as [|? ? D1 D2]; subst.
  change (list_sum (map f (q :: l))) with (f q + list_sum (map f l)). destruct Hp as [->|Hp].
  - rewrite sum_zero; [lia|]. intros x Hx. apply H; [right; exact Hx|]. intros ->. auto.
  - rewrite (H q (or_introl eq_refl)) by (intros ->; auto). rewrite IH; auto. intros x Hx. apply H. right. exact Hx.
Qed.
Lemma occurs_not a l : ~ In a l -> occurrences a l = 0.
Proof. intros H. apply count_occ_not_In. exact H. Qed.

Lemma strong_alone (h : heap) (a : addr) (far rest : list addr) : sound h -> NoDup (flat_map (under h) (a :: rest)) ->
  (forall b z, In b far -> In z (under h a) -> ~ In z (under h b)) ->
  forall y, In y (under h a) -> strong h (a :: far ++ rest) y = 1.
Proof.
  intros W D F y Hy. cbn [flat_map] in D. apply NoDup_app_elim in D. destruct D as (D1 & D2 & D3).
  assert (O : forall b z, In b (far ++ rest) -> In z (under h a) -> ~ In z (under h b)).
  { intros b z Hb Hz H. apply in_app_or in Hb. destruct Hb as [Hb|Hb]; [exact (F b z Hb Hz H)|].
    apply (D3 z Hz). apply in_flat_map. eauto. }
  assert (Par : forall p, In p (alive h (a :: far ++ rest)) -> In y (kids_at h p) -> In p (under h a)).
  { intros p Hp Ky. apply alive_in in Hp. destruct Hp as (r & [<-|Hr] & Hp); [exact Hp|exfalso].
    apply (O r y Hr Hy). eapply under_trans; [exact W|exact Hp|apply under_kid; auto]. }
  unfold strong. destruct (Nat.eq_dec y a) as [->|N].
  - rewrite occurs_head, occurs_not, sum_zero; [reflexivity| |].
    + intros q Hq. apply occurs_not. intros K. apply Par in Hq; [|exact K]. apply under_le in Hq; [|exact W].
      apply W in K. lia.
    + intros H. exact (O a a H Hy Hy).
  - assert (R0 : occurrences y (a :: far ++ rest) = 0).
    { apply occurs_not. intros [H|H]; [congruence|]. exact (O y y H Hy (under_self h y W)). }
    rewrite R0. destruct (under_parent h W _ _ Hy) as [|(p & Hp & Kp)]; [congruence|].
    assert (Ap : In p (alive h (a :: far ++ rest))).
    { apply alive_in. exists a. split; [left; reflexivity|exact Hp]. }
    rewrite (sum_single _ _ p); [|apply NoDup_nodup|exact Ap|].
    + rewrite (kids_once h p y W (under_part h W a p D1 Hp) Kp). reflexivity.
    + intros q Hq Nq. apply occurs_not. intros Kq. apply Nq. apply (one_parent h W a D1 q p y); auto.
Qed.

(** Lists. *)
Lemma set_nth_length {A} (l : list A) i x : i < length l -> length (set_nth l i x) = length l.
Proof. intros H. unfold set_nth. rewrite app_length, firstn_length. cbn [length]. rewrite skipn_length. lia. Qed.
Lemma set_nth_here {A} (l : list A) i x : i < length l -> nth_error (set_nth l i x) i = Some x.
Proof.
  intros H. unfold set_nth. rewrite nth_error_app2; rewrite firstn_length; [|lia].
  replace (i - Nat.min i (length l)) with 0 by lia. reflexivity.
Qed.
Lemma nth_error_firstn {A} (l : list A) : forall i j, j < i -> nth_error (firstn i l) j = nth_error l j.
Proof. induction l as [|y l IH]; intros [|i] [|j] H; cbn; try lia; try reflexivity. apply IH. lia. Qed.
Lemma nth_error_skipn {A} (l : list A) : forall i j, nth_error (skipn i l) j = nth_error l (i + j).
Proof. induction l as [|y l IH]; intros [|i] j; cbn; try reflexivity; [destruct j; reflexivity|apply IH]. Qed.
Lemma set_nth_other {A} (l : list A) i x j : i < length l -> j <> i -> nth_error (set_nth l i x) j = nth_error l j.
Proof.
  intros H N. unfold set_nth. destruct (Nat.lt_ge_cases j i) as [L|L].
  - rewrite nth_error_app1 by (rewrite firstn_length; lia). apply nth_error_firstn. exact L.
  - rewrite nth_error_app2 by (rewrite firstn_length; lia). rewrite firstn_length.
    replace (j - Nat.min i (length l)) with (S (j - i - 1)) by lia. cbn [nth_error].
    rewrite nth_error_skipn. f_equal. lia.
Qed.
Lemma drop_nth_in {A} (l : list A) i x : In x (drop_nth l i) -> exists j, j <> i /\ nth_error l j = Some x.
Proof.
  unfold drop_nth. intros H. apply in_app_or in H. destruct H as [H|H]; apply In_nth_error in H; destruct H as (j & Hj).
  - assert (j < i).
    { assert (L : j < length (firstn i l)) by (apply nth_error_Some; congruence). rewrite firstn_length in L. lia. }
    exists j. split; [lia|]. rewrite nth_error_firstn in Hj by assumption. exact Hj.
  - rewrite nth_error_skipn in Hj. exists (S i + j). split; [lia|exact Hj].
Qed.
Lemma drop_nth_has {A} (l : list A) i j x : j <> i -> nth_error l j = Some x -> In x (drop_nth l i).
Proof.
  intros N H. unfold drop_nth. apply in_or_app. destruct (Nat.lt_ge_cases j i) as [L|L].
  - left. apply (nth_error_In _ j). rewrite nth_error_firstn by exact L. exact H.
  - right. apply (nth_error_In _ (j - S i)). rewrite nth_error_skipn. replace (S i + (j - S i)) with j by lia. exact H.
Qed.
Lemma split_nth {A} (l : list A) i x : nth_error l i = Some x -> l = firstn i l ++ x :: skipn (S i) l.
Proof.
  revert i. induction l as [|y l IH]; intros [|i] H; cbn in *; try discriminate; [congruence|]. f_equal. apply IH, H.
Qed.
Lemma flat_map_app' {A B} (f : A -> list B) l k : flat_map f (l ++ k) = flat_map f l ++ flat_map f k.
Proof. induction l as [|x l IH]; cbn; [reflexivity|]. rewrite IH, app_assoc. reflexivity. Qed.
Lemma NoDup_perm3 {A} (x y z : list A) : NoDup (x ++ y ++ z) <-> NoDup (y ++ x ++ z).
Proof.
  assert (G : forall x y z : list A, NoDup (x ++ y ++ z) -> NoDup (y ++ x ++ z)).
  { clear. intros x y z H. apply NoDup_app_elim in H. destruct H as (H1 & H2 & H3). apply NoDup_app_elim in H2.
    destruct H2 as (H4 & H5 & H6). apply NoDup_app_intro; [exact H4| |].
    - apply NoDup_app_intro; [exact H1|exact H5|]. intros a Ha H. apply (H3 a Ha). apply in_or_app. auto.
    - intros a Ha H. apply in_app_or in H. destruct H as [H|H]; [|exact (H6 a Ha H)]. apply (H3 a H). apply in_or_app. auto. }
  split; apply G.
Qed.

(** The memory of a running program. [st] says where its storages come from. *)
Definition trees (h : heap) (b : hblock) : list addr := flat_map (under h) (map snd (hb_cols b)).
Definition apart {A} (l k : list A) : Prop := forall x, In x l -> ~ In x k.
Record good (m : memory) (st : list (option (list nat))) : Prop := {
  g_sound : sound (m_heap m);
  g_in : forall i b a, nth_error (m_blocks m) i = Some (Some b) -> In a (map snd (hb_cols b)) -> a < length (m_heap m);
  g_len : length st = length (m_blocks m);
  g_live : forall i b, nth_error (m_blocks m) i = Some (Some b) -> ids_of st i <> [];
  g_ids : forall i x, In x (ids_of st i) -> x < length st;
  g_nodup : forall i b, nth_error (m_blocks m) i = Some (Some b) -> NoDup (ids_of st i) -> NoDup (trees (m_heap m) b);
  g_apart : forall i j b c, i <> j -> nth_error (m_blocks m) i = Some (Some b) -> nth_error (m_blocks m) j = Some (Some c) ->
    apart (ids_of st i) (ids_of st j) -> apart (trees (m_heap m) b) (trees (m_heap m) c)
}.
Lemma apart_sym {A} (l k : list A) : apart l k -> apart k l.
Proof. intros H x Hx H'. exact (H x H' Hx). Qed.

(** The other blocks keep their storages. *)
Definition keeps (h h' : heap) (b : hblock) : Prop :=
  forall a, In a (map snd (hb_cols b)) -> a < length h' /\ content h' a = content h a /\ under h' a = under h a.
Lemma keeps_trees h h' b : keeps h h' b -> trees h' b = trees h b.
Proof.
  intros K. unfold trees. rewrite !flat_map_concat_map. f_equal. apply map_ext_in. intros a Ha. apply K, Ha.
Qed.
Lemma keeps_block h h' b : keeps h h' b -> block_at h' b = block_at h b.
Proof.
  intros K. unfold block_at. rewrite (mapM_ext _ (fun x => do c <- content h (snd x); Ok (fst x, c))); [reflexivity|].
  intros x Hx. destruct (K (snd x)) as (_ & -> & _); [apply in_map, Hx|]. reflexivity.
Qed.
Lemma extends_keeps m st i b h' : good m st -> nth_error (m_blocks m) i = Some (Some b) -> sound h' ->
  extends (m_heap m) h' -> keeps (m_heap m) h' b.
Proof.
  intros G Hb W' X a Ha. pose proof (g_in _ _ G _ _ _ Hb Ha) as L. pose proof (extends_length _ _ X).
  split; [lia|]. split; [apply extends_content|apply extends_under]; auto; apply (g_sound _ _ G).
Qed.

Lemma ids_app st l i : ids_of (st ++ [Some l]) i = if i <? length st then ids_of st i else if i =? length st then l else [].
Proof.
  unfold ids_of. destruct (Nat.ltb_spec i (length st)) as [L|L]; [rewrite nth_error_app1 by exact L; reflexivity|].
  rewrite nth_error_app2 by exact L. destruct (Nat.eqb_spec i (length st)) as [->|N].
  - rewrite Nat.sub_diag. reflexivity.
  - destruct (i - length st) as [|[|x]] eqn:E; try reflexivity. lia.
Qed.
Lemma ids_out st i : length st <= i -> ids_of st i = [].
Proof. intros H. unfold ids_of. destruct (nth_error st i) eqn:E; [|reflexivity]. assert (i < length st) by (apply nth_error_Some; congruence). lia. Qed.

Lemma good_append m st h' nb l : good m st -> sound h' ->
  (forall i b, nth_error (m_blocks m) i = Some (Some b) -> keeps (m_heap m) h' b) ->
  (forall a, In a (map snd (hb_cols nb)) -> a < length h') -> l <> [] ->
  (forall x, In x l -> x <= length st) -> (NoDup l -> NoDup (trees h' nb)) ->
  (forall j c, nth_error (m_blocks m) j = Some (Some c) -> apart l (ids_of st j) -> apart (trees h' nb) (trees h' c)) ->
  good (mk_memory h' (m_blocks m ++ [Some nb])) (st ++ [Some l]).
Proof.
  intros G W K I0 L0 I1 D0 A0. pose proof (g_len _ _ G) as Len.
  assert (Old : forall i b, nth_error (m_blocks m ++ [Some nb]) i = Some (Some b) ->
    (i < length st /\ nth_error (m_blocks m) i = Some (Some b) /\ ids_of (st ++ [Some l]) i = ids_of st i) \/
    (i = length st /\ b = nb /\ ids_of (st ++ [Some l]) i = l)).
  { intros i b H. rewrite ids_app. destruct (Nat.ltb_spec i (length st)) as [Li|Li].
    - rewrite nth_error_app1 in H by lia. auto.
    - rewrite nth_error_app2 in H by lia. right. rewrite <- Len in H.
      destruct (i - length st) as [|[|x]] eqn:E; cbn in H; try discriminate. injection H as <-.
      assert (i = length st) as -> by lia. rewrite Nat.eqb_refl. auto. }
  constructor; cbn [m_heap m_blocks].
  - exact W.
  - intros i b a H Ha. destruct (Old i b H) as [(_ & H' & _)|(_ & -> & _)]; [apply (K _ _ H' a Ha)|apply I0, Ha].
  - rewrite !app_length. cbn [length]. lia.
  - intros i b H. destruct (Old i b H) as [(_ & H' & ->)|(_ & _ & ->)]; [apply (g_live _ _ G _ _ H')|exact L0].
  - intros i x Hx. rewrite app_length. cbn [length]. rewrite ids_app in Hx.
    destruct (i <? length st); [apply (g_ids _ _ G) in Hx; lia|]. destruct (i =? length st); [apply I1 in Hx; lia|destruct Hx].
  - intros i b H D. destruct (Old i b H) as [(_ & H' & E)|(_ & -> & E)]; rewrite E in D.
    + rewrite (keeps_trees _ _ _ (K _ _ H')). apply (g_nodup _ _ G _ _ H' D).
    + apply D0, D.
  - intros i j b c N Hb Hc A. destruct (Old i b Hb) as [(Li & Hb' & Eb)|(Li & -> & Eb)];
      destruct (Old j c Hc) as [(Lj & Hc' & Ec)|(Lj & -> & Ec)]; rewrite Eb, Ec in A.
    + rewrite (keeps_trees _ _ _ (K _ _ Hb')), (keeps_trees _ _ _ (K _ _ Hc')). exact (g_apart _ _ G i j b c N Hb' Hc' A).
    + apply apart_sym. apply (A0 i b Hb'). apply apart_sym, A.
    + apply (A0 j c Hc' A).
    + lia.
Qed.

Lemma good_set m st h' j nb b0 l : good m st -> sound h' -> nth_error (m_blocks m) j = Some (Some b0) ->
  (forall i b, i <> j -> nth_error (m_blocks m) i = Some (Some b) -> keeps (m_heap m) h' b) ->
  (forall a, In a (map snd (hb_cols nb)) -> a < length h') -> l <> [] ->
  (forall x, In x l -> x < length st) -> (NoDup l -> NoDup (trees h' nb)) ->
  (forall i c, i <> j -> nth_error (m_blocks m) i = Some (Some c) -> apart l (ids_of st i) -> apart (trees h' nb) (trees (m_heap m) c)) ->
  good (mk_memory h' (set_nth (m_blocks m) j (Some nb))) (set_nth st j (Some l)).
Proof.
  intros G W Hj K I0 L0 I1 D0 A0. pose proof (g_len _ _ G) as Len.
  assert (Lj : j < length (m_blocks m)) by (apply nth_error_Some; congruence).
  assert (Ids : forall i, ids_of (set_nth st j (Some l)) i = if i =? j then l else ids_of st i).
  { intros i. unfold ids_of. destruct (Nat.eqb_spec i j) as [->|N]; [rewrite set_nth_here by lia; reflexivity|].
    rewrite set_nth_other by lia. reflexivity. }
  assert (Old : forall i b, nth_error (set_nth (m_blocks m) j (Some nb)) i = Some (Some b) ->
    (i <> j /\ nth_error (m_blocks m) i = Some (Some b) /\ ids_of (set_nth st j (Some l)) i = ids_of st i) \/
    (i = j /\ b = nb /\ ids_of (set_nth st j (Some l)) i = l)).
  { intros i b H. rewrite Ids. destruct (Nat.eqb_spec i j) as [->|N].
    - rewrite set_nth_here in H by exact Lj. injection H as <-. auto.
    - rewrite set_nth_other in H by auto. auto. }
  constructor; cbn [m_heap m_blocks].
  - exact W.
  - intros i b a H Ha. destruct (Old i b H) as [(N & H' & _)|(_ & -> & _)]; [apply (K _ _ N H' a Ha)|apply I0, Ha].
  - rewrite !set_nth_length by lia. exact Len.
  - intros i b H. destruct (Old i b H) as [(_ & H' & ->)|(_ & _ & ->)]; [apply (g_live _ _ G _ _ H')|exact L0].
  - intros i x Hx. rewrite set_nth_length by lia. rewrite Ids in Hx.
    destruct (i =? j); [apply I1, Hx|apply (g_ids _ _ G _ _ Hx)].
  - intros i b H D. destruct (Old i b H) as [(N & H' & E)|(_ & -> & E)]; rewrite E in D.
    + rewrite (keeps_trees _ _ _ (K _ _ N H')). apply (g_nodup _ _ G _ _ H' D).
    + apply D0, D.
  - intros i k b c N Hb Hc A. destruct (Old i b Hb) as [(Ni & Hb' & Eb)|(Li & -> & Eb)];
      destruct (Old k c Hc) as [(Nk & Hc' & Ec)|(Lk & -> & Ec)]; rewrite Eb, Ec in A.
    + rewrite (keeps_trees _ _ _ (K _ _ Ni Hb')), (keeps_trees _ _ _ (K _ _ Nk Hc')). exact (g_apart _ _ G i k b c N Hb' Hc' A).
    + rewrite (keeps_trees _ _ _ (K _ _ Ni Hb')). apply apart_sym. apply (A0 i b Ni Hb'). apply apart_sym, A.
    + rewrite (keeps_trees _ _ _ (K _ _ Nk Hc')). apply (A0 k c Nk Hc' A).
    + lia.
Qed.

(** What the blocks show. *)
Definition show1 (h : heap) (o : option hblock) : option (res block) :=
  match o with Some b => Some (block_at h b) | None => None end.
Definition show2 (o : option block) : option (res block) := match o with Some b => Some (Ok b) | None => None end.
Lemma shows_eq m vs : shows m vs <-> map (show1 (m_heap m)) (m_blocks m) = map show2 vs.
Proof. reflexivity. Qed.
Lemma shows_nth m vs i hb : shows m vs -> nth_error (m_blocks m) i = Some (Some hb) ->
  exists b, nth_error vs i = Some (Some b) /\ block_at (m_heap m) hb = Ok b.
Proof.
  intros S H. rewrite shows_eq in S. apply (f_equal (fun l => nth_error l i)) in S.
  cbn beta in S. rewrite (nth_error_map (show1 (m_heap m))), (nth_error_map show2), H in S. cbn in S. destruct (nth_error vs i) as [[b|]|]; cbn in S; try discriminate.
  injection S as S. eauto.
Qed.
Lemma shows_length m vs : shows m vs -> length vs = length (m_blocks m).
Proof. intros S. rewrite shows_eq in S. apply (f_equal (@length _)) in S. rewrite !map_length in S. auto. Qed.
Lemma map_set {A B} (f : A -> B) l i x : map f (set_nth l i x) = set_nth (map f l) i (f x).
Proof. unfold set_nth. rewrite map_app. cbn [map]. rewrite firstn_map, skipn_map. reflexivity. Qed.
Lemma list_ext {A} (l k : list A) : (forall i, nth_error l i = nth_error k i) -> l = k.
Proof.
  revert k. induction l as [|x l IH]; intros [|y k] H; [reflexivity|specialize (H 0); discriminate|specialize (H 0); discriminate|].
  pose proof (H 0) as H0. injection H0 as ->. f_equal. apply IH. intros i. exact (H (S i)).
Qed.
Lemma shows_append m vs h' nb b : shows m vs -> (forall i c, nth_error (m_blocks m) i = Some (Some c) -> keeps (m_heap m) h' c) ->
  block_at h' nb = Ok b -> shows (mk_memory h' (m_blocks m ++ [Some nb])) (vs ++ [Some b]).
Proof.
  intros S K B. rewrite shows_eq. rewrite shows_eq in S. cbn [m_heap m_blocks]. rewrite !map_app, <- S. cbn [map show1 show2].
  rewrite B. f_equal. apply map_ext_in. intros [c|] Hc; [|reflexivity]. apply In_nth_error in Hc. destruct Hc as (i & Hi).
  cbn [show1]. f_equal. apply keeps_block, (K i), Hi.
Qed.
Lemma shows_set m vs h' j nb b : shows m vs -> j < length (m_blocks m) ->
  (forall i c, i <> j -> nth_error (m_blocks m) i = Some (Some c) -> keeps (m_heap m) h' c) ->
  block_at h' nb = Ok b -> shows (mk_memory h' (set_nth (m_blocks m) j (Some nb))) (set_nth vs j (Some b)).
Proof.
  intros S L K B. rewrite shows_eq. pose proof (shows_length _ _ S) as Len. rewrite shows_eq in S. cbn [m_heap m_blocks].
  rewrite !map_set, <- S. cbn [show1 show2]. rewrite B. apply list_ext. intros i.
  destruct (Nat.eq_dec i j) as [->|N]; [rewrite !set_nth_here by (rewrite map_length; exact L); reflexivity|].
  rewrite !set_nth_other by (rewrite ?map_length; auto). rewrite !nth_error_map.
  destruct (nth_error (m_blocks m) i) as [[c|]|] eqn:E; try reflexivity. cbn. f_equal. f_equal. apply keeps_block, (K i); auto.
Qed.
Lemma shows_drop m vs j : shows m vs -> shows (mk_memory (m_heap m) (set_nth (m_blocks m) j None)) (set_nth vs j None).
Proof. intros S. rewrite shows_eq. rewrite shows_eq in S. cbn [m_heap m_blocks]. rewrite !map_set, <- S. reflexivity. Qed.

(** A block and its columns. *)
Definition is_at (h : heap) (x : hcolumn) (y : column) : Prop := fst x = fst y /\ content h (snd x) = Ok (snd y).
Lemma mapM_ok_F2 {A B} (f : A -> res B) l : forall k, mapM f l = Ok k -> Forall2 (fun a b => f a = Ok b) l k.
Proof.
  induction l as [|x l IH]; intros k H; cbn [mapM] in H; [injection H as <-; constructor|].
  inv_do H. inv_do H. injection H as <-. constructor; auto.
Qed.
Lemma block_at_eq h hb b : block_at h hb = Ok b <-> b_info b = hb_info hb /\ Forall2 (is_at h) (hb_cols hb) (b_cols b).
Proof.
  unfold block_at. split.
  - intros H. inv_do H. injection H as <-. split; [reflexivity|]. cbn [b_cols]. eapply F2_impl; [|apply mapM_ok_F2; eassumption].
    intros a y Hy. inv_do Hy. injection Hy as <-. split; [reflexivity|assumption].
  - intros (I & F). rewrite (mapM_F2 _ _ (b_cols b)); [cbn [rbind]; rewrite <- I; destruct b; reflexivity|].
    eapply F2_impl; [|exact F]. intros [n a] [n' c] (H1 & H2). cbn [fst snd] in *. rewrite H2. subst. reflexivity.
Qed.
Lemma F2_nth {A B} (R : A -> B -> Prop) l k : Forall2 R l k -> forall i y, nth_error k i = Some y ->
  exists x, nth_error l i = Some x /\ R x y.
Proof. induction 1 as [|x y l k H _ IH]; intros [|i] z Hz; cbn in *; try discriminate; [injection Hz as <-; eauto|apply IH, Hz]. Qed.
Lemma F2_nth' {A B} (R : A -> B -> Prop) l k : Forall2 R l k -> forall i x, nth_error l i = Some x ->
  exists y, nth_error k i = Some y /\ R x y.
Proof. induction 1 as [|x y l k H _ IH]; intros [|i] z Hz; cbn in *; try discriminate; [injection Hz as <-; eauto|apply IH, Hz]. Qed.
Lemma F2_app {A B} (R : A -> B -> Prop) l k l' k' : Forall2 R l k -> Forall2 R l' k' -> Forall2 R (l ++ l') (k ++ k').
Proof. induction 1; cbn; auto. Qed.
Lemma F2_skip {A B} (R : A -> B -> Prop) l k : Forall2 R l k -> forall i, Forall2 R (skipn i l) (skipn i k).
Proof. induction 1; intros [|i]; cbn; auto. Qed.
Lemma F2_first {A B} (R : A -> B -> Prop) l k : Forall2 R l k -> forall i, Forall2 R (firstn i l) (firstn i k).
Proof. induction 1; intros [|i]; cbn; auto. Qed.
Lemma F2_set {A B} (R : A -> B -> Prop) l k i x y : Forall2 R l k -> R x y -> Forall2 R (set_nth l i x) (set_nth k i y).
Proof. intros F H. unfold set_nth. apply F2_app; [apply F2_first, F|]. constructor; [exact H|apply F2_skip, F]. Qed.
Lemma F2_in_impl {A B} (P Q : A -> B -> Prop) l k : (forall x y, In x l -> P x y -> Q x y) -> Forall2 P l k -> Forall2 Q l k.
Proof. intros H F. induction F as [|x y l k Hxy F IH]; constructor; [apply H; [left; reflexivity|exact Hxy]|]. apply IH. intros a b Ha. apply H. right. exact Ha. Qed.
Lemma set_nth_twice {A} (l : list A) i x y : i < length l -> set_nth (set_nth l i x) i y = set_nth l i y.
Proof.
  intros H. apply list_ext. intros j. destruct (Nat.eq_dec j i) as [->|N].
  - rewrite !set_nth_here; rewrite ?set_nth_length; auto.
  - rewrite !set_nth_other; rewrite ?set_nth_length; auto.
Qed.
Lemma set_nth_same {A} (l : list A) i x : nth_error l i = Some x -> set_nth l i x = l.
Proof. intros H. unfold set_nth. symmetry. apply split_nth, H. Qed.

Lemma push_at_eq cs : forall k v n c, nth_error cs k = Some (n, c) ->
  push_at cs k v = do c' <- push c v; Ok (set_nth cs k (n, c')).
Proof.
  induction cs as [|[n0 c0] cs IH]; intros [|k] v n c H; cbn in H; try discriminate.
  - injection H as -> ->. cbn [push_at]. destruct (push c v); reflexivity.
  - cbn [push_at]. rewrite (IH k v n c H). destruct (push c v); reflexivity.
Qed.
Lemma find_name_set s cs : forall k n c c' i, nth_error cs k = Some (n, c) -> find_name s (set_nth cs k (n, c')) i = find_name s cs i.
Proof.
  induction cs as [|[n0 c0] cs IH]; intros [|k] n c c' i H; cbn in H; try discriminate.
  - injection H as -> ->. reflexivity.
  - unfold set_nth in *. cbn [firstn skipn app find_name]. destruct (bytes_eqb n0 s); [reflexivity|].
    rewrite <- (IH k n c c' (S i) H). reflexivity.
Qed.
Lemma find_name_at_nth s cs : forall i j, find_name s cs i = Some j -> exists c, i <= j /\ nth_error cs (j - i) = Some (s, c).
Proof.
  induction cs as [|[n c] cs IH]; intros i j H; cbn [find_name] in H; [discriminate|].
  destruct (bytes_eqb n s) eqn:E.
  - injection H as <-. unfold bytes_eqb in E; destruct (bytes_eq_dec n s) as [E1|]; [|discriminate E]; clear E; rename E1 into E. subst. exists c. split; [lia|]. rewrite Nat.sub_diag. reflexivity.
  - destruct (IH _ _ H) as (c' & L & Hc). exists c'. split; [lia|]. replace (j - i) with (S (j - S i)) by lia. exact Hc.
Qed.

Lemma nth_first {A} (l : list A) k j x : nth_error (firstn k l) j = Some x -> j < k /\ nth_error l j = Some x.
Proof.
  intros H. assert (j < k). { assert (Q : j < length (firstn k l)) by (apply nth_error_Some; congruence). rewrite firstn_length in Q. lia. }
  rewrite nth_error_firstn in H by assumption. auto.
Qed.

(** Pushing to one column of a block. *)
Lemma others_in m st i k hb : good m st -> nth_error (m_blocks m) i = Some (Some hb) ->
  Forall (fun b => b < length (m_heap m)) (others (m_blocks m) i k).
Proof.
  intros G Hi. apply Forall_forall. intros a Ha. unfold others in Ha. rewrite Hi in Ha. apply in_app_or in Ha.
  destruct Ha as [Ha|Ha].
  - apply in_flat_map in Ha. destruct Ha as ([b|] & Hb & Ha); [|destruct Ha]. apply drop_nth_in in Hb.
    destruct Hb as (j & _ & Hj). exact (g_in _ _ G _ _ _ Hj Ha).
  - apply drop_nth_in in Ha. destruct Ha as (j & _ & Hj). apply nth_error_In in Hj. exact (g_in _ _ G _ _ _ Hi Hj).
Qed.
Lemma others_far m i k j b a : j <> i -> nth_error (m_blocks m) j = Some (Some b) -> In a (map snd (hb_cols b)) ->
  In a (others (m_blocks m) i k).
Proof.
  intros N Hj Ha. unfold others. apply in_or_app. left. apply in_flat_map. exists (Some b). split; [|exact Ha].
  eapply drop_nth_has; eauto.
Qed.
Lemma others_near m i k hb j x : nth_error (m_blocks m) i = Some (Some hb) -> j <> k -> nth_error (hb_cols hb) j = Some x ->
  In (snd x) (others (m_blocks m) i k).
Proof.
  intros Hi N Hj. unfold others. rewrite Hi. apply in_or_app. right. apply (drop_nth_has _ _ j); [exact N|].
  exact (map_nth_error snd j (hb_cols hb) Hj).
Qed.
Lemma ids_set_same st i : ids_of st i <> [] -> set_nth st i (Some (ids_of st i)) = st.
Proof.
  intros H. apply set_nth_same. unfold ids_of in *. destruct (nth_error st i) as [[l|]|]; congruence.
Qed.
Lemma trees_set h hb k x y : nth_error (hb_cols hb) k = Some x ->
  trees h hb = flat_map (under h) (firstn k (map snd (hb_cols hb))) ++ under h (snd x) ++ flat_map (under h) (skipn (S k) (map snd (hb_cols hb))) /\
  trees h (mk_hblock (hb_info hb) (set_nth (hb_cols hb) k y)) =
    flat_map (under h) (firstn k (map snd (hb_cols hb))) ++ under h (snd y) ++ flat_map (under h) (skipn (S k) (map snd (hb_cols hb))).
Proof.
  intros H. split.
  - unfold trees. rewrite (split_nth (map snd (hb_cols hb)) k (snd x)) at 1 by (exact (map_nth_error snd k (hb_cols hb) H)).
    rewrite flat_map_app'. reflexivity.
  - unfold trees. cbn [hb_cols]. rewrite map_set. unfold set_nth. rewrite flat_map_app'. reflexivity.
Qed.

Definition put_back (b : block) (k : nat) (n : bytes) (c : col) : block := mk_block (b_info b) (set_nth (b_cols b) k (n, c)).
Lemma put_at_step m st vs i hb b k v n c a h' a' c' : good m st -> shows m vs -> nth_error (m_blocks m) i = Some (Some hb) ->
  block_at (m_heap m) hb = Ok b -> nth_error (b_cols b) k = Some (n, c) -> nth_error (hb_cols hb) k = Some (n, a) ->
  column_push (others (m_blocks m) i k) (m_heap m) a v = Ok (h', a') -> content h' a' = Ok c' ->
  let m' := mk_memory h' (set_nth (m_blocks m) i (Some (mk_hblock (hb_info hb) (set_nth (hb_cols hb) k (n, a'))))) in
  shows m' (set_nth vs i (Some (put_back b k n c'))) /\ good m' st.
Proof.
  intros G S Hi Hb Hk Hx Ep C' m'. apply block_at_eq in Hb. destruct Hb as (HI & HF).
  destruct (F2_nth _ _ _ HF k (n, c) Hk) as ([n1 a1] & Hx1 & En & Ca). cbn [fst snd] in En, Ca. rewrite Hx in Hx1. injection Hx1 as <- <-.
  assert (La : a < length (m_heap m)).
  { apply (g_in _ _ G i hb a Hi). apply (in_map snd) with (x := (n, a)). eapply nth_error_In, Hx. }
  pose proof (column_push_spec (others (m_blocks m) i k) (m_heap m) a v c (g_sound _ _ G) La (others_in _ _ _ _ _ G Hi) Ca) as T.
  rewrite Ep in T. destruct T as (W' & L' & La' & U & V & _). subst m'.
  assert (Kf : forall j b', j <> i -> nth_error (m_blocks m) j = Some (Some b') -> keeps (m_heap m) h' b').
  { intros j b' N Hj z Hz. pose proof (g_in _ _ G _ _ _ Hj Hz). destruct (U z (others_far m i k j b' z N Hj Hz)). split; [lia|auto]. }
  assert (Kn : forall j x, j <> k -> nth_error (hb_cols hb) j = Some x -> content h' (snd x) = content (m_heap m) (snd x) /\ under h' (snd x) = under (m_heap m) (snd x)).
  { intros j x N Hj. apply U. eapply others_near; eauto. }
  assert (Lk : k < length (hb_cols hb)) by (apply nth_error_Some; congruence).
  assert (Li : i < length (m_blocks m)) by (apply nth_error_Some; congruence).
  split.
  + apply shows_set; [exact S|exact Li|exact Kf|]. apply block_at_eq. cbn [b_info b_cols hb_info hb_cols put_back]. split; [exact HI|].
    assert (F2 : Forall2 (fun x y => fst x = fst y /\ (x = (n, a) \/ content h' (snd x) = Ok (snd y))) (hb_cols hb) (b_cols b)).
    { assert (I : forall x, In x (hb_cols hb) -> x = (n, a) \/ content h' (snd x) = content (m_heap m) (snd x)).
      { intros x Hin. apply In_nth_error in Hin. destruct Hin as (j & Hj). destruct (Nat.eq_dec j k) as [->|N].
        - left. congruence.
        - right. apply (Kn j x N Hj). }
      eapply F2_in_impl; [|exact HF]. intros x y Hin (E1 & E2). split; [exact E1|]. destruct (I x Hin) as [->|E3]; [left; reflexivity|right; congruence]. }
    unfold set_nth. apply F2_app; [|constructor].
    * assert (I : forall x, In x (firstn k (hb_cols hb)) -> content h' (snd x) = content (m_heap m) (snd x)).
      { intros x Hin. apply In_nth_error in Hin. destruct Hin as (j & Hj).
        apply nth_first in Hj. destruct Hj as (Hlt & Hj). apply (Kn j x); [lia|exact Hj]. }
      eapply F2_in_impl; [|apply F2_first, HF]. intros x y Hin (E1 & E2). split; [exact E1|]. rewrite (I x Hin). exact E2.
    * split; [reflexivity|exact C'].
    * assert (I : forall x, In x (skipn (Datatypes.S k) (hb_cols hb)) -> content h' (snd x) = content (m_heap m) (snd x)).
      { intros x Hin. apply In_nth_error in Hin. destruct Hin as (j & Hj). rewrite nth_error_skipn in Hj.
        apply (Kn _ x) in Hj; [apply Hj|lia]. }
      eapply F2_in_impl; [|apply F2_skip, HF]. intros x y Hin (E1 & E2). split; [exact E1|]. rewrite (I x Hin). exact E2.
  + rewrite <- (ids_set_same st i) by (apply (g_live _ _ G _ _ Hi)).
    destruct (trees_set h' hb k (n, a) (n, a') Hx) as (_ & T1). destruct (trees_set (m_heap m) hb k (n, a) (n, a') Hx) as (T0 & _).
    cbn [snd] in T1, T0.
    assert (Q1 : flat_map (under h') (firstn k (map snd (hb_cols hb))) = flat_map (under (m_heap m)) (firstn k (map snd (hb_cols hb)))).
    { rewrite !flat_map_concat_map. f_equal. apply map_ext_in. intros z Hz. rewrite firstn_map in Hz. apply in_map_iff in Hz.
      destruct Hz as (x & <- & Hin). apply In_nth_error in Hin. destruct Hin as (j & Hj).
      apply nth_first in Hj. destruct Hj as (Hlt & Hj). apply (Kn j x); [lia|exact Hj]. }
    assert (Q2 : flat_map (under h') (skipn (Datatypes.S k) (map snd (hb_cols hb))) = flat_map (under (m_heap m)) (skipn (Datatypes.S k) (map snd (hb_cols hb)))).
    { rewrite !flat_map_concat_map. f_equal. apply map_ext_in. intros z Hz. rewrite skipn_map in Hz. apply in_map_iff in Hz.
      destruct Hz as (x & <- & Hin). apply In_nth_error in Hin. destruct Hin as (j & Hj). rewrite nth_error_skipn in Hj.
      apply (Kn _ x) in Hj; [apply Hj|lia]. }
    rewrite Q1, Q2 in T1.
    assert (Old : forall z, In z (trees (m_heap m) hb) -> z < length (m_heap m)).
    { intros z Hz. unfold trees in Hz. apply in_flat_map in Hz. destruct Hz as (r & Hr & Hz).
      apply under_le in Hz; [|apply (g_sound _ _ G)]. pose proof (g_in _ _ G _ _ _ Hi Hr). lia. }
    assert (New : forall z, In z (trees h' (mk_hblock (hb_info hb) (set_nth (hb_cols hb) k (n, a')))) -> In z (trees (m_heap m) hb) \/ length (m_heap m) <= z).
    { intros z Hz. rewrite T1 in Hz. rewrite T0. destruct V as [(-> & V)|(L0 & r & V0 & V)].
      - left. rewrite V in Hz. exact Hz.
      - rewrite V in Hz. rewrite V0. apply in_app_or in Hz. destruct Hz as [Hz|[<-|Hz]]; [left; apply in_or_app; auto|right; exact L0|].
        left. apply in_or_app. right. right. exact Hz. }
    eapply good_set; [exact G|exact W'|exact Hi|exact Kf| |apply (g_live _ _ G _ _ Hi)|apply (g_ids _ _ G)| |].
    * intros z Hz. cbn [hb_cols] in Hz. rewrite map_set in Hz. unfold set_nth in Hz. apply in_app_or in Hz.
      destruct Hz as [Hz|[<-|Hz]]; [|exact La'|].
      -- assert (In z (map snd (hb_cols hb))) as Hz' by (rewrite <- (firstn_skipn k); apply in_or_app; left; exact Hz).
         pose proof (g_in _ _ G _ _ _ Hi Hz'). lia.
      -- assert (In z (map snd (hb_cols hb))) as Hz' by (rewrite <- (firstn_skipn (Datatypes.S k)); apply in_or_app; right; exact Hz).
         pose proof (g_in _ _ G _ _ _ Hi Hz'). lia.
    * intros D. pose proof (g_nodup _ _ G _ _ Hi D) as D'. rewrite T1. destruct V as [(-> & V)|(L0 & r & V0 & V)].
      -- rewrite V, <- T0. exact D'.
      -- rewrite T0, V0 in D'. rewrite V. apply NoDup_perm3. apply NoDup_perm3 in D'. cbn [app] in D' |- *.
         inversion D' as [|? ? D1 D2]; subst. constructor; [|exact D2]. intros H.
         assert (a' < length (m_heap m)); [|lia]. apply Old. rewrite T0, V0. clear - H.
         apply in_app_or in H. apply in_or_app. destruct H as [H|H]; [right; right; apply in_or_app; left; exact H|].
         apply in_app_or in H. destruct H as [H|H]; [left; exact H|right; right; apply in_or_app; right; exact H].
    * intros j d N Hj A z Hz Hd. destruct (New z Hz) as [Hz'|Hz'].
      -- exact (g_apart _ _ G i j hb d (fun e => N (eq_sym e)) Hi Hj A z Hz' Hd).
      -- unfold trees in Hd. apply in_flat_map in Hd. destruct Hd as (r & Hr & Hd). apply under_le in Hd; [|apply (g_sound _ _ G)].
         pose proof (g_in _ _ G _ _ _ Hj Hr). lia.
Qed.
Lemma put_at_spec m st vs i hb b k v n c : good m st -> shows m vs -> nth_error (m_blocks m) i = Some (Some hb) ->
  block_at (m_heap m) hb = Ok b -> nth_error (b_cols b) k = Some (n, c) ->
  match put_at m i hb k v with
  | Ok m' => exists c', (push c v = Ok c' \/ push (forget c) v = Ok c') /\
      shows m' (set_nth vs i (Some (put_back b k n c'))) /\ good m' st
  | Err e => push c v = Err e \/ push (forget c) v = Err e
  | Panic p => push c v = Panic p \/ push (forget c) v = Panic p \/ (p = PUnwrap /\ plain (ctype c) = false)
  end.
Proof.
  intros G S Hi Hb Hk. pose proof Hb as Hb'. apply block_at_eq in Hb'. destruct Hb' as (HI & HF).
  destruct (F2_nth _ _ _ HF k (n, c) Hk) as ([n' a] & Hx & En & Ca). cbn [fst snd] in En, Ca. subst n'.
  assert (La : a < length (m_heap m)).
  { apply (g_in _ _ G i hb a Hi). apply (in_map snd) with (x := (n, a)). eapply nth_error_In, Hx. }
  unfold put_at, index. rewrite Hx. cbn [or_panic rbind fst snd].
  pose proof (column_push_spec (others (m_blocks m) i k) (m_heap m) a v c (g_sound _ _ G) La (others_in _ _ _ _ _ G Hi) Ca) as T.
  destruct (column_push (others (m_blocks m) i k) (m_heap m) a v) as [[h' a']|e|p] eqn:Ep; cbn [rbind fst snd]; [|exact T|exact T].
  destruct T as (_ & _ & _ & _ & _ & c' & P & C'). exists c'. split; [exact P|].
  exact (put_at_step m st vs i hb b k v n c a h' a' c' G S Hi Hb Hk Hx Ep C').
Qed.
Lemma put_at_exact m st vs i hb b k v n c a : good m st -> shows m vs -> nth_error (m_blocks m) i = Some (Some hb) ->
  block_at (m_heap m) hb = Ok b -> nth_error (b_cols b) k = Some (n, c) -> nth_error (hb_cols hb) k = Some (n, a) ->
  (forall y, In y (under (m_heap m) a) -> strong (m_heap m) (a :: others (m_blocks m) i k) y = 1) ->
  match put_at m i hb k v with
  | Ok m' => exists c', push c v = Ok c' /\ shows m' (set_nth vs i (Some (put_back b k n c'))) /\ good m' st
  | Err e => push c v = Err e
  | Panic p => push c v = Panic p
  end.
Proof.
  intros G S Hi Hb Hk Hx A. pose proof Hb as Hb'. apply block_at_eq in Hb'. destruct Hb' as (HI & HF).
  destruct (F2_nth _ _ _ HF k (n, c) Hk) as ([n1 a1] & Hx1 & En & Ca). cbn [fst snd] in En, Ca. rewrite Hx in Hx1. injection Hx1 as <- <-.
  assert (La : a < length (m_heap m)).
  { apply (g_in _ _ G i hb a Hi). apply (in_map snd) with (x := (n, a)). eapply nth_error_In, Hx. }
  unfold put_at, index. rewrite Hx. cbn [or_panic rbind fst snd].
  pose proof (column_push_alone (others (m_blocks m) i k) (m_heap m) a v c (g_sound _ _ G) La Ca A) as T.
  destruct (column_push (others (m_blocks m) i k) (m_heap m) a v) as [[h' a']|e|p] eqn:Ep; cbn [rbind fst snd]; [|exact T|exact T].
  destruct T as (_ & c' & P & C'). exists c'. split; [exact P|].
  exact (put_at_step m st vs i hb b k v n c a h' a' c' G S Hi Hb Hk Hx Ep C').
Qed.
