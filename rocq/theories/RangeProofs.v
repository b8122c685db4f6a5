(** Columns built by appending can be sent. *)
From Verif Require Import Base Bytes Reader Wire Types Text TypeNames Decimal DateTime Values Columns.
From Verif Require Import SpecColumns SpecTypes ReaderProofs WireProofs PushProofs TypeNamesProofs LoadTypeProofs SendProofs.
Open Scope nat_scope.

(** Elements are within the range of their type. *)
Fixpoint ranges (c : col) : Prop :=
  match c with
  | CVec s l => Forall (fun z => scalar_ok s z = true) l
  | CString _ | CFixed _ _ | CIp _ _ => True
  | CDate l _ => Forall (fun d => d < 2 ^ 16)%N l
  | CDateTime l _ => Forall (fun d => d < 2 ^ 32)%N l
  | CNullable i _ | CArray i _ | CAgg _ i | CLow i _ _ _ => ranges i
  | CMap k v _ => ranges k /\ ranges v
  | CDecimal l p _ nb => from_precision p = Some nb /\ Forall (fun z => scalar_ok (nb_scalar nb) z = true) l
  | CEnum8 _ l => Forall (fun z => scalar_ok I8 z = true) l
  | CEnum16 _ l => Forall (fun z => scalar_ok I16 z = true) l
  | _ => False
  end.

Lemma sound_parts c : wf c -> ranges c -> fits c -> sound c.
Proof.
  induction c; cbn [wf ranges fits sound]; try tauto.
  intros (W & n & Hn & Hi & H1 & H2 & _) R (F & B). split; [auto|]. split; [exact B|].
  exists n. split; [exact Hn|]. pose proof isize_lt. split; [lia|].
  eapply Forall_impl; [|exact Hi]. intros j Hj. cbn beta in *. split; [exact Hj|]. lia.
Qed.

Lemma proper_default t : proper (value_default t).
Proof. induction t as [s| |n| |[|p z|]| | | |t IH|t IH|t IH|p sc|vals|vals|f t IH|k IHk v IHv]; cbn; auto. destruct s; reflexivity. Qed.

Lemma snoc_Forall {A} (P : A -> Prop) l x : Forall P l -> P x -> Forall P (l ++ [x]).
Proof. intros H Hx. apply Forall_app. split; [exact H|]. constructor; [exact Hx|constructor]. Qed.

Lemma as_i32_range z : scalar_ok I32 (as_i32 z) = true.
Proof.
  unfold as_i32. pose proof (to_signed_range 4 (to_unsigned 4 z) ltac:(lia)) as H.
  change (2 ^ (8 * Z.of_nat 4 - 1))%Z with 2147483648%Z in H.
  unfold scalar_ok. cbn. lia.
Qed.

Lemma value_num_range s v z : value_num s v = Ok z -> proper v -> scalar_ok s z = true.
Proof.
  unfold value_num. destruct v; try discriminate. destruct (scalar_eq_dec _ _) as [E|E]; [|discriminate].
  intros H P. injection H as <-. subst. exact P.
Qed.

Lemma each_ranges f : (forall c v c', f c v = Ok c' -> ranges c -> proper v -> ranges c') ->
  forall vs c c', push_each f c vs = Ok c' -> ranges c -> fold_right (fun x P => proper x /\ P) True vs -> ranges c'.
Proof.
  intros Hf. induction vs as [|v vs IH]; intros c c' H R P; cbn [push_each fold_right] in *.
  - injection H as <-. exact R.
  - destruct (f c v) as [c1|e|q] eqn:E; try discriminate H. cbn [rbind] in H.
    eapply IH; [exact H| |apply P]. eapply Hf; [exact E|exact R|apply P].
Qed.

Lemma pairs_ranges f g : (forall c v c', f c v = Ok c' -> ranges c -> proper v -> ranges c') ->
  (forall c v c', g c v = Ok c' -> ranges c -> proper v -> ranges c') ->
  forall kvs a b a' b', push_pairs f g a b kvs = Ok (a', b') -> ranges a -> ranges b ->
  fold_right (fun kv P => (proper (fst kv) /\ proper (snd kv)) /\ P) True kvs -> ranges a' /\ ranges b'.
Proof.
  intros Hf Hg. induction kvs as [|[k v] kvs IH]; intros a b a' b' H Ra Rb P; cbn [push_pairs fold_right fst snd] in *.
  - injection H as <- <-. auto.
  - destruct (f a k) as [a1|e|q] eqn:E; try discriminate H. cbn [rbind] in H.
    destruct (g b v) as [b1|e|q] eqn:E2; try discriminate H. cbn [rbind] in H.
    eapply IH; [exact H| | |apply P].
    + eapply Hf; [exact E|exact Ra|apply P].
    + eapply Hg; [exact E2|exact Rb|apply P].
Qed.

Ltac step_in H := match type of H with
  | context [rbind ?e _] => destruct e eqn:?; try discriminate H; cbn [rbind] in H
  end.

Lemma push_ranges shape : forall c v c', push_as shape c v = Ok c' -> ranges c -> proper v -> ranges c'.
Proof.
  induction shape; intros c v c' H R P; destruct c; cbn [push_as] in H; try discriminate H;
    cbn [ranges] in R; try contradiction R;
    try (step_in H; injection H as <-; cbn [ranges];
         first [exact I
               | apply snoc_Forall; [exact R|];
                 first [eapply value_num_range; eassumption
                       | unfold get_days; apply (to_unsigned_bound 2)]]);
    try (step_in H; match type of H with context [let '(_, _) := ?p in _] => destruct p as [[sc ns] z] end;
         injection H as <-; cbn [ranges]; apply snoc_Forall; [exact R|];
         unfold as_u32; exact (to_unsigned_bound 4 sc));
    try (match type of H with match ?k with IpV4 => _ | _ => _ end = _ => destruct k end; destruct v;
         try discriminate H; injection H as <-; exact I);
    try (destruct v; try discriminate H; injection H as <-; cbn [ranges]; apply snoc_Forall; [exact R|exact P]);
    try (destruct v; try discriminate H; injection H as <-; cbn [ranges]; destruct R as [R1 R2];
         split; [exact R1|]; apply snoc_Forall; [exact R2|];
         match goal with |- scalar_ok (nb_scalar ?x) _ = true => destruct x end;
         [apply as_i32_range|exact P]);
    try (destruct v; discriminate H).
  - destruct v; step_in H; injection H as <-; cbn [ranges];
      (eapply IHshape; [eassumption|exact R|]); first [exact P|apply proper_default].
  - destruct v; try discriminate H. step_in H. injection H as <-. cbn [ranges].
    eapply each_ranges; [exact IHshape|eassumption|exact R|exact P].
  - destruct v; try discriminate H. step_in H. destruct a as [a b]. injection H as <-. cbn [ranges fst snd].
    destruct R as [R1 R2]. eapply pairs_ranges; [exact IHshape1|exact IHshape2|eassumption|exact R1|exact R2|exact P].
  - step_in H. injection H as <-. cbn [ranges]. eapply IHshape; eassumption.
  - step_in H. step_in H. destruct a0 as [j|].
    + step_in H. injection H as <-. exact R.
    + repeat step_in H. injection H as <-. cbn [ranges]. eapply IHshape; eassumption.
Qed.

Lemma each_push_ranges vs : forall c c', push_each push c vs = Ok c' -> ranges c -> Forall proper vs -> ranges c'.
Proof.
  intros c c' H R P. eapply each_ranges; [|exact H|exact R|].
  - intros x v x' E. exact (push_ranges x x v x' E).
  - clear -P. induction P; cbn; auto.
Qed.

Lemma from_type_ranges t tz : forall c, from_type t tz = Ok c -> no_datetime t -> ranges c.
Proof.
  induction t; intros c H Hn; cbn [from_type no_datetime] in *; try contradiction;
    try (injection H as <-; cbn [ranges]; auto; fail).
  all: try (step_in H; injection H as <-; cbn [ranges]; auto; fail).
  - step_in H. injection H as <-. cbn [ranges]. unfold or_panic in *.
    match goal with H : match ?x with _ => _ end = _ |- _ => destruct x; [|discriminate H] end.
    injection Heqr as <-. auto.
  - step_in H. step_in H. injection H as <-. cbn [ranges]. destruct Hn. auto.
Qed.

(** Cells of columns without DateTime carry no zone. *)
Lemma mapO_nth {A B} (f : A -> option B) vs : forall ws i w, mapO f vs = Some ws -> nth_error ws i = Some w ->
  exists v, In v vs /\ f v = Some w.
Proof.
  induction vs as [|v vs IH]; intros ws i w H Hi; cbn [mapO] in H.
  - injection H as <-. destruct i; discriminate Hi.
  - destruct (f v) as [y|] eqn:E; [|discriminate H]. destruct (mapO f vs) as [ys|] eqn:Es; [|discriminate H].
    injection H as <-. destruct i as [|i]; cbn in Hi.
    + injection Hi as <-. exists v. split; [left; reflexivity|exact E].
    + destruct (IH ys i w eq_refl Hi) as (x & Hx & Ex). exists x. split; [right; exact Hx|exact Ex].
Qed.
Lemma mapO_fix {A B} (f : A -> option B) (g : B -> B) vs : forall ws, mapO f vs = Some ws ->
  (forall v w, f v = Some w -> g w = w) -> map g ws = ws.
Proof.
  induction vs as [|v vs IH]; intros ws H F; cbn [mapO] in H.
  - injection H as <-. reflexivity.
  - destruct (f v) as [y|] eqn:E; [|discriminate H]. destruct (mapO f vs) as [ys|] eqn:Es; [|discriminate H].
    injection H as <-. cbn [map]. rewrite (F _ _ E), (IH ys eq_refl F). reflexivity.
Qed.

Lemma reads_unzoned tz t tz0 : forall c v w, from_type t tz0 = Ok c -> no_datetime t ->
  reads_as c v = Some w -> zoned tz w = w.
Proof.
  induction t as [s| |n| |d| | | |t IH|t IH|t IH|p sc|vals|vals|f t IH|k IHk v IHv];
    intros c x w H ND R; cbn [from_type no_datetime] in *; try contradiction;
    try (injection H as <-; cbn [reads_as] in R; destruct x; try discriminate R;
         repeat match type of R with context [if ?e then _ else _] => destruct e; try discriminate R end;
         injection R as <-; reflexivity).
  - step_in H. injection H as <-. cbn [reads_as] in R.
    destruct x; try (destruct (reads_as a (value_default t0)); [|discriminate R]; injection R as <-; reflexivity);
      match type of R with context [reads_as a ?y] => destruct (reads_as a y) eqn:E; [|discriminate R] end;
      injection R as <-; cbn [zoned]; f_equal; eapply IH; eauto.
  - step_in H. injection H as <-. cbn [reads_as] in R. destruct x; try discriminate R.
    destruct (mapO (reads_as a) vs) as [ws|] eqn:E; [|discriminate R]. injection R as <-. cbn [zoned]. f_equal.
    eapply mapO_fix; [exact E|]. intros v0 w0. apply IH; auto.
  - step_in H. injection H as <-. cbn [reads_as] in R. destruct (low_key a x); [|discriminate R]. eapply IH; eauto.
  - step_in H. injection H as <-. cbn [reads_as] in R. destruct x; try discriminate R.
    match type of R with context [if ?e then _ else _] => destruct e; try discriminate R end. injection R as <-. reflexivity.
  - step_in H. injection H as <-. cbn [reads_as] in R. eapply IH; eauto.
  - step_in H. step_in H. injection H as <-. cbn [reads_as] in R. destruct x; try discriminate R.
    match type of R with context [mapO ?f kvs] => destruct (mapO f kvs) as [ws|] eqn:E; [|discriminate R] end.
    destruct (distinct_keys _); [|discriminate R]. injection R as <-. cbn [zoned]. f_equal.
    eapply mapO_fix; [exact E|]. cbn beta. intros [k1 v1] [k2 v2] E2. cbn [fst snd] in *.
    destruct (reads_as a k1) eqn:E3; [|discriminate E2]. destruct (reads_as a0 v1) eqn:E4; [|discriminate E2].
    injection E2 as <- <-. destruct ND. f_equal; [eapply IHk|eapply IHv]; eauto.
Qed.

Lemma reads_unzoned_all tz t tz0 c vs ws i w : from_type t tz0 = Ok c -> no_datetime t ->
  mapO (reads_as c) vs = Some ws -> nth_error ws i = Some w -> zoned tz w = w.
Proof. intros H ND M E. destruct (mapO_nth _ _ _ _ _ M E) as (v & _ & R). eapply reads_unzoned; eauto. Qed.
