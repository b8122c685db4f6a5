(** Columns built by appending, with times in them, can be converted and sent: proofs. *)
From Verif Require Import Base Bytes Utf8 Reader Wire Types Text TypeNames Decimal DateTime Values Columns Casts Block.
From Verif Require Import SpecWire SpecColumns SpecTypes SpecCasts SpecBlock ReaderProofs WireProofs PushProofs TypeNamesProofs LoadTypeProofs SendProofs RangeProofs.
From Verif Require Import CastProofs CastSendProofs CastMainProofs CastBlockProofs CastTotalProofs.
Open Scope nat_scope.

Fixpoint spans (w : Prop) (c : col) : Prop :=
  match c with
  | CChrono l _ => Forall (fun x => in_span x /\ (w -> snd (fst x) = 0%N)) l
  | CNullable i _ | CArray i _ | CAgg _ i => spans w i
  | _ => ranges c
  end.
Lemma ranges_spans w c : ranges c -> spans w c.
Proof. induction c; cbn [ranges spans]; auto; contradiction. Qed.

Lemma built_parts w c : wf c -> spans w c -> fits c -> built c /\ (w -> whole_times c).
Proof.
  induction c; intros W S F; try (split; [exact (sound_parts _ W S F)|intros _; exact I]);
    cbn [wf spans fits built whole_times] in *; try contradiction.
  - split; [split; [|exact F]|]; [|intros HW]; (eapply Forall_impl; [|exact S]); intros x [H1 H2]; auto.
  - destruct W as [W L], F as [F1 F2]. destruct (IHc W S F1). repeat split; auto.
  - destruct W as (W & L & C), F as (F1 & F2 & F3). destruct (IHc W S F1). repeat split; auto.
  - auto.
Qed.

Lemma tickless_default w t : tickless t -> timely w (value_default t).
Proof. induction t as [s| |n| |[|p z|]| | | |t IH|t IH|t IH|p sc|vals|vals|f t IH|k IHk v IHv]; cbn; auto; lia. Qed.

Lemma each_spans w f : (forall c v c', f c v = Ok c' -> spans w c -> proper v -> timely w v -> spans w c') ->
  forall vs c c', push_each f c vs = Ok c' -> spans w c -> fold_right (fun x P => proper x /\ P) True vs ->
  fold_right (fun x P => timely w x /\ P) True vs -> spans w c'.
Proof.
  intros Hf. induction vs as [|v vs IH]; intros c c' H R P T; cbn [push_each fold_right] in *.
  - injection H as <-. exact R.
  - destruct (f c v) as [c1|e|q] eqn:E; try discriminate H. cbn [rbind] in H.
    eapply IH; [exact H| |apply P|apply T]. eapply Hf; [exact E|exact R|apply P|apply T].
Qed.
Lemma time_span w v x : value_datetime v = Ok x -> timely w v -> in_span x /\ (w -> snd (fst x) = 0%N).
Proof.
  destruct v; intros E T; try discriminate E; cbn [timely] in T; try contradiction T; injection E as <-; unfold in_span; cbn [fst snd].
  - change (2 ^ 32)%N with 4294967296%N in T. change (2 ^ 32)%Z with 4294967296%Z. split; [lia|auto].
  - exact T.
Qed.
Lemma push_spans w shape : forall c v c', push_as shape c v = Ok c' -> spans w c -> proper v -> timely w v -> spans w c'.
Proof.
  induction shape; intros c v c' H R P T; destruct c;
    try (apply ranges_spans; exact (push_ranges _ _ _ _ H R P)); cbn [push_as spans] in *; try discriminate H.
  all: try (destruct (value_datetime v) as [x| |] eqn:E; try discriminate H; cbn [rbind] in H; injection H as <-; cbn [spans];
    apply snoc_Forall; [exact R|]; exact (time_span w v x E T)).
  all: try (destruct v; discriminate H).
  - destruct v; step_in H; injection H as <-; cbn [spans];
      (eapply IHshape; [eassumption|exact R| |]); first [exact P|apply proper_default|idtac]; first [exact T|apply tickless_default, T].
  - destruct v; try discriminate H. step_in H. injection H as <-. cbn [spans].
    eapply each_spans; [exact IHshape|eassumption|exact R|exact P|exact T].
  - step_in H. injection H as <-. cbn [spans]. eapply IHshape; eassumption.
Qed.
Lemma each_push_spans w vs : forall c c', push_each push c vs = Ok c' -> spans w c -> Forall proper vs -> Forall (timely w) vs -> spans w c'.
Proof.
  intros c c' H R P T. eapply each_spans; [|exact H|exact R| |].
  - intros x v x' E. exact (push_spans w x x v x' E).
  - clear -P. induction P; cbn; auto.
  - clear -T. induction T; cbn; auto.
Qed.
Lemma from_type_spans w t tz : forall c, from_type t tz = Ok c -> open_times t -> spans w c.
Proof.
  induction t; intros c H O; cbn [open_times] in O;
    try (apply ranges_spans; eapply from_type_ranges; [exact H|cbn; auto; fail]); cbn [from_type] in H.
  - destruct d; [|contradiction O|]; injection H as <-; constructor.
  - step_in H. injection H as <-. cbn [spans]. auto.
  - step_in H. injection H as <-. cbn [spans]. auto.
  - step_in H. injection H as <-. cbn [spans]. auto.
Qed.

Lemma wf_unsliced c : wf c -> unsliced c.
Proof. induction c; cbn [wf unsliced]; intuition. Qed.

Lemma mapO_proper (f : value -> option value) : (forall v w, f v = Some w -> proper v -> proper w) ->
  forall vs ws, mapO f vs = Some ws -> fold_right (fun x P => proper x /\ P) True vs -> fold_right (fun x P => proper x /\ P) True ws.
Proof.
  intros Hf. induction vs as [|v vs IH]; intros ws H P; cbn [mapO] in H.
  - injection H as <-. exact I.
  - destruct (f v) as [x|] eqn:E; [|discriminate H]. destruct (mapO f vs) as [xs|] eqn:Es; [|discriminate H]. injection H as <-.
    cbn [fold_right] in *. split; [eapply Hf; [exact E|apply P]|]. eapply IH; [reflexivity|apply P].
Qed.
Lemma reads_proper c : forall v w, reads_as c v = Some w -> proper v -> proper w.
Proof.
  induction c; intros v w H P; cbn [reads_as] in H; try discriminate H.
  all: try (destruct v; try discriminate H; repeat match type of H with (if ?b then _ else _) = _ => destruct b; try discriminate H end;
            subst; injection H as <-; try exact I; exact P).
  - destruct k, v; try discriminate H; match type of H with (if ?b then _ else _) = _ => destruct b; try discriminate H end; injection H as <-; exact I.
  - destruct v; try (destruct (reads_as c _) as [x|] eqn:E; [|discriminate H]; injection H as <-; cbn [proper];
      first [exact I|eapply IHc; [exact E|exact P]]).
  - destruct v; try discriminate H. destruct (mapO (reads_as c) _) as [ws|] eqn:E; [|discriminate H]. injection H as <-.
    eapply mapO_proper; [exact IHc|exact E|exact P].
  - destruct v as [| | | | | | | | | | | | | | |kt vt kvs]; try discriminate H.
    match type of H with match ?m with _ => _ end = _ => destruct m as [ws|] eqn:E; [|discriminate H] end.
    destruct (distinct_keys (map fst ws)); [|discriminate H]. injection H as <-. cbn [proper] in *.
    revert ws E P. induction kvs as [|[k x] kvs IH]; intros ws E P; cbn [mapO fst snd] in E.
    + injection E as <-. exact I.
    + destruct (reads_as c1 k) as [k'|] eqn:E1; [|discriminate E]. destruct (reads_as c2 x) as [x'|] eqn:E2; [|discriminate E].
      match type of E with match ?m with _ => _ end = _ => destruct m as [ws'|] eqn:E3; [|discriminate E] end.
      injection E as <-. cbn [fold_right fst snd] in *. destruct P as [[P1 P2] P3]. split; [split|]; eauto.
  - eapply IHc; eassumption.
  - destruct (low_key c v); [|discriminate H]. eapply IHc; eassumption.
Qed.

Section AppendCast.
Variable tz_known : bytes -> bool.
Variable tz : bytes.
Variable parse_ipv4 parse_ipv6 : bytes -> option bytes.

Lemma append_cast t tz0 c vs us t' ws (w : Prop) :
  from_type t tz0 = Ok c -> no_empty_rows t -> open_times t -> Forall proper vs -> Forall (timely w) vs ->
  mapO (reads_as c) vs = Some us -> (weights vs < 2 ^ 64)%N ->
  mapO (converted tz parse_ipv4 parse_ipv6 (ctype c) t') us = Some ws -> accepted (ctype c) t' = true ->
  nameable tz_known t' -> table_type t' -> no_empty_rows t' -> ctype c = t' \/ covered t' ->
  (lenN vs * row_size t' <= isize_max)%N -> (80 * lenN vs <= isize_max)%N -> Forall short_text ws -> w \/ seconds_only t' ->
  exists c', push_each push c vs = Ok c' /\
    (fits c' -> convertible tz_known tz parse_ipv4 parse_ipv6 c' us t' ws /\
                exists d, cast_col parse_ipv4 parse_ipv6 c' t' = Ok d).
Proof.
  intros H NE OT PV TV R B HM A NM TT NE' CV RS SZ ST WS. destruct (from_type_wf t tz0 c H NE) as (W & L & LR).
  destruct (push_all c vs us W R) as (c' & E & S); [rewrite LR; exact B|].
  exists c'. split; [exact E|]. intros F.
  assert (spans w c') as SP by (eapply each_push_spans; [exact E|eapply from_type_spans; eassumption|exact PV|exact TV]).
  destruct (built_parts w c' (st_wf _ _ _ _ S) SP F) as [BT WT].
  pose proof (step_holds _ _ _ _ [] S (holds_empty _ L)) as HH. cbn [app] in HH.
  assert (length us = length vs) as LU by exact (mapO_length _ _ _ R).
  rewrite <- (st_type _ _ _ _ S) in HM, A, CV.
  assert (convertible tz_known tz parse_ipv4 parse_ipv6 c' us t' ws) as C.
  { split; [exact BT|]. split; [exact HH|]. split; [|split; [exact HM|]].
    - assert (fold_right (fun x P => proper x /\ P) True us) as X.
      { eapply mapO_proper; [apply reads_proper|exact R|]. clear -PV. induction PV; cbn; auto. }
      clear -X. induction us; constructor; cbn in X; tauto.
    - do 4 (split; [assumption|]). split; [unfold lenN in *; rewrite LU; exact RS|]. split; [exact ST|]. destruct WS; [left; auto|right; assumption]. }
  split; [exact C|]. eapply cast_total with (tz_known := tz_known) (tz := tz) (vs := us) (ws := ws); eauto.
  - apply wf_unsliced, (st_wf _ _ _ _ S).
  - unfold lenN in *. rewrite LU. exact SZ.
Qed.
End AppendCast.
