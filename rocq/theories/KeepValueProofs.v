(** Rust values in a table: proofs for [PropKeep]. *)
From Verif Require Import Base Bytes Utf8 Reader Types Decimal DateTime Text TypeNames Values Columns Casts Block FromSql ToSql.
From Verif Require Import SpecWire SpecColumns SpecTypes SpecBlock SpecFromSql SpecToSql SpecCasts SpecKeep.
From Verif Require Import PushProofs RangeProofs CastProofs CastTotalProofs AppendCastProofs ToSqlProofs.
Open Scope list_scope. Open Scope nat_scope.

Lemma from_type_same t tz : forall c, from_type t tz = Ok c -> no_datetime t -> ctype c = t.
Proof.
  induction t; intros c H ND; cbn [from_type no_datetime] in *;
    try (injection H as <-; reflexivity); try contradiction;
    try (inv_do H; injection H as <-; cbn [ctype]; f_equal; eauto; fail).
  inv_do H. inv_do H. injection H as <-. cbn [ctype]. destruct ND. f_equal; eauto.
Qed.

Lemma stored_same tz_known h : forall t, stored_type h = Some t ->
  sql_type_of h = t /\ no_datetime t /\ nameable tz_known t /\ table_type t /\ no_empty_rows t /\ row_size t = 80%N /\
  seconds_only t /\ not_nullable t /\ tickless t.
Proof.
  induction h as [s| | | |k IHk v IHv]; intros t H; cbn [stored_type] in H; try (injection H as <-; cbn; tauto); try discriminate H.
  destruct (good_key k) eqn:G; [|discriminate H]. destruct (stored_type k) as [a|]; [|discriminate H]. destruct (stored_type v) as [b|]; [|discriminate H].
  injection H as <-. destruct (IHk a eq_refl) as (A1 & A2 & A3 & A4 & A5 & A6 & A7 & A8 & A9), (IHv b eq_refl) as (B1 & B2 & B3 & B4 & B5 & B6 & B7 & B8 & B9).
  cbn [sql_type_of no_datetime nameable table_type no_empty_rows row_size seconds_only not_nullable tickless]. rewrite A1, B1.
  assert (unary a) as U by (destruct k; try discriminate G; cbn in A1; subst a; exact I). tauto.
Qed.

Definition all_proper (m : list (value * value)) : Prop := fold_right (fun kv P => (proper (fst kv) /\ proper (snd kv)) /\ P) True m.
Lemma put_proper m k v : forall m', value_put m k v = Ok m' -> all_proper m -> proper k -> proper v -> all_proper m'.
Proof.
  induction m as [|[k' v'] m IH]; intros m' H A K V; cbn [value_put] in H.
  - injection H as <-. cbn. auto.
  - destruct A as [[A1 A2] A3]. destruct (value_eq k' k) as [[]| |]; try discriminate H; cbn [rbind] in H.
    + injection H as <-. cbn. auto.
    + inv_do H. injection H as <-. cbn. split; [auto|]. eapply IH; eauto.
Qed.
Lemma has_proper h : forall x v, has_typed h x -> has_value h x = Ok v -> proper v.
Proof.
  induction h as [s| | | |hk IHk hv IHv]; intros x v T H; destruct x; try contradiction T.
  - injection H as <-. destruct T as [-> T]. exact T.
  - injection H as <-. exact I.
  - injection H as <-. exact I.
  - injection H as <-. exact I.
  - rewrite has_value_map in H. inv_do H. injection H as <-. destruct T as [_ T]. cbn [proper].
    change (all_proper x). assert (all_proper []) as A0 by exact I. revert A0 E. generalize (@nil (value * value)).
    induction T as [|[a b] kvs [T1 T2] T IH]; intros m A0 E; cbn [has_loop] in E; [injection E as <-; exact A0|].
    inv_do E. inv_do E. inv_do E. eapply IH; [|exact E]. unfold value_insert in E2. destruct (value_hashable x0); [|discriminate E2].
    eapply put_proper; [exact E2|exact A0|eapply IHk; eassumption|eapply IHv; eassumption].
Qed.

Lemma Forall2_length' {A B} (R : A -> B -> Prop) l l' : Forall2 R l l' -> length l = length l'.
Proof. induction 1; cbn; congruence. Qed.
Lemma Forall2_at {A B} (R : A -> B -> Prop) l l' : Forall2 R l l' -> forall n a b, nth_error l n = Some a -> nth_error l' n = Some b -> R a b.
Proof. induction 1; intros [|n] a b Ha Hb; try discriminate Ha; cbn [nth_error] in *; [congruence|eauto]. Qed.
Lemma Forall2_at' {A B} (R : A -> B -> Prop) l l' : Forall2 R l l' -> forall n b, nth_error l' n = Some b -> exists a, nth_error l n = Some a /\ R a b.
Proof. induction 1; intros [|n] b Hb; try discriminate Hb; cbn [nth_error] in *; [injection Hb as <-; eauto|eauto]. Qed.
Lemma nth_combine {A B} (l : list A) (l' : list B) : forall n a b, nth_error l n = Some a -> nth_error l' n = Some b -> nth_error (combine l l') n = Some (a, b).
Proof. revert l'. induction l as [|x l IH]; intros [|y l'] [|n] a b Ha Hb; try discriminate; cbn [nth_error combine] in *; [congruence|eauto]. Qed.
Lemma table_names heads fs row : table_for heads fs row -> length fs = length row -> map fst heads = map fst fs.
Proof.
  unfold table_for. revert fs row. induction heads as [|h heads IH]; intros [|f fs] [|x row] H L; try discriminate L; cbn [combine] in H; inversion H; subst; [reflexivity|].
  cbn [map]. f_equal; [tauto|]. eapply IH; [eassumption|]. cbn in L. lia.
Qed.

Lemma mapO_all {A B} (f : A -> option B) (Q : nat -> B -> Prop) l :
  (forall i a, nth_error l i = Some a -> exists b, f a = Some b /\ Q i b) ->
  exists l', mapO f l = Some l' /\ forall i b, nth_error l' i = Some b -> Q i b.
Proof.
  revert Q. induction l as [|a l IH]; intros Q H.
  - exists []. split; [reflexivity|]. intros [|i] b E; discriminate E.
  - destruct (H 0 a eq_refl) as (b & E & Hb). destruct (IH (fun i => Q (S i))) as (l' & E' & H').
    { intros i a' Hi. exact (H (S i) a' Hi). }
    exists (b :: l'). split; [cbn [mapO]; rewrite E, E'; reflexivity|]. intros [|i] b' Hi; cbn [nth_error] in Hi; [injection Hi as <-; exact Hb|exact (H' i b' Hi)].
Qed.
Lemma mapO_at {A B} (f : A -> option B) l : forall l' i a, mapO f l = Some l' -> nth_error l i = Some a ->
  exists b, nth_error l' i = Some b /\ f a = Some b.
Proof.
  induction l as [|x l IH]; intros l' [|i] a H Hi; try discriminate Hi; cbn [mapO nth_error] in *;
    destruct (f x) eqn:E; try discriminate H; destruct (mapO f l) eqn:E'; try discriminate H; injection H as <-.
  - injection Hi as <-. eauto.
  - cbn [nth_error]. eauto.
Qed.
Lemma same_index {A B} (l : list A) (l' : list B) i a : length l = length l' -> nth_error l i = Some a -> exists b, nth_error l' i = Some b.
Proof.
  intros L H. assert (i < length l') as Hi by (rewrite <- L; apply nth_error_Some; congruence).
  destruct (nth_error l' i) eqn:E; [eauto|]. apply nth_error_None in E. lia.
Qed.

Section Travels.
Variable tz_known : bytes -> bool.
Variable tz : bytes.
Variable parse_ipv4 parse_ipv6 : bytes -> option bytes.
Notation converted := (converted tz parse_ipv4 parse_ipv6).

(** What has to be known of a type to insert into it. *)
Definition goes_into (c0 : col) (t0 t : sqltype) : Prop :=
  open_times t0 /\ accepted (ctype c0) t = true /\ nameable tz_known t /\ table_type t /\ no_empty_rows t /\
  (ctype c0 = t \/ covered t) /\ row_size t = 80%N /\ seconds_only t.

Lemma accepted_same t : accepted t t = true.
Proof. destruct t; cbn [accepted]; rewrite eqb_sqltype_refl; reflexivity. Qed.
Lemma no_datetime_open t : no_datetime t -> open_times t.
Proof. induction t; cbn [no_datetime open_times]; tauto. Qed.
Lemma no_datetime_seconds t : no_datetime t -> seconds_only t.
Proof. induction t; cbn [no_datetime seconds_only]; tauto. Qed.

Lemma goes_same t tz0 c0 : from_type t tz0 = Ok c0 -> no_datetime t -> nameable tz_known t -> table_type t -> no_empty_rows t ->
  row_size t = 80%N -> goes_into c0 t t.
Proof.
  intros F ND NM TT NE RS. pose proof (from_type_same _ _ _ F ND) as E. unfold goes_into. rewrite E.
  auto 10 using accepted_same, no_datetime_open, no_datetime_seconds.
Qed.

Lemma column_goes w x0 v0 c0 t : typed w x0 -> room w x0 -> column_type w x0 = Some t -> into_value w x0 = Ok v0 ->
  from_type (type_of_value v0) (extract_timezone v0) = Ok c0 -> goes_into c0 (type_of_value v0) t.
Proof.
  intros T R C I F.
  assert (forall h y v, has_typed h y -> has_room h y -> has_value h y = Ok v -> type_of_value v = sql_type_of h) as HT.
  { intros h y v Ty Ry Hv. destruct (from_type_has h []) as [c1 F1]. destruct (has_good h y [] c1 Ty Ry F1) as (v1 & w1 & A1 & A2 & _). congruence. }
  destruct w; cbn [column_type] in C; cbn [typed room into_value] in *; try discriminate C.
  - assert (type_of_value v0 = sql_type_of h) as E by eauto. rewrite E in *.
    destruct h; try (destruct (stored_same tz_known _ _ C) as (S1 & S2 & S3 & S4 & S5 & S6 & S7 & _); rewrite S1 in *; eapply goes_same; eassumption).
    injection C as <-. injection F as <-. unfold goes_into. cbn. tauto.
  - destruct x0; try contradiction T. injection I as <-. destruct ((d_scale d <=? d_precision d) && (d_precision d <=? 18))%N eqn:B; [|discriminate C].
    injection C as <-. apply andb_true_iff in B. destruct B as [B1 B2]. apply N.leb_le in B1, B2.
    eapply goes_same; [exact F|exact Logic.I|cbn; lia|exact Logic.I|exact Logic.I|reflexivity].
  - destruct x0; try contradiction T. injection I as <-. injection C as <-. injection F as <-. unfold goes_into. cbn. tauto.
  - destruct x0; try contradiction T. injection I as <-. injection C as <-. eapply goes_same; [exact F|..]; cbn; tauto.
  - destruct x0; try contradiction T. inv_do I. injection I as <-. injection C as <-. eapply goes_same; [exact F|..]; cbn; tauto.
  - destruct x0; try contradiction T. inv_do I. injection I as <-. injection C as <-. eapply goes_same; [exact F|..]; cbn; tauto.
  - destruct x0; try contradiction T. injection I as <-. injection C as <-. eapply goes_same; [exact F|..]; cbn; tauto.
  - destruct x0; try contradiction T. injection I as <-. injection C as <-. eapply goes_same; [exact F|..]; cbn; tauto.
  - assert (type_of_value v0 = TNullable (sql_type_of h)) as E.
    { destruct x0; try contradiction T. destruct o as [y|].
      - inv_do I. injection I as <-. cbn [type_of_value]. f_equal. eauto.
      - injection I as <-. reflexivity. }
    rewrite E in *. destruct (single_type h) as [ti|] eqn:ES; [|discriminate C]. injection C as <-.
    destruct h; try (destruct (stored_same tz_known _ _ ES) as (S1 & S2 & S3 & S4 & S5 & S6 & S7 & S8 & _); rewrite S1 in *; eapply goes_same; [exact F|cbn; tauto..]).
    injection ES as <-. injection F as <-. unfold goes_into. cbn. tauto.
Qed.

Lemma timely_elems h vs : (h = HText \/ exists s, h = HNum s) -> forall xs, mapM (has_value h) xs = Ok vs ->
  fold_right (fun x P => timely False x /\ P) True vs.
Proof.
  intros Hh xs. revert vs. induction xs as [|x xs IH]; intros vs M; cbn [mapM] in M; [injection M as <-; exact I|].
  inv_do M. inv_do M. injection M as <-. cbn [fold_right]. split; [|apply IH; assumption].
  destruct Hh as [->|[s ->]]; destruct x; try discriminate E; injection E as <-; exact I.
Qed.
Lemma proper_elems h xs : Forall (has_typed h) xs -> forall vs, mapM (has_value h) xs = Ok vs ->
  fold_right (fun x P => proper x /\ P) True vs.
Proof.
  induction 1 as [|x xs T F IH]; intros vs M; cbn [mapM] in M; [injection M as <-; exact I|].
  inv_do M. inv_do M. injection M as <-. cbn [fold_right]. split; [eapply has_proper; eassumption|apply IH; assumption].
Qed.

Lemma has_timely h y v : has_typed h y -> has_room h y -> has_value h y = Ok v -> timely False v.
Proof.
  intros T R H. destruct h, y; try contradiction T; try (injection H as <-; cbn; auto; fail).
  - injection H as <-. cbn in *. split; [exact R|tauto].
  - rewrite has_value_map in H. inv_do H. injection H as <-. exact I.
Qed.
Lemma tickless_has h t : single_type h = Some t -> tickless (sql_type_of h).
Proof.
  intros H. destruct h; cbn [single_type] in H; try exact I.
  apply (stored_same tz_known) in H. destruct H as (-> & H). tauto.
Qed.
Lemma as_u32_small s : (as_u32 s < 2 ^ 32)%N.
Proof. unfold as_u32, to_unsigned. change (8 * Z.of_nat 4)%Z with 32%Z. pose proof (Z.mod_pos_bound s (2 ^ 32)). lia. Qed.

Lemma into_proper w x v : typed w x -> room w x -> into_value w x = Ok v -> proper v /\ (column_type w x <> None -> timely False v).
Proof.
  intros T R I. destruct w; cbn [typed room into_value] in *.
  - split; [eapply has_proper; eassumption|intros _; eapply has_timely; eassumption].
  - destruct x; try contradiction T. injection I as <-. split; [exact T|intros; exact Logic.I].
  - destruct x; try contradiction T. injection I as <-. split; [exact T|intros; exact Logic.I].
  - destruct x; try contradiction T. injection I as <-. split; [exact T|intros; exact Logic.I].
  - destruct x; try contradiction T. injection I as <-. split; [exact Logic.I|intros; apply as_u32_small].
  - destruct x; try contradiction T. injection I as <-. split; [exact Logic.I|intros; exact Logic.I].
  - destruct x; try contradiction T. inv_do I. injection I as <-. split; [eapply proper_elems; eassumption|intros _; eapply timely_elems; [left; reflexivity|exact E]].
  - destruct x; try contradiction T. inv_do I. injection I as <-. destruct T as (_ & _ & T). split; [eapply proper_elems; eassumption|intros _; eapply timely_elems; [right; eexists; reflexivity|exact E]].
  - destruct x; try contradiction T. injection I as <-. split; [exact Logic.I|intros; exact Logic.I].
  - destruct x; contradiction.
  - destruct x; try contradiction T. injection I as <-. split; [exact Logic.I|intros; exact Logic.I].
  - destruct x; try contradiction T. destruct o as [y|].
    + inv_do I. injection I as <-. cbn. split; [eapply has_proper; eassumption|intros _; eapply has_timely; eassumption].
    + injection I as <-. split; [exact Logic.I|]. cbn [column_type timely]. intros H. destruct (single_type h) eqn:E; [|congruence]. eapply tickless_has, E.
Qed.

Lemma from_short w x u : from_sql (rust w) u = Ok (moved tz (kept w x)) -> typed w x -> short x -> short_text u.
Proof.
  intros H T S. destruct u; try exact I. cbn [short_text].
  destruct w; cbn [rust] in H; try discriminate H.
  - destruct h; cbn in H; try discriminate H. destruct x; try contradiction T. unfold as_str in H. destruct (utf8_valid b); [|discriminate H]. cbn [rbind] in H.
    injection H as ->. exact S.
  - destruct x; try contradiction T. cbn in H. injection H as ->. exact S.
  - destruct x; try contradiction T. destruct s; discriminate H.
Qed.

Lemma converted_same t v : converted t t v = Some (zoned tz v).
Proof. destruct t; cbn [SpecCasts.converted]; rewrite eqb_sqltype_refl; reflexivity. Qed.

Lemma cell_same c0 t tz0 w x v u : from_type t tz0 = Ok c0 -> no_datetime t -> reads_as c0 v = Some u ->
  from_sql (rust w) u = Ok (kept w x) -> moved tz (kept w x) = kept w x ->
  exists u', converted (ctype c0) t u = Some u' /\ from_sql (rust w) u' = Ok (moved tz (kept w x)).
Proof.
  intros F ND E S M. exists u. rewrite M. split; [|exact S].
  rewrite (from_type_same _ _ _ F ND), converted_same. f_equal. eapply reads_unzoned; eassumption.
Qed.
Lemma stored_moved h t x : stored_type h = Some t -> has_typed h x -> moved tz (whole x) = whole x /\ moved tz (XOption (Some (whole x))) = XOption (Some (whole x)).
Proof. intros H T. destruct h; try discriminate H; destruct x; try contradiction T; split; reflexivity. Qed.

Lemma cell_goes w x0 v0 c0 t x v u : typed w x0 -> room w x0 -> column_type w x0 = Some t -> into_value w x0 = Ok v0 ->
  from_type (type_of_value v0) (extract_timezone v0) = Ok c0 ->
  typed w x -> room w x -> into_value w x = Ok v -> reads_as c0 v = Some u -> from_sql (rust w) u = Ok (kept w x) ->
  exists u', converted (ctype c0) t u = Some u' /\ from_sql (rust w) u' = Ok (moved tz (kept w x)).
Proof.
  intros T0 R0 C I0 F T R I E S.
  assert (forall h y v, has_typed h y -> has_room h y -> has_value h y = Ok v -> type_of_value v = sql_type_of h) as HT.
  { intros h y v' Ty Ry Hv. destruct (from_type_has h []) as [c1 F1]. destruct (has_good h y [] c1 Ty Ry F1) as (v1 & w1 & A1 & A2 & _). congruence. }
  destruct w; cbn [column_type] in C; cbn [typed room into_value] in *; try discriminate C.
  - assert (type_of_value v0 = sql_type_of h) as ET by eauto. rewrite ET in *.
    destruct h; try (destruct (stored_same tz_known _ _ C) as (S1 & S2 & _); rewrite S1 in *;
      eapply cell_same; try eassumption; cbn [kept]; eapply stored_moved; eassumption).
    injection C as <-. injection F as <-. destruct x; try contradiction T. injection I as <-.
    cbn in E. destruct ((0 <=? secs) && (secs <? 2 ^ 32))%Z; [|discriminate E]. injection E as <-.
    cbn in S |- *. injection S as S0. eexists. split; [reflexivity|]. cbn. rewrite S0. reflexivity.
  - destruct x0; try contradiction T0. injection I0 as <-. destruct ((d_scale d <=? d_precision d) && (d_precision d <=? 18))%N eqn:B; [|discriminate C].
    injection C as <-. destruct x; try contradiction T. eapply cell_same; try eassumption; try exact Logic.I; try reflexivity.
  - destruct x0; try contradiction T0. injection I0 as <-. injection C as <-. injection F as <-.
    destruct x; try contradiction T. injection I as <-. cbn in E. destruct (as_u32 secs0 <? 2 ^ 32)%N; [|discriminate E]. injection E as <-.
    cbn in S |- *. injection S as S0. eexists. split; [reflexivity|]. cbn. rewrite S0. reflexivity.
  - destruct x0; try contradiction T0. injection I0 as <-. injection C as <-. destruct x; try contradiction T. eapply cell_same; try eassumption; try exact Logic.I; try reflexivity.
  - destruct x0; try contradiction T0. inv_do I0. injection I0 as <-. injection C as <-. destruct x; try contradiction T. eapply cell_same; try eassumption; try exact Logic.I; try reflexivity.
  - destruct x0; try contradiction T0. inv_do I0. injection I0 as <-. injection C as <-. destruct x; try contradiction T. eapply cell_same; try eassumption; try exact Logic.I; try reflexivity.
  - destruct x0; try contradiction T0. injection I0 as <-. injection C as <-. destruct x; try contradiction T. eapply cell_same; try eassumption; try exact Logic.I; try reflexivity.
  - destruct x0; try contradiction T0. injection I0 as <-. injection C as <-. destruct x; try contradiction T. eapply cell_same; try eassumption; try exact Logic.I; try reflexivity.
  - assert (type_of_value v0 = TNullable (sql_type_of h)) as ET.
    { destruct x0; try contradiction T0. destruct o as [y|].
      - inv_do I0. injection I0 as <-. cbn [type_of_value]. f_equal. eauto.
      - injection I0 as <-. reflexivity. }
    rewrite ET in *. destruct (single_type h) as [ti|] eqn:ES; [|discriminate C]. injection C as <-.
    destruct x; try contradiction T.
    destruct h; try (destruct (stored_same tz_known _ _ ES) as (S1 & S2 & _); rewrite S1 in *;
      eapply cell_same; try eassumption; destruct o as [y|]; [|reflexivity]; cbn [kept whole]; eapply stored_moved; eassumption).
    injection ES as <-. injection F as <-. destruct o as [y|].
    + destruct y; try contradiction T. injection I as <-. cbn in E. destruct ((0 <=? secs) && (secs <? 2 ^ 32))%Z; [|discriminate E]. injection E as <-.
      cbn in S |- *. injection S as S0. eexists. split; [reflexivity|]. cbn. rewrite S0. reflexivity.
    + injection I as <-. cbn in E. injection E as <-. cbn in S |- *. eexists. split; [reflexivity|]. cbn. reflexivity.
Qed.

Lemma column_plan rows j w x0 c0 c t :
  started w x0 c0 -> col_made rows j w c0 c -> (total rows < 2 ^ 64)%N -> (80 * lenN rows <= isize_max)%N ->
  column_type w x0 = Some t ->
  (forall row, In row rows -> exists x, nth_error row j = Some x /\ typed w x /\ room w x /\ short x /\ column_type w x <> None) ->
  fits c ->
  exists us ws, convertible tz_known tz parse_ipv4 parse_ipv6 c us t ws /\ length us = length rows /\
    (exists d, cast_col parse_ipv4 parse_ipv6 c t = Ok d) /\
    forall i row x, nth_error rows i = Some row -> nth_error row j = Some x ->
      exists u, nth_error ws i = Some u /\ from_sql (rust w) u = Ok (moved tz (kept w x)).
Proof.
  intros (T0 & R0 & v0 & I0 & F0 & NE0) (k & us & St & Hk & Lu & Hu & vs & Pv & Mv & Wv & Hv) B SZ CT HR FC.
  destruct (column_goes _ _ _ _ _ T0 R0 CT I0 F0) as (G1 & G2 & G3 & G4 & G5 & G6 & G7 & G8).
  assert (length vs = length rows) as Lv by (rewrite <- (mapO_length _ _ _ Mv); exact Lu).
  destruct (mapO_all (converted (ctype c0) t) (fun i u' => short_text u' /\ forall row x, nth_error rows i = Some row -> nth_error row j = Some x ->
     from_sql (rust w) u' = Ok (moved tz (kept w x))) us) as (ws & Mw & Hw).
  { intros i u Hi. destruct (same_index us rows i u Lu Hi) as [row Er].
    destruct (HR row (nth_error_In _ _ Er)) as (x & Ex & Tx & Rx & Sx & Cx).
    destruct (Hu i row x Er Ex) as (u1 & U1 & U2). rewrite Hi in U1. injection U1 as <-.
    destruct (Hv i row x Er Ex) as (v & V1 & V2). destruct (mapO_at _ _ _ _ _ Mv V1) as (u1 & U1 & V3).
    rewrite Hi in U1. injection U1 as <-.
    destruct (cell_goes _ _ _ _ _ _ _ _ T0 R0 CT I0 F0 Tx Rx V2 V3 U2) as (u' & E1 & E2). exists u'. split; [exact E1|]. split.
    - exact (from_short w x u' E2 Tx Sx).
    - intros row' x' Er' Ex'. rewrite Er in Er'. injection Er' as <-. rewrite Ex in Ex'. injection Ex' as <-. exact E2. }
  assert (Forall proper vs /\ Forall (timely False) vs) as [PV TV].
  { split; apply Forall_forall; intros v Iv; apply In_nth_error in Iv; destruct Iv as [i Hi];
      destruct (same_index vs rows i v Lv Hi) as [row Er]; destruct (HR row (nth_error_In _ _ Er)) as (x & Ex & Tx & Rx & Sx & Cx);
      destruct (Hv i row x Er Ex) as (v' & V1 & V2); rewrite Hi in V1; injection V1 as <-;
      destruct (into_proper w x v Tx Rx V2); auto. }
  destruct (append_cast tz_known tz parse_ipv4 parse_ipv6 _ _ _ _ _ t ws False F0 NE0 G1 PV TV Mv) as (c' & E & H); auto.
  - lia.
  - rewrite G7. unfold lenN in *. rewrite Lv. lia.
  - unfold lenN in *. rewrite Lv. lia.
  - apply Forall_forall. intros u Iu. apply In_nth_error in Iu. destruct Iu as [i Hi]. apply (Hw i u Hi).
  - rewrite Pv in E. injection E as <-. destruct (H FC) as [H1 H2]. exists us, ws. split; [exact H1|]. split; [exact Lu|]. split; [exact H2|].
    intros i row x Er Ex. destruct (same_index rows ws i row) as [u Eu]; [rewrite (mapO_length _ _ _ Mw); congruence|exact Er|].
    exists u. split; [exact Eu|]. destruct (Hw i u Eu) as [_ Hu']. eauto.
Qed.

Lemma all_plans rows : (total rows < 2 ^ 64)%N -> (80 * lenN rows <= isize_max)%N -> forall j fs x0s cs, cols_ok rows j fs x0s cs ->
  forall heads, table_for heads fs x0s -> Forall named heads -> Forall (fun x => fits (snd x)) cs ->
  (forall row n k w, In row rows -> nth_error fs n = Some (k, w) ->
     exists x, nth_error row (j + n) = Some x /\ typed w x /\ room w x /\ short x /\ column_type w x <> None) ->
  exists plans, cs = map pl_column plans /\ heads = map (fun x => (fst (pl_column x), pl_type x)) plans /\
    Forall (insertable tz_known tz parse_ipv4 parse_ipv6 (length rows)) plans /\
    (exists ds, forall hs, map (fun h => ctype (snd h)) hs = map snd heads -> cast_columns parse_ipv4 parse_ipv6 cs hs = Ok ds) /\
    forall n pl k w, nth_error plans n = Some pl -> nth_error fs n = Some (k, w) -> fst (pl_column pl) = k /\
      forall i row x, nth_error rows i = Some row -> nth_error row (j + n) = Some x ->
        exists u, nth_error (pl_wanted pl) i = Some u /\ from_sql (rust w) u = Ok (moved tz (kept w x)).
Proof.
  intros B SZ j fs x0s cs C. induction C as [j|j k w x0 c0 c fs x0s cs R St M C IH]; intros heads TF NM FT HR.
  - unfold table_for in TF. cbn [combine] in TF. inversion TF; subst. exists []. split; [reflexivity|]. split; [reflexivity|]. split; [constructor|].
    split; [|intros [|n]; discriminate]. exists []. intros [|h hs] H; [reflexivity|discriminate H].
  - unfold table_for in TF. cbn [combine] in TF. inversion TF as [|[nm t] ? heads' ? [T1 T2] T3]; subst. cbn [fst snd] in T1, T2. subst nm.
    apply Forall_cons_iff in NM. destruct NM as [(N1 & N2 & N3 & N4) NM]. apply Forall_cons_iff in FT. destruct FT as [F1 FT]. cbn [fst snd] in *.
    destruct (IH heads' T3 NM FT) as (plans & P1 & P2 & P3 & (ds & P4) & P5).
    { intros row n k' w' Ir Hn. replace (S j + n) with (j + S n) by lia. apply HR with (k := k'); [exact Ir|exact Hn]. }
    destruct (column_plan rows j w x0 c0 c t St M B SZ T2) as (us & ws & A1 & A2 & (d & A3) & A4); [|exact F1|].
    { intros row Ir. destruct (HR row 0 k w Ir eq_refl) as (x & X). rewrite Nat.add_0_r in X. eauto. }
    exists (mk_plan (k, c) us t ws :: plans). cbn [map pl_column pl_type fst].
    split; [rewrite <- P1; reflexivity|]. split; [rewrite <- P2; reflexivity|].
    split; [constructor; [unfold insertable; cbn [pl_column pl_cells pl_type pl_wanted fst snd]; tauto|exact P3]|].
    split; [|].
    + exists ((k, d) :: ds). intros [|[hn hc] hs] H; [discriminate H|]. cbn [map snd] in H. injection H as H1 H2. cbn [cast_columns].
      rewrite H1, A3. cbn [rbind]. rewrite (P4 hs H2). reflexivity.
    + intros [|n] pl k' w' Hp Hf; cbn [nth_error] in *.
      * injection Hp as <-. injection Hf as <- <-. cbn [pl_column pl_wanted fst]. split; [reflexivity|]. rewrite Nat.add_0_r. exact A4.
      * destruct (P5 n pl k' w' Hp Hf) as [Q1 Q2]. split; [exact Q1|]. replace (j + S n) with (S j + n) by lia. exact Q2.
Qed.
End Travels.
