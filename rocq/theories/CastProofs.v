(** Converting columns for an insert: proofs. *)
From Verif Require Import Base Bytes Reader Wire Types Text TypeNames Decimal DateTime Values Columns Casts.
From Verif Require Import SpecColumns SpecTypes SpecCasts ReaderProofs WireProofs PushProofs TypeNamesProofs LoadTypeProofs SendProofs RangeProofs.
Open Scope nat_scope.

(** ** Types *)
Lemma eqb_sqltype a b : sqltype_eqb a b = true <-> a = b.
Proof. unfold sqltype_eqb. destruct (sqltype_eq_dec a b); split; congruence. Qed.
Lemma eqb_sqltype_refl a : sqltype_eqb a a = true.
Proof. apply eqb_sqltype. reflexivity. Qed.

Lemma data_cast_type c : forall t c', data_cast c t = Some c' -> ctype c' = t /\ restored (ctype c) t = true.
Proof.
  induction c; intros t c' H; cbn [data_cast] in H; try discriminate H.
  - destruct t; try discriminate H. injection H as <-. split; reflexivity.
  - destruct t; try discriminate H. destruct (data_cast c t) as [i'|] eqn:E; [|discriminate H]. injection H as <-.
    destruct (IHc _ _ E) as [A B]. split; [cbn; congruence|exact B].
  - destruct t; try discriminate H. destruct (data_cast c t) as [i'|] eqn:E; [|discriminate H]. injection H as <-.
    destruct (IHc _ _ E) as [A B]. split; [cbn; congruence|exact B].
  - destruct t; try discriminate H. destruct (data_cast c1 t1) as [k|] eqn:E1; [|discriminate H].
    destruct (data_cast c2 t2) as [v|] eqn:E2; [|discriminate H]. injection H as <-.
    destruct (IHc1 _ _ E1) as [A B], (IHc2 _ _ E2) as [A' B']. split; [cbn; congruence|]. cbn. rewrite B, B'. reflexivity.
  - destruct t; try discriminate H. injection H as <-. split; reflexivity.
  - destruct t; try discriminate H. injection H as <-. split; reflexivity.
  - destruct t; try discriminate H. destruct (data_cast c t) as [i'|] eqn:E; [|discriminate H]. injection H as <-.
    destruct (IHc _ _ E) as [A B]. split; [cbn; congruence|exact B].
Qed.


Lemma push_each_type c vs c' : push_each push c vs = Ok c' -> ctype c' = ctype c.
Proof.
  intros H. eapply (push_each_keeps alike push alike_refl alike_trans) in H; [apply H|].
  intros a v a' E. eapply push_alike. exact E.
Qed.

Lemma low_stays c vs c' : push_each push c vs = Ok c' -> (exists i ix idx m, c = CLow i ix idx m) ->
  exists i ix idx m, c' = CLow i ix idx m.
Proof.
  intros H. revert H. eapply (push_each_keeps (fun a b => (exists i ix idx m, a = CLow i ix idx m) -> exists i ix idx m, b = CLow i ix idx m)); auto.
  intros a v a' E (i & ix & idx & m & ->). unfold push in E. cbn [push_as] in E.
  inv_do E. inv_do E. destruct x0; repeat (inv_do E); injection E as <-; repeat eexists.
Qed.

Lemma low_chrono c vs c' : push_each push c vs = Ok c' -> (exists l z ix idx m, c = CLow (CChrono l z) ix idx m) ->
  exists l z ix idx m, c' = CLow (CChrono l z) ix idx m.
Proof.
  intros H. revert H. eapply (push_each_keeps (fun a b => (exists l z ix idx m, a = CLow (CChrono l z) ix idx m) -> exists l z ix idx m, b = CLow (CChrono l z) ix idx m)); auto.
  intros a v a' E (l & z & ix & idx & m & ->). unfold push in E. cbn [push_as] in E.
  inv_do E. inv_do E. destruct x0.
  - inv_do E. injection E as <-. repeat eexists.
  - inv_do E. inv_do E. inv_do E. inv_do E. injection E as <-.
    inv_do E3. injection E3 as <-. repeat eexists.
Qed.

Section Types.
Variable parse_ipv4 parse_ipv6 : bytes -> option bytes.
Notation cast := (cast_col parse_ipv4 parse_ipv6).


Lemma from_type_plain t tz c : from_type t tz = Ok c -> dictionary_source t = true ->
  ctype c = t \/ is_datetime t = true /\ c = CChrono [] tz.
Proof.
  destruct t; try discriminate; cbn [from_type]; intros H _; try (injection H as <-; left; reflexivity).
  destruct d; injection H as <-; auto.
Qed.

Lemma dictionary_same t : is_inner_low_cardinality t = dictionary_source t.
Proof. destruct t; reflexivity. Qed.

(** What [cast_col] does, case by case. *)
Inductive casted : col -> sqltype -> col -> Prop :=
| K_same c : casted c (ctype c) c
| K_data c dst c' : ctype c <> dst -> (forall f t, dst <> TAgg f t) -> data_cast c dst = Some c' -> casted c dst c'
| K_fixed c n : ctype c = TString -> casted c (TFixedString n) (CFixedAdapter c n)
| K_fixed8 c n : ctype c = TArray (TNum U8) -> casted c (TFixedString n) (CFixedAdapter (CStringAdapter c) n)
| K_string c : ctype c = TArray (TNum U8) -> casted c TString (CStringAdapter c)
| K_nfixed c n : ctype c = TNullable TString -> casted c (TNullable (TFixedString n)) (CNullFixedAdapter c n)
| K_decimal c p s p' s' nb : ctype c = TDecimal p' s' -> TDecimal p' s' <> TDecimal p s -> from_precision p = Some nb ->
    casted c (TDecimal p s) (CDecimalAdapter c p s nb)
| K_ndecimal c p s p' s' nb : ctype c = TNullable (TDecimal p' s') -> TDecimal p' s' <> TDecimal p s ->
    from_precision p = Some nb -> casted c (TNullable (TDecimal p s)) (CNullDecimalAdapter c p s nb)
| K_enum8 c o n : ctype c = TEnum8 o -> o <> n -> casted c (TEnum8 n) (CEnum8Adapter c n)
| K_enum16 c o n : ctype c = TEnum16 o -> o <> n -> casted c (TEnum16 n) (CEnum16Adapter c n)
| K_nenum8 c o n : ctype c = TNullable (TEnum8 o) -> o <> n -> casted c (TNullable (TEnum8 n)) (CNullEnum8Adapter c n)
| K_nenum16 c o n : ctype c = TNullable (TEnum16 o) -> o <> n -> casted c (TNullable (TEnum16 n)) (CNullEnum16Adapter c n)
| K_ipv4 c n vs bs : ctype c = TString -> clen c = Ok n -> mapM (at_ c) (seq 0 n) = Ok vs ->
    mapM (cell_ip parse_ipv4) vs = Ok bs -> casted c TIpv4 (CIp IpV4 (concat (map (@rev N) bs)))
| K_ipv6 c n vs bs : ctype c = TString -> clen c = Ok n -> mapM (at_ c) (seq 0 n) = Ok vs ->
    mapM (cell_ip parse_ipv6) vs = Ok bs -> casted c TIpv6 (CIp IpV6 (concat bs))
| K_agg c f t i : ctype c <> TAgg f t -> casted c t i -> casted c (TAgg f t) (CAgg f i)
| K_low c t n tz i0 vs i ix idx m i' : ctype c <> TLowCardinality t -> dictionary_source (ctype c) = true ->
    clen c = Ok n -> from_type t tz = Ok i0 -> mapM (at_ c) (seq 0 n) = Ok vs ->
    push_each push (CLow i0 X8 [] None) vs = Ok (CLow i ix idx m) ->
    (i' = i /\ (is_datetime t = false \/ data_cast i t = None) \/ is_datetime t = true /\ data_cast i t = Some i') ->
    casted c (TLowCardinality t) (CLow i' ix idx m).

Lemma cast_inv dst : forall c c', cast c dst = Ok c' -> casted c dst c'.
Proof.
  assert (O : forall c dst c', match data_cast c dst with Some c' => Ok c' | None => Err EInvalidType end = Ok c' ->
    ctype c <> dst -> (forall f t, dst <> TAgg f t) -> casted c dst c').
  { intros c d c' H N NA. destruct (data_cast c d) as [x|] eqn:E; [|discriminate]. injection H as <-. constructor; assumption. }
  induction dst; intros c c' H; cbn [cast_col] in H.
  all: match type of H with (if sqltype_eqb ?a ?b then _ else _) = _ => destruct (sqltype_eqb a b) eqn:E end.
  all: try (injection H as <-; apply eqb_sqltype in E; rewrite E; constructor; fail).
  all: assert (forall X Y, sqltype_eqb X Y = false -> Y <> X) as NE by (intros X Y EE ->; rewrite eqb_sqltype_refl in EE; discriminate).
  all: apply NE in E; clear NE.
  all: try (apply O; [assumption|assumption|discriminate]).
  - destruct (ctype c) eqn:T; try (apply O; [exact H|rewrite T; exact E|discriminate]).
    destruct s as [s0| | | | | | | | | | | | | | |]; try (apply O; [exact H|rewrite T; exact E|discriminate]).
    destruct s0; try (apply O; [exact H|rewrite T; exact E|discriminate]). injection H as <-. apply K_string. exact T.
  - destruct (ctype c) eqn:T; try (apply O; [exact H|rewrite T; exact E|discriminate]).
    + injection H as <-. apply K_fixed. exact T.
    + destruct s as [s0| | | | | | | | | | | | | | |]; try (apply O; [exact H|rewrite T; exact E|discriminate]).
      destruct s0; try (apply O; [exact H|rewrite T; exact E|discriminate]). injection H as <-. apply K_fixed8. exact T.
  - destruct (ctype c) eqn:T; try (apply O; [exact H|rewrite T; exact E|discriminate]).
    inv_do H. inv_do H. inv_do H. injection H as <-. eapply K_ipv4; eassumption.
  - destruct (ctype c) eqn:T; try (apply O; [exact H|rewrite T; exact E|discriminate]).
    inv_do H. inv_do H. inv_do H. injection H as <-. eapply K_ipv6; eassumption.
  - destruct dst; try (apply O; [assumption|assumption|discriminate]).
    + destruct (ctype c) eqn:T; try (apply O; [exact H|rewrite T; exact E|discriminate]).
      destruct s; try (apply O; [exact H|rewrite T; exact E|discriminate]). injection H as <-. apply K_nfixed. exact T.
    + destruct (ctype c) eqn:T; try (apply O; [exact H|rewrite T; exact E|discriminate]).
      destruct s; try (apply O; [exact H|rewrite T; exact E|discriminate]). inv_do H. injection H as <-.
      destruct (from_precision precision) as [nb|] eqn:EP; [|discriminate]. injection E0 as <-.
      eapply K_ndecimal; [exact T|congruence|exact EP].
    + destruct (ctype c) eqn:T; try (apply O; [exact H|rewrite T; exact E|discriminate]).
      destruct s; try (apply O; [exact H|rewrite T; exact E|discriminate]). injection H as <-. eapply K_nenum8; [exact T|congruence].
    + destruct (ctype c) eqn:T; try (apply O; [exact H|rewrite T; exact E|discriminate]).
      destruct s; try (apply O; [exact H|rewrite T; exact E|discriminate]). injection H as <-. eapply K_nenum16; [exact T|congruence].
  - rewrite dictionary_same in H. destruct (dictionary_source (ctype c)) eqn:D; [|apply O; [assumption|assumption|discriminate]].
    inv_do H. inv_do H. inv_do H. inv_do H.
    destruct (low_stays _ _ _ E3) as (i & ix & idx & m & ->); [repeat eexists|].
    destruct (is_datetime dst) eqn:DT; [destruct (data_cast i dst) as [i'|] eqn:DC|]; injection H as <-;
      eapply K_low; eauto.
  - destruct (ctype c) eqn:T; try (apply O; [exact H|rewrite T; exact E|discriminate]). inv_do H. injection H as <-.
    destruct (from_precision precision) as [nb|] eqn:EP; [|discriminate]. injection E0 as <-.
    eapply K_decimal; [exact T|congruence|exact EP].
  - destruct (ctype c) eqn:T; try (apply O; [exact H|rewrite T; exact E|discriminate]). injection H as <-. eapply K_enum8; [exact T|congruence].
  - destruct (ctype c) eqn:T; try (apply O; [exact H|rewrite T; exact E|discriminate]). injection H as <-. eapply K_enum16; [exact T|congruence].
  - inv_do H. injection H as <-. apply K_agg; auto.
Qed.

Lemma casted_type c dst c' : casted c dst c' ->
  accepted (ctype c) dst = true /\ (table_type dst -> ctype c' = dst).
Proof.
  induction 1; cbn [accepted ctype ip_type];
    repeat match goal with H : ctype c = _ |- _ => rewrite H; clear H end; rewrite ?eqb_sqltype_refl, ?orb_true_r; auto.
  - split; [|auto]. remember (ctype c) as t eqn:T. destruct t; cbn [accepted]; rewrite eqb_sqltype_refl; reflexivity.
  - apply data_cast_type in H1. destruct H1 as [A B]. split; [|auto]. destruct dst; cbn [accepted]; rewrite ?B, ?orb_true_r; try reflexivity. exfalso. eapply H0. reflexivity.
  - rewrite (proj1 IHcasted), orb_true_r. split; [reflexivity|]. cbn [table_type].
    intros T. rewrite (proj2 IHcasted T). reflexivity.
  - rewrite H0, orb_true_r. split; [reflexivity|]. cbn [table_type]. intros [S T].
    pose proof (push_each_type _ _ _ H4) as TY. cbn [ctype] in TY. injection TY as TY.
    destruct (from_type_plain _ _ _ H2 S) as [X|[X ->]].
    + destruct H5 as [[-> _]|[_ DC]]; [congruence|]. apply data_cast_type in DC. f_equal. apply DC.
    + destruct (low_chrono _ _ _ H4) as (l & z & ix0 & idx0 & m0 & Y); [repeat eexists|]. injection Y as -> -> -> ->.
      cbn [data_cast] in H5. rewrite X in H5. destruct H5 as [[_ [?|?]]|[_ DC]]; try discriminate. injection DC as <-. reflexivity.
Qed.
End Types.
