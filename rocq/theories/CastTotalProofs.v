(** When a conversion succeeds: proofs. *)
From Verif Require Import Base Bytes Utf8 Reader Wire Types Text TypeNames Decimal DateTime Values Columns Casts Block.
From Verif Require Import SpecWire SpecColumns SpecTypes SpecCasts SpecBlock ReaderProofs WireProofs PushProofs TypeNamesProofs LoadTypeProofs SendProofs RangeProofs.
From Verif Require Import CastProofs CastSendProofs CastMainProofs CastBlockProofs.
Open Scope nat_scope.

Lemma sound_built c : sound c -> built c.
Proof.
  induction c; cbn [sound built]; try tauto; intros H; repeat split; try apply H; intuition.
Qed.

Lemma data_total c : forall t, unsliced c -> built c -> restored (ctype c) t = true -> exists c', data_cast c t = Some c'.
Proof.
  induction c; intros t W B R; cbn [ctype] in R; try (destruct t; discriminate R); try contradiction B; try contradiction W; cbn [unsliced built] in W, B; cbn [data_cast].
  - destruct t; try discriminate R. eexists. reflexivity.
  - destruct k; destruct t; discriminate R.
  - destruct t; try discriminate R. destruct (IHc _ W (proj1 B) R) as (c' & ->). eexists. reflexivity.
  - destruct t; try discriminate R. destruct (IHc _ W (proj1 B) R) as (c' & ->). eexists. reflexivity.
  - destruct t; try discriminate R. cbn [restored] in R. apply andb_prop in R as [R1 R2]. cbn [sound] in B.
    destruct (IHc1 _ (proj1 W) (sound_built _ (proj1 B)) R1) as (k & ->).
    destruct (IHc2 _ (proj2 W) (sound_built _ (proj1 (proj2 B))) R2) as (v & ->). eexists. reflexivity.
  - destruct t; try discriminate R. eexists. reflexivity.
  - destruct t; try discriminate R. eexists. reflexivity.
  - destruct t; try discriminate R. destruct (IHc _ W B R) as (c' & ->). eexists. reflexivity.
Qed.

Section Total.
Variable parse_ipv4 parse_ipv6 : bytes -> option bytes.

Lemma data_refused c t : restored (ctype c) t = false -> data_cast c t = None.
Proof. intros R. destruct (data_cast c t) eqn:E; [|reflexivity]. apply data_cast_type in E. destruct E. congruence. Qed.

Lemma cast_refused dst : forall c, accepted (ctype c) dst = false -> cast_col parse_ipv4 parse_ipv6 c dst = Err EInvalidType.
Proof.
  assert (QC : forall a b, sqltype_eqb a b = sqltype_eqb b a).
  { intros a b. destruct (sqltype_eqb a b) eqn:E, (sqltype_eqb b a) eqn:E'; try reflexivity.
    - apply eqb_sqltype in E. subst. rewrite eqb_sqltype_refl in E'. discriminate.
    - apply eqb_sqltype in E'. subst. rewrite eqb_sqltype_refl in E. discriminate. }
  induction dst; intros c A; cbn [accepted] in A; apply orb_false_elim in A as [A1 A]; cbn [cast_col];
    rewrite (QC _ (ctype c)), A1; try (apply orb_false_elim in A as [A2 A]; rewrite (data_refused _ _ A2)); try reflexivity.
  - destruct (ctype c) as [| | | | | | | | |t| | | | | |]; try reflexivity. destruct t; try reflexivity. destruct s; try reflexivity. discriminate A.
  - destruct (ctype c) as [| | | | | | | | |t| | | | | |]; try reflexivity; [discriminate A|]. destruct t; try reflexivity. destruct s; try reflexivity. discriminate A.
  - destruct (ctype c); try reflexivity. discriminate A.
  - destruct (ctype c); try reflexivity. discriminate A.
  - destruct dst; try reflexivity; destruct (ctype c) as [| | | | | | | |t| | | | | | |]; try reflexivity; destruct t; try reflexivity; discriminate A.
  - rewrite dictionary_same, A. reflexivity.
  - destruct (ctype c); try reflexivity. discriminate A.
  - destruct (ctype c); try reflexivity. discriminate A2.
  - destruct (ctype c); try reflexivity. discriminate A2.
  - rewrite IHdst by exact A. reflexivity.
Qed.

Variable tz_known : bytes -> bool.
Variable tz : bytes.

Lemma precision_known p : (p <= 18)%N -> exists nb, from_precision p = Some nb.
Proof. intros H. unfold from_precision. destruct (N.leb_spec p 9); [eexists; reflexivity|]. destruct (N.leb_spec p 18); [eexists; reflexivity|lia]. Qed.

Lemma times_pushed z vs : Forall (fun v => exists s zz, v = VDateTime s zz /\ (s < 2 ^ 32)%N) vs -> (80 * lenN vs <= isize_max)%N ->
  exists l ix idx m, push_each push (CLow (CChrono [] z) X8 [] None) vs = Ok (CLow (CChrono l z) ix idx m).
Proof.
  intros FV SZ. assert (wf (CLow (CDateTime [] z) X8 [] None)) as W.
  { split; [exact I|]. exists 0. split; [reflexivity|]. split; [apply Forall_nil|]. split; [apply N.le_0_l|]. split; [apply N.le_0_l|apply Forall_nil]. }
  set (ws := map (fun v => match v with VDateTime s _ => VDateTime s z | _ => v end) vs).
  assert (mapO (reads_as (CLow (CDateTime [] z) X8 [] None)) vs = Some ws) as RD.
  { apply mapO_Forall2. clear -FV. unfold ws. induction FV as [|v vs (s & zz & -> & H) _ IH]; constructor; [|exact IH].
    cbn [reads_as low_key]. rewrite (proj2 (N.ltb_lt _ _) H). reflexivity. }
  assert (weights vs = lenN vs) as WV.
  { clear -FV. induction FV as [|v vs (s & zz & -> & H) _ IH]; [reflexivity|]. cbn [weights fold_right weight]. fold (weights vs). rewrite IH. unfold lenN. cbn [length]. lia. }
  destruct (push_all _ vs ws W RD) as (c & E & _).
  { cbn [low_rows]. rewrite WV. pose proof isize_lt. unfold isize_max, lenN in *. cbn [length]. lia. }
  exact (push_seconds z vs [] X8 [] None c (fun _ => eq_refl) FV E).
Qed.

Lemma cast_total dst : forall c vs ws, unsliced c -> built c -> holds c vs -> accepted (ctype c) dst = true ->
  mapO (converted tz parse_ipv4 parse_ipv6 (ctype c) dst) vs = Some ws -> nameable tz_known dst -> table_type dst ->
  no_empty_rows dst -> (ctype c = dst \/ covered dst) -> (80 * lenN vs <= isize_max)%N ->
  exists c', cast_col parse_ipv4 parse_ipv6 c dst = Ok c'.
Proof.
  assert (QC : forall a b, sqltype_eqb a b = sqltype_eqb b a).
  { intros a b. destruct (sqltype_eqb a b) eqn:E, (sqltype_eqb b a) eqn:E'; try reflexivity.
    - apply eqb_sqltype in E. subst. rewrite eqb_sqltype_refl in E'. discriminate.
    - apply eqb_sqltype in E'. subst. rewrite eqb_sqltype_refl in E. discriminate. }
  assert (forall c dst, restored (ctype c) dst = true -> unsliced c -> built c -> exists c',
    match data_cast c dst with Some c' => Ok c' | None => Err EInvalidType end = Ok c') as OT.
  { intros c d R W B. destruct (data_total c d W B R) as (c' & ->). eexists. reflexivity. }
  assert (forall c vs, holds c vs -> clen c = Ok (length vs) /\ mapM (at_ c) (seq 0 (length vs)) = Ok vs) as RW.
  { intros c vs HH. split; [apply HH|]. pose proof (rows_holds c vs 0 (length vs) HH ltac:(lia)) as X.
    unfold rows in X. rewrite Nat.sub_0_r in X. rewrite X. unfold sub. cbn [skipn]. rewrite Nat.sub_0_r, firstn_all. reflexivity. }
  induction dst; intros c vs ws W B HH A HM NM TT NE CV SZ; cbn [accepted] in A; cbn [cast_col]; rewrite (QC _ (ctype c));
    destruct (sqltype_eqb (ctype c) _) eqn:EQ; try (eexists; reflexivity); cbn [orb] in A.
  all: pose proof (fun t R => OT c t R W B) as OO; clear OT.
  all: try (rewrite orb_false_r in A; exact (OO _ A)).
  - (* String *)
    destruct (ctype c) as [| | | | | | | | |t| | | | | |]; try discriminate A. destruct t; try discriminate A. destruct s; try discriminate A. eexists; reflexivity.
  - (* FixedString *)
    destruct (ctype c) as [| | | | | | | | |t| | | | | |]; try discriminate A; [eexists; reflexivity|].
    destruct t; try discriminate A. destruct s; try discriminate A. eexists; reflexivity.
  - (* IPv4 *)
    destruct (ctype c) eqn:T; try discriminate A. destruct (RW _ _ HH) as [X1 X2]. rewrite X1. cbn [rbind]. rewrite X2. cbn [rbind].
    apply mapO_Forall2 in HM. destruct (F2_step (fun v w => converted tz parse_ipv4 parse_ipv6 TString TIpv4 v = Some w) (fun _ _ => True) (cell_ip parse_ipv4) _ _ HM) as (os & -> & _).
    + intros v w R. cbn [converted] in R. change (sqltype_eqb TString TIpv4) with false in R. cbv iota in R.
      destruct v; try discriminate R. unfold cell_ip, cell_text. cbn [rbind]. destruct (parse_ipv4 b) as [o|]; [|discriminate R]. exists o. auto.
    + eexists; reflexivity.
  - (* IPv6 *)
    destruct (ctype c) eqn:T; try discriminate A. destruct (RW _ _ HH) as [X1 X2]. rewrite X1. cbn [rbind]. rewrite X2. cbn [rbind].
    apply mapO_Forall2 in HM. destruct (F2_step (fun v w => converted tz parse_ipv4 parse_ipv6 TString TIpv6 v = Some w) (fun _ _ => True) (cell_ip parse_ipv6) _ _ HM) as (os & -> & _).
    + intros v w R. cbn [converted] in R. change (sqltype_eqb TString TIpv6) with false in R. cbv iota in R.
      destruct v; try discriminate R. unfold cell_ip, cell_text. cbn [rbind]. destruct (parse_ipv6 b) as [o|]; [|discriminate R]. exists o. auto.
    + eexists; reflexivity.
  - (* Nullable *)
    destruct (restored (ctype c) (TNullable dst)) eqn:R; [apply OO in R|cbn [orb] in A].
    + destruct dst; try exact R; destruct (ctype c) as [| | | | | | | |t| | | | | | |]; try exact R; destruct t; try exact R; try (eexists; reflexivity).
      destruct (precision_known precision ltac:(destruct NM as [[_ NM] _]; lia)) as (nb & ->). eexists; reflexivity.
    + destruct dst; try discriminate A; destruct (ctype c) as [| | | | | | | |t| | | | | | |]; try discriminate A; destruct t; try discriminate A; try (eexists; reflexivity).
      destruct (precision_known precision ltac:(destruct NM as [[_ NM] _]; lia)) as (nb & ->). eexists; reflexivity.
  - (* LowCardinality *)
    rewrite dictionary_same. replace (restored (ctype c) (TLowCardinality dst)) with false in A by (destruct (ctype c); reflexivity). cbn [orb] in A. rewrite A.
    destruct (RW _ _ HH) as [-> E2]. cbn [rbind].
    set (z := match ctimezone c with Some z => z | None => default_tz end).
    destruct CV as [CV|CV]; [apply eqb_sqltype in CV; congruence|]. destruct TT as [D TT].
    assert (ctype c <> TLowCardinality dst) as NT by (intros X; apply eqb_sqltype in X; congruence).
    destruct (is_datetime dst) eqn:DT.
    { destruct dst as [| | | |d| | | | | | | | | | |]; try discriminate DT. destruct d; [|contradiction CV|contradiction TT]. clear OO.
      cbn [from_type rbind]. rewrite E2. cbn [rbind].
      destruct (times_pushed z vs) as (l & ix & idx & m & ->); [|exact SZ|eexists; reflexivity].
      apply mapO_Forall2 in HM. eapply F2_left; [exact HM|]. intros v w R. cbn [converted] in R. rewrite EQ in R.
      destruct v; try discriminate R. destruct (N.ltb_spec secs (2 ^ 32)); [|discriminate R]. eauto. }
    assert (exists i0, from_type dst z = Ok i0) as (i0 & H).
    { destruct dst; try discriminate D; try discriminate DT; eexists; reflexivity. }
    rewrite H, E2. cbn [rbind].
    assert (exists c', push_each push (CLow i0 X8 [] None) vs = Ok c') as (c' & E).
    { assert (from_type (TLowCardinality dst) z = Ok (CLow i0 X8 [] None)) as H' by (cbn [from_type]; rewrite H; reflexivity).
      destruct (from_type_wf _ _ _ H' NE) as (WF & L & LR).
      destruct (push_all (CLow i0 X8 [] None) vs ws WF) as (c' & E & _); [| |exists c'; exact E].
      - apply mapO_Forall2. apply mapO_Forall2 in HM. eapply F2_impl; [|exact HM]. intros v w R. cbn [converted] in R. rewrite EQ in R.
        destruct dst; try discriminate D; try discriminate DT; destruct v; try discriminate R; cbn [from_type] in H; injection H as <-; cbn [reads_as low_key].
        + destruct (scalar_eq_dec s s0) as [<-|]; [|discriminate R]. injection R as <-. destruct s; try discriminate D; reflexivity.
        + injection R as <-. reflexivity.
        + unfold as_fixed in R. destruct (lenN b <=? n)%N; [|discriminate R]. injection R as <-. reflexivity.
        + destruct (days <? 65536)%N; [|discriminate R]. injection R as <-. reflexivity.
      - rewrite LR, N.add_0_l. enough (weights vs = lenN vs) as ->.
        { unfold isize_max in SZ. lia. }
        apply mapO_Forall2 in HM. clear -HM EQ D DT. induction HM as [|v w vs ws R _ IH]; [reflexivity|]. cbn [weights fold_right]. fold (weights vs). rewrite IH.
        enough (weight v = 1%N) as -> by (unfold lenN; cbn [length]; lia).
        cbn [converted] in R. rewrite EQ in R. destruct dst; try discriminate D; try discriminate DT; destruct v; try discriminate R; reflexivity. }
    rewrite E. cbn [rbind]. destruct (low_stays _ _ _ E) as (i & ix & idx & m & ->); [repeat eexists|]. eexists; reflexivity.
  - (* Decimal *)
    destruct (ctype c) eqn:T; try discriminate A. destruct (precision_known precision ltac:(cbn [nameable] in NM; lia)) as (nb & ->). eexists; reflexivity.
  - (* Enum8 *) destruct (ctype c) eqn:T; try discriminate A. eexists; reflexivity.
  - (* Enum16 *) destruct (ctype c) eqn:T; try discriminate A. eexists; reflexivity.
  - (* SimpleAggregateFunction *)
    destruct CV as [CV|CV]; [apply eqb_sqltype in CV; congruence|].
    assert (forall g s, ctype c <> TAgg g s) as NA.
    { intros g s T. rewrite T in A. destruct NM as [_ NM]. destruct dst; try discriminate A; contradiction NM. }
    destruct (IHdst c vs ws W B HH A) as (c' & E'); auto.
    + apply mapO_Forall2. apply mapO_Forall2 in HM. eapply F2_impl; [|exact HM]. intros v w R. cbn [converted] in R. rewrite EQ in R.
      destruct (ctype c) eqn:T; try exact R. exfalso. eapply NA. reflexivity.
    + apply NM.
    + rewrite E'. eexists; reflexivity.
Qed.
End Total.
