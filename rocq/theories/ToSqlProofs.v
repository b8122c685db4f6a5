(** Writing Rust values into rows: lemmas behind PropToSql.v. *)
From Verif Require Import Base Bytes Utf8 Types Decimal DateTime Values TypeNames Columns SpecColumns Block FromSql ToSql SpecToSql.
From Verif Require Import PushProofs FromSqlProofs BlockOpsProofs.
Open Scope nat_scope.

Lemma get_days_small d : (0 <= d < 65536)%Z -> get_days d = Z.to_N d.
Proof. intros H. unfold get_days, to_unsigned. rewrite Z.mod_small; [reflexivity|]. exact H. Qed.

(** Keys of maps. *)
Definition key_of (x : rval) : value :=
  match x with XNum s z => VNum s z | XText b => VString b | _ => VString [] end.
Lemma key_good h x tz c : good_key h = true -> has_typed h x -> from_type (sql_type_of h) tz = Ok c ->
  has_value h x = Ok (key_of x) /\ map_key (key_of x) = true /\ reads_as c (key_of x) = Some (key_of x) /\
  from_sql (has_rust h) (key_of x) = Ok x /\ whole x = x /\ cells x = 1%N.
Proof.
  intros G T F. destruct h; try discriminate G; destruct x; try contradiction T; cbn in F; injection F as <-; cbn in *.
  - destruct T as [-> T]. destruct (scalar_eq_dec s s); [|congruence]. repeat split; auto.
  - unfold as_str. rewrite T. repeat split; auto.
Qed.
Lemma key_same h x y : good_key h = true -> has_typed h x -> has_typed h y ->
  same_key (key_of x) (key_of y) = true -> x = y.
Proof.
  intros G Tx Ty. destruct h; try discriminate G; destruct x; try contradiction Tx; destruct y; try contradiction Ty;
    cbn [key_of same_key]; intros H.
  - destruct (scalar_eq_dec s0 s1); [|discriminate H]. apply Z.eqb_eq in H. congruence.
  - unfold bytes_eqb in H. destruct (bytes_eq_dec b b0); [|discriminate H]. congruence.
Qed.
Lemma keys_distinct h ks : good_key h = true -> Forall (has_typed h) ks -> NoDup ks ->
  distinct_keys (map key_of ks) = true.
Proof.
  intros G F D. induction D as [|k ks N D IH]; [reflexivity|].
  apply Forall_cons_iff in F. destruct F as [F1 F2]. cbn [map distinct_keys]. rewrite (IH F2), andb_true_r.
  apply andb_true_iff. split.
  - assert (exists c, from_type (sql_type_of h) [] = Ok c) as [c E].
    { destruct h; try discriminate G; eexists; reflexivity. }
    apply (key_good h k [] c G F1 E).
  - apply negb_true_iff. destruct (existsb _ _) eqn:E; [|reflexivity].
    apply existsb_exists in E. destruct E as (y & Hy & S). apply in_map_iff in Hy. destruct Hy as (z & <- & Hz).
    rewrite Forall_forall in F2. pose proof (key_same h k z G F1 (F2 z Hz) S) as ->. contradiction.
Qed.

Lemma value_same_key a b : map_key a = true -> map_key b = true -> value_eq a b = Ok (same_key a b).
Proof.
  destruct a; try discriminate; destruct b; try discriminate; cbn [map_key same_key value_eq]; intros Ha Hb; try reflexivity.
  destruct s; try discriminate Ha; destruct (scalar_eq_dec _ s0); reflexivity.
Qed.
Lemma value_hash_key k : map_key k = true -> value_hashable k = true.
Proof. destruct k; try discriminate; cbn; try reflexivity. destruct s; try discriminate; reflexivity. Qed.
Lemma value_put_new m k v : map_key k = true ->
  (forall x, In x (map fst m) -> map_key x = true /\ same_key x k = false) -> value_put m k v = Ok (m ++ [(k, v)]).
Proof.
  intros Hk. induction m as [|[k' v'] m IH]; intros H; [reflexivity|].
  destruct (H k' (or_introl eq_refl)) as [H1 H2]. cbn [value_put]. rewrite value_same_key, H2 by assumption.
  cbn [rbind]. rewrite IH; [reflexivity|]. intros x Hx. apply H. right. exact Hx.
Qed.

Definition has_loop (hk hv : htype) :=
  fix loop (kvs : list (rval * rval)) (m : list (value * value)) : res (list (value * value)) :=
    match kvs with
    | [] => Ok m
    | (k, v) :: kvs' =>
        do k' <- has_value hk k; do v' <- has_value hv v;
        do m' <- value_insert m k' v'; loop kvs' m'
    end.
Lemma has_value_map hk hv kvs : has_value (HMap hk hv) (XMap kvs) =
  do m <- has_loop hk hv kvs []; Ok (VMap (sql_type_of hk) (sql_type_of hv) m).
Proof. reflexivity. Qed.
Lemma has_loop_ok hk hv : forall kvs pvs m,
  Forall2 (fun kv pv => has_value hk (fst kv) = Ok (fst pv) /\ has_value hv (snd kv) = Ok (snd pv)) kvs pvs ->
  distinct_keys (map fst (m ++ pvs)) = true -> has_loop hk hv kvs m = Ok (m ++ pvs).
Proof.
  induction kvs as [|[k v] kvs IH]; intros pvs m F D; inversion F; subst; cbn [has_loop].
  - rewrite app_nil_r. reflexivity.
  - destruct y as [k' v']. cbn [fst snd] in *. destruct H1 as [-> ->]. cbn [rbind].
    rewrite map_app in D. cbn [map fst] in D. destruct (distinct_app _ _ D) as (D1 & D2 & D3 & D4).
    cbn [forallb] in D2. apply andb_true_iff in D2. destruct D2 as [D2 D2'].
    unfold value_insert. rewrite value_hash_key, value_put_new; try exact D2.
    + cbn [rbind]. fold (has_loop hk hv). rewrite (IH l' (m ++ [(k', v')]) H3).
      * rewrite <- app_assoc. reflexivity.
      * rewrite <- app_assoc. cbn [app]. rewrite map_app. exact D.
    + intros x Hx. split; [rewrite forallb_forall in D1; apply D1, Hx|apply D4; [exact Hx|left; reflexivity]].
Qed.
Lemma from_loop_ok rk rv : forall kvs xs done m,
  Forall2 (fun kv x => from_sql rk (fst kv) = Ok (fst x) /\ from_sql rv (snd kv) = Ok (snd x)) kvs xs ->
  distinct_keys (map fst (done ++ kvs)) = true -> read_from rk done m ->
  from_loop rk rv kvs m = Ok (m ++ xs).
Proof.
  induction kvs as [|[k v] kvs IH]; intros xs done m F D R; inversion F; subst.
  - cbn [from_loop]. rewrite app_nil_r. reflexivity.
  - destruct y as [k' v']. cbn [fst snd] in *. destruct H1 as [E1 E2].
    rewrite (from_loop_step rk rv done k v kvs m D R), E1. cbn [rbind]. rewrite E2. cbn [rbind].
    rewrite (IH l' (done ++ [(k, v)]) (m ++ [(k', v')]) H3).
    + rewrite <- app_assoc. reflexivity.
    + rewrite <- app_assoc. exact D.
    + apply Forall2_app; [exact R|]. repeat constructor. exact E1.
Qed.

Lemma from_type_has h tz : exists c, from_type (sql_type_of h) tz = Ok c.
Proof.
  induction h as [s| | | |k [ck IHk] v [cv IHv]]; cbn; try (eexists; reflexivity).
  rewrite IHk. cbn [rbind]. rewrite IHv. eexists. reflexivity.
Qed.
Lemma no_empty_has h : no_empty_rows (sql_type_of h).
Proof. induction h; cbn; auto. Qed.

Definition pair_reads (ck cv : col) (kv : value * value) : option (value * value) :=
  match reads_as ck (fst kv), reads_as cv (snd kv) with Some k, Some x => Some (k, x) | _, _ => None end.

Lemma has_good h : forall x tz c, has_typed h x -> has_room h x -> from_type (sql_type_of h) tz = Ok c ->
  exists v w, has_value h x = Ok v /\ type_of_value v = sql_type_of h /\ weight v = cells x /\
    reads_as c v = Some w /\ from_sql (has_rust h) w = Ok (whole x).
Proof.
  induction h as [s| | | |hk IHk hv IHv]; intros x tz c T R F.
  - destruct x; try contradiction T. cbn in F. injection F as <-. destruct T as [-> T].
    exists (VNum s z), (VNum s z). cbn. destruct (scalar_eq_dec s s); [|congruence]. auto.
  - destruct x; try contradiction T. cbn in F. injection F as <-. cbn in T.
    exists (VString b), (VString b). cbn. unfold as_str. rewrite T. auto.
  - destruct x; try contradiction T. cbn in F. injection F as <-. cbn [has_room] in R.
    exists (VDate (get_days days)), (VDate (get_days days)). rewrite (get_days_small _ R).
    cbn [has_value type_of_value weight cells reads_as from_sql has_rust whole sql_type_of].
    rewrite (get_days_small _ R). destruct (N.ltb_spec (Z.to_N days) 65536); [|lia].
    rewrite Z2N.id by lia. auto.
  - destruct x; try contradiction T. cbn in F. injection F as <-. cbn [has_room] in R.
    exists (VChrono secs nanos tz0), (VDateTime (Z.to_N secs) tz0).
    cbn [has_value type_of_value weight cells reads_as from_sql has_rust whole sql_type_of into_time].
    destruct (Z.leb_spec 0 secs); [|lia]. destruct (Z.ltb_spec secs (2 ^ 32)); [|lia].
    rewrite Z2N.id by lia. cbn [andb]. auto.
  - destruct x; try contradiction T. cbn [sql_type_of from_type] in F. inv_do F. inv_do F. injection F as <-.
    cbn [has_typed] in T. destruct T as [Nd T]. cbn [has_room] in R. destruct R as [G R].
    assert (K : exists pvs pws,
      Forall2 (fun kv pv => has_value hk (fst kv) = Ok (fst pv) /\ has_value hv (snd kv) = Ok (snd pv)) kvs pvs /\
      mapO (pair_reads x x0) pvs = Some pws /\
      map fst pvs = map key_of (map fst kvs) /\ map fst pws = map key_of (map fst kvs) /\
      fold_right (fun kv n => (weight (fst kv) + weight (snd kv) + n)%N) 0%N pvs = cells (XMap kvs) /\
      Forall2 (fun kv y => from_sql (has_rust hk) (fst kv) = Ok (fst y) /\ from_sql (has_rust hv) (snd kv) = Ok (snd y))
        pws (map (fun kv => (whole (fst kv), whole (snd kv))) kvs)).
    { clear Nd. induction kvs as [|[k v] kvs IH]; [exists [], []; repeat split; constructor|].
      apply Forall_cons_iff in T. destruct T as [[T1 T2] T]. apply Forall_cons_iff in R. destruct R as [R1 R].
      cbn [fst snd] in *. destruct (IH T R) as (pvs & pws & A1 & A2 & A3 & A4 & A5 & A6).
      destruct (key_good hk k tz x G T1 E) as (K1 & K2 & K3 & K4 & K5 & K6).
      destruct (IHv v tz x0 T2 R1 E0) as (v' & w' & V1 & V2 & V3 & V4 & V5).
      exists ((key_of k, v') :: pvs), ((key_of k, w') :: pws).
      split; [constructor; cbn [fst snd]; auto|].
      split; [cbn [mapO]; unfold pair_reads at 1; cbn [fst snd]; rewrite K3, V4, A2; reflexivity|].
      split; [cbn [map fst]; congruence|]. split; [cbn [map fst]; congruence|]. split.
      - cbn [fold_right fst snd]. rewrite A5, V3. cbn [cells fold_right fst snd]. rewrite K6.
        replace (weight (key_of k)) with 1%N; [reflexivity|]. destruct k; reflexivity.
      - cbn [map fst snd]. constructor; [cbn [fst snd]; rewrite K5; auto|exact A6]. }
    destruct K as (pvs & pws & A1 & A2 & A3 & A4 & A5 & A6).
    assert (D : distinct_keys (map key_of (map fst kvs)) = true).
    { apply (keys_distinct hk); auto. rewrite Forall_map. eapply Forall_impl; [|exact T]. intros a [Ha _]. exact Ha. }
    exists (VMap (sql_type_of hk) (sql_type_of hv) pvs), (VMap (ctype x) (ctype x0) pws).
    split; [rewrite has_value_map, (has_loop_ok hk hv kvs pvs [] A1); [reflexivity|cbn [app]; congruence]|].
    split; [reflexivity|]. split; [exact A5|]. split.
    + cbn [reads_as]. fold (pair_reads x x0). change (fun kv => match reads_as x (fst kv) with
        | Some k => match reads_as x0 (snd kv) with Some y => Some (k, y) | None => None end | None => None end) with (pair_reads x x0).
      rewrite A2, A4, D. reflexivity.
    + cbn [has_rust]. rewrite from_sql_map.
      rewrite (from_loop_ok (has_rust hk) (has_rust hv) pws _ [] [] A6); [reflexivity| |constructor].
      cbn [app]. congruence.
Qed.

(** Vectors of text and of numbers. *)
Lemma elems_good h e tz c : (h = HText /\ e = EString \/ exists s, h = HNum s /\ e = ENum s) ->
  from_type (sql_type_of h) tz = Ok c -> forall xs, Forall (has_typed h) xs ->
  exists vs, mapM (has_value h) xs = Ok vs /\ fold_right (fun x n => (weight x + n)%N) 0%N vs = cells (XVec xs) /\
    mapO (reads_as c) vs = Some vs /\ mapM (elem_from e) vs = Ok (map whole xs).
Proof.
  intros He F xs T. induction T as [|x xs T Ts IH]; [exists []; repeat split|].
  destruct IH as (vs & A1 & A2 & A3 & A4).
  assert (exists v, has_value h x = Ok v /\ weight v = cells x /\ reads_as c v = Some v /\ elem_from e v = Ok (whole x))
    as (v & B1 & B2 & B3 & B4).
  { destruct He as [[-> ->]|(s & -> & ->)]; destruct x; try contradiction T; cbn in F; injection F as <-; cbn in T.
    - exists (VString b). cbn. unfold as_str. rewrite T. auto.
    - destruct T as [-> T]. exists (VNum s z). cbn. destruct (scalar_eq_dec s s); [|congruence]. auto. }
  exists (v :: vs). cbn [mapM mapO map]. rewrite B1, B3, B4. cbn [rbind]. rewrite A1, A3, A4. cbn [rbind].
  repeat split. cbn [fold_right cells]. rewrite B2, A2. reflexivity.
Qed.

Lemma reads_array inner offs t vs : reads_as (CArray inner offs) (VArray t vs) =
  match mapO (reads_as inner) vs with Some ws => Some (VArray (ctype inner) ws) | None => None end.
Proof. reflexivity. Qed.

Lemma into_there w x : typed w x -> room w x -> exists v c, into_value w x = Ok v /\
  from_type (type_of_value v) (extract_timezone v) = Ok c /\ no_empty_rows (type_of_value v).
Proof.
  intros T R. destruct w; cbn [typed room] in T, R.
  - destruct (from_type_has h []) as [c0 F0]. destruct (has_good h x [] c0 T R F0) as (v & w & A1 & A2 & _).
    destruct (from_type_has h (extract_timezone v)) as [c F]. exists v, c.
    cbn [into_value]. rewrite A2. auto using no_empty_has.
  - destruct x; try contradiction T. destruct R as [R _]. exists (VDecimal d).
    cbn [into_value type_of_value from_type]. rewrite R. eexists. repeat split.
  - destruct x; try contradiction T. exists (VEnum8 [] z). eexists. repeat split.
  - destruct x; try contradiction T. exists (VEnum16 [] z). eexists. repeat split.
  - destruct x; try contradiction T. exists (VDateTime (as_u32 secs) utc). eexists. repeat split.
  - destruct x; try contradiction T. exists (VString b). eexists. repeat split.
  - destruct x; try contradiction T.
    destruct (elems_good HText EString [] _ (or_introl (conj eq_refl eq_refl)) eq_refl xs T) as (vs & A1 & _).
    exists (VArray TString vs). eexists. cbn [into_value]. rewrite A1. repeat split.
  - destruct x; try contradiction T. destruct T as (T1 & T2 & T).
    destruct (elems_good (HNum s) (ENum s) [] _ (or_intror (ex_intro _ s (conj eq_refl eq_refl))) eq_refl xs T) as (vs & A1 & _).
    exists (VArray (TNum s) vs). eexists. cbn [into_value]. rewrite A1. repeat split.
  - destruct x; try contradiction T. exists (VUuid (flip_halves b)). eexists. repeat split.
  - contradiction R.
  - destruct x; try contradiction T. exists (VIpv6 b). eexists. repeat split.
  - destruct x; try contradiction T. destruct o as [y|].
    + destruct (from_type_has h []) as [c0 F0]. destruct (has_good h y [] c0 T R F0) as (v & w & A1 & A2 & _).
      destruct (from_type_has h (extract_timezone (VSome v))) as [c F].
      exists (VSome v), (CNullable c []). cbn [into_value]. rewrite A1. cbn [rbind type_of_value from_type no_empty_rows].
      rewrite A2, F. auto using no_empty_has.
    + destruct (from_type_has h (extract_timezone (VNull (sql_type_of h)))) as [c F].
      exists (VNull (sql_type_of h)), (CNullable c []). cbn [into_value type_of_value from_type no_empty_rows].
      rewrite F. auto using no_empty_has.
Qed.

Lemma flip_flip b : length b = 16 -> flip_halves (flip_halves b) = b.
Proof.
  intros H. unfold flip_halves.
  assert (L : length (rev (firstn 8 b)) = 8) by (rewrite rev_length, firstn_length; lia).
  rewrite firstn_app, skipn_app, L. replace (8 - 8) with 0 by lia.
  rewrite (firstn_all2 (rev (firstn 8 b))), (skipn_all2 (rev (firstn 8 b))) by lia.
  rewrite firstn_O, skipn_O, app_nil_r, app_nil_l, !rev_involutive.
  apply firstn_skipn.
Qed.
Lemma flip_length b : length b = 16 -> length (flip_halves b) = 16.
Proof. intros H. unfold flip_halves. rewrite app_length, !rev_length, firstn_length, skipn_length. lia. Qed.

Lemma default_reads h tz c : from_type (sql_type_of h) tz = Ok c -> exists w, reads_as c (value_default (sql_type_of h)) = Some w.
Proof.
  destruct h; cbn [sql_type_of from_type value_default]; intros F.
  - injection F as <-. cbn. destruct (scalar_eq_dec s s); [|congruence]. eauto.
  - injection F as <-. cbn. eauto.
  - injection F as <-. cbn. eauto.
  - injection F as <-. eexists. reflexivity.
  - inv_do F. inv_do F. injection F as <-. cbn. eauto.
Qed.

Lemma into_good w x0 x v0 c : typed w x0 -> room w x0 -> typed w x -> room w x -> one_kind x0 x ->
  into_value w x0 = Ok v0 -> from_type (type_of_value v0) (extract_timezone v0) = Ok c ->
  exists v u, into_value w x = Ok v /\ weight v = cells x /\ reads_as c v = Some u /\
    from_sql (rust w) u = Ok (kept w x).
Proof.
  intros T0 R0 T R A I0 F. destruct w; cbn [typed room] in *.
  - destruct (from_type_has h []) as [c0 F0]. destruct (has_good h x0 [] c0 T0 R0 F0) as (v' & w' & A1 & A2 & _).
    cbn [into_value] in *. rewrite I0 in A1. injection A1 as <-. rewrite A2 in F.
    destruct (has_good h x _ c T R F) as (v & u & B1 & B2 & B3 & B4 & B5). exists v, u.
    cbn [rust]. rewrite B5. auto.
  - destruct x0; try contradiction T0. destruct x; try contradiction T. injection I0 as <-.
    cbn [type_of_value from_type] in F. destruct R0 as [R0 R0']. rewrite R0 in F. injection F as <-.
    destruct R as [R R']. destruct A as [Ap As]. rewrite Ap in R0. rewrite R0 in R. injection R as Rn.
    exists (VDecimal d0). eexists. split; [reflexivity|]. split; [reflexivity|]. cbn [reads_as].
    rewrite As, N.eqb_refl. cbn [andb].
    assert (B : match d_nobits d with
      | N32 => ((- 2 ^ 31 <=? d_underlying d0) && (d_underlying d0 <? 2 ^ 31))%Z | N64 => true end = true).
    { rewrite Rn. destruct (d_nobits d0); [|reflexivity]. specialize (R' eq_refl).
      apply andb_true_iff. split; [apply Z.leb_le|apply Z.ltb_lt]; lia. }
    rewrite B. split; [reflexivity|]. cbn [rust from_sql kept whole]. rewrite Rn, Ap. destruct d0. reflexivity.
  - destruct x0; try contradiction T0. destruct x; try contradiction T. injection I0 as <-. injection F as <-.
    exists (VEnum8 [] z0). eexists. repeat split.
  - destruct x0; try contradiction T0. destruct x; try contradiction T. injection I0 as <-. injection F as <-.
    exists (VEnum16 [] z0). eexists. repeat split.
  - destruct x0; try contradiction T0. destruct x; try contradiction T. injection I0 as <-. injection F as <-.
    exists (VDateTime (as_u32 secs0) utc), (VDateTime (as_u32 secs0) utc).
    split; [reflexivity|]. split; [reflexivity|]. rewrite (as_u32_nonneg _ R). cbn [reads_as].
    destruct (N.ltb_spec (Z.to_N secs0) (2 ^ 32)); [|lia]. split; [reflexivity|].
    cbn [rust from_sql into_time kept whole]. rewrite Z2N.id by lia. destruct T as [_ ->]. reflexivity.
  - destruct x0; try contradiction T0. destruct x; try contradiction T. injection I0 as <-. injection F as <-.
    exists (VString b0), (VString b0). repeat split.
  - destruct x0; try contradiction T0. destruct x; try contradiction T.
    cbn [into_value] in *. inv_do I0. injection I0 as <-. injection F as <-.
    destruct (elems_good HText EString [] _ (or_introl (conj eq_refl eq_refl)) eq_refl xs0 T) as (vs & A1 & A2 & A3 & A4).
    exists (VArray TString vs), (VArray TString vs). rewrite A1. split; [reflexivity|]. split; [exact A2|].
    split; [rewrite reads_array, A3; reflexivity|]. cbn [rust from_sql elem_tag kept whole].
    rewrite A4. reflexivity.
  - destruct x0; try contradiction T0. destruct x; try contradiction T. destruct T as (_ & _ & T).
    cbn [into_value] in *. inv_do I0. injection I0 as <-. injection F as <-.
    destruct (elems_good (HNum s) (ENum s) [] _ (or_intror (ex_intro _ s (conj eq_refl eq_refl))) eq_refl xs0 T)
      as (vs & A1 & A2 & A3 & A4).
    exists (VArray (TNum s) vs), (VArray (TNum s) vs). rewrite A1. split; [reflexivity|]. split; [exact A2|].
    split; [rewrite reads_array, A3; reflexivity|]. cbn [rust from_sql elem_tag kept whole].
    destruct (scalar_eq_dec s s); [|congruence]. rewrite A4. reflexivity.
  - destruct x0; try contradiction T0. destruct x; try contradiction T. injection I0 as <-. injection F as <-.
    exists (VUuid (flip_halves b0)), (VUuid (flip_halves b0)). split; [reflexivity|]. split; [reflexivity|].
    cbn [reads_as]. rewrite (flip_length _ T). split; [reflexivity|]. cbn [rust from_sql kept whole].
    rewrite (flip_flip _ T). reflexivity.
  - contradiction R.
  - destruct x0; try contradiction T0. destruct x; try contradiction T. injection I0 as <-. injection F as <-.
    exists (VIpv6 b0), (VIpv6 b0). cbn [reads_as]. rewrite T. repeat split.
  - destruct x0 as [| | | | | | | | | | |o0| |]; try contradiction T0.
    assert (exists i, c = CNullable i [] /\ exists tz, from_type (sql_type_of h) tz = Ok i) as (i & -> & tz & Fi).
    { destruct o0 as [y0|]; cbn [into_value] in I0.
      - inv_do I0. injection I0 as <-. destruct (from_type_has h []) as [c0 F0].
        destruct (has_good h y0 [] c0 T0 R0 F0) as (v' & w' & A1 & A2 & _).
        rewrite E in A1. injection A1 as <-. cbn [type_of_value from_type] in F. inv_do F. injection F as <-.
        rewrite A2 in E0. eauto.
      - injection I0 as <-. cbn [type_of_value from_type] in F. inv_do F. injection F as <-. eauto. }
    destruct x as [| | | | | | | | | | |o| |]; try contradiction T. destruct o as [y|].
    + destruct (has_good h y tz i T R Fi) as (v & u & B1 & B2 & B3 & B4 & B5).
      exists (VSome v), (VSome u). cbn [into_value]. rewrite B1. split; [reflexivity|]. split; [exact B3|].
      cbn [reads_as]. rewrite B4. split; [reflexivity|]. cbn [rust from_sql kept whole]. rewrite B5. reflexivity.
    + destruct (default_reads h tz i Fi) as [w W].
      exists (VNull (sql_type_of h)), (VNull (ctype i)). cbn [into_value]. split; [reflexivity|]. split; [reflexivity|].
      cbn [reads_as]. rewrite W. split; reflexivity.
Qed.

(** Rows. *)
Lemma find_name_at k (pre : list column) c post : ~ In k (map fst pre) -> forall i,
  find_name k (pre ++ (k, c) :: post) i = Some (i + length pre).
Proof.
  intros H i. destruct (find_name k (pre ++ (k, c) :: post) i) as [j|] eqn:E.
  - f_equal. revert i E. induction pre as [|[n d] pre IH]; intros i; cbn [app find_name length]; intros E.
    + unfold bytes_eqb in E. destruct (bytes_eq_dec k k); [|congruence]. injection E as <-. lia.
    + unfold bytes_eqb in E. destruct (bytes_eq_dec n k) as [->|].
      * contradiction H. left. reflexivity.
      * apply IH in E; [lia|]. intros I. apply H. right. exact I.
  - apply find_name_none in E. contradiction E. rewrite map_app. apply in_or_app. right. left. reflexivity.
Qed.
Lemma push_at_ok (pre : list column) k c post v c' : push c v = Ok c' ->
  push_at (pre ++ (k, c) :: post) (length pre) v = Ok (pre ++ (k, c') :: post).
Proof.
  intros H. induction pre as [|[n d] pre IH]; cbn [app push_at length].
  - rewrite H. reflexivity.
  - rewrite IH. reflexivity.
Qed.

Inductive row_step : list column -> list (bytes * value) -> list column -> Prop :=
| RS0 : row_step [] [] []
| RS1 k c v c' cs fs cs' : push c v = Ok c' -> row_step cs fs cs' ->
    row_step ((k, c) :: cs) ((k, v) :: fs) ((k, c') :: cs').

Lemma row_step_names cs fs cs' : row_step cs fs cs' -> map fst cs' = map fst cs.
Proof. induction 1; cbn [map fst]; congruence. Qed.

Lemma push_row_step cs fs cs' : row_step cs fs cs' -> forall info pre, NoDup (map fst (pre ++ cs)) ->
  push_row fs (mk_block info (pre ++ cs)) = Ok (mk_block info (pre ++ cs')).
Proof.
  induction 1 as [|k c v c' cs fs cs' H R IH]; intros info pre D; [reflexivity|].
  cbn [push_row]. unfold put_param. cbn [b_cols b_info].
  assert (~ In k (map fst pre)) as Nk.
  { rewrite map_app in D. cbn [map fst] in D. apply NoDup_remove_2 in D. intros I. apply D, in_or_app. auto. }
  rewrite find_name_at by exact Nk. cbn [Nat.add]. rewrite (push_at_ok _ _ _ _ _ _ H). cbn [rbind].
  specialize (IH info (pre ++ [(k, c')])). rewrite <- !app_assoc in IH. cbn [app] in IH. apply IH.
  rewrite map_app in *. exact D.
Qed.

(** The first row makes the columns. *)
Lemma push_row_first cs fs cs' : row_step cs fs cs' ->
  Forall2 (fun kc kv => from_type (type_of_value (snd kv)) (extract_timezone (snd kv)) = Ok (snd kc)) cs fs ->
  Forall (fun kc => clen (snd kc) = Ok 1) cs' -> forall info pre, NoDup (map fst (pre ++ cs)) ->
  Forall (fun kc => clen (snd kc) = Ok 1) pre ->
  push_row fs (mk_block info pre) = Ok (mk_block info (pre ++ cs')).
Proof.
  induction 1 as [|k c v c' cs fs cs' H R IH]; intros F L info pre D Lp.
  - rewrite app_nil_r. reflexivity.
  - inversion F as [|? ? ? ? F1 F2]; subst. cbn [snd] in F1. apply Forall_cons_iff in L. destruct L as [L1 L2].
    cbn [push_row]. unfold put_param. cbn [b_cols b_info].
    assert (~ In k (map fst pre)) as Nk.
    { rewrite map_app in D. cbn [map fst] in D. apply NoDup_remove_2 in D. intros I. apply D, in_or_app. auto. }
    destruct (find_name k pre 0) as [j|] eqn:E.
    { rewrite (proj2 (find_name_none k pre 0) Nk) in E. discriminate E. }
    assert (exists n, row_count (mk_block info pre) = Ok n /\ n <= 1) as (n & En & Hn).
    { destruct pre as [|[m d] pre]; [exists 0; split; [reflexivity|lia]|].
      apply Forall_cons_iff in Lp. exists 1. split; [apply Lp|lia]. }
    rewrite En. cbn [rbind]. destruct (Nat.leb_spec n 1); [|lia]. rewrite F1. cbn [rbind].
    rewrite (push_at_ok pre k c [] v c' H). cbn [rbind].
    specialize (IH F2 L2 info (pre ++ [(k, c')])). rewrite <- !app_assoc in IH. cbn [app] in IH. apply IH.
    + rewrite map_app in *. exact D.
    + apply Forall_app. split; [exact Lp|]. constructor; [exact L1|constructor].
Qed.

(** What is known of a column after some rows. *)
Definition ready (w : wtype) (x0 : rval) (c0 : col) : Prop :=
  wf c0 /\ clen c0 = Ok 0 /\ low_rows c0 = 0%N /\
  forall x, typed w x -> room w x -> one_kind x0 x ->
    exists v u, into_value w x = Ok v /\ weight v = cells x /\ reads_as c0 v = Some u /\
      from_sql (rust w) u = Ok (kept w x).
(** The column started from the type of the first value. *)
Definition started (w : wtype) (x0 : rval) (c0 : col) : Prop :=
  typed w x0 /\ room w x0 /\ exists v0, into_value w x0 = Ok v0 /\
    from_type (type_of_value v0) (extract_timezone v0) = Ok c0 /\ no_empty_rows (type_of_value v0).
(** It was made by pushing the values. *)
Definition was_pushed (rows : list (list rval)) (j : nat) (w : wtype) (c0 c : col) (ws : list value) : Prop :=
  exists vs, push_each push c0 vs = Ok c /\ mapO (reads_as c0) vs = Some ws /\ (weights vs <= total rows)%N /\
    forall i row x, nth_error rows i = Some row -> nth_error row j = Some x ->
      exists v, nth_error vs i = Some v /\ into_value w x = Ok v.
Definition col_made (rows : list (list rval)) (j : nat) (w : wtype) (c0 c : col) : Prop :=
  exists k ws, step c0 k ws c /\ (k <= total rows)%N /\ length ws = length rows /\
    (forall i row x, nth_error rows i = Some row -> nth_error row j = Some x ->
      exists u, nth_error ws i = Some u /\ from_sql (rust w) u = Ok (kept w x)) /\
    was_pushed rows j w c0 c ws.
Inductive cols_ok (rows : list (list rval)) : nat -> list (bytes * wtype) -> list rval -> list column -> Prop :=
| CO0 j : cols_ok rows j [] [] []
| CO1 j k w x0 c0 c fs x0s cs : ready w x0 c0 -> started w x0 c0 -> col_made rows j w c0 c -> cols_ok rows (S j) fs x0s cs ->
    cols_ok rows j ((k, w) :: fs) (x0 :: x0s) ((k, c) :: cs).

Definition sum_cells (xs : list rval) : N := fold_right (fun x m => (cells x + m)%N) 0%N xs.
Lemma total_snoc rows row : total (rows ++ [row]) = (total rows + sum_cells row)%N.
Proof.
  unfold total. induction rows as [|r rows IH]; cbn [app fold_right].
  - unfold sum_cells. lia.
  - rewrite IH. lia.
Qed.
Lemma cells_le xs j x : nth_error xs j = Some x -> (cells x <= sum_cells xs)%N.
Proof.
  revert j. induction xs as [|y xs IH]; intros [|j] H; try discriminate H; cbn [nth_error sum_cells fold_right] in *.
  - injection H as ->. lia.
  - apply IH in H. unfold sum_cells in H. lia.
Qed.

Lemma push_each_app c vs vs' c' : push_each push c vs = Ok c' -> push_each push c (vs ++ vs') = push_each push c' vs'.
Proof.
  revert c. induction vs as [|v vs IH]; intros c H; cbn [app push_each] in *; [injection H as ->; reflexivity|].
  destruct (push c v) as [c1| |]; [cbn [rbind] in *; exact (IH c1 H)|discriminate H|discriminate H].
Qed.
Lemma weights_app vs vs' : weights (vs ++ vs') = (weights vs + weights vs')%N.
Proof. unfold weights. induction vs as [|v vs IH]; cbn [app fold_right]; [reflexivity|rewrite IH; lia]. Qed.

Lemma cols_step rows row j fs x0s cs : cols_ok rows j fs x0s cs ->
  (total rows + sum_cells row < 2 ^ 64)%N ->
  forall xs, (forall n x, nth_error xs n = Some x -> nth_error row (j + n) = Some x) ->
  Forall2 (fun f x => typed (snd f) x /\ room (snd f) x) fs xs -> Forall2 one_kind x0s xs ->
  exists fields cs', row_fields fs xs = Ok fields /\ row_step cs fields cs' /\
    cols_ok (rows ++ [row]) j fs x0s cs'.
Proof.
  intros C B. induction C as [j|j k w x0 c0 c fs x0s cs Rd St Ck C IH]; intros xs Hx T K.
  - inversion T; subst. exists [], []. repeat split; constructor.
  - inversion T as [|? x ? xs' [T1 T2] T3]; subst. inversion K as [|? ? ? ? K1 K2]; subst. cbn [snd] in *.
    assert (Hj : nth_error row j = Some x) by (rewrite <- (Nat.add_0_r j); apply (Hx 0); reflexivity).
    destruct (IH xs') as (fields & cs' & A1 & A2 & A3); auto.
    { intros n y Hn. replace (S j + n) with (j + S n) by lia. apply Hx, Hn. }
    destruct Rd as (Rw & Rl & Rr & Rx). destruct (Rx x T1 T2 K1) as (v & u & V1 & V2 & V3 & V4).
    destruct Ck as (q & ws & S & Hq & Lw & Cells & vs & Pv & Mv & Wv & Hv).
    destruct (push_step c c v u (similar_refl c) (st_wf _ _ _ _ S)) as (c' & P & S').
    { rewrite (st_reads _ _ _ _ S). exact V3. }
    { pose proof (st_rows _ _ _ _ S). pose proof (cells_le row j x Hj). lia. }
    exists ((k, v) :: fields), ((k, c') :: cs'). split; [|split].
    + unfold row_fields in *. cbn [combine mapM fst snd]. rewrite V1. cbn [rbind]. rewrite A1. reflexivity.
    + constructor; [exact P|exact A2].
    + econstructor; [split; [exact Rw|split; [exact Rl|split; [exact Rr|exact Rx]]]|exact St| |exact A3].
      exists (q + weight v)%N, (ws ++ [u]). split; [eapply step_trans; eassumption|].
      split; [rewrite total_snoc; pose proof (cells_le row j x Hj); lia|].
      split; [rewrite !app_length, Lw; reflexivity|].
      assert (length vs = length rows) as Lv by (rewrite <- (mapO_length _ _ _ Mv); exact Lw).
      split; [|exists (vs ++ [v]); split; [rewrite (push_each_app _ _ _ _ Pv); cbn [push_each]; change (push_as c c v) with (push c v) in P; rewrite P; reflexivity|];
        split; [apply mapO_app; [exact Mv|cbn [mapO]; rewrite V3; reflexivity]|];
        split; [rewrite weights_app, total_snoc; pose proof (cells_le row j x Hj) as Cx; unfold weights at 2; cbn [fold_right]; lia|]].
      2:{ intros i row' y Hi Hy. destruct (Nat.lt_ge_cases i (length rows)) as [L|L].
          - rewrite nth_error_app1 in Hi by exact L. destruct (Hv i row' y Hi Hy) as (v' & U1 & U2).
            exists v'. rewrite nth_error_app1 by lia. auto.
          - rewrite nth_error_app2 in Hi by exact L. destruct (i - length rows) as [|m] eqn:Em; [|destruct m; discriminate Hi].
            injection Hi as <-. rewrite Hj in Hy. injection Hy as <-. exists v.
            rewrite nth_error_app2 by lia. replace (i - length vs) with 0 by lia. auto. }
      intros i row' y Hi Hy. destruct (Nat.lt_ge_cases i (length rows)) as [L|L].
      * rewrite nth_error_app1 in Hi by exact L. destruct (Cells i row' y Hi Hy) as (u' & U1 & U2).
        exists u'. rewrite nth_error_app1 by lia. auto.
      * rewrite nth_error_app2 in Hi by exact L. destruct (i - length rows) as [|m] eqn:Em; [|destruct m; discriminate Hi].
        injection Hi as <-. rewrite Hj in Hy. injection Hy as <-. exists u.
        rewrite nth_error_app2 by lia. replace (i - length ws) with 0 by lia. auto.
Qed.

Lemma cols_names rows j fs x0s cs : cols_ok rows j fs x0s cs -> map fst cs = map fst fs.
Proof. induction 1; cbn [map fst]; congruence. Qed.

Lemma fresh_cols fs xs : Forall2 (fun f x => typed (snd f) x /\ room (snd f) x) fs xs ->
  forall j, exists cs fields, cols_ok [] j fs xs cs /\ row_fields fs xs = Ok fields /\
    Forall2 (fun kc kv => from_type (type_of_value (snd kv)) (extract_timezone (snd kv)) = Ok (snd kc)) cs fields.
Proof.
  induction 1 as [|[k w] x fs xs [T R] F IH]; intros j; cbn [snd] in *.
  - exists [], []. repeat split; constructor.
  - destruct (IH (S j)) as (cs & fields & A1 & A2 & A3).
    destruct (into_there w x T R) as (v & c & V1 & V2 & V3).
    destruct (from_type_wf _ _ _ V2 V3) as (W1 & W2 & W3).
    exists ((k, c) :: cs), ((k, v) :: fields). split; [|split].
    + apply (CO1 _ j k w x c); [|split; [exact T|split; [exact R|exists v; auto]]|exists 0%N, []|exact A1].
      * split; [exact W1|split; [exact W2|split; [exact W3|]]]. intros y Ty Ry Ky.
        exact (into_good w x y v c T R Ty Ry Ky V1 V2).
      * split; [apply step_refl, W1|]. split; [apply N.le_0_l|]. split; [reflexivity|].
        split; [intros [|i]; discriminate|]. exists []. split; [reflexivity|]. split; [reflexivity|]. split; [apply N.le_0_l|].
        intros [|i]; discriminate.
    + unfold row_fields in *. cbn [combine mapM fst snd]. rewrite V1. cbn [rbind]. rewrite A2. reflexivity.
    + constructor; [exact V2|exact A3].
Qed.

Lemma cols_len1 row j fs x0s cs : cols_ok [row] j fs x0s cs -> Forall (fun kc => clen (snd kc) = Ok 1) cs.
Proof.
  intros H. remember [row] as rows eqn:E. induction H as [|j k w x0 c0 c fs x0s cs R St C H IH]; constructor; auto.
  subst rows. destruct R as (_ & R2 & _). destruct C as (q & ws & S & _ & L & _). cbn [snd length] in *.
  destruct (st_n _ _ _ _ S) as (n & N1 & N2 & _). rewrite R2 in N1. injection N1 as <-. rewrite N2, L. reflexivity.
Qed.

Lemma rows_more fs x0s : NoDup (map fst fs) -> forall more rows cs info,
  cols_ok rows 0 fs x0s cs -> (total (rows ++ more) < 2 ^ 64)%N ->
  Forall (fun row => Forall2 (fun f x => typed (snd f) x /\ room (snd f) x) fs row /\ Forall2 one_kind x0s row) more ->
  exists vrows cs', mapM (row_fields fs) more = Ok vrows /\
    push_rows vrows (mk_block info cs) = Ok (mk_block info cs') /\ cols_ok (rows ++ more) 0 fs x0s cs'.
Proof.
  intros D. induction more as [|row more IH]; intros rows cs info C B F.
  - exists [], cs. rewrite app_nil_r. repeat split; auto.
  - apply Forall_cons_iff in F. destruct F as [[F1 F2] F3].
    assert (E : rows ++ row :: more = (rows ++ [row]) ++ more) by (rewrite <- app_assoc; reflexivity).
    assert (B1 : (total rows + sum_cells row < 2 ^ 64)%N).
    { rewrite <- total_snoc. eapply N.le_lt_trans; [|exact B]. rewrite E. unfold total at 2.
      generalize (rows ++ [row]). clear. intros l. induction l as [|r l IH]; cbn [app total fold_right].
      - apply N.le_0_l.
      - unfold total in IH. lia. }
    destruct (cols_step rows row 0 fs x0s cs C B1 row) as (fields & cs1 & A1 & A2 & A3); auto.
    destruct (IH (rows ++ [row]) cs1 info A3) as (vrows & cs' & G1 & G2 & G3).
    { rewrite <- E. exact B. }
    { exact F3. }
    exists (fields :: vrows), cs'. split; [|split].
    + cbn [mapM]. rewrite A1. cbn [rbind]. rewrite G1. reflexivity.
    + cbn [push_rows]. change cs with ([] ++ cs) at 1. rewrite (push_row_step _ _ _ A2); [exact G2|].
      cbn [app]. rewrite (cols_names _ _ _ _ _ C). exact D.
    + rewrite E. exact G3.
Qed.

Lemma cols_at rows j fs x0s cs : cols_ok rows j fs x0s cs -> forall n k w, nth_error fs n = Some (k, w) ->
  exists c x0 c0, nth_error cs n = Some (k, c) /\ ready w x0 c0 /\ started w x0 c0 /\ col_made rows (j + n) w c0 c.
Proof.
  induction 1 as [|j k w x0 c0 c fs x0s cs R St C H IH]; intros [|n] k' w' E; try discriminate E; cbn [nth_error] in *.
  - injection E as <- <-. exists c, x0, c0. rewrite Nat.add_0_r. auto.
  - destruct (IH n k' w' E) as (c1 & x1 & c2 & A). exists c1, x1, c2. replace (j + S n) with (S j + n) by lia. exact A.
Qed.

Lemma rows_made fs rows : rows <> [] -> NoDup (map fst fs) -> (total rows < 2 ^ 64)%N ->
  Forall (Forall2 (fun f x => typed (snd f) x /\ room (snd f) x) fs) rows ->
  (forall r r', In r rows -> In r' rows -> Forall2 one_kind r r') ->
  exists vrows b, mapM (row_fields fs) rows = Ok vrows /\ push_rows vrows block_default = Ok b /\
    exists row0, In row0 rows /\ cols_ok rows 0 fs row0 (b_cols b).
Proof.
  intros NE D B F K. destruct rows as [|row0 rows]; [congruence|].
  pose proof F as F'. apply Forall_cons_iff in F. destruct F as [F0 F].
  destruct (fresh_cols fs row0 F0 0) as (cs & fields & A1 & A2 & A3).
  destruct (cols_step [] row0 0 fs row0 cs A1) with (xs := row0) as (fields' & cs1 & B1 & B2 & B3); auto.
  { cbn [total fold_right] in *. change (fold_right _ 0%N row0) with (sum_cells row0) in B. lia. }
  { apply K; left; reflexivity. }
  rewrite A2 in B1. injection B1 as <-.
  destruct (rows_more fs row0 D rows [row0] cs1 info_default B3) as (vrows & cs' & C1 & C2 & C3).
  { exact B. }
  { rewrite Forall_forall in *. intros r Hr. split; [apply F, Hr|]. apply K; [left; reflexivity|right; exact Hr]. }
  exists (fields :: vrows), (mk_block info_default cs').
  split; [cbn [mapM]; rewrite A2; cbn [rbind]; rewrite C1; reflexivity|]. split.
  { cbn [push_rows]. unfold block_default.
    rewrite (push_row_first _ _ _ B2 A3 (cols_len1 _ _ _ _ _ B3) info_default []); [exact C2| |constructor].
    cbn [app]. rewrite (cols_names _ _ _ _ _ A1). exact D. }
  exists row0. split; [left; reflexivity|exact C3].
Qed.

Lemma rows_good fs rows : NoDup (map fst fs) -> (total rows < 2 ^ 64)%N ->
  Forall (Forall2 (fun f x => typed (snd f) x /\ room (snd f) x) fs) rows ->
  (forall r r', In r rows -> In r' rows -> Forall2 one_kind r r') ->
  exists vrows b, mapM (row_fields fs) rows = Ok vrows /\ push_rows vrows block_default = Ok b /\
    (rows <> [] -> map fst (b_cols b) = map fst fs) /\
    forall i row j k w x, nth_error rows i = Some row -> nth_error fs j = Some (k, w) -> nth_error row j = Some x ->
      exists c, nth_error (b_cols b) j = Some (k, c) /\ clen c = Ok (length rows) /\
        exists u, at_ c i = Ok u /\ from_sql (rust w) u = Ok (kept w x).
Proof.
  intros D B F K. destruct rows as [|row0 rows].
  - exists [], block_default. repeat split; [intros H; congruence|]. intros [|i]; discriminate.
  - destruct (rows_made fs (row0 :: rows)) as (vrows & b & E1 & E2 & r0 & _ & C3); auto; [discriminate|].
    exists vrows, b. split; [exact E1|]. split; [exact E2|].
    split; [intros _; exact (cols_names _ _ _ _ _ C3)|].
    intros i row j k w x Hi Hj Hx. destruct (cols_at _ _ _ _ _ C3 j k w Hj) as (c & x0 & c0 & N1 & R & _ & Ck).
    exists c. split; [exact N1|]. destruct Ck as (q & ws & S & _ & L & Cells & _).
    destruct (Cells i row x Hi Hx) as (u & U1 & U2). destruct R as (_ & R2 & _).
    destruct (st_n _ _ _ _ S) as (n & M1 & M2 & _ & M4). rewrite R2 in M1. injection M1 as <-.
    split; [rewrite M2, L; reflexivity|]. exists u. split; [apply (M4 i u U1)|exact U2].
Qed.
