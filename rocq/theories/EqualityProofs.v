(** Equality of values, cells and blocks. *)
From Verif Require Import Base Bytes Wire Types Decimal DateTime Values Columns Block SpecColumns SpecBlock SpecEquality
  BlockOpsProofs PushProofs FromSqlProofs SureProofs DecimalProofs.
From Coq Require Import Lia ZArith.
Open Scope list_scope.

Definition child (x v : value) : Prop :=
  match v with
  | VSome y => x = y
  | VArray _ vs => In x vs
  | VMap _ _ kvs => exists kv, In kv kvs /\ (x = fst kv \/ x = snd kv)
  | _ => False
  end.
Lemma value_deep (P : value -> Prop) : (forall v, (forall x, child x v -> P x) -> P v) -> forall v, P v.
Proof.
  intros H. fix IH 1. intros v. apply H. destruct v; cbn [child]; try (intros x []; fail).
  - intros x ->. apply IH.
  - clear t. revert vs. fix IHl 1. intros [|y vs] x Hx; cbn in Hx; [contradiction|].
    destruct Hx as [<-|Hx]; [apply IH|apply (IHl vs x Hx)].
  - clear v k. revert kvs. fix IHl 1. intros [|y vs] x Hx; [destruct Hx as (? & [] & _)|].
    destruct y as [k y]. destruct Hx as (kv & [<-|Hi] & Hx).
    + cbn in Hx. destruct Hx as [->| ->]; apply IH.
    + apply (IHl vs x). exists kv. split; assumption.
Qed.

Definition list_eq (f : value -> value -> res bool) : list value -> list value -> res bool :=
  fix loop (xs ys : list value) : res bool :=
    match xs, ys with
    | x :: xs', y :: ys' => res_and (f x y) (loop xs' ys')
    | _, _ => Ok true
    end.
Lemma value_eq_array s xs t ys : value_eq (VArray s xs) (VArray t ys) =
  if sqltype_eqb s t then if (length xs =? length ys)%nat then list_eq value_eq xs ys else Ok false else Ok false.
Proof. reflexivity. Qed.
Lemma vref_eq_array s xs t ys : vref_eq (VArray s xs) (VArray t ys) =
  if sqltype_eqb s t then if (length xs =? length ys)%nat then list_eq vref_eq xs ys else Ok false else Ok false.
Proof. reflexivity. Qed.
Definition map_all (ys : list (value * value)) : list (value * value) -> res bool :=
  fix all (xs : list (value * value)) : res bool :=
    match xs with
    | [] => Ok true
    | (kx, vx) :: xs' => res_and (map_get kx vx ys) (all xs')
    end.
Lemma vref_eq_map k v xs k' v' ys : vref_eq (VMap k v xs) (VMap k' v' ys) =
  if negb (length xs =? length ys)%nat || negb (sqltype_eqb k k') || negb (sqltype_eqb v v') then Ok false
  else map_all ys xs.
Proof. reflexivity. Qed.

Lemma and_true a b : res_and a b = Ok true -> a = Ok true /\ b = Ok true.
Proof. unfold res_and. destruct a as [[]| |]; cbn; try discriminate. auto. Qed.
Lemma and_false a b : res_and a b = Ok false -> a = Ok false \/ b = Ok false.
Proof. unfold res_and. destruct a as [[]| |]; cbn; try discriminate; auto. Qed.

Lemma sqltype_sym a b : sqltype_eqb a b = sqltype_eqb b a.
Proof. unfold sqltype_eqb. destruct (sqltype_eq_dec a b), (sqltype_eq_dec b a); congruence. Qed.
Lemma sqltype_true a b : sqltype_eqb a b = true -> a = b.
Proof. unfold sqltype_eqb. destruct (sqltype_eq_dec a b); congruence. Qed.
Lemma bytes_sym a b : bytes_eqb a b = bytes_eqb b a.
Proof. unfold bytes_eqb. destruct (bytes_eq_dec a b), (bytes_eq_dec b a); congruence. Qed.
Lemma bytes_true a b : bytes_eqb a b = true -> a = b.
Proof. unfold bytes_eqb. destruct (bytes_eq_dec a b); congruence. Qed.
Lemma enum_sym a b : (if enum_vals_eq_dec a b then true else false) = (if enum_vals_eq_dec b a then true else false).
Proof. destruct (enum_vals_eq_dec a b), (enum_vals_eq_dec b a); congruence. Qed.

Lemma float_sym w a b : float_eqb w a b = float_eqb w b a.
Proof.
  unfold float_eqb. destruct (float_parts w) as [s i].
  rewrite (Bool.orb_comm (i <? a mod s)%Z), (Bool.andb_comm (a mod s =? 0)%Z), (Z.eqb_sym a b). reflexivity.
Qed.
Lemma scalar_sym s a b : scalar_eqb s a b = scalar_eqb s b a.
Proof. destruct s; cbn [scalar_eqb]; try apply Z.eqb_sym; apply float_sym. Qed.
Lemma float_trans w a b c : float_eqb w a b = true -> float_eqb w b c = true -> float_eqb w a c = true.
Proof.
  unfold float_eqb. destruct (float_parts w) as [s i].
  destruct (i <? a mod s)%Z, (i <? b mod s)%Z, (i <? c mod s)%Z; cbn [orb]; try discriminate.
  destruct (Z.eqb_spec (a mod s) 0), (Z.eqb_spec (b mod s) 0), (Z.eqb_spec (c mod s) 0); cbn [andb]; rewrite ?Z.eqb_eq;
    intros; subst; try congruence; reflexivity.
Qed.
Lemma scalar_trans s a b c : scalar_eqb s a b = true -> scalar_eqb s b c = true -> scalar_eqb s a c = true.
Proof.
  destruct s; cbn [scalar_eqb]; try (rewrite !Z.eqb_eq; congruence); apply float_trans.
Qed.

Lemma decimal_sym a b : decimal_eq a b = decimal_eq b a.
Proof.
  unfold decimal_eq. rewrite (N.compare_antisym (d_scale a) (d_scale b)).
  destruct (N.compare (d_scale a) (d_scale b)); cbn [CompOpp]; try reflexivity. rewrite Z.eqb_sym. reflexivity.
Qed.
(** Two decimals are found equal when bringing them to the larger scale makes them so. *)
Lemma decimal_true a b : decimal_eq a b = Ok true ->
  (d_underlying a * 10 ^ Z.of_N (d_scale b) = d_underlying b * 10 ^ Z.of_N (d_scale a))%Z.
Proof.
  unfold decimal_eq, factors10, i64_mul. destruct (N.compare_spec (d_scale a) (d_scale b)) as [E|E|E].
  - intros H. injection H as H. apply Z.eqb_eq in H. rewrite E, H. reflexivity.
  - destruct (_ <=? _)%N; cbn; [|discriminate]. destruct (i64_ok _); cbn; [|discriminate]. intros H. injection H as H.
    apply Z.eqb_eq in H. rewrite H. rewrite <- Z.mul_assoc, <- Z.pow_add_r by lia. do 2 f_equal. lia.
  - destruct (_ <=? _)%N; cbn; [|discriminate]. destruct (i64_ok _); cbn; [|discriminate]. intros H. injection H as H.
    apply Z.eqb_eq in H. rewrite H. rewrite <- Z.mul_assoc, <- Z.pow_add_r by lia. do 2 f_equal. lia.
Qed.
Lemma decimal_not a b : decimal_eq a b = Ok false ->
  (d_underlying a * 10 ^ Z.of_N (d_scale b) <> d_underlying b * 10 ^ Z.of_N (d_scale a))%Z.
Proof.
  unfold decimal_eq, factors10, i64_mul. destruct (N.compare_spec (d_scale a) (d_scale b)) as [E|E|E].
  - intros H. injection H as H. apply Z.eqb_neq in H. rewrite E. intros G. apply H.
    apply Z.mul_cancel_r in G; [exact G|]. assert (0 < 10 ^ Z.of_N (d_scale b))%Z by (apply Z.pow_pos_nonneg; lia). lia.
  - destruct (_ <=? _)%N; cbn; [|discriminate]. destruct (i64_ok _); cbn; [|discriminate]. intros H. injection H as H.
    apply Z.eqb_neq in H. intros G. apply H.
    replace (Z.of_N (d_scale b)) with (Z.of_N (d_scale b - d_scale a) + Z.of_N (d_scale a))%Z in G by lia.
    rewrite Z.pow_add_r, Z.mul_assoc in G by lia. apply Z.mul_cancel_r in G; [congruence|].
    assert (0 < 10 ^ Z.of_N (d_scale a))%Z by (apply Z.pow_pos_nonneg; lia). lia.
  - destruct (_ <=? _)%N; cbn; [|discriminate]. destruct (i64_ok _); cbn; [|discriminate]. intros H. injection H as H.
    apply Z.eqb_neq in H. intros G. apply H.
    replace (Z.of_N (d_scale a)) with (Z.of_N (d_scale a - d_scale b) + Z.of_N (d_scale b))%Z in G by lia.
    rewrite Z.pow_add_r, Z.mul_assoc in G by lia. apply Z.mul_cancel_r in G; [congruence|].
    assert (0 < 10 ^ Z.of_N (d_scale b))%Z by (apply Z.pow_pos_nonneg; lia). lia.
Qed.
Lemma decimal_trans a b c : decimal_eq a b = Ok true -> decimal_eq b c = Ok true -> decimal_eq a c <> Ok false.
Proof.
  intros H1 H2 H3. apply decimal_true in H1, H2. apply decimal_not in H3. apply H3.
  pose proof (Z.pow_pos_nonneg 10 (Z.of_N (d_scale a))). pose proof (Z.pow_pos_nonneg 10 (Z.of_N (d_scale b))).
  pose proof (Z.pow_pos_nonneg 10 (Z.of_N (d_scale c))).
  apply Z.mul_cancel_r with (p := (10 ^ Z.of_N (d_scale b))%Z); [lia|].
  transitivity (d_underlying a * 10 ^ Z.of_N (d_scale b) * 10 ^ Z.of_N (d_scale c))%Z; [ring|]. rewrite H1.
  transitivity (d_underlying b * 10 ^ Z.of_N (d_scale c) * 10 ^ Z.of_N (d_scale a))%Z; [ring|]. rewrite H2. ring.
Qed.

Lemma nanos_sure a p b : (exists q, dt64_nanos a p = Panic q /\ dt64_nanos b p = Panic q) \/
  (exists x, dt64_nanos a p = Ok x) \/ (exists y, dt64_nanos b p = Ok y).
Proof.
  unfold dt64_nanos, i64_mul. destruct (p <? 10)%N; [|left; eexists; split; reflexivity].
  destruct (i64_ok (a * _)); [right; left; eexists; reflexivity|]. destruct (i64_ok (b * _)); [right; right; eexists; reflexivity|].
  left; eexists; split; reflexivity.
Qed.
Lemma dt64_sym a p b q : dt64_value_eq a p b q = dt64_value_eq b q a p.
Proof.
  unfold dt64_value_eq. rewrite (N.eqb_sym q p). destruct (N.eqb_spec p q) as [<-|]; [|reflexivity].
  unfold dt64_nanos, i64_mul. destruct (p <? 10)%N; [|reflexivity].
  destruct (i64_ok (a * _)); destruct (i64_ok (b * _)); cbn [rbind]; try reflexivity. rewrite Z.eqb_sym. reflexivity.
Qed.
Lemma dt64_true a p b q : dt64_value_eq a p b q = Ok true -> a = b /\ p = q.
Proof.
  unfold dt64_value_eq. destruct (N.eqb_spec p q) as [<-|]; [|discriminate].
  unfold dt64_nanos, i64_mul. destruct (N.ltb_spec p 10); [|discriminate].
  destruct (i64_ok (a * _)); destruct (i64_ok (b * _)); cbn [rbind]; try discriminate. intros E. injection E as E.
  apply Z.eqb_eq in E. split; [|reflexivity].
  apply Z.mul_cancel_r in E; [exact E|]. pose proof (Z.pow_pos_nonneg 10 (9 - Z.of_N p)). lia.
Qed.

Lemma list_sym f xs ys : (forall x, In x xs -> forall y, f x y = f y x) -> length xs = length ys ->
  list_eq f xs ys = list_eq f ys xs.
Proof.
  revert ys. induction xs as [|x xs IH]; intros [|y ys] H L; cbn in *; try reflexivity; try discriminate.
  rewrite (H x (or_introl eq_refl)). fold (list_eq f). rewrite (IH ys); [reflexivity| |lia]. intros. apply H. right. assumption.
Qed.
Lemma list_true f xs ys : length xs = length ys ->
  (list_eq f xs ys = Ok true <-> Forall2 (fun x y => f x y = Ok true) xs ys).
Proof.
  revert ys. induction xs as [|x xs IH]; intros [|y ys] L; try discriminate; [split; auto|].
  injection L as L. change (list_eq f (x :: xs) (y :: ys)) with (res_and (f x y) (list_eq f xs ys)). split.
  - intros H. apply and_true in H. constructor; [apply H|apply IH; [exact L|apply H]].
  - intros H. inversion H; subst. unfold res_and. rewrite H3. cbn. apply IH; assumption.
Qed.
Lemma list_trans f xs : forall ys zs,
  (forall x, In x xs -> forall y z, In y ys -> In z zs -> f x y = Ok true -> f y z = Ok true -> f x z <> Ok false) ->
  Forall2 (fun x y => f x y = Ok true) xs ys -> Forall2 (fun x y => f x y = Ok true) ys zs -> list_eq f xs zs <> Ok false.
Proof.
  induction xs as [|x xs IH]; intros ys zs H A B.
  - inversion A; subst. discriminate.
  - inversion A; subst. inversion B; subst.
    intros C. change (list_eq f (x :: xs) (y0 :: l'0)) with (res_and (f x y0) (list_eq f xs l'0)) in C.
    apply and_false in C as [C|C].
    + revert C. eapply (H x (or_introl eq_refl) y y0); cbn; auto.
    + revert C. apply (IH l' l'0); try assumption. intros. eapply (H x0 (or_intror H0) y1 z); cbn; auto.
Qed.

Lemma value_symmetric : forall a b, value_eq a b = value_eq b a.
Proof.
  induction a as [a IH] using value_deep. intros b. destruct a; destruct b; try reflexivity.
  - cbn [value_eq]. destruct (scalar_eq_dec s s0), (scalar_eq_dec s0 s); try congruence. subst. rewrite scalar_sym. reflexivity.
  - cbn [value_eq]. rewrite bytes_sym. reflexivity.
  - cbn [value_eq]. rewrite N.eqb_sym. reflexivity.
  - cbn [value_eq]. rewrite N.eqb_sym. reflexivity.
  - apply dt64_sym.
  - cbn [value_eq]. rewrite Z.eqb_sym, N.eqb_sym. reflexivity.
  - cbn [value_eq]. rewrite bytes_sym. reflexivity.
  - cbn [value_eq]. rewrite bytes_sym. reflexivity.
  - cbn [value_eq]. rewrite bytes_sym. reflexivity.
  - cbn [value_eq]. rewrite sqltype_sym. reflexivity.
  - cbn [value_eq]. apply IH. reflexivity.
  - rewrite !value_eq_array, (sqltype_sym t0 t), (Nat.eqb_sym (length vs0)).
    destruct (sqltype_eqb t t0); [|reflexivity]. destruct (Nat.eqb_spec (length vs) (length vs0)); [|reflexivity].
    apply list_sym; [|assumption]. intros x Hx. apply IH, Hx.
  - cbn [value_eq]. apply decimal_sym.
  - cbn [value_eq]. rewrite enum_sym, Z.eqb_sym. reflexivity.
  - cbn [value_eq]. rewrite enum_sym, Z.eqb_sym. reflexivity.
Qed.

Lemma enum_true (l m : list (bytes * Z)) : (if enum_vals_eq_dec l m then true else false) = true -> l = m.
Proof. destruct (enum_vals_eq_dec l m); congruence. Qed.

Ltac un H := injection H as H; rewrite ?Bool.andb_true_iff, ?N.eqb_eq, ?Z.eqb_eq in H.

Lemma array_true (f : value -> value -> res bool) s xs t ys :
  (if sqltype_eqb s t then if (length xs =? length ys)%nat then list_eq f xs ys else Ok false else Ok false) = Ok true ->
  s = t /\ length xs = length ys /\ Forall2 (fun x y => f x y = Ok true) xs ys.
Proof.
  destruct (sqltype_eqb s t) eqn:E; [|discriminate]. destruct (Nat.eqb_spec (length xs) (length ys)) as [L|]; [|discriminate].
  intros H. split; [apply sqltype_true, E|]. split; [exact L|]. apply list_true; assumption.
Qed.

Lemma value_transitive : forall a b c, value_eq a b = Ok true -> value_eq b c = Ok true -> value_eq a c <> Ok false.
Proof.
  induction a as [a IH] using value_deep. intros b c H1 H2. destruct a; destruct b; try discriminate H1; destruct c; try discriminate H2.
  - cbn [value_eq] in *. destruct (scalar_eq_dec s s0) as [<-|]; [|discriminate H1]. destruct (scalar_eq_dec s s1) as [<-|]; [|discriminate H2].
    injection H1 as H1. injection H2 as H2. rewrite (scalar_trans s z z0 z1 H1 H2). discriminate.
  - cbn [value_eq] in *. injection H1 as H1. injection H2 as H2. apply bytes_true in H1, H2. subst. rewrite bytes_eqb_refl. discriminate.
  - cbn [value_eq] in *. un H1. un H2. subst. rewrite N.eqb_refl. discriminate.
  - cbn [value_eq] in *. un H1. un H2. subst. rewrite N.eqb_refl. discriminate.
  - cbn [value_eq] in *. destruct (dt64_true _ _ _ _ H1) as [-> ->]. rewrite H2. discriminate.
  - cbn [value_eq] in *. un H1. un H2. destruct H1, H2. subst. rewrite Z.eqb_refl, N.eqb_refl. discriminate.
  - cbn [value_eq] in *. injection H1 as H1. injection H2 as H2. apply bytes_true in H1, H2. subst. rewrite bytes_eqb_refl. discriminate.
  - cbn [value_eq] in *. injection H1 as H1. injection H2 as H2. apply bytes_true in H1, H2. subst. rewrite bytes_eqb_refl. discriminate.
  - cbn [value_eq] in *. injection H1 as H1. injection H2 as H2. apply bytes_true in H1, H2. subst. rewrite bytes_eqb_refl. discriminate.
  - cbn [value_eq] in *. injection H1 as H1. injection H2 as H2. apply sqltype_true in H1, H2. subst. rewrite sqltype_eqb_refl. discriminate.
  - cbn [value_eq] in *. eapply IH; [reflexivity|eassumption|eassumption].
  - rewrite value_eq_array in *. apply array_true in H1 as (-> & L1 & H1). apply array_true in H2 as (-> & L2 & H2).
    rewrite sqltype_eqb_refl, L1, L2, Nat.eqb_refl. apply (list_trans value_eq vs vs0 vs1); try assumption.
    intros x Hx y z _ _. apply IH. exact Hx.
  - cbn [value_eq] in *. eapply decimal_trans; eassumption.
  - cbn [value_eq] in *. un H1. un H2. destruct H1 as [H1 ->], H2 as [H2 ->]. apply enum_true in H1, H2. subst.
    rewrite enum_refl, Z.eqb_refl. discriminate.
  - cbn [value_eq] in *. un H1. un H2. destruct H1 as [H1 ->], H2 as [H2 ->]. apply enum_true in H1, H2. subst.
    rewrite enum_refl, Z.eqb_refl. discriminate.
Qed.

(** * Cells *)
Lemma same_key_leibniz a b : same_key a b = true -> a = b.
Proof.
  destruct a; destruct b; try discriminate; cbn [same_key].
  - destruct (scalar_eq_dec s s0); [|discriminate]. cbn. rewrite Z.eqb_eq. congruence.
  - intros H. apply bytes_true in H. congruence.
Qed.
Lemma distinct_nodup ks : distinct_keys ks = true -> NoDup ks.
Proof.
  induction ks as [|k ks IH]; intros H; [constructor|]. cbn [distinct_keys] in H. apply andb_prop in H as [H H2].
  apply andb_prop in H as [H H1]. constructor; [|auto]. intros C. apply Bool.negb_true_iff in H1.
  assert (existsb (same_key k) ks = true) as E; [|congruence]. apply existsb_exists. exists k. split; [exact C|]. apply same_key_refl, H.
Qed.
Lemma map_get_cons kx vx ky vy ys : map_get kx vx ((ky, vy) :: ys) = (do e <- vref_eq kx ky; if e then vref_eq vx vy else map_get kx vx ys).
Proof. reflexivity. Qed.
Lemma map_get_in k vx vy ys : distinct_keys (map fst ys) = true -> In (k, vy) ys -> map_get k vx ys = vref_eq vx vy.
Proof.
  induction ys as [|[ky y] ys IH]; intros D Hi; [contradiction|]. pose proof (distinct_nodup _ D) as ND. cbn [map fst] in ND. inversion ND; subst.
  assert (map_key k = true) as Hk by (apply (distinct_keys_in _ D); apply (in_map fst) in Hi; exact Hi).
  assert (map_key ky = true) as Hky by (apply (distinct_keys_in _ D); left; reflexivity).
  rewrite map_get_cons, same_key_eq by assumption. cbn [rbind]. destruct Hi as [E|Hi].
  - injection E as -> ->. rewrite same_key_refl by assumption. reflexivity.
  - destruct (same_key k ky) eqn:E.
    + apply same_key_leibniz in E. subst. exfalso. apply H1. apply (in_map fst) in Hi. exact Hi.
    + apply IH; [|exact Hi]. cbn [map fst distinct_keys] in D. apply andb_prop in D. apply D.
Qed.
Lemma map_get_true k vx ys : map_key k = true -> distinct_keys (map fst ys) = true -> map_get k vx ys = Ok true ->
  exists vy, In (k, vy) ys /\ vref_eq vx vy = Ok true.
Proof.
  induction ys as [|[ky y] ys IH]; intros Hk D H; [discriminate H|].
  assert (map_key ky = true) as Hky by (apply (distinct_keys_in _ D); left; reflexivity).
  rewrite map_get_cons, same_key_eq in H by assumption. cbn [rbind] in H. destruct (same_key k ky) eqn:E.
  - apply same_key_leibniz in E. subst. exists y. split; [left; reflexivity|exact H].
  - destruct (IH Hk) as (vy & Hi & V); [|exact H|].
    + cbn [map fst distinct_keys] in D. apply andb_prop in D. apply D.
    + exists vy. split; [right; exact Hi|exact V].
Qed.
Lemma map_all_true ys xs : map_all ys xs = Ok true <-> forall k x, In (k, x) xs -> map_get k x ys = Ok true.
Proof.
  induction xs as [|[k x] xs IH]; [split; [intros _ ? ? []|reflexivity]|].
  change (map_all ys ((k, x) :: xs)) with (res_and (map_get k x ys) (map_all ys xs)). split.
  - intros H. apply and_true in H as [H1 H2]. intros k' x' [E|Hi]; [congruence|]. apply IH; assumption.
  - intros H. unfold res_and. rewrite (H k x (or_introl eq_refl)). cbn. apply IH. intros. apply H. right. assumption.
Qed.
Lemma map_all_not ys xs : map_all ys xs = Ok false -> exists k x, In (k, x) xs /\ map_get k x ys = Ok false.
Proof.
  induction xs as [|[k x] xs IH]; [discriminate|].
  change (map_all ys ((k, x) :: xs)) with (res_and (map_get k x ys) (map_all ys xs)). intros H.
  apply and_false in H as [H|H]; [exists k, x; cbn; auto|]. destruct (IH H) as (k' & x' & Hi & E). exists k', x'. cbn. auto.
Qed.
Lemma maps_true k v xs k' v' ys : vref_eq (VMap k v xs) (VMap k' v' ys) = Ok true ->
  k = k' /\ v = v' /\ length xs = length ys /\ forall kx x, In (kx, x) xs -> map_get kx x ys = Ok true.
Proof.
  rewrite vref_eq_map. destruct (Nat.eqb_spec (length xs) (length ys)) as [L|]; [|discriminate].
  destruct (sqltype_eqb k k') eqn:K; [|discriminate]. destruct (sqltype_eqb v v') eqn:V; [|discriminate]. cbn [negb orb].
  rewrite map_all_true. auto using sqltype_true.
Qed.

Lemma keyed_in vs : fold_right (fun x P => keyed x /\ P) True vs -> forall x, In x vs -> keyed x.
Proof. induction vs as [|v vs IH]; intros [] x []; subst; auto. Qed.
Lemma keyed_map kvs : fold_right (fun (kv : value * value) P => keyed (snd kv) /\ P) True kvs -> forall kv, In kv kvs -> keyed (snd kv).
Proof. induction kvs as [|v vs IH]; intros [] x []; subst; auto. Qed.
Lemma keyed_back kvs : (forall kv, In kv kvs -> keyed (snd kv)) -> fold_right (fun (kv : value * value) P => keyed (snd kv) /\ P) True kvs.
Proof. induction kvs as [|v vs IH]; intros H; cbn; auto using in_eq, in_cons. Qed.
Lemma keyed_list vs : (forall x, In x vs -> keyed x) -> fold_right (fun x P => keyed x /\ P) True vs.
Proof. induction vs as [|v vs IH]; intros H; cbn; auto using in_eq, in_cons. Qed.

Lemma forall2_flip {A} (R S : A -> A -> Prop) xs ys : (forall x y, In x xs -> In y ys -> R x y -> S y x) -> Forall2 R xs ys -> Forall2 S ys xs.
Proof.
  intros H F. induction F; constructor; [apply H; cbn; auto|]. apply IHF. intros. apply H; cbn; auto.
Qed.

Lemma vref_eq_num s x t y : vref_eq (VNum s x) (VNum t y) =
  Ok (if scalar_eq_dec s SBool then false else if scalar_eq_dec s t then scalar_eqb s x y else false).
Proof. destruct s; reflexivity. Qed.

Lemma vref_symmetric : forall a b, keyed a -> keyed b -> vref_eq a b = Ok true -> vref_eq b a = Ok true.
Proof.
  induction a as [a IH] using value_deep. intros b Ka Kb H.
  destruct a; try discriminate H; destruct b; try discriminate H; try (destruct s; discriminate H).
  - rewrite vref_eq_num in *. destruct (scalar_eq_dec s SBool); [discriminate H|]. destruct (scalar_eq_dec s s0) as [<-|]; [|discriminate H].
    destruct (scalar_eq_dec s SBool); [congruence|]. destruct (scalar_eq_dec s s); [|congruence]. rewrite scalar_sym. exact H.
  - cbn [vref_eq] in *. rewrite bytes_sym. exact H.
  - cbn [vref_eq] in *. rewrite N.eqb_sym. exact H.
  - cbn [vref_eq] in *. rewrite N.eqb_sym. exact H.
  - cbn [vref_eq] in *. destruct (to_datetime ticks precision) as [x| |]; [|discriminate H|discriminate H].
    cbn [rbind] in H. destruct (to_datetime ticks0 precision0) as [y| |]; [|discriminate H|discriminate H]. cbn [rbind] in *.
    rewrite (Z.eqb_sym (fst y)), (N.eqb_sym (snd y)). exact H.
  - cbn [vref_eq] in *. rewrite sqltype_sym. exact H.
  - cbn [vref_eq] in *. apply IH; try assumption. reflexivity.
  - rewrite vref_eq_array in *. apply array_true in H as (-> & L & F). rewrite sqltype_eqb_refl, L, Nat.eqb_refl.
    apply list_true; [symmetry; exact L|]. revert F. apply forall2_flip. intros x y Hx Hy. cbn [keyed] in *.
    apply IH; [exact Hx|exact (keyed_in _ Ka _ Hx)|exact (keyed_in _ Kb _ Hy)].
  - cbn [vref_eq] in *. rewrite decimal_sym. exact H.
  - cbn [vref_eq] in *. rewrite Z.eqb_sym, enum_sym. exact H.
  - cbn [vref_eq] in *. rewrite Z.eqb_sym, enum_sym. exact H.
  - destruct (maps_true _ _ _ _ _ _ H) as (<- & <- & L & G). cbn [keyed] in Ka, Kb. destruct Ka as [Da Ka], Kb as [Db Kb].
    rewrite vref_eq_map, L, Nat.eqb_refl, !sqltype_eqb_refl. cbn [negb orb]. apply map_all_true. intros ky y Hy.
    assert (In ky (map fst kvs)) as Hk.
    { apply (NoDup_length_incl (distinct_nodup _ Da) (l' := map fst kvs0)); [rewrite !map_length; lia| |apply (in_map fst) in Hy; exact Hy].
      intros k0 Hk0. apply in_map_iff in Hk0 as ([k1 x] & <- & Hx). cbn [fst].
      destruct (map_get_true k1 x kvs0) as (v0 & Hv & _); [|exact Db|apply G; exact Hx|].
      - apply (distinct_keys_in _ Da). apply (in_map fst) in Hx. exact Hx.
      - apply (in_map fst) in Hv. exact Hv. }
    apply in_map_iff in Hk as ([k1 x] & E & Hx). cbn [fst] in E. subst k1.
    pose proof (G _ _ Hx) as V. rewrite (map_get_in ky x y kvs0 Db Hy) in V. rewrite (map_get_in ky y x kvs Da Hx).
    apply IH; [exists (ky, x); cbn; auto|exact (keyed_map _ Ka _ Hx)|exact (keyed_map _ Kb _ Hy)|exact V].
Qed.

Lemma vref_transitive : forall a b c, keyed a -> keyed b -> keyed c ->
  vref_eq a b = Ok true -> vref_eq b c = Ok true -> vref_eq a c <> Ok false.
Proof.
  induction a as [a IH] using value_deep. intros b c Ka Kb Kc H1 H2.
  destruct a; try discriminate H1; destruct b; try discriminate H1; try (destruct s; discriminate H1);
    destruct c; try discriminate H2; try (destruct s0; discriminate H2).
  - rewrite vref_eq_num in *. destruct (scalar_eq_dec s SBool); [discriminate H1|]. destruct (scalar_eq_dec s s0) as [<-|]; [|discriminate H1].
    destruct (scalar_eq_dec s SBool); [congruence|]. destruct (scalar_eq_dec s s1) as [<-|]; [|discriminate H2].
    injection H1 as H1. injection H2 as H2. rewrite (scalar_trans s z z0 z1 H1 H2). discriminate.
  - cbn [vref_eq] in *. injection H1 as H1. injection H2 as H2. apply bytes_true in H1, H2. subst. rewrite bytes_eqb_refl. discriminate.
  - cbn [vref_eq] in *. un H1. un H2. subst. rewrite N.eqb_refl. discriminate.
  - cbn [vref_eq] in *. un H1. un H2. subst. rewrite N.eqb_refl. discriminate.
  - cbn [vref_eq] in *. destruct (to_datetime ticks precision) as [x| |]; [|discriminate H1|discriminate H1].
    cbn [rbind] in *. destruct (to_datetime ticks0 precision0) as [y| |]; [|discriminate H1|discriminate H1]. cbn [rbind] in *.
    destruct (to_datetime ticks1 precision1) as [z| |]; [|discriminate H2|discriminate H2]. cbn [rbind] in *.
    un H1. un H2. destruct H1 as [-> ->], H2 as [-> ->]. rewrite Z.eqb_refl, N.eqb_refl. discriminate.
  - cbn [vref_eq] in *. injection H1 as H1. injection H2 as H2. apply sqltype_true in H1, H2. subst. rewrite sqltype_eqb_refl. discriminate.
  - cbn [vref_eq] in *. apply (IH a eq_refl b c); assumption.
  - rewrite vref_eq_array in *. apply array_true in H1 as (-> & L1 & H1). apply array_true in H2 as (-> & L2 & H2).
    rewrite sqltype_eqb_refl, L1, L2, Nat.eqb_refl. apply (list_trans vref_eq vs vs0 vs1); try assumption.
    cbn [keyed] in *. intros x Hx y z Hy Hz. apply IH; [exact Hx|exact (keyed_in _ Ka _ Hx)|exact (keyed_in _ Kb _ Hy)|exact (keyed_in _ Kc _ Hz)].
  - cbn [vref_eq] in *. eapply decimal_trans; eassumption.
  - cbn [vref_eq] in *. un H1. un H2. destruct H1 as [-> H1], H2 as [-> H2]. apply enum_true in H1, H2. subst.
    rewrite enum_refl, Z.eqb_refl. discriminate.
  - cbn [vref_eq] in *. un H1. un H2. destruct H1 as [-> H1], H2 as [-> H2]. apply enum_true in H1, H2. subst.
    rewrite enum_refl, Z.eqb_refl. discriminate.
  - destruct (maps_true _ _ _ _ _ _ H1) as (<- & <- & L1 & G1). destruct (maps_true _ _ _ _ _ _ H2) as (<- & <- & L2 & G2).
    cbn [keyed] in Ka, Kb, Kc. destruct Ka as [Da Ka], Kb as [Db Kb], Kc as [Dc Kc].
    rewrite vref_eq_map, L1, L2, Nat.eqb_refl, !sqltype_eqb_refl. cbn [negb orb]. intros C.
    destruct (map_all_not _ _ C) as (k0 & x & Hx & E).
    assert (map_key k0 = true) as Hk by (apply (distinct_keys_in _ Da); apply (in_map fst) in Hx; exact Hx).
    destruct (map_get_true k0 x kvs0 Hk Db (G1 _ _ Hx)) as (y & Hy & V1).
    destruct (map_get_true k0 y kvs1 Hk Dc (G2 _ _ Hy)) as (z & Hz & V2).
    rewrite (map_get_in k0 x z kvs1 Dc Hz) in E. revert E. apply (IH x) with (b := y).
    + exists (k0, x). cbn. auto.
    + exact (keyed_map _ Ka _ Hx).
    + exact (keyed_map _ Kb _ Hy).
    + exact (keyed_map _ Kc _ Hz).
    + exact V1.
    + exact V2.
Qed.

(** * Cells of columns *)
Lemma keyed_mapM (f : nat -> res value) js vs : (forall j v, f j = Ok v -> keyed v) -> mapM f js = Ok vs -> forall x, In x vs -> keyed x.
Proof.
  intros Hf. revert vs. induction js as [|j js IH]; intros vs E; cbn [mapM] in E.
  - injection E as <-. intros x [].
  - inv_do E. inv_do E. injection E as <-. intros y [<-|Hy]; [eapply Hf; eassumption|eapply IH; eassumption].
Qed.
Lemma keyed_loop (f g : nat -> res value) : (forall j v, g j = Ok v -> keyed v) -> forall js m m',
  distinct_keys (map fst m) = true -> (forall kv, In kv m -> keyed (snd kv)) -> map_loop f g js m = Ok m' ->
  distinct_keys (map fst m') = true /\ (forall kv, In kv m' -> keyed (snd kv)).
Proof.
  intros Hg. induction js as [|j js IH]; intros m m' D F E; cbn [map_loop] in E.
  - injection E as <-. auto.
  - inv_do E. inv_do E. inv_do E. unfold vref_insert in E2.
    destruct (value_ref_hashable x) eqn:Hh; [|discriminate E2].
    destruct (vref_put_keys x x0 (hashable_map_key _ Hh) _ _ D E2) as (A & B & C).
    apply (IH x1 m' A); [|exact E]. intros kv Hkv.
    destruct (C kv Hkv) as [H|[->|[H ->]]]; [apply F, H|eapply Hg; eassumption|eapply Hg; eassumption].
Qed.
Lemma at_keyed : forall c i v, at_ c i = Ok v -> keyed v.
Proof.
  fix IH 1. intros c i v H. destruct c; cbn [at_] in H;
    try (inv_do H; injection H as <-; exact I); try (eapply IH; eassumption).
  - inv_do H. destruct x as [[x1 x2] x3]. injection H as <-. exact I.
  - inv_do H. injection H as <-. destruct k; exact I.
  - inv_do H. destruct (x =? 1)%N; [injection H as <-; exact I|]. inv_do H. injection H as <-. cbn [keyed]. eapply IH; eassumption.
  - inv_do H. inv_do H. injection H as <-. cbn [keyed]. apply keyed_list. eapply keyed_mapM; [|eassumption]. intros; eapply IH; eassumption.
  - inv_do H. inv_do H. injection H as <-. cbn [keyed].
    destruct (keyed_loop (at_ c1) (at_ c2) (fun j w => IH c2 j w) (seq (fst x) (snd x - fst x)) [] x0 eq_refl (fun _ F => match F with end) E0) as [D F].
    split; [exact D|apply keyed_back, F].
  - inv_do H. eapply IH; eassumption.
  - destruct (_ <=? _)%nat; [discriminate H|]. eapply IH; eassumption.
  - inv_do H. inv_do H. inv_do H. inv_do H. destruct (_ <? _)%nat; [discriminate H|]. destruct x1 as [|k]; [eapply IH; eassumption|].
    clear E E0 E1 E2. revert cs k H. fix IHl 1. intros [|d cs] [|k] H; try discriminate H; [eapply IH; eassumption|eapply IHl; eassumption].
  - inv_do H. destruct x; try discriminate H. inv_do H. injection H as <-. exact I.
  - inv_do H. inv_do H. destruct x0 as [w|]; [destruct w; try discriminate H; inv_do H|]; injection H as <-; exact I.
  - inv_do H. destruct x; try discriminate H. injection H as <-. exact I.
  - inv_do H. destruct x; try discriminate H. injection H as <-. exact I.
  - inv_do H. inv_do H. destruct x0 as [w|]; [destruct w; try discriminate H|]; injection H as <-; exact I.
  - inv_do H. inv_do H. destruct x0 as [w|]; [destruct w; try discriminate H|]; injection H as <-; exact I.
  - discriminate H.
Qed.

Lemma cells_true f g js : all_cells f g js = Ok true ->
  Forall (fun j => exists x y, f j = Ok x /\ g j = Ok y /\ vref_eq x y = Ok true) js.
Proof.
  induction js as [|j js IH]; intros H; [constructor|]. cbn [all_cells] in H. inv_do H. inv_do H. inv_do H.
  destruct x1; [|discriminate H]. constructor; [eauto|auto].
Qed.
Lemma cells_back f g js : Forall (fun j => exists x y, f j = Ok x /\ g j = Ok y /\ vref_eq x y = Ok true) js -> all_cells f g js = Ok true.
Proof.
  induction 1 as [|j js (x & y & E1 & E2 & E3) F IH]; [reflexivity|]. cbn [all_cells]. rewrite E1, E2. cbn [rbind]. rewrite E3. cbn. exact IH.
Qed.
Lemma cells_false f g js : all_cells f g js = Ok false -> exists j x y, In j js /\ f j = Ok x /\ g j = Ok y /\ vref_eq x y = Ok false.
Proof.
  induction js as [|j js IH]; intros H; [discriminate H|]. cbn [all_cells] in H. inv_do H. inv_do H. inv_do H.
  destruct x1; [|exists j, x, x0; cbn; auto]. destruct (IH H) as (j' & x' & y' & ? & ?). exists j', x', y'. cbn. tauto.
Qed.
Lemma column_true a b : column_eq a b = Ok true ->
  exists n, clen a = Ok n /\ clen b = Ok n /\ ctype a = ctype b /\
    Forall (fun j => exists x y, at_ a j = Ok x /\ at_ b j = Ok y /\ vref_eq x y = Ok true) (seq 0 n).
Proof.
  unfold column_eq. intros H. inv_do H. inv_do H. destruct (Nat.eqb_spec x x0) as [->|]; [|discriminate H]. cbn [negb] in H.
  destruct (sqltype_eqb (ctype a) (ctype b)) eqn:T; [|discriminate H]. cbn [negb] in H. exists x0.
  repeat split; auto using sqltype_true, cells_true.
Qed.
Lemma column_symmetric a b : column_eq a b = Ok true -> column_eq b a = Ok true.
Proof.
  intros H. destruct (column_true a b H) as (n & La & Lb & T & F). unfold column_eq. rewrite La, Lb. cbn [rbind].
  rewrite Nat.eqb_refl, T, sqltype_eqb_refl. cbn [negb]. apply cells_back. revert F. apply Forall_impl.
  intros j (x & y & E1 & E2 & E3). exists y, x. repeat split; try assumption.
  apply vref_symmetric; eauto using at_keyed.
Qed.
Lemma column_transitive a b c : column_eq a b = Ok true -> column_eq b c = Ok true -> column_eq a c <> Ok false.
Proof.
  intros H1 H2. destruct (column_true a b H1) as (n & La & Lb & T1 & F1). destruct (column_true b c H2) as (m & Lb' & Lc & T2 & F2).
  rewrite Lb in Lb'. injection Lb' as <-. unfold column_eq. rewrite La, Lc. cbn [rbind].
  rewrite Nat.eqb_refl, T1, T2, sqltype_eqb_refl. cbn [negb]. intros C. destruct (cells_false _ _ _ C) as (j & x & z & Hj & Ea & Ec & V).
  rewrite Forall_forall in F1, F2. destruct (F1 j Hj) as (x' & y & Ea' & Eb & V1). destruct (F2 j Hj) as (y' & z' & Eb' & Ec' & V2).
  rewrite Ea in Ea'. injection Ea' as <-. rewrite Eb in Eb'. injection Eb' as <-. rewrite Ec in Ec'. injection Ec' as <-.
  revert V. apply (vref_transitive x y z); eauto using at_keyed.
Qed.
Lemma columns_symmetric xs : forall ys, length xs = length ys -> columns_eq xs ys = Ok true -> columns_eq ys xs = Ok true.
Proof.
  induction xs as [|x xs IH]; intros [|y ys] L H; try discriminate L; [reflexivity|]. cbn [columns_eq] in *. inv_do H.
  destruct x0; [|discriminate H]. rewrite (column_symmetric _ _ E). cbn. apply IH; [cbn in L; lia|exact H].
Qed.
Lemma columns_transitive xs : forall ys zs, length xs = length ys -> length ys = length zs ->
  columns_eq xs ys = Ok true -> columns_eq ys zs = Ok true -> columns_eq xs zs <> Ok false.
Proof.
  induction xs as [|x xs IH]; intros [|y ys] [|z zs] L1 L2 H1 H2; try discriminate L1; try discriminate L2; [discriminate|].
  cbn [columns_eq] in *. inv_do H1. inv_do H2. destruct x0; [|discriminate H1]. destruct x1; [|discriminate H2].
  pose proof (column_transitive _ _ _ E E0) as C. destruct (column_eq (snd x) (snd z)) as [[]| |]; cbn; try congruence.
  apply (IH ys zs); try assumption; cbn in *; lia.
Qed.
