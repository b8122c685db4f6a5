(** C101: equality of values, cells and blocks is symmetric and transitive, and agrees with hashing. *)
From Coq Require Import String Lia ZArith.
From Verif Require Import Base Bytes Wire Types Text Decimal DateTime Values Columns Block Hashes
  SpecColumns SpecBlock SpecEquality SpecNum WireProofs DecimalProofs BlockOpsProofs PushProofs FromSqlProofs SureProofs EqualityProofs.
Open Scope list_scope.

(** Equality of values is the same either way, panics included. *)
Theorem c101_value_symmetric : forall a b, value_eq a b = value_eq b a.
Proof. exact value_symmetric. Qed.

(** Values equal to the same value are not found different: they are equal, or comparing them panics. *)
Theorem c101_value_transitive : forall a b c,
  value_eq a b = Ok true -> value_eq b c = Ok true ->
  value_eq a c = Ok true \/ exists p, value_eq a c = Panic p.
Proof.
  intros a b c H1 H2. pose proof (value_transitive a b c H1 H2) as T. pose proof (sure_value_eq a c) as S1.
  destruct (value_eq a c) as [[]|e|p]; [left; reflexivity|congruence|contradiction|right; eauto].
Qed.

(** The same of cells whose maps have distinct keys, as every cell of every column has. *)
Theorem c101_cell_symmetric : forall a b, keyed a -> keyed b -> (vref_eq a b = Ok true <-> vref_eq b a = Ok true).
Proof. intros a b Ka Kb. split; apply vref_symmetric; assumption. Qed.
Theorem c101_cell_transitive : forall a b c, keyed a -> keyed b -> keyed c ->
  vref_eq a b = Ok true -> vref_eq b c = Ok true ->
  vref_eq a c = Ok true \/ exists p, vref_eq a c = Panic p.
Proof.
  intros a b c Ka Kb Kc H1 H2. pose proof (vref_transitive a b c Ka Kb Kc H1 H2) as T. pose proof (sure_vref_eq a c) as S1.
  destruct (vref_eq a c) as [[]|e|p]; [left; reflexivity|congruence|contradiction|right; eauto].
Qed.
Theorem c101_cells_keyed : forall c i v, at_ c i = Ok v -> keyed v.
Proof. exact at_keyed. Qed.

(** Hence of blocks, whatever they are made of. *)
Theorem c101_block_symmetric : forall a b, block_eq a b = Ok true -> block_eq b a = Ok true.
Proof.
  unfold block_eq. intros a b. rewrite (Nat.eqb_sym (length (b_cols b))).
  destruct (Nat.eqb_spec (length (b_cols a)) (length (b_cols b))) as [L|]; [|discriminate]. apply columns_symmetric, L.
Qed.
Theorem c101_block_transitive : forall a b c, block_eq a b = Ok true -> block_eq b c = Ok true -> block_eq a c <> Ok false.
Proof.
  unfold block_eq. intros a b c.
  destruct (Nat.eqb_spec (length (b_cols a)) (length (b_cols b))) as [L1|]; [|discriminate].
  destruct (Nat.eqb_spec (length (b_cols b)) (length (b_cols c))) as [L2|]; [|discriminate].
  rewrite L1, L2, Nat.eqb_refl. apply columns_transitive; assumption.
Qed.

(** Which values are equal to themselves: no others. *)
Theorem c101_value_reflexive : forall v, value_eq v v = Ok true <-> itself v.
Proof.
  induction v as [v IH] using value_deep. destruct v; cbn [itself].
  - cbn [value_eq]. destruct (scalar_eq_dec s s) as [_|C]; [|congruence]. destruct s; cbn [scalar_eqb number];
      try (rewrite Z.eqb_refl; split; auto; fail); unfold float_eqb; cbn [float_parts]; rewrite Z.eqb_refl, Bool.orb_diag, Bool.andb_diag.
    + destruct (Z.ltb_spec (255 * 2 ^ 23) (z mod 2 ^ 31)) as [G|G]; [split; [discriminate|intros; exfalso; lia]|].
      split; [intros _; exact G|intros _]. destruct (_ =? 0)%Z; reflexivity.
    + destruct (Z.ltb_spec (2047 * 2 ^ 52) (z mod 2 ^ 63)) as [G|G]; [split; [discriminate|intros; exfalso; lia]|].
      split; [intros _; exact G|intros _]. destruct (_ =? 0)%Z; reflexivity.
  - cbn [value_eq]. rewrite bytes_eqb_refl. tauto.
  - cbn [value_eq]. rewrite N.eqb_refl. tauto.
  - cbn [value_eq]. rewrite N.eqb_refl. tauto.
  - cbn [value_eq]. unfold dt64_value_eq, dt64_nanos, i64_mul. rewrite N.eqb_refl. destruct (N.ltb_spec precision 10) as [G|G].
    + destruct (i64_ok (ticks * 10 ^ (9 - Z.of_N precision))) eqn:K; cbn [rbind].
      * rewrite Z.eqb_refl. apply i64_ok_iff in K. unfold is_i64 in K. split; [intros _|reflexivity]. split; [exact G|exact K].
      * split; [discriminate|]. intros [_ H]. exfalso. assert (i64_ok (ticks * 10 ^ (9 - Z.of_N precision)) = true); [|congruence].
        apply i64_ok_iff. exact H.
    + split; [discriminate|]. intros [H _]. lia.
  - cbn [value_eq]. rewrite Z.eqb_refl, N.eqb_refl. tauto.
  - cbn [value_eq]. rewrite bytes_eqb_refl. tauto.
  - cbn [value_eq]. rewrite bytes_eqb_refl. tauto.
  - cbn [value_eq]. rewrite bytes_eqb_refl. tauto.
  - cbn [value_eq]. rewrite sqltype_eqb_refl. tauto.
  - cbn [value_eq]. apply IH. reflexivity.
  - rewrite value_eq_array, sqltype_eqb_refl, Nat.eqb_refl, list_true by reflexivity. cbn [child] in IH. clear t.
    induction vs as [|v vs IHl]; [split; [exact (fun _ => I)|constructor]|]. cbn [fold_right].
    rewrite <- (IHl (fun x Hx => IH x (or_intror Hx))), <- (IH v (or_introl eq_refl)).
    split; [intros H; inversion H; subst; split; assumption|intros []; constructor; assumption].
  - cbn [value_eq]. unfold decimal_eq. rewrite N.compare_refl, Z.eqb_refl. tauto.
  - cbn [value_eq]. rewrite enum_refl, Z.eqb_refl. tauto.
  - cbn [value_eq]. rewrite enum_refl, Z.eqb_refl. tauto.
  - split; [discriminate|contradiction].
Qed.

(** Equal values feed a hasher the same bytes; so do equal cells. *)
Theorem c101_value_hash : forall a b, value_eq a b = Ok true -> value_hash a = value_hash b.
Proof.
  intros a b H. destruct a; destruct b; try discriminate H; try reflexivity; cbn [value_eq] in H.
  - destruct (scalar_eq_dec s s0) as [<-|]; [|discriminate H]. injection H as H.
    destruct s; cbn [scalar_eqb] in H; try (apply Z.eqb_eq in H; subst); reflexivity.
  - injection H as H. apply bytes_true in H. subst. reflexivity.
  - un H. subst. reflexivity.
  - un H. subst. reflexivity.
  - apply dt64_true in H as [-> ->]. reflexivity.
Qed.
Theorem c101_cell_hash : forall a b, vref_eq a b = Ok true -> vref_hash a = vref_hash b.
Proof.
  intros a b H. destruct a; try discriminate H; destruct b; try discriminate H; try (destruct s; discriminate H); try reflexivity.
  - rewrite vref_eq_num in H. destruct (scalar_eq_dec s SBool); [discriminate H|]. destruct (scalar_eq_dec s s0) as [<-|]; [|discriminate H].
    injection H as H. destruct s; cbn [scalar_eqb] in H; try (apply Z.eqb_eq in H; subst); reflexivity.
  - cbn [vref_eq] in H. injection H as H. apply bytes_true in H. subst. reflexivity.
Qed.

Lemma ok_inj {A} (x y : A) : Ok x = Ok y -> x = y.
Proof. congruence. Qed.

(** A map that compares only keys with the same hash finds the keys that [key_eq] finds, of the values
    that can be hashed. *)
Theorem c101_keys : forall a b ha hb,
  (forall x p z, a = VDateTime64 x p z -> (- 2 ^ 63 <= x < 2 ^ 63)%Z /\ (p < 2 ^ 32)%N) ->
  (forall x p z, b = VDateTime64 x p z -> (- 2 ^ 63 <= x < 2 ^ 63)%Z /\ (p < 2 ^ 32)%N) ->
  value_hash a = Ok ha -> value_hash b = Ok hb ->
  key_eq a b = if bytes_eq_dec ha hb then value_eq a b else Ok false.
Proof.
  intros a b ha hb Ra Rb Ha Hb. destruct (bytes_eq_dec ha hb) as [<-|N1].
  - destruct a; try reflexivity. destruct b; try reflexivity. cbn [value_hash] in Ha, Hb. unfold key_eq.
    destruct (Ra _ _ _ eq_refl) as [R1 R2], (Rb _ _ _ eq_refl) as [R3 R4].
    apply ok_inj in Ha, Hb. rewrite <- Ha in Hb. clear Ha. apply app_eq_app in Hb as (l & [[Ex Ey]|[Ex Ey]]).
    all: assert (l = []) as ->
      by (apply (f_equal (@length _)) in Ex; rewrite app_length, !marshal_length in Ex; destruct l; [reflexivity|cbn in Ex; lia]).
    all: rewrite app_nil_r in Ex; cbn [app] in Ey.
    all: apply (f_equal (unmarshal I64)) in Ex; apply (f_equal (unmarshal U32)) in Ey.
    all: rewrite !unmarshal_marshal in Ex
      by (unfold scalar_ok; apply andb_true_intro; rewrite Z.leb_le, Z.ltb_lt; change (Z.of_nat (width I64)) with 8%Z; lia).
    all: rewrite !unmarshal_marshal in Ey
      by (unfold scalar_ok; apply andb_true_intro; rewrite Z.leb_le, Z.ltb_lt; change (Z.of_nat (width U32)) with 4%Z; lia).
    all: assert (precision = precision0) as -> by lia; subst; rewrite Z.eqb_refl, N.eqb_refl; reflexivity.
  - assert (value_eq a b <> Ok true) as T by (intros T; apply c101_value_hash in T; congruence).
    destruct a; try discriminate Ha; destruct b; try discriminate Hb; try reflexivity; cbn [key_eq];
      try (destruct (value_eq _ _) as [[]| |] eqn:E; congruence || (cbn [value_eq] in E; congruence) || reflexivity).
    destruct (Z.eqb_spec ticks ticks0) as [->|]; [|reflexivity]. destruct (N.eqb_spec precision precision0) as [->|]; [|reflexivity].
    cbn [value_hash] in Ha, Hb. congruence.
Qed.

(** C101 is false of the code: [Eq] promises that a value is equal to itself, but a map is equal to nothing,
    a NaN is not equal to itself, and comparing a DateTime64 out of range with itself panics; a boolean
    cell is not equal to itself. *)
Theorem c101_reflexive_refuted :
  (exists v, keyed v /\ value_eq v v = Ok false /\ vref_eq v v = Ok true) /\
  value_eq (VNum F64 (2047 * 2 ^ 52 + 1)%Z) (VNum F64 (2047 * 2 ^ 52 + 1)%Z) = Ok false /\
  value_eq (VDateTime64 (2 ^ 62)%Z 3 []) (VDateTime64 (2 ^ 62)%Z 3 []) = Panic PArith /\
  vref_eq (VNum SBool 1%Z) (VNum SBool 1%Z) = Ok false.
Proof.
  split; [|repeat split].
  exists (VMap TString (TNum U8) [(VString (str "a"), VNum U8 1%Z)]). repeat split.
Qed.

(** Two cells with the same map written in different orders, and two decimals of different scales. *)
Definition c101_maps (ks : list bytes) (vs : list Z) : block :=
  mk_block info_default [(str "m", CMap (CString ks) (CVec U8 vs) [2%N])].
Example c101_case :
  block_eq (c101_maps [str "a"; str "b"] [1; 2]%Z) (c101_maps [str "b"; str "a"] [2; 1]%Z) = Ok true /\
  block_eq (c101_maps [str "a"; str "b"] [1; 2]%Z) (c101_maps [str "b"; str "a"] [1; 2]%Z) = Ok false /\
  value_eq (VDecimal (mk_decimal 150 N64 18 2)) (VDecimal (mk_decimal 15 N64 18 1)) = Ok true /\
  value_eq (VDecimal (mk_decimal 15 N64 18 1)) (VDecimal (mk_decimal 1500 N64 18 3)) = Ok true /\
  value_hash (VDateTime64 7%Z 3 (str "UTC")) = value_hash (VDateTime64 7%Z 3 []) /\
  key_eq (VDateTime64 7%Z 3 (str "UTC")) (VDateTime64 7%Z 3 []) = Ok true /\
  itself (VArray (TNum U8) [VNum U8 1%Z; VNum U8 2%Z]).
Proof.
  repeat split; try (vm_compute; reflexivity).
Qed.
Print Assumptions c101_value_symmetric.
Print Assumptions c101_value_transitive.
Print Assumptions c101_cell_symmetric.
Print Assumptions c101_cell_transitive.
Print Assumptions c101_cells_keyed.
Print Assumptions c101_block_symmetric.
Print Assumptions c101_block_transitive.
Print Assumptions c101_value_reflexive.
Print Assumptions c101_value_hash.
Print Assumptions c101_cell_hash.
Print Assumptions c101_keys.
Print Assumptions c101_reflexive_refuted.
