(** Proofs about rounding. *)
From Verif Require Import Base Bytes Types Decimal Floats SpecFloats.
Open Scope Z_scope.

Section Format.
Variable f : format.
Hypothesis prec2 : 2 <= f_prec f.
Hypothesis prec_unit : f_prec f <= f_unit f.
Notation h := (hidden f).
Notation units := (units f).

Lemma h_pos : 2 <= h.
Proof. unfold hidden. replace (f_prec f - 1) with (1 + (f_prec f - 2)) by lia. rewrite Z.pow_add_r by lia.
  pose proof (Z.pow_pos_nonneg 2 (f_prec f - 2)). lia. Qed.
Lemma h_even : Z.even h = true.
Proof. unfold hidden. rewrite Z.even_pow by lia. reflexivity. Qed.
Lemma pow_pos e : 0 <= e -> 1 <= 2 ^ e.
Proof. intros H. pose proof (Z.pow_pos_nonneg 2 e). lia. Qed.

(** A magnitude as an exponent and a significand. *)
Lemma units_at e m : 0 <= e -> (e = 0 /\ 0 <= m) \/ h <= m -> m <= 2 * h ->
  units (e * h + m) = m * 2 ^ e.
Proof.
  intros He Hm Hm2. pose proof h_pos as Hp. unfold Floats.units.
  destruct (Z.lt_ge_cases m h) as [L|L].
  { destruct Hm as [[-> Hm]|Hm]; [|lia]. cbn [Z.mul Z.add].
    rewrite Z.div_small, Z.mod_small by lia. cbn [Z.eqb]. change (2 ^ 0) with 1. lia. }
  destruct (Z.lt_ge_cases m (2 * h)) as [L2|L2].
  - assert (D : (e * h + m) / h = e + 1) by (symmetry; apply (Z.div_unique _ _ _ (m - h)); lia).
    assert (M : (e * h + m) mod h = m - h) by (symmetry; apply (Z.mod_unique _ _ (e + 1)); lia).
    rewrite D, M, (proj2 (Z.eqb_neq _ _)) by lia.
    replace (m - h + h) with m by lia. replace (e + 1 - 1) with e by lia. reflexivity.
  - assert (m = 2 * h) as -> by lia.
    assert (D : (e * h + 2 * h) / h = e + 2) by (symmetry; apply (Z.div_unique _ _ _ 0); lia).
    assert (M : (e * h + 2 * h) mod h = 0) by (symmetry; apply (Z.mod_unique _ _ (e + 2)); lia).
    rewrite D, M, (proj2 (Z.eqb_neq _ _)) by lia.
    replace (e + 2 - 1) with (1 + e) by lia. rewrite Z.pow_add_r by lia. lia.
Qed.
Lemma split_mag mag : 0 <= mag -> exists e m, 0 <= e /\ mag = e * h + m /\ m < 2 * h /\ ((e = 0 /\ 0 <= m) \/ h <= m).
Proof.
  intros H. pose proof h_pos as Hp. pose proof (Z.div_mod mag h ltac:(lia)) as D. pose proof (Z.mod_pos_bound mag h ltac:(lia)).
  assert (0 <= mag / h) by (apply Z.div_pos; lia).
  destruct (Z.eq_dec (mag / h) 0) as [E|E].
  - exists 0, mag. rewrite E in D. lia.
  - exists (mag / h - 1), (mag mod h + h). lia.
Qed.
Lemma units_counts mag : 0 <= mag -> counts h mag (units mag).
Proof.
  intros H. destruct (split_mag mag H) as (e & m & He & -> & Hm & C).
  rewrite units_at by lia. destruct (Z.lt_ge_cases m h) as [L|L].
  - left. assert (e = 0) as -> by lia. change (2 ^ 0) with 1. lia.
  - right. exists e, (m - h). repeat split; lia || (f_equal; lia).
Qed.
Lemma counts_units mag n : counts h mag n -> 0 <= mag /\ n = units mag.
Proof.
  pose proof h_pos as Hp. intros [[H ->]|(e & t & He & Ht & -> & ->)].
  - split; [lia|]. pose proof (units_at 0 mag ltac:(lia)) as U. replace (0 * h + mag) with mag in U by lia.
    rewrite U by lia. change (2 ^ 0) with 1. lia.
  - split; [nia|]. replace ((e + 1) * h + t) with (e * h + (h + t)) by lia. rewrite units_at by lia. reflexivity.
Qed.
Lemma units_step mag : 0 <= mag -> units mag < units (mag + 1).
Proof.
  intros H. destruct (split_mag mag H) as (e & m & He & -> & Hm & C).
  replace (e * h + m + 1) with (e * h + (m + 1)) by lia.
  rewrite !units_at by lia. pose proof (pow_pos e He). nia.
Qed.
Lemma units_mono a b : 0 <= a <= b -> units a <= units b.
Proof.
  intros [Ha Hb]. replace b with (a + Z.of_nat (Z.to_nat (b - a))) by lia.
  induction (Z.to_nat (b - a)) as [|n IH]; [rewrite Z.add_0_r; lia|].
  pose proof (units_step (a + Z.of_nat n) ltac:(lia)).
  replace (a + Z.of_nat (S n)) with (a + Z.of_nat n + 1) by lia. lia.
Qed.
Lemma units_nonneg mag : 0 <= mag -> 0 <= units mag.
Proof. intros H. pose proof (units_mono 0 mag ltac:(lia)). pose proof h_pos.
  pose proof (units_at 0 0 ltac:(lia) ltac:(lia) ltac:(lia)) as U. replace (0 * h + 0) with 0 in U by lia. lia. Qed.
Lemma units_inj a b : 0 <= a -> 0 <= b -> units a = units b -> a = b.
Proof.
  intros Ha Hb E. destruct (Z.lt_trichotomy a b) as [L|[L|L]]; [|exact L|].
  - pose proof (units_step a Ha). pose proof (units_mono (a + 1) b ltac:(lia)). lia.
  - pose proof (units_step b Hb). pose proof (units_mono (b + 1) a ltac:(lia)). lia.
Qed.
(** Every short enough number is a float. *)
Lemma represented m : forall e, 0 <= e -> 0 <= m <= 2 * h -> exists mag, 0 <= mag /\ units mag = m * 2 ^ e.
Proof.
  intros e He. revert m. pattern e. apply natlike_ind; [| |exact He]; clear e He.
  - intros m Hm. exists m. split; [lia|]. pose proof (units_at 0 m ltac:(lia) ltac:(lia) ltac:(lia)) as U.
    replace (0 * h + m) with m in U by lia. exact U.
  - intros e He IH m Hm. destruct (Z.le_gt_cases h m) as [L|L].
    + exists (Z.succ e * h + m). pose proof h_pos. split; [nia|]. apply units_at; lia.
    + destruct (IH (2 * m) ltac:(lia)) as (mag & P & E). exists mag. split; [exact P|].
      rewrite E, Z.pow_succ_r by lia. lia.
Qed.

Lemma even_add e m : Z.even (e * h + m) = Z.even m.
Proof.
  rewrite Z.even_add, Z.even_mul, h_even, Bool.orb_true_r. destruct (Z.even m); reflexivity.
Qed.

Lemma nearest_even_spec a b : 0 < b -> 0 <= a ->
  let k := a / b in let m := nearest_even a b in
  0 <= k /\ k * b <= a < (k + 1) * b /\ (m = k \/ m = k + 1) /\ 2 * Z.abs (m * b - a) <= b /\
  (2 * Z.abs (m * b - a) = b -> Z.even m = true).
Proof.
  intros Hb Ha. cbv zeta. pose proof (Z.div_mod a b ltac:(lia)) as D. pose proof (Z.mod_pos_bound a b Hb) as M.
  unfold nearest_even. set (k := a / b) in *. set (r := a mod b) in *.
  assert (Hk : 0 <= k) by (apply Z.div_pos; lia).
  destruct (Z.compare_spec (2 * r) b) as [C|C|C].
  - destruct (Z.even k) eqn:E.
    + replace (k * b - a) with (- r) by lia. repeat split; try lia; auto.
    + replace ((k + 1) * b - a) with (b - r) by lia. repeat split; try lia.
      intros _. rewrite Z.even_add, E. reflexivity.
  - replace (k * b - a) with (- r) by lia. repeat split; try lia; auto.
  - replace ((k + 1) * b - a) with (b - r) by lia. repeat split; try lia; auto.
Qed.

(** The exponent that [round] takes leaves a significand of the right size. *)
Lemma exponent a b : 0 < b -> 0 <= a -> let e := Z.max 0 (Z.log2 (a / b) - (f_prec f - 1)) in
  let k := a / (b * 2 ^ e) in (e = 0 \/ h <= k) /\ k < 2 * h.
Proof.
  intros Hb Ha e k. assert (He : 0 <= e) by lia. pose proof (pow_pos e He) as P. pose proof h_pos as Hp.
  assert (Q : k = a / b / 2 ^ e) by (unfold k; rewrite Z.div_div by lia; reflexivity).
  assert (q0 : 0 <= a / b) by (apply Z.div_pos; lia).
  destruct (Z.eq_dec (a / b) 0) as [Z0|NZ].
  { rewrite Q, Z0, Z.div_0_l by lia. unfold e. rewrite Z0. change (Z.log2 0) with 0. split; [left|]; lia. }
  destruct (Z.log2_spec (a / b) ltac:(lia)) as [L1 L2].
  destruct (Z.le_gt_cases (Z.log2 (a / b)) (f_prec f - 1)) as [C|C].
  - assert (E0 : e = 0) by lia. split; [left; exact E0|]. rewrite Q, E0. change (2 ^ 0) with 1. rewrite Z.div_1_r.
    assert (2 ^ Z.succ (Z.log2 (a / b)) <= 2 ^ f_prec f) by (apply Z.pow_le_mono_r; lia).
    assert (2 ^ f_prec f = 2 * h).
    { unfold hidden. rewrite <- Z.pow_succ_r by lia. f_equal. lia. }
    lia.
  - assert (E0 : e = Z.log2 (a / b) - (f_prec f - 1)) by lia.
    assert (S1 : 2 ^ Z.log2 (a / b) = h * 2 ^ e).
    { unfold hidden. rewrite <- Z.pow_add_r by lia. f_equal. lia. }
    rewrite Z.pow_succ_r in L2 by lia. rewrite S1 in *. rewrite Q. split.
    + right. apply Z.div_le_lower_bound; lia.
    + apply Z.div_lt_upper_bound; lia.
Qed.

(** What [round] finds. *)
Lemma round_parts a b : 0 < b -> 0 <= a -> round f a b < infinity f ->
  exists e m k, round f a b = e * h + m /\ 0 <= e /\ (e = 0 \/ h <= k) /\ 0 <= k < 2 * h /\ (m = k \/ m = k + 1) /\
    k * (b * 2 ^ e) <= a < (k + 1) * (b * 2 ^ e) /\
    2 * Z.abs (m * (b * 2 ^ e) - a) <= b * 2 ^ e /\ (2 * Z.abs (m * (b * 2 ^ e) - a) = b * 2 ^ e -> Z.even m = true).
Proof.
  intros Hb Ha R. unfold round in *. set (e := Z.max 0 (Z.log2 (a / b) - (f_prec f - 1))) in *.
  assert (He : 0 <= e) by lia. pose proof (pow_pos e He) as P. pose proof h_pos as Hp.
  destruct (nearest_even_spec a (b * 2 ^ e) ltac:(nia) Ha) as (K0 & K & Mk & M1 & M2).
  set (m := nearest_even a (b * 2 ^ e)) in *. set (k := a / (b * 2 ^ e)) in *.
  exists e, m, k. rewrite Z.min_r by lia.
  pose proof (exponent a b Hb Ha) as B. cbv zeta in B. fold e in B. fold k in B.
  destruct B as [B1 B2]. repeat split; auto; lia.
Qed.

Lemma round_nearest a b : 0 < b -> 0 <= a -> round f a b < infinity f ->
  nearest_to h (infinity f) a b (round f a b).
Proof.
  intros Hb Ha R. destruct (round_parts a b Hb Ha R) as (e & m & k & E & He & H0 & K & Mk & A & M1 & M2).
  pose proof h_pos as Hp. pose proof (pow_pos e He) as P.
  assert (Nn : 0 <= round f a b) by (rewrite E; nia).
  split; [lia|]. exists (units (round f a b)). split; [apply units_counts, Nn|].
  assert (U : units (round f a b) = m * 2 ^ e) by (rewrite E; apply units_at; lia).
  assert (Uk : units (e * h + k) = k * 2 ^ e) by (apply units_at; lia).
  assert (Uk1 : units (e * h + (k + 1)) = (k + 1) * 2 ^ e) by (apply units_at; lia).
  intros mag' n' H' C'. destruct (counts_units _ _ C') as [_ ->].
  set (t := b * 2 ^ e) in *. rewrite U. replace (m * 2 ^ e * b) with (m * t) by (unfold t; lia).
  destruct (Z.le_gt_cases mag' (e * h + k)) as [L|L].
  - pose proof (units_mono mag' (e * h + k) ltac:(lia)) as Mo. rewrite Uk in Mo.
    assert (X : units mag' * b <= k * t) by (unfold t; nia).
    split; [destruct Mk as [->| ->]; lia|].
    intros Eq Ne. rewrite E, even_add. apply M2.
    destruct Mk as [->| ->]; [|lia].
    assert (units mag' * b = k * t) by lia.
    exfalso. apply Ne. rewrite E. apply units_inj; [lia|nia|]. rewrite Uk. unfold t in *. nia.
  - pose proof (units_mono (e * h + (k + 1)) mag' ltac:(nia)) as Mo. rewrite Uk1 in Mo.
    assert (X : (k + 1) * t <= units mag' * b) by (unfold t; nia).
    split; [destruct Mk as [->| ->]; lia|].
    intros Eq Ne. rewrite E, even_add. apply M2.
    destruct Mk as [->| ->]; [lia|].
    assert (units mag' * b = (k + 1) * t) by lia.
    exfalso. apply Ne. rewrite E. apply units_inj; [lia|nia|]. rewrite Uk1. unfold t in *. nia.
Qed.

(** The relative error, from the smallest normal number on. *)
Lemma round_close a b : 0 < b -> b * h <= a -> round f a b < infinity f ->
  Z.abs (units (round f a b) * b - a) * (2 * h) <= a.
Proof.
  intros Hb Ha R. pose proof h_pos as Hp. destruct (round_parts a b Hb ltac:(nia) R) as (e & m & k & E & He & H0 & K & Mk & A & M1 & M2).
  pose proof (pow_pos e He) as P.
  assert (U : units (round f a b) = m * 2 ^ e) by (rewrite E; apply units_at; lia).
  rewrite U. replace (m * 2 ^ e * b) with (m * (b * 2 ^ e)) by lia.
  assert (T : b * 2 ^ e * h <= a).
  { destruct H0 as [->|H0]; [change (2 ^ 0) with 1; lia|nia]. }
  nia.
Qed.

Lemma round_exact a b n mag : 0 < b -> 0 <= n -> a = n * b -> 0 <= mag < infinity f -> units mag = n ->
  round f a b < infinity f -> round f a b = mag.
Proof.
  intros Hb Hn -> Hm U R. destruct (round_nearest (n * b) b Hb ltac:(nia) R) as (B & n1 & C1 & N1).
  destruct (N1 mag n Hm) as [D _]; [rewrite <- U; apply units_counts; lia|].
  destruct (counts_units _ _ C1) as [P1 ->].
  apply units_inj; [lia|lia|]. rewrite U. nia.
Qed.

(** Small enough numbers do not become infinite. *)
Lemma round_finite a b mag : 0 < b -> 0 <= a -> 0 <= mag < infinity f -> a <= units mag * b -> round f a b < infinity f.
Proof.
  intros Hb Ha Hm L. destruct (Z.lt_ge_cases (round f a b) (infinity f)) as [|G]; [assumption|exfalso].
  unfold round in G. set (e := Z.max 0 (Z.log2 (a / b) - (f_prec f - 1))) in *.
  assert (He : 0 <= e) by lia. pose proof (pow_pos e He) as P. pose proof h_pos as Hp.
  destruct (nearest_even_spec a (b * 2 ^ e) ltac:(nia) Ha) as (K0 & K & Mk & M1 & M2).
  set (m := nearest_even a (b * 2 ^ e)) in *. set (k := a / (b * 2 ^ e)) in *.
  pose proof (exponent a b Hb Ha) as B. cbv zeta in B. fold e in B. fold k in B.
  destruct B as [B1 B2].
  assert (G' : infinity f <= e * h + m) by lia.
  (* the magnitude is above [mag], so the value is *)
  assert (S : mag + 1 <= e * h + m) by lia.
  pose proof (units_mono (mag + 1) (e * h + m) ltac:(lia)) as Mo.
  rewrite (units_at e m) in Mo by lia.
  pose proof (units_step mag ltac:(lia)) as St.
  destruct Mk as [->| ->].
  - nia.
  - (* rounded up past [mag]: the lower neighbour is [mag] or more *)
    assert (Lk : mag <= e * h + k) by lia.
    pose proof (units_mono mag (e * h + k) ltac:(lia)) as Mk. rewrite (units_at e k) in Mk by lia.
    assert (a = k * (b * 2 ^ e)) by nia. nia.
Qed.
End Format.

(** What the two formats have in common. *)
Record fair (f : format) : Prop := {
  fair_prec : 2 <= f_prec f;
  fair_unit : f_prec f <= f_unit f;
  fair_room : 2 ^ 64 * 2 ^ f_unit f <= units f (infinity f - 1);
  fair_top : hidden f < infinity f < top_bit f }.
Lemma fair32 : fair f32.
Proof. split; try (vm_compute; intros H; discriminate H); split; vm_compute; reflexivity. Qed.
Lemma fair64 : fair f64.
Proof. split; try (vm_compute; intros H; discriminate H); split; vm_compute; reflexivity. Qed.

(** The power of ten is a float of the format. *)
Definition whole_ten (f : format) (s : N) : Prop :=
  units f (int_to_float f (10 ^ Z.of_N s)) = 10 ^ Z.of_N s * 2 ^ f_unit f.
Lemma upto_cases (P : N -> Prop) (n : nat) : (forall i, (i <= n)%nat -> P (N.of_nat i)) -> forall s, (s <= N.of_nat n)%N -> P s.
Proof. intros H s L. rewrite <- (N2Nat.id s). apply H. lia. Qed.
Lemma tens64 s : (s <= 18)%N -> whole_ten f64 s.
Proof.
  apply (upto_cases (whole_ten f64) 18). intros i Hi.
  do 19 (destruct i as [|i]; [vm_compute; reflexivity|]). lia.
Qed.
Lemma tens32 s : (s <= 10)%N -> whole_ten f32 s.
Proof.
  apply (upto_cases (whole_ten f32) 10). intros i Hi.
  do 11 (destruct i as [|i]; [vm_compute; reflexivity|]). lia.
Qed.
Lemma factors_ten s : (s <= 18)%N -> factors10 s = Ok (10 ^ Z.of_N s).
Proof. intros H. unfold factors10. rewrite (proj2 (N.leb_le _ _)) by exact H. reflexivity. Qed.
Lemma ten_bounds s : (s <= 18)%N -> 1 <= 10 ^ Z.of_N s <= 10 ^ 18.
Proof.
  intros H. split; [pose proof (Z.pow_pos_nonneg 10 (Z.of_N s)); lia|].
  apply Z.pow_le_mono_r; lia.
Qed.

Section Any.
Variable f : format.
Hypothesis F : fair f.
Notation h := (hidden f).
Notation U := (2 ^ f_unit f).
Let P2 := fair_prec f F.

Lemma U_big : 2 * h <= U.
Proof.
  pose proof (fair_unit f F). unfold hidden.
  replace (2 * 2 ^ (f_prec f - 1)) with (2 ^ f_prec f) by (rewrite <- Z.pow_succ_r by lia; f_equal; lia).
  apply Z.pow_le_mono_r; lia.
Qed.
Lemma U_pos : 0 < U.
Proof. pose proof U_big. pose proof (h_pos f P2). lia. Qed.
Lemma below_infinity mag n : 0 <= mag -> units f mag = n -> n <= 2 ^ 64 * U -> mag < infinity f.
Proof.
  intros H E L. destruct (Z.lt_ge_cases mag (infinity f)) as [|G]; [assumption|exfalso].
  pose proof (fair_top f F). pose proof (h_pos f P2).
  pose proof (units_step f P2 (infinity f - 1) ltac:(lia)) as S. replace (infinity f - 1 + 1) with (infinity f) in S by lia.
  pose proof (units_mono f P2 (infinity f) mag ltac:(lia)). pose proof (fair_room f F). lia.
Qed.
Lemma finite a b : 0 < b -> 0 <= a -> a <= 2 ^ 64 * U * b -> round f a b < infinity f.
Proof.
  intros Hb Ha L. pose proof (fair_top f F). pose proof (h_pos f P2).
  apply (round_finite f P2 a b (infinity f - 1)); try lia. pose proof (fair_room f F). nia.
Qed.
Lemma round_nonneg a b : 0 < b -> 0 <= a -> 0 <= round f a b.
Proof.
  intros Hb Ha. unfold round. pose proof (fair_top f F). pose proof (h_pos f P2).
  set (e := Z.max 0 _). assert (0 <= e) by lia. pose proof (pow_pos e ltac:(lia)).
  destruct (nearest_even_spec a (b * 2 ^ e) ltac:(nia) Ha) as (K & _ & M & _). lia.
Qed.

(** The magnitude of a number with a sign. *)
Lemma magnitude_signed neg mag : 0 <= mag <= infinity f -> magnitude f (signed f neg mag) = mag /\ negative f (signed f neg mag) = neg.
Proof.
  intros H. pose proof (fair_top f F). unfold magnitude, negative, signed. destruct neg.
  - rewrite (proj2 (Z.leb_le _ _)) by lia. split; [lia|reflexivity].
  - rewrite (proj2 (Z.leb_gt _ _)) by lia. auto.
Qed.

Definition int_mag (z : Z) : Z := round f (Z.abs z * U) 1.
Lemma int_mag_ok z : Z.abs z <= 2 ^ 63 -> 0 <= int_mag z < infinity f.
Proof.
  intros H. pose proof U_pos. split; [apply round_nonneg; nia|]. apply finite; nia.
Qed.
Lemma int_exact z : Z.abs z <= 2 * h -> Z.abs z <= 2 ^ 63 -> units f (int_mag z) = Z.abs z * U.
Proof.
  intros H1 H2. pose proof U_pos. destruct (represented f P2 (Z.abs z) (f_unit f)) as (mag & Pm & E).
  { pose proof (fair_unit f F). lia. }
  { lia. }
  assert (L : mag < infinity f) by (apply (below_infinity mag _ Pm E); nia).
  assert (R : int_mag z = mag); [|rewrite R; exact E].
  apply (round_exact f P2 (Z.abs z * U) 1 (Z.abs z * U) mag); try lia. apply int_mag_ok, H2.
Qed.
Lemma int_close z : z <> 0 -> Z.abs z <= 2 ^ 63 -> Z.abs (units f (int_mag z) - Z.abs z * U) * (2 * h) <= Z.abs z * U.
Proof.
  intros N H. pose proof U_big. pose proof (h_pos f P2).
  pose proof (round_close f P2 (Z.abs z * U) 1 ltac:(lia) ltac:(nia) (proj2 (int_mag_ok z H))) as C.
  rewrite Z.mul_1_r in C. exact C.
Qed.

Section Ten.
Variable s : N.
Hypothesis S18 : (s <= 18)%N.
Hypothesis T : whole_ten f s.
Notation ten := (10 ^ Z.of_N s).

Lemma ten_units : units f (int_to_float f ten) = ten * U.
Proof. exact T. Qed.

(** ** Decimals to floats *)
Definition quotient (u : Z) : Z := round f (units f (int_mag u) * U) (ten * U).
Lemma to_float_is d : d_scale d = s -> Z.abs (d_underlying d) <= 2 ^ 63 ->
  decimal_to_float f d = Ok (signed f (d_underlying d <? 0) (quotient (d_underlying d))).
Proof.
  intros E H. unfold decimal_to_float. rewrite E, factors_ten by exact S18. cbn [rbind]. unfold float_div.
  rewrite ten_units. unfold int_to_float. fold (int_mag (d_underlying d)).
  destruct (magnitude_signed (d_underlying d <? 0) (int_mag (d_underlying d))) as [-> ->]; [|reflexivity].
  pose proof (int_mag_ok _ H). lia.
Qed.
Lemma quotient_finite u : Z.abs u <= 2 ^ 63 -> 0 <= quotient u < infinity f.
Proof.
  intros H. pose proof U_pos. pose proof (ten_bounds s S18).
  assert (0 <= units f (int_mag u)) by (apply units_nonneg; [exact P2|apply int_mag_ok, H]).
  split; [apply round_nonneg; nia|]. apply finite; [nia|nia|].
  destruct (Z.eq_dec u 0) as [->|N].
  - rewrite (int_exact 0) by (pose proof (h_pos f P2); lia). cbn [Z.abs]. nia.
  - pose proof (int_close u N H) as C. pose proof (h_pos f P2).
    assert (units f (int_mag u) <= 2 ^ 64 * U) by nia. nia.
Qed.
Lemma nearest_scaled a b c mag top : 0 < c -> nearest_to h top (a * c) (b * c) mag -> nearest_to h top a b mag.
Proof.
  intros Hc (B & n & C & N). split; [exact B|]. exists n. split; [exact C|]. intros mag' n' B' C'.
  destruct (N mag' n' B' C') as [N1 N2].
  replace (n * (b * c) - a * c) with ((n * b - a) * c) in * by lia.
  replace (n' * (b * c) - a * c) with ((n' * b - a) * c) in * by lia.
  rewrite !Z.abs_mul, (Z.abs_eq c) in * by lia. split; [nia|]. intros E. apply N2. nia.
Qed.
Lemma quotient_nearest u : Z.abs u <= 2 * h -> Z.abs u <= 2 ^ 63 ->
  nearest_to h (infinity f) (Z.abs u * U) ten (quotient u).
Proof.
  intros H1 H2. pose proof U_pos. pose proof (ten_bounds s S18).
  apply (nearest_scaled _ _ U _ _ U_pos). unfold quotient. rewrite int_exact by assumption.
  apply round_nearest; [exact P2|nia|nia|].
  pose proof (quotient_finite u H2) as Q. unfold quotient in Q. rewrite int_exact in Q by assumption. lia.
Qed.
Lemma quotient_step u : u <> 0 -> Z.abs u <= 2 ^ 63 -> 2 ^ 61 * h <= U ->
  Z.abs (units f (quotient u) * ten - units f (int_mag u)) * (2 * h) <= units f (int_mag u).
Proof.
  intros N H B. pose proof U_pos. pose proof (ten_bounds s S18). pose proof (h_pos f P2).
  pose proof (int_close u N H) as C.
  assert (L : ten * h <= units f (int_mag u)).
  { assert (2 * units f (int_mag u) >= U).
    { set (x := units f (int_mag u)) in *. assert (A : U <= Z.abs u * U) by nia. set (a := Z.abs u * U) in *.
      assert (D : Z.abs (x - a) * 2 <= Z.abs (x - a) * (2 * h)) by nia. lia. }
    assert (ten * h <= 10 ^ 18 * h) by nia. change (10 ^ 18) with 1000000000000000000 in *. change (2 ^ 61) with 2305843009213693952 in *.
    nia. }
  pose proof (round_close f P2 (units f (int_mag u) * U) (ten * U) ltac:(nia) ltac:(nia)) as R.
  fold (quotient u) in R. specialize (R (proj2 (quotient_finite u H))).
  replace (units f (quotient u) * (ten * U) - units f (int_mag u) * U) with ((units f (quotient u) * ten - units f (int_mag u)) * U) in R by lia.
  rewrite Z.abs_mul, (Z.abs_eq U) in R by lia. nia.
Qed.
Lemma quotient_close u : u <> 0 -> Z.abs u <= 2 ^ 63 -> 2 ^ 61 * h <= U ->
  Z.abs (units f (quotient u) * ten - Z.abs u * U) * (4 * h * h) <= Z.abs u * U * (4 * h + 1).
Proof.
  intros N H B. pose proof (quotient_step u N H B) as Q. pose proof (int_close u N H) as C.
  pose proof (h_pos f P2). set (n1 := units f (int_mag u)) in *. set (A := Z.abs u * U) in *. set (q := units f (quotient u) * ten) in *.
  assert (X : Z.abs (q - A) <= Z.abs (q - n1) + Z.abs (n1 - A)) by lia.
  assert (Y : Z.abs (q - n1) * (2 * h) <= A + Z.abs (n1 - A)) by lia.
  nia.
Qed.

(** ** Floats to decimals *)
Definition product (n : Z) : Z := round f (n * (ten * U)) U.
Lemma product_close n : 0 <= n -> product n < infinity f -> Z.abs (units f (product n) - n * ten) * (2 * h) <= n * ten.
Proof.
  intros Hn L. pose proof U_pos. pose proof (ten_bounds s S18). pose proof (h_pos f P2). pose proof (fair_top f F).
  destruct (Z.lt_ge_cases (n * ten) h) as [Lh|Lh].
  - assert (E : units f (n * ten) = n * ten).
    { pose proof (units_at f P2 0 (n * ten) ltac:(lia) ltac:(nia) ltac:(lia)) as E. rewrite Z.mul_1_r in E. exact E. }
    assert (R : product n = n * ten).
    { apply (round_exact f P2 _ _ (n * ten)); try nia; assumption. }
    rewrite R, E. nia.
  - pose proof (round_close f P2 (n * (ten * U)) U ltac:(lia) ltac:(nia) L) as R. fold (product n) in R.
    replace (units f (product n) * U - n * (ten * U)) with ((units f (product n) - n * ten) * U) in R by lia.
    rewrite Z.abs_mul, (Z.abs_eq U) in R by lia. nia.
Qed.
Lemma of_float_is neg mag : 0 <= mag < infinity f ->
  decimal_of_float f (signed f neg mag) s =
  (let m := product (units f mag) in
   let w := units f m / U in
   let u := if m =? infinity f then (if neg then - 2 ^ 63 else 2 ^ 63 - 1)
            else if neg then Z.max (- 2 ^ 63) (- w) else Z.min (2 ^ 63 - 1) w in
   if 10 ^ 18 <? u then Panic PExplicit else Ok (mk_decimal u N64 18 s)).
Proof.
  intros H. unfold decimal_of_float. rewrite (proj2 (N.ltb_ge _ _)) by exact S18. rewrite factors_ten by exact S18.
  cbn [rbind]. unfold float_mul. destruct (magnitude_signed neg mag ltac:(lia)) as [-> ->].
  rewrite (proj2 (Z.leb_gt _ _)) by lia. rewrite ten_units. fold (product (units f mag)). unfold float_to_int.
  pose proof U_pos. pose proof (ten_bounds s S18).
  assert (Pn : 0 <= product (units f mag)).
  { pose proof (units_nonneg f P2 mag ltac:(lia)). apply round_nonneg; nia. }
  assert (Pm : product (units f mag) <= infinity f) by (unfold product, round; lia).
  destruct (magnitude_signed neg (product (units f mag)) ltac:(lia)) as [-> ->].
  rewrite (proj2 (Z.ltb_ge (infinity f) (product (units f mag)))) by lia. reflexivity.
Qed.
Lemma of_float_close neg mag d : 0 <= mag < infinity f -> decimal_of_float f (signed f neg mag) s = Ok d ->
  d_scale d = s /\ d_nobits d = N64 /\ d_precision d = 18%N /\
  ((neg = true /\ d_underlying d = - 2 ^ 63) \/
   let a := if neg then - d_underlying d else d_underlying d in
   0 <= a /\ 2 * h * (a * U - units f mag * ten) <= units f mag * ten /\
   2 * h * (units f mag * ten - (a + 1) * U) < units f mag * ten \/ units f mag = 0 /\ d_underlying d = 0).
Proof.
  intros Hm E. rewrite of_float_is in E by exact Hm. cbv zeta in E.
  set (m := product (units f mag)) in *. set (n := units f mag) in *.
  assert (Hn : 0 <= n) by (apply units_nonneg; [exact P2|lia]).
  pose proof U_pos as Up. pose proof (ten_bounds s S18) as Tb. pose proof (h_pos f P2) as Hp.
  assert (Pn : 0 <= m) by (apply round_nonneg; nia).
  assert (Pm : m <= infinity f) by (unfold m, product, round; lia).
  set (w := units f m / U) in *.
  assert (W : 0 <= w) by (apply Z.div_pos; [apply units_nonneg; [exact P2|lia]|lia]).
  set (u := if m =? infinity f then _ else _) in *.
  destruct (10 ^ 18 <? u) eqn:G; [discriminate|]. apply Z.ltb_ge in G. injection E as <-. cbn [d_scale d_nobits d_precision d_underlying].
  repeat (split; [reflexivity|]). subst u. destruct (m =? infinity f) eqn:I.
  { destruct neg; [left; auto|exfalso]. revert G. vm_compute. intros G; apply G; reflexivity. }
  apply Z.eqb_neq in I. pose proof (product_close n Hn ltac:(fold m; lia)) as C. fold m in C.
  assert (D : w * U <= units f m < (w + 1) * U).
  { pose proof (Z.div_mod (units f m) U ltac:(lia)). pose proof (Z.mod_pos_bound (units f m) U Up). fold w in H. nia. }
  assert (Q : 0 <= w /\ 2 * h * (w * U - n * ten) <= n * ten /\ 2 * h * (n * ten - (w + 1) * U) < n * ten \/ n = 0 /\ w = 0).
  { destruct (Z.eq_dec n 0) as [Z|Z].
    - right. split; [exact Z|]. rewrite Z in C. assert (units f m = 0) by nia. unfold w. rewrite H. apply Z.div_0_l; lia.
    - left. split; [exact W|]. nia. }
  destruct neg.
  - destruct (Z.le_gt_cases (- w) (- 2 ^ 63)) as [L|L]; [left; split; [reflexivity|lia]|right].
    rewrite Z.max_r by lia. cbv zeta. rewrite Z.opp_involutive. destruct Q as [Q|[Q1 Q2]]; [left; exact Q|right; split; lia].
  - right. assert (w <= 2 ^ 63 - 1).
    { destruct (Z.le_gt_cases w (2 ^ 63 - 1)) as [|L]; [assumption|exfalso]. rewrite Z.min_l in G by lia. revert G. vm_compute. intros G; apply G; reflexivity. }
    rewrite Z.min_r by lia. cbv zeta. exact Q.
Qed.

(** When the product is known. *)
Lemma of_float_exact neg mag w : 0 <= mag < infinity f -> 0 <= w <= 10 ^ 18 ->
  product (units f mag) < infinity f -> units f (product (units f mag)) / U = w ->
  decimal_of_float f (signed f neg mag) s = Ok (mk_decimal (if neg then - w else w) N64 18 s).
Proof.
  intros Hm Hw Pm E. rewrite of_float_is by exact Hm. cbv zeta. rewrite (proj2 (Z.eqb_neq (product (units f mag)) (infinity f))) by lia. rewrite E.
  change (10 ^ 18) with 1000000000000000000 in *. change (2 ^ 63) with 9223372036854775808 in *.
  destruct neg; [rewrite Z.max_r by lia|rewrite Z.min_r by lia]; rewrite (proj2 (Z.ltb_ge _ _)) by lia; reflexivity.
Qed.
Lemma product_finite n : 0 <= n -> n * ten <= 2 ^ 64 * U -> product n < infinity f.
Proof. intros Hn L. pose proof U_pos. pose proof (ten_bounds s S18). apply finite; nia. Qed.
Lemma of_float_ok neg mag : 0 <= mag < infinity f -> units f mag * ten * (2 * h + 1) <= 2 * h * (10 ^ 18 * U) ->
  exists d, decimal_of_float f (signed f neg mag) s = Ok d /\ Z.abs (d_underlying d) <= 10 ^ 18.
Proof.
  intros Hm L. pose proof U_pos as Up. pose proof (ten_bounds s S18). pose proof (h_pos f P2).
  set (n := units f mag) in *. assert (Hn : 0 <= n) by (apply units_nonneg; [exact P2|lia]).
  assert (B : n * ten <= 10 ^ 18 * U) by nia.
  assert (Pm : product n < infinity f). { apply product_finite; [exact Hn|]. change (10 ^ 18) with 1000000000000000000 in *. lia. }
  pose proof (product_close n Hn Pm) as C.
  assert (Pn : 0 <= product n) by (apply round_nonneg; nia).
  assert (Q : units f (product n) <= 10 ^ 18 * U) by nia.
  assert (0 <= units f (product n) / U <= 10 ^ 18).
  { split; [apply Z.div_pos; [apply units_nonneg; [exact P2|exact Pn]|lia]|]. apply Z.div_le_upper_bound; lia. }
  eexists. split; [apply of_float_exact; [exact Hm|eassumption|exact Pm|reflexivity]|]. cbn [d_underlying]. destruct neg; lia.
Qed.
Lemma product_whole z : 0 <= z -> z * ten <= 2 * h -> z * ten <= 10 ^ 18 -> product (z * U) < infinity f /\ units f (product (z * U)) = z * ten * U.
Proof.
  intros Hz B1 B2. pose proof U_pos as Up. pose proof (ten_bounds s S18).
  assert (Pm : product (z * U) < infinity f). { apply product_finite; [nia|]. change (10 ^ 18) with 1000000000000000000 in *. nia. }
  split; [exact Pm|]. destruct (represented f P2 (z * ten) (f_unit f)) as (k & Pk & E).
  { pose proof (fair_unit f F). lia. }
  { nia. }
  assert (L : k < infinity f). { apply (below_infinity k _ Pk E). change (10 ^ 18) with 1000000000000000000 in *. nia. }
  assert (R : product (z * U) = k); [|rewrite R; exact E].
  apply (round_exact f P2 _ _ (z * ten * U)); first [exact Pm | lia | nia].
Qed.
Lemma whole_of_float neg mag z : 0 <= mag < infinity f -> units f mag = z * U -> 0 <= z -> z * ten <= 2 * h -> z * ten <= 10 ^ 18 ->
  decimal_of_float f (signed f neg mag) s = Ok (mk_decimal (if neg then - (z * ten) else z * ten) N64 18 s).
Proof.
  intros Hm E Hz B1 B2. pose proof U_pos as Up. pose proof (ten_bounds s S18). destruct (product_whole z Hz B1 B2) as [Pm Q].
  apply of_float_exact; [exact Hm|nia|rewrite E; exact Pm|]. rewrite E, Q. apply Z.div_mul; lia.
Qed.
Lemma trip u : Z.abs u < h -> h <= 10 ^ 18 -> 2 ^ 61 * h <= U ->
  exists v, decimal_of_float f (signed f (u <? 0) (quotient u)) s = Ok (mk_decimal v N64 18 s) /\ (v = u \/ v = u - Z.sgn u).
Proof.
  intros B Hh HU. pose proof U_pos as Up. pose proof (ten_bounds s S18) as Tb. pose proof (h_pos f P2) as Hp.
  change (10 ^ 18) with 1000000000000000000 in *.
  assert (Qf : 0 <= quotient u < infinity f) by (apply quotient_finite; lia).
  set (n := units f (quotient u)) in *. set (a := Z.abs u) in *.
  assert (Hn : 0 <= n) by (apply units_nonneg; [exact P2|lia]).
  assert (C1 : Z.abs (n * ten - a * U) * (2 * h) <= a * U).
  { destruct (Z.eq_dec u 0) as [E|E].
    - assert (Q0 : quotient u = 0).
      { unfold quotient. rewrite int_exact by lia. subst u. pose proof (fair_top f F).
        apply (round_exact f P2 _ _ 0); try lia.
        - pose proof (units_at f P2 0 0 ltac:(lia) ltac:(lia) ltac:(lia)) as E. exact E.
        - apply finite; nia. }
      unfold n. rewrite Q0. pose proof (units_at f P2 0 0 ltac:(lia) ltac:(lia) ltac:(lia)) as E0.
      change (0 * h + 0) with 0 in E0. rewrite E0. subst u. unfold a. cbn. lia.
    - pose proof (quotient_step u E ltac:(lia) HU) as Q. rewrite int_exact in Q by lia. exact Q. }
  assert (Bn : n * ten <= 2 * (a * U)) by nia.
  assert (Pm : product n < infinity f) by (apply product_finite; nia).
  pose proof (product_close n Hn Pm) as C2.
  assert (Pn : 0 <= product n) by (apply round_nonneg; nia).
  pose proof (units_nonneg f P2 _ Pn) as Qn. set (q := units f (product n)) in *.
  assert (D : (a - 1) * U < q < (a + 1) * U).
  { set (A := a * U) in *. set (x := n * ten) in *.
    assert (K : Z.abs (q - A) * (4 * h * h) <= A * (4 * h + 1)).
    { assert (Z.abs (q - A) <= Z.abs (q - x) + Z.abs (x - A)) by lia.
      assert (Z.abs (q - x) * (2 * h) <= A + Z.abs (x - A)) by lia. nia. }
    assert (A * (4 * h + 1) < U * (4 * h * h)).
    { unfold A. assert (a * (4 * h + 1) < 4 * h * h) by nia. nia. }
    assert (Z.abs (q - A) < U); [|unfold A in *; lia].
    apply (Z.mul_lt_mono_pos_r (4 * h * h)); [nia|]. eapply Z.le_lt_trans; eassumption. }
  assert (Dv : q / U = a \/ (q / U = a - 1 /\ 0 < a)).
  { pose proof (Z.div_mod q U ltac:(lia)) as M. pose proof (Z.mod_pos_bound q U Up). set (w := q / U) in *.
    assert (W1 : a - 1 < w + 1) by (apply (Z.mul_lt_mono_pos_r U); [exact Up|lia]).
    assert (W2 : w < a + 1) by (apply (Z.mul_lt_mono_pos_r U); [exact Up|lia]).
    assert (W3 : 0 <= w) by (apply Z.div_pos; lia). lia. }
  exists (if u <? 0 then - (q / U) else q / U). split.
  - apply of_float_exact; [exact Qf| |exact Pm|reflexivity]. change (10 ^ 18) with 1000000000000000000. lia.
  - unfold a in *. destruct (u <? 0) eqn:S; [apply Z.ltb_lt in S|apply Z.ltb_ge in S]; lia.
Qed.
Lemma quotient_whole z : Z.abs z * ten <= 2 * h -> Z.abs z * ten <= 2 ^ 63 -> units f (quotient (z * ten)) = Z.abs z * U.
Proof.
  intros B1 B2. pose proof U_pos as Up. pose proof (ten_bounds s S18) as Tb.
  assert (A : Z.abs (z * ten) = Z.abs z * ten) by (rewrite Z.abs_mul, (Z.abs_eq ten); lia).
  destruct (represented f P2 (Z.abs z) (f_unit f)) as (k & Pk & E).
  { pose proof (fair_unit f F). lia. }
  { nia. }
  assert (L : k < infinity f) by (apply (below_infinity k _ Pk E); nia).
  assert (Qf : quotient (z * ten) < infinity f) by (apply quotient_finite; lia).
  unfold quotient in *. rewrite int_exact in * by lia. rewrite A in *.
  assert (R : round f (Z.abs z * ten * U * U) (ten * U) = k); [|rewrite R; exact E].
  apply (round_exact f P2 _ _ (Z.abs z * U)); first [exact Qf | lia | nia].
Qed.
End Ten.
End Any.
