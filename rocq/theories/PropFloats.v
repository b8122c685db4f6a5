(** Properties C104 and C105. *)
From Verif Require Import Base Bytes Types Decimal Floats SpecFloats FloatsProofs.
Open Scope Z_scope.

Lemma binary_fair f sign h unit most : binary f sign h unit most ->
  fair f /\ sign = top_bit f /\ h = hidden f /\ unit = 2 ^ f_unit f /\ sign - h = infinity f /\
  (forall s, (s <= most)%N -> (s <= 18)%N /\ whole_ten f s) /\ h <= 2 ^ 52 /\ 2 ^ 61 * h <= unit.
Proof.
  intros []; (split; [apply fair32 || apply fair64|]); repeat (split; [reflexivity|]); split.
  1, 3: intros s Hs; split; [lia|]; apply tens32 || apply tens64; assumption.
  all: split; intros H; vm_compute in H; discriminate H.
Qed.
Lemma sign_is f neg mag : signed f neg mag = with_sign (top_bit f) neg mag.
Proof. unfold signed, with_sign. destruct neg; [lia|reflexivity]. Qed.

(** C104. A decimal whose whole number is at most twice 2^52 (2^23 for f32) and whose power of ten is a float of the format becomes
    the nearest float. What is missing is refuted below: of larger numbers it need not be the nearest, since they are rounded twice. *)
Theorem c104_nearest_partial f sign h unit most d : binary f sign h unit most ->
  Z.abs (d_underlying d) <= 2 * h -> (d_scale d <= most)%N ->
  exists mag, decimal_to_float f d = Ok (with_sign sign (d_underlying d <? 0) mag) /\
    nearest_to h (sign - h) (Z.abs (d_underlying d) * unit) (10 ^ Z.of_N (d_scale d)) mag.
Proof.
  intros B H S. destruct (binary_fair _ _ _ _ _ B) as (F & -> & -> & -> & E & T & Hh & HU). destruct (T _ S) as [S18 Ts].
  assert (H2 : Z.abs (d_underlying d) <= 2 ^ 63) by (change (2 ^ 52) with 4503599627370496 in Hh; lia).
  eexists. split; [rewrite <- sign_is; apply (to_float_is f F _ S18 Ts d eq_refl H2)|].
  rewrite E. apply (quotient_nearest f F _ S18); assumption.
Qed.
Print Assumptions c104_nearest_partial.

(** C104, of all decimals: the float is finite, has the sign of the decimal, and is off by little more than the last bit. *)
Theorem c104_close f sign h unit most d : binary f sign h unit most ->
  - 2 ^ 63 <= d_underlying d < 2 ^ 63 -> (d_scale d <= most)%N ->
  exists mag n, decimal_to_float f d = Ok (with_sign sign (d_underlying d <? 0) mag) /\ 0 <= mag < sign - h /\ counts h mag n /\
    Z.abs (n * 10 ^ Z.of_N (d_scale d) - Z.abs (d_underlying d) * unit) * (4 * h * h) <= Z.abs (d_underlying d) * unit * (4 * h + 1).
Proof.
  intros B H S. destruct (binary_fair _ _ _ _ _ B) as (F & -> & -> & -> & E & T & Hh & HU). destruct (T _ S) as [S18 Ts].
  assert (H2 : Z.abs (d_underlying d) <= 2 ^ 63) by lia.
  pose proof (quotient_finite f F _ S18 _ H2) as Q.
  eexists _, _. split; [rewrite <- sign_is; apply (to_float_is f F _ S18 Ts d eq_refl H2)|].
  rewrite E. split; [exact Q|]. split; [apply units_counts; [apply (fair_prec f F)|lia]|].
  destruct (Z.eq_dec (d_underlying d) 0) as [Z|N]; [|apply (quotient_close f F _ S18 _ N H2 HU)].
  destruct (quotient_nearest f F _ S18 (d_underlying d)) as (_ & n & C & N).
  { rewrite Z. pose proof (h_pos f (fair_prec f F)). cbn [Z.abs]. lia. }
  { exact H2. }
  apply (counts_units f (fair_prec f F)) in C. destruct C as [_ ->]. pose proof (fair_top f F). pose proof (h_pos f (fair_prec f F)).
  destruct (N 0 0 ltac:(lia)) as [M _]; [left; lia|]. rewrite Z in *. cbn [Z.abs] in *. nia.
Qed.
Print Assumptions c104_close.

(** C104, refuted of the code: 900719925474099.5 is an f64, and the decimal that is it becomes another one. *)
Theorem c104_refuted :
  let d := mk_decimal 9007199254740995 N64 18 1 in
  decimal_to_float f64 d = Ok 0x430999999999999d /\
  (exists n, counts (2 ^ 52) 0x430999999999999c n /\ n * 10 = 9007199254740995 * 2 ^ 1074) /\
  ~ nearest_to (2 ^ 52) (2 ^ 63 - 2 ^ 52) (9007199254740995 * 2 ^ 1074) 10 0x430999999999999d.
Proof.
  assert (C : counts (2 ^ 52) 0x430999999999999c (units f64 0x430999999999999c)).
  { apply (units_counts f64 (fair_prec _ fair64)). lia. }
  assert (E : units f64 0x430999999999999c * 10 = 9007199254740995 * 2 ^ 1074) by (vm_compute; reflexivity).
  split; [vm_compute; reflexivity|]. split; [exists (units f64 0x430999999999999c); split; assumption|].
  intros (_ & n & Cn & N). destruct (N 0x430999999999999c _ ltac:(vm_compute; split; [intros H; discriminate H|reflexivity]) C) as [D _].
  rewrite E in D. apply (counts_units f64 (fair_prec _ fair64)) in Cn. destruct Cn as [_ ->].
  revert D. vm_compute. intros D. apply D. reflexivity.
Qed.
Print Assumptions c104_refuted.

(** C105. A finite float times the power of ten, cut to a whole number, up to half a last bit of the product. *)
Theorem c105_close f sign h unit most s neg mag n d : binary f sign h unit most -> (s <= most)%N ->
  0 <= mag < sign - h -> counts h mag n ->
  decimal_of_float f (with_sign sign neg mag) s = Ok d ->
  d_scale d = s /\ d_nobits d = N64 /\ d_precision d = 18%N /\
  ((neg = true /\ d_underlying d = - 2 ^ 63) \/
   let a := if neg then - d_underlying d else d_underlying d in
   0 <= a /\ 2 * h * (a * unit - n * 10 ^ Z.of_N s) <= n * 10 ^ Z.of_N s /\
   2 * h * (n * 10 ^ Z.of_N s - (a + 1) * unit) < n * 10 ^ Z.of_N s \/ n = 0 /\ d_underlying d = 0).
Proof.
  intros B S H C E. destruct (binary_fair _ _ _ _ _ B) as (F & -> & -> & -> & I & T & _). destruct (T _ S) as [S18 Ts].
  rewrite I in H. apply (counts_units f (fair_prec f F)) in C. destruct C as [_ ->].
  rewrite <- sign_is in E. exact (of_float_close f F s S18 Ts neg mag d H E).
Qed.
Print Assumptions c105_close.

(** C105. Which of them there is a decimal for: all that are, with half a last bit more, not above 10^18. *)
Theorem c105_fits f sign h unit most s neg mag n : binary f sign h unit most -> (s <= most)%N ->
  0 <= mag < sign - h -> counts h mag n -> n * 10 ^ Z.of_N s * (2 * h + 1) <= 2 * h * (10 ^ 18 * unit) ->
  exists d, decimal_of_float f (with_sign sign neg mag) s = Ok d /\ Z.abs (d_underlying d) <= 10 ^ 18.
Proof.
  intros B S H C L. destruct (binary_fair _ _ _ _ _ B) as (F & -> & -> & -> & I & T & _). destruct (T _ S) as [S18 Ts].
  rewrite I in H. apply (counts_units f (fair_prec f F)) in C. destruct C as [_ ->]. rewrite <- sign_is.
  exact (of_float_ok f F s S18 Ts neg mag H L).
Qed.
Print Assumptions c105_fits.

(** C105. Whole floats are kept exactly. *)
Theorem c105_whole f sign h unit most s neg mag z : binary f sign h unit most -> (s <= most)%N ->
  0 <= mag < sign - h -> counts h mag (z * unit) -> z * 10 ^ Z.of_N s <= 2 * h -> 
  decimal_of_float f (with_sign sign neg mag) s = Ok (mk_decimal (if neg then - (z * 10 ^ Z.of_N s) else z * 10 ^ Z.of_N s) N64 18 s).
Proof.
  intros B S H C L. destruct (binary_fair _ _ _ _ _ B) as (F & -> & -> & -> & I & T & Hh & _). destruct (T _ S) as [S18 Ts].
  rewrite I in H. apply (counts_units f (fair_prec f F)) in C. destruct C as [_ E]. rewrite <- sign_is.
  pose proof (units_nonneg f (fair_prec f F) mag ltac:(lia)). pose proof (U_pos f F).
  apply (whole_of_float f F s S18 Ts); try assumption; [lia|nia|].
  change (2 ^ 52) with 4503599627370496 in Hh. change (10 ^ 18) with 1000000000000000000. lia.
Qed.
Print Assumptions c105_whole.

(** C105. A decimal that becomes a float and a decimal again is what it was or loses one in its last place. What is missing is refuted
    below: it need not be what it was. *)
Theorem c105_trip_partial f sign h unit most d : binary f sign h unit most ->
  Z.abs (d_underlying d) < h -> (d_scale d <= most)%N ->
  exists x v, decimal_to_float f d = Ok x /\ decimal_of_float f x (d_scale d) = Ok (mk_decimal v N64 18 (d_scale d)) /\
    (v = d_underlying d \/ v = d_underlying d - Z.sgn (d_underlying d)).
Proof.
  intros B H S. destruct (binary_fair _ _ _ _ _ B) as (F & -> & -> & -> & E & T & Hh & HU). destruct (T _ S) as [S18 Ts].
  change (2 ^ 52) with 4503599627370496 in Hh.
  assert (H2 : Z.abs (d_underlying d) <= 2 ^ 63) by lia.
  destruct (trip f F (d_scale d) S18 Ts (d_underlying d) H) as (v & Ev & Dv).
  { change (10 ^ 18) with 1000000000000000000. lia. }
  { exact HU. }
  eexists _, v. split; [exact (to_float_is f F _ S18 Ts d eq_refl H2)|]. split; assumption.
Qed.
Print Assumptions c105_trip_partial.

(** C105. Decimals that are whole numbers survive it. *)
Theorem c105_trip_whole f sign h unit most d z : binary f sign h unit most ->
  d_underlying d = z * 10 ^ Z.of_N (d_scale d) -> Z.abs (d_underlying d) <= 2 * h -> (d_scale d <= most)%N ->
  exists x, decimal_to_float f d = Ok x /\ decimal_of_float f x (d_scale d) = Ok (mk_decimal (d_underlying d) N64 18 (d_scale d)).
Proof.
  intros B D H S. destruct (binary_fair _ _ _ _ _ B) as (F & -> & -> & -> & E & T & Hh & HU). destruct (T _ S) as [S18 Ts].
  change (2 ^ 52) with 4503599627370496 in Hh. pose proof (ten_bounds _ S18) as Tb. set (t := 10 ^ Z.of_N (d_scale d)) in *.
  assert (H2 : Z.abs (d_underlying d) <= 2 ^ 63) by lia.
  assert (A : Z.abs (d_underlying d) = Z.abs z * t) by (rewrite D, Z.abs_mul, (Z.abs_eq t); lia).
  eexists. split; [exact (to_float_is f F _ S18 Ts d eq_refl H2)|].
  rewrite (whole_of_float f F _ S18 Ts (d_underlying d <? 0) _ (Z.abs z)).
  - f_equal. f_equal. fold t. rewrite <- A. destruct (Z.ltb_spec (d_underlying d) 0); lia.
  - apply (quotient_finite f F _ S18); exact H2.
  - rewrite D. apply (quotient_whole f F _ S18); fold t; lia.
  - lia.
  - fold t. lia.
  - fold t. change (10 ^ 18) with 1000000000000000000. lia.
Qed.
Print Assumptions c105_trip_whole.

(** C105, refuted of the code: 0.29 as an f64 becomes the decimal 0.28, and it is what the decimal 0.29 becomes. *)
Theorem c105_refuted :
  decimal_to_float f64 (mk_decimal 29 N64 18 2) = Ok 0x3fd28f5c28f5c28f /\
  decimal_of_float f64 0x3fd28f5c28f5c28f 2 = Ok (mk_decimal 28 N64 18 2) /\
  nearest_to (2 ^ 52) (2 ^ 63 - 2 ^ 52) (29 * 2 ^ 1074) (10 ^ 2) 0x3fd28f5c28f5c28f.
Proof.
  assert (E : decimal_to_float f64 (mk_decimal 29 N64 18 2) = Ok 0x3fd28f5c28f5c28f) by (vm_compute; reflexivity).
  split; [exact E|]. split; [vm_compute; reflexivity|].
  destruct (c104_nearest_partial f64 _ _ _ _ (mk_decimal 29 N64 18 2) Double) as (mag & E2 & N).
  { vm_compute; intros H; discriminate H. }
  { cbn. lia. }
  rewrite E in E2. injection E2 as <-. exact N.
Qed.
Print Assumptions c105_refuted.

(** C105, refuted of the code: what is no number becomes 0, and what is below all decimals becomes the least i64, which has 19 digits; only
    what is above them is refused. *)
Theorem c105_range_refuted s :
  (s <= 18)%N ->
  (* NaN *)
  decimal_of_float f64 0x7ff8000000000000 s = Ok (mk_decimal 0 N64 18 s) /\
  (* minus infinity, and -10^19 *)
  decimal_of_float f64 0xfff0000000000000 s = Ok (mk_decimal (- 2 ^ 63) N64 18 s) /\
  decimal_of_float f64 0xc3e158e460913d00 0 = Ok (mk_decimal (- 2 ^ 63) N64 18 0) /\
  (* infinity, and 10^19 *)
  decimal_of_float f64 0x7ff0000000000000 s = Panic PExplicit /\
  decimal_of_float f64 0x43e158e460913d00 0 = Panic PExplicit.
Proof.
  intros H. unfold decimal_of_float. rewrite (proj2 (N.ltb_ge _ _)) by exact H. rewrite (factors_ten s H). cbn [rbind].
  assert (X : forall x y, infinity f64 <=? magnitude f64 x = true -> float_mul f64 x y = x) by (intros x y E; unfold float_mul; rewrite E; reflexivity).
  rewrite !X by (vm_compute; reflexivity). repeat split; vm_compute; reflexivity.
Qed.
Print Assumptions c105_range_refuted.

(** Cases. *)
Example c104_case :
  decimal_to_float f64 (mk_decimal (- 12345) N64 18 2) = Ok 0xc05edccccccccccd /\
  decimal_to_float f32 (mk_decimal 15 N32 9 1) = Ok 0x3fc00000 /\
  binary f64 (2 ^ 63) (2 ^ 52) (2 ^ 1074) 18.
Proof. repeat split; try (vm_compute; reflexivity). apply Double. Qed.
Example c105_case :
  decimal_of_float f64 0xc05edccccccccccd 2 = Ok (mk_decimal (- 12345) N64 18 2) /\
  decimal_of_float f32 0x3fc00000 3 = Ok (mk_decimal 1500 N64 18 3) /\
  counts (2 ^ 23) 0x3fc00000 (3 * 2 ^ 148) /\
  counts (2 ^ 52) 0x4024000000000000 (10 * 2 ^ 1074).
Proof.
  split; [vm_compute; reflexivity|]. split; [vm_compute; reflexivity|]. split; right.
  - exists 126, (2 ^ 22). repeat split; try (vm_compute; reflexivity); vm_compute; intros H; discriminate H.
  - exists 1025, (2 ^ 50). repeat split; try (vm_compute; reflexivity); vm_compute; intros H; discriminate H.
Qed.
