(** C90 to C93: exactly what becomes of any date, time and decimal. *)
From Coq Require Import Znumtheory Zpow_facts.
From Verif Require Import Base Bytes Types Decimal DateTime Values Columns SpecNum WireProofs DecimalProofs PropTime PropDecimal.
Open Scope Z_scope.

(** ** C90 *)
Lemma unsigned_mod n z : Z.of_N (to_unsigned n z) = z mod 2 ^ (8 * Z.of_nat n).
Proof. unfold to_unsigned. rewrite Z2N.id; [f_equal; f_equal; lia|]. apply Z.mod_pos_bound. apply Z.pow_pos_nonneg; lia. Qed.

Theorem c90_date l tz days :
  exists c, push (CDate l tz) (value_of_date days) = Ok c /\
    (do v <- at_ c (length l); value_date v) = Ok (days mod 65536) /\
    ((do v <- at_ c (length l); value_date v) = Ok days <-> 0 <= days <= 65535) /\
    forall i, (i < length l)%nat -> at_ c i = at_ (CDate l tz) i.
Proof.
  eexists. split; [reflexivity|].
  match goal with |- context [CDate ?x tz] => set (l1 := x) end.
  assert (E : (do v <- at_ (CDate l1 tz) (length l); value_date v) = Ok (days mod 65536)).
  { cbn [at_]. unfold index, l1. rewrite nth_error_app2, Nat.sub_diag by lia. cbn [nth_error rbind or_panic value_date]. f_equal.
    unfold get_days. rewrite !unsigned_mod. apply Z.mod_mod. vm_compute. discriminate. }
  split; [exact E|]. rewrite E. split.
  - split.
    + intros H. injection H as H. pose proof (Z.mod_pos_bound days 65536 ltac:(lia)). lia.
    + intros H. rewrite Z.mod_small by lia. reflexivity.
  - intros i Hi. cbn [at_]. unfold index, l1. rewrite nth_error_app1 by lia. reflexivity.
Qed.
Print Assumptions c90_date.

Theorem c90_time l tz secs nanos z :
  exists c, push (CDateTime l tz) (VChrono secs nanos z) = Ok c /\
    (do v <- at_ c (length l); value_datetime v) = Ok (secs mod 2 ^ 32, 0%N, tz) /\
    ((exists z', (do v <- at_ c (length l); value_datetime v) = Ok (secs, nanos, z')) <-> 0 <= secs < 2 ^ 32 /\ nanos = 0%N) /\
    forall i, (i < length l)%nat -> at_ c i = at_ (CDateTime l tz) i.
Proof.
  eexists. split; [reflexivity|].
  match goal with |- context [CDateTime ?x tz] => set (l1 := x) end.
  assert (E : (do v <- at_ (CDateTime l1 tz) (length l); value_datetime v) = Ok (secs mod 2 ^ 32, 0%N, tz)).
  { cbn [at_]. unfold index, l1. rewrite nth_error_app2, Nat.sub_diag by lia. cbn [nth_error rbind or_panic value_datetime].
    unfold as_u32. rewrite unsigned_mod. reflexivity. }
  split; [exact E|]. rewrite E. split.
  - split.
    + intros (z' & H). injection H as H1 H2 _. pose proof (Z.mod_pos_bound secs (2 ^ 32) ltac:(lia)). lia.
    + intros [H ->]. exists tz. rewrite Z.mod_small by lia. reflexivity.
  - intros i Hi. cbn [at_]. unfold index, l1. rewrite nth_error_app1 by lia. reflexivity.
Qed.
Print Assumptions c90_time.
Example c90_case :
  (do c <- push (CDate [7%N] []) (value_of_date (-1)); do v <- at_ c 1; value_date v) = Ok 65535 /\
  (do c <- push (CDateTime [] [85%N]) (VChrono (2 ^ 32 + 5) 7 [86%N]); do v <- at_ c 0; value_datetime v) = Ok (5, 0%N, [85%N]).
Proof. split; vm_compute; reflexivity. Qed.

(** ** C91 *)
Theorem c91_comparison a b : (d_scale a <= 18)%N -> (d_scale b <= 18)%N ->
  let fits x y := (d_scale x < d_scale y)%N -> is_i64 (d_underlying x * 10 ^ Z.of_N (d_scale y - d_scale x)) in
  (fits a b /\ fits b a ->
     exists r, decimal_eq a b = Ok r /\ (r = true <-> same_number (d_underlying a) (d_scale a) (d_underlying b) (d_scale b))) /\
  (~ (fits a b /\ fits b a) -> decimal_eq a b = Panic PArith).
Proof.
  intros Ha Hb fits. pose proof (decimal_eq_spec a b Ha Hb) as S. 
  assert (D : forall u, i64_ok u = true <-> is_i64 u) by apply i64_ok_iff.
  assert (K : (fits a b /\ fits b a) <-> exists r, decimal_eq a b = Ok r).
  { unfold decimal_eq, fits. destruct (N.compare_spec (d_scale a) (d_scale b)) as [E|E|E].
    - split; [eauto|]. intros _. lia.
    - rewrite factors10_ok by lia. cbn [rbind]. unfold i64_mul. split.
      + intros [F _]. apply F, D in E. rewrite E. cbn [rbind]. eauto.
      + intros (r & F). split; [|lia]. intros _. apply D. destruct (i64_ok _); [reflexivity|discriminate F].
    - rewrite factors10_ok by lia. cbn [rbind]. unfold i64_mul. split.
      + intros [_ F]. apply F, D in E. rewrite E. cbn [rbind]. eauto.
      + intros (r & F). split; [lia|]. intros _. apply D. destruct (i64_ok _); [reflexivity|discriminate F]. }
  split.
  - intros F. apply K in F as (r & E). rewrite E in S. eauto.
  - intros F. destruct (decimal_eq a b) as [r|e|p] eqn:E; [|contradiction|destruct S as [-> _]; reflexivity].
    destruct F. apply K. eauto.
Qed.
Print Assumptions c91_comparison.
Example c91_case :
  decimal_eq (mk_decimal 200 N64 18 2) (mk_decimal 20000 N32 9 4) = Ok true /\
  decimal_eq (mk_decimal (2 ^ 62) N64 18 2) (mk_decimal 20000 N32 9 4) = Panic PArith /\
  ~ is_i64 (2 ^ 62 * 10 ^ Z.of_N (4 - 2)) /\ is_i64 (200 * 10 ^ Z.of_N (4 - 2)).
Proof.
  unfold is_i64. split; [vm_compute; reflexivity|]. split; [vm_compute; reflexivity|]. split; [|vm_compute; split; [discriminate|reflexivity]].
  intros [_ H]. vm_compute in H. discriminate H.
Qed.

(** ** C92 *)
Theorem c92_instant v p : (p <= 9)%N ->
  (is_i64 (v * tick_nanos p) /\ (0 <= v \/ (v * tick_nanos p) mod 1000000000 = 0) ->
     exists secs nanos, to_datetime v p = Ok (secs, nanos) /\ instant (v * tick_nanos p) secs nanos) /\
  (~ is_i64 (v * tick_nanos p) -> to_datetime v p = Panic PArith) /\
  (is_i64 (v * tick_nanos p) -> v < 0 -> (v * tick_nanos p) mod 1000000000 <> 0 -> to_datetime v p = Panic PUnwrap).
Proof.
  intros Hp. split; [|split].
  - intros [HI HV]. destruct (c42_datetime64_partial v p Hp HI HV) as (s & n & E & I & _). eauto.
  - intros H. unfold to_datetime, to_datetime_opt, pow_factor, i64_mul.
    destruct (N.ltb_spec p 19) as [_|]; [|lia]. destruct (N.leb_spec p 9) as [_|]; [|lia]. cbn [rbind]. fold (tick_nanos p).
    destruct (i64_ok (v * tick_nanos p)) eqn:E; [|reflexivity]. apply i64_ok_iff in E. contradiction.
  - intros HI Hv Hm. unfold to_datetime, to_datetime_opt, pow_factor, i64_mul.
    destruct (N.ltb_spec p 19) as [_|]; [|lia]. destruct (N.leb_spec p 9) as [_|]; [|lia]. cbn [rbind]. fold (tick_nanos p).
    rewrite (proj2 (i64_ok_iff _) HI). cbn [rbind]. 
    assert (Pf : 0 < tick_nanos p) by (apply Z.pow_pos_nonneg; lia).
    set (nano := v * tick_nanos p) in *. assert (nano < 0) by (unfold nano; nia).
    pose proof (Z.quot_rem' nano 1000000000) as Q. pose proof (Z.rem_bound_pos_neg nano 1000000000 ltac:(lia) ltac:(lia)) as R.
    assert (Z.rem nano 1000000000 <> 0).
    { intros Z0. apply Hm. rewrite Z0, Z.add_0_r in Q. rewrite Q, Z.mul_comm. apply Z.mod_mul. lia. }
    replace (nano - Z.quot nano 1000000000 * 1000000000) with (Z.rem nano 1000000000) by lia.
    assert (U : (2000000000 <= to_unsigned 4 (Z.rem nano 1000000000))%N).
    { pose proof (unsigned_mod 4 (Z.rem nano 1000000000)) as W. change (2 ^ (8 * Z.of_nat 4)) with 4294967296 in W.
      assert (Z.rem nano 1000000000 mod 4294967296 = Z.rem nano 1000000000 + 4294967296) by (symmetry; apply Z.mod_unique with (-1); lia). lia. }
    destruct (N.ltb_spec (to_unsigned 4 (Z.rem nano 1000000000)) 2000000000) as [L|_]; [lia|]. reflexivity.
Qed.
(** Precisions that a server does not have. *)
Theorem c92_precision v p :
  ((10 <= p <= 18)%N -> to_datetime v p = Panic PArith) /\ ((19 <= p)%N -> to_datetime v p = Ok (0, 0%N)).
Proof.
  unfold to_datetime, to_datetime_opt, pow_factor. split; intros H.
  - destruct (N.ltb_spec p 19) as [_|]; [|lia]. destruct (N.leb_spec p 9) as [|_]; [lia|]. reflexivity.
  - destruct (N.ltb_spec p 19) as [|_]; [lia|]. reflexivity.
Qed.
Print Assumptions c92_instant.
Print Assumptions c92_precision.
Example c92_case :
  to_datetime 1546300800123 3 = Ok (1546300800, 123000000%N) /\ to_datetime (-5000) 3 = Ok (-5, 0%N) /\
  to_datetime (-500) 3 = Panic PUnwrap /\ to_datetime 10413705600 0 = Panic PArith.
Proof. repeat split; vm_compute; reflexivity. Qed.

(** ** C93 *)
Lemma as_i32_range z : - 2 ^ 31 <= as_i32 z < 2 ^ 31 /\ (2 ^ 32 | z - as_i32 z).
Proof.
  unfold as_i32, to_signed. pose proof (unsigned_mod 4 z) as U. change (2 ^ (8 * Z.of_nat 4)) with 4294967296 in U.
  pose proof (Z.mod_pos_bound z 4294967296 ltac:(lia)) as B. pose proof (Z.div_mod z 4294967296 ltac:(lia)) as D.
  set (u := to_unsigned 4 z) in *. 
  match goal with |- context [if ?c then _ else _] => destruct c eqn:C end;
    (split; [|]); cbn in C |- *.
  1-4: idtac.
  all: try (exists (z / 4294967296); lia); try (exists (z / 4294967296 + 1); lia); lia.
Qed.
Theorem c93_stored l p s nb d : is_i64 (d_underlying d) ->
  exists c m, push (CDecimal l p s nb) (VDecimal d) = Ok c /\ at_ c (length l) = Ok (VDecimal (mk_decimal m nb p s)) /\
    (nb = N64 -> m = d_underlying d) /\
    (nb = N32 -> - 2 ^ 31 <= m < 2 ^ 31 /\ (2 ^ 32 | d_underlying d - m)) /\
    (same_number m s (d_underlying d) (d_scale d) <->
       d_underlying d = 0 \/ d_scale d = s /\ (nb = N32 -> - 2 ^ 31 <= d_underlying d < 2 ^ 31)).
Proof.
  intros H64. set (u := d_underlying d) in *. set (t := d_scale d).
  exists (CDecimal (l ++ [internal nb d]) p s nb), (internal nb d). split; [reflexivity|]. split.
  { cbn [at_]. unfold index. rewrite nth_error_app2, Nat.sub_diag by lia. reflexivity. }
  split; [intros ->; reflexivity|]. split; [intros ->; apply as_i32_range|].
  unfold same_number. fold t.
  assert (P : forall n, 0 < 10 ^ Z.of_N n) by (intros; apply Z.pow_pos_nonneg; lia).
  assert (Q : forall a b, (a <= b)%N -> 10 ^ Z.of_N b = 10 ^ Z.of_N a * 10 ^ Z.of_N (b - a)) by (intros; rewrite <- Z.pow_add_r by lia; f_equal; lia).
  pose proof (P s) as Ps. pose proof (P t) as Pt.
  assert (G : forall m, (m = u \/ - 2 ^ 31 <= m < 2 ^ 31 /\ (2 ^ 32 | u - m)) -> m * 10 ^ Z.of_N t = u * 10 ^ Z.of_N s -> u = 0 \/ t = s /\ m = u).
  { intros m C E. destruct (Z.eq_dec u 0) as [|U]; [auto|right]. destruct (N.lt_trichotomy s t) as [L|[L|L]].
    - exfalso. rewrite (Q s t ltac:(lia)) in E. assert (E2 : u = m * 10 ^ Z.of_N (t - s)).
      { apply (Z.mul_cancel_r _ _ (10 ^ Z.of_N s)); [lia|]. lia. }
      assert (T : 10 ^ Z.of_N (t - s) = 10 * 10 ^ Z.of_N (t - s - 1)).
      { rewrite <- (Z.pow_1_r 10) at 2. rewrite <- Z.pow_add_r by lia. f_equal. lia. }
      pose proof (P (t - s - 1)%N) as Pk. set (k := 10 ^ Z.of_N (t - s - 1)) in *. destruct C as [->|[R Dv]]; [nia|].
      assert (Dv2 : (2 ^ 32 | (10 * k - 1) * m)) by (replace ((10 * k - 1) * m) with (u - m) by (rewrite E2, T; ring); exact Dv).
      apply Gauss in Dv2.
      + destruct Dv2 as [j J]. assert (M0 : m = 0) by lia. apply U. rewrite E2, M0. reflexivity.
      + apply rel_prime_sym. apply rel_prime_Zpower_r; [lia|].
        apply Zis_gcd_intro; [apply Z.divide_1_l|apply Z.divide_1_l|]. intros x X1 X2.
        apply (Z.divide_sub_r x (5 * k * 2) (10 * k - 1)) in X1; [|apply Z.divide_mul_r; exact X2].
        replace (5 * k * 2 - (10 * k - 1)) with 1 in X1 by ring. exact X1.
    - split; [auto|]. rewrite L in E. apply Z.mul_reg_r in E; [exact E|lia].
    - exfalso. rewrite (Q t s ltac:(lia)) in E. assert (E2 : m = u * 10 ^ Z.of_N (s - t)).
      { apply (Z.mul_cancel_r _ _ (10 ^ Z.of_N t)); [lia|]. lia. }
      assert (T : 10 ^ Z.of_N (s - t) = 10 * 10 ^ Z.of_N (s - t - 1)).
      { rewrite <- (Z.pow_1_r 10) at 2. rewrite <- Z.pow_add_r by lia. f_equal. lia. }
      pose proof (P (s - t - 1)%N) as Pk. set (k := 10 ^ Z.of_N (s - t - 1)) in *. destruct C as [->|[R [j J]]]; [nia|].
      rewrite T in E2. assert (Z.abs u < 2 ^ 31) by nia. assert (j = 0) by nia. subst j. nia. }
  split.
  - intros E. destruct (G (internal nb d)) as [Z0|[T1 T2]]; [|exact E|auto|].
    { destruct nb; [right; apply as_i32_range|left; reflexivity]. }
    right. split; [exact T1|]. intros ->. rewrite <- T2. apply as_i32_range.
  - intros [Z0|[T1 T2]].
    + assert (internal nb d = 0) as ->; [|fold u; rewrite Z0; reflexivity].
      unfold internal. fold u. rewrite Z0. destruct nb; reflexivity.
    + rewrite T1. f_equal. destruct nb; [|reflexivity]. cbn [internal]. fold u.
      destruct (as_i32_range u) as [R [j J]]. specialize (T2 eq_refl). assert (j = 0) by lia. lia.
Qed.
Print Assumptions c93_stored.
Example c93_case :
  push (CDecimal [1] 9 2 N32) (VDecimal (mk_decimal (2 ^ 32 + 7) N64 18 2)) = Ok (CDecimal [1; 7] 9 2 N32) /\
  push (CDecimal [1] 9 2 N32) (VDecimal (mk_decimal (-150) N64 18 2)) = Ok (CDecimal [1; -150] 9 2 N32) /\
  is_i64 (2 ^ 32 + 7).
Proof. unfold is_i64. repeat split; vm_compute; try reflexivity; discriminate. Qed.
