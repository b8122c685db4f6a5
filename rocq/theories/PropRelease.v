(** C94 to C96: what an optimised build, whose arithmetic wraps around, computes. *)
From Verif Require Import Base Bytes Reader Wire CityHash Types Decimal DateTime Values Columns Compress Release.
From Verif Require Import SpecNum ReaderProofs WireProofs DecimalProofs PropDecimal PropExact CompressProofs PropCompress SpecCompress.
Open Scope Z_scope.

(** ** C94: where a debug build has an answer, a release build has the same one *)
Definition refines {A} (debug release : res A) : Prop := forall x, debug = Ok x -> release = Ok x.
Lemma refines_same {A} (a : res A) : refines a a. Proof. intros x H. exact H. Qed.
Lemma refines_panic {A} p (b : res A) : refines (Panic p) b. Proof. intros x H. discriminate H. Qed.
Lemma refines_bind {A B} (a b : res A) (f g : A -> res B) : refines a b -> (forall x, refines (f x) (g x)) ->
  refines (rbind a f) (rbind b g).
Proof. intros H K y E. destruct a as [x|e|p]; try discriminate E. cbn [rbind] in E. rewrite (H x eq_refl). exact (K x y E). Qed.
Lemma refines_mapM {A B} (f g : A -> res B) l : (forall x, refines (f x) (g x)) -> refines (mapM f l) (mapM g l).
Proof.
  intros H. induction l as [|x l IH]; [apply refines_same|]. cbn [mapM].
  apply refines_bind; [apply H|]. intros y. apply refines_bind; [exact IH|]. intros ys. apply refines_same.
Qed.

Lemma wrap64_id z : is_i64 z -> wrap64 z = z.
Proof.
  unfold is_i64, wrap64, to_signed. intros H. rewrite unsigned_mod. change (2 ^ (8 * Z.of_nat 8)) with 18446744073709551616.
  rewrite Z.mod_mod by lia. change (18446744073709551616 / 2) with 9223372036854775808.
  change (- 2 ^ 63) with (-9223372036854775808) in H. change (2 ^ 63) with 9223372036854775808 in H.
  destruct (Z.ltb_spec (z mod 18446744073709551616) 9223372036854775808);
    pose proof (Z.div_mod z 18446744073709551616 ltac:(lia)); pose proof (Z.mod_pos_bound z 18446744073709551616 ltac:(lia)); lia.
Qed.
Lemma mul_ok a b u : i64_mul a b = Ok u -> u = a * b /\ wrap64 (a * b) = u.
Proof.
  unfold i64_mul. destruct (i64_ok (a * b)) eqn:E; [|discriminate]. intros H. injection H as <-. split; [reflexivity|].
  apply wrap64_id, i64_ok_iff, E.
Qed.

Theorem c94_equality a b : refines (decimal_eq a b) (decimal_eq_release a b).
Proof.
  unfold decimal_eq, decimal_eq_release. destruct (N.compare (d_scale a) (d_scale b)).
  - apply refines_same.
  - apply refines_bind; [apply refines_same|]. intros f x H. destruct (i64_mul (d_underlying a) f) as [u|e|p] eqn:E; try discriminate H.
    apply mul_ok in E as [_ ->]. exact H.
  - apply refines_bind; [apply refines_same|]. intros f x H. destruct (i64_mul (d_underlying b) f) as [u|e|p] eqn:E; try discriminate H.
    apply mul_ok in E as [_ ->]. exact H.
Qed.
Theorem c94_scale d s : refines (set_scale d s) (set_scale_release d s).
Proof.
  unfold set_scale, set_scale_release. destruct (N.compare s (d_scale d)); try apply refines_same.
  apply refines_bind; [apply refines_same|]. intros f x H. destruct (i64_mul (d_underlying d) f) as [u|e|p] eqn:E; try discriminate H.
  apply mul_ok in E as [_ ->]. exact H.
Qed.
Lemma cast_id t z : scalar_ok t z = true -> cast_to_scalar t z = z.
Proof.
  intros H. destruct t; unfold cast_to_scalar, is_signed; cbn [width] in *; unfold scalar_ok in H; cbn [width] in H; apply andb_prop in H as [H1 H2].
  all: try (apply Z.leb_le in H1; apply Z.ltb_lt in H2; apply to_signed_unsigned; [lia|split; assumption]).
  all: apply Z.leb_le in H1; rewrite unsigned_mod; apply Z.mod_small; split; [exact H1|].
  all: try (apply Z.ltb_lt in H2; exact H2). apply Z.leb_le in H2. change (2 ^ (8 * Z.of_nat 1)) with 256. lia.
Qed.
Theorem c94_of t v s : refines (decimal_of t v s) (decimal_of_release t v s).
Proof.
  unfold decimal_of, decimal_of_release. destruct (18 <? s)%N; [apply refines_same|].
  apply refines_bind; [apply refines_same|]. intros f. unfold base_scale, base_scale_release.
  destruct (scalar_ok t (v * cast_to_scalar t f)) eqn:E; [|apply refines_panic].
  rewrite (cast_id t _ E). apply refines_same.
Qed.

Lemma pow_ok p f : pow_factor p = Ok f -> pow_factor_release p = f /\ f <> 0.
Proof.
  unfold pow_factor, pow_factor_release. destruct (N.leb_spec p 9) as [L|]; [|discriminate]. intros H. injection H as <-.
  rewrite Z.mod_small by lia.
  assert (C : forallb (fun k => (wrap64 (10 ^ (9 - Z.of_nat k)) =? 10 ^ (9 - Z.of_nat k)) && negb (10 ^ (9 - Z.of_nat k) =? 0)) (seq 0 10) = true)
    by (vm_compute; reflexivity).
  rewrite forallb_forall in C. specialize (C (N.to_nat p)). rewrite N_nat_Z in C.
  specialize (C ltac:(apply in_seq; lia)). apply andb_prop in C as [C1 C2]. apply Z.eqb_eq in C1. split; [exact C1|].
  apply Bool.negb_true_iff, Z.eqb_neq in C2. exact C2.
Qed.
Theorem c94_to_stored secs nanos p : refines (from_datetime secs nanos p) (from_datetime_release secs nanos p).
Proof.
  unfold from_datetime, from_datetime_release. cbv zeta. destruct (i64_ok _); [|apply refines_panic].
  intros x H. destruct (pow_factor p) as [f|e|q] eqn:E; try discriminate H. apply pow_ok in E as [-> F].
  apply Z.eqb_neq in F. rewrite F. exact H.
Qed.
Theorem c94_from_stored v p : refines (to_datetime v p) (to_datetime_release v p).
Proof.
  apply refines_bind; [|intros o; apply refines_same]. unfold to_datetime_opt, to_datetime_opt_release. intros x H.
  destruct (p <? 19)%N; [|exact H].
  destruct (pow_factor p) as [f|e|q] eqn:E; try discriminate H. apply pow_ok in E as [-> F]. cbn [rbind] in H.
  destruct (i64_mul v f) as [u|e|q] eqn:M; try discriminate H. apply mul_ok in M as [_ ->]. exact H.
Qed.

Lemma bounds_refine offs i : refines (row_bounds offs i) (row_bounds_release offs i).
Proof.
  unfold row_bounds, row_bounds_release. apply refines_bind; [apply refines_same|]. intros s.
  apply refines_bind; [apply refines_same|]. intros e. destruct (e <? s)%N; [apply refines_panic|apply refines_same].
Qed.

Theorem c94_cell : forall c i, refines (at_ c i) (at_release c i).
Proof.
  fix IH 1. intros c i. destruct c; cbn [at_ at_release]; try apply refines_same; try apply IH.
  all: try (apply refines_bind; [apply refines_same|intros ?]; apply IH).
  all: try (apply refines_bind; [apply IH|intros v]; apply refines_same).
  - (* nullable *) apply refines_bind; [apply refines_same|intros n]. destruct (n =? 1)%N; [apply refines_same|].
    apply refines_bind; [apply IH|intros v; apply refines_same].
  - apply refines_bind; [apply bounds_refine|intros se]. apply refines_bind; [|intros vs; apply refines_same].
    apply refines_mapM. intros j. apply IH.
  - apply refines_bind; [apply bounds_refine|intros se]. apply refines_bind; [|intros vs; apply refines_same].
    generalize (@nil (value * value)). generalize (seq (fst se) (snd se - fst se)). induction l as [|j js IHj]; intros m; [apply refines_same|].
    apply refines_bind; [apply IH|intros k]. apply refines_bind; [apply IH|intros v].
    apply refines_bind; [apply refines_same|intros m']. apply IHj.
  - destruct (_ <=? i)%nat; [apply refines_same|apply IH].
  - apply refines_bind; [apply refines_same|intros n0]. apply refines_bind; [apply refines_same|intros ns]. cbv zeta.
    apply refines_bind; [apply refines_same|intros k]. apply refines_bind; [apply refines_same|intros s].
    destruct (i <? s)%nat; [apply refines_panic|]. destruct k as [|k]; [apply IH|].
    revert k. match goal with |- forall k, refines (?f ?l k) _ => revert l end. 
    fix IHl 1. intros [|c' cs] k; [destruct k; apply refines_same|]. destruct k as [|k]; [apply IH|apply IHl].
  - apply refines_bind; [apply IH|intros v]. destruct v; try apply refines_same.
    apply refines_bind; [apply c94_scale|intros ?; apply refines_same].
  - apply refines_bind; [apply IH|intros v]. apply refines_bind; [apply refines_same|intros o].
    destruct o as [[]|]; try apply refines_same. apply refines_bind; [apply c94_scale|intros ?; apply refines_same].
Qed.

Section Frames.
Variable lz4_decompress : bytes -> N -> option bytes.
Lemma scalar_no_panic t s q : run (read_scalar t) s <> Panic q.
Proof. unfold read_scalar. cbn [run]. destruct (_ <=? lenN s)%N; discriminate. Qed.
(** On every input the two builds end in the same way, but for the frame that announces less than its
    own head. *)
Theorem c94_frame s : 
  run (read_frame_release lz4_decompress) s =
  match run (read_frame lz4_decompress) s with Panic PArith => Panic PUndefined | r => r end.
Proof.
  unfold read_frame, read_frame_release. rewrite !run_bind.
  destruct (run (read_scalar U64) s) as [[lo s1]|e|q] eqn:R1; [|reflexivity|destruct (scalar_no_panic _ _ _ R1)].
  rewrite !run_bind. destruct (run (read_scalar U64) s1) as [[hi s2]|e|q] eqn:R2; [|reflexivity|destruct (scalar_no_panic _ _ _ R2)].
  rewrite !run_bind. destruct (run (read_scalar U8) s2) as [[m s3]|e|q] eqn:R3; [|reflexivity|destruct (scalar_no_panic _ _ _ R3)].
  destruct (negb _); [reflexivity|].
  rewrite !run_bind. destruct (run (read_scalar U32) s3) as [[c s4]|e|q] eqn:R4; [|reflexivity|destruct (scalar_no_panic _ _ _ R4)].
  rewrite !run_bind. destruct (run (read_scalar U32) s4) as [[o s5]|e|q] eqn:R5; [|reflexivity|destruct (scalar_no_panic _ _ _ R5)].
  cbv zeta. destruct (N.ltb_spec max_compressed (Z.to_N c)) as [|M]; [reflexivity|]. change max_compressed with 1073741824%N in M.
  cbn [run]. destruct (_ <=? lenN s5)%N; [|reflexivity].
  destruct (negb _); [reflexivity|].
  destruct (N.ltb_spec (Z.to_N c) 9) as [L|L].
  - assert (E : (to_signed 4 (to_unsigned 4 (Z.of_N (Z.to_N c) - 9)) <? 0) = true).
    { rewrite to_signed_unsigned; [apply Z.ltb_lt; lia|lia|]. change (8 * Z.of_nat 4 - 1) with 31. lia. }
    rewrite E. reflexivity.
  - assert (E : (to_signed 4 (to_unsigned 4 (Z.of_N (Z.to_N c) - 9)) <? 0) = false).
    { rewrite to_signed_unsigned; [apply Z.ltb_ge; lia|lia|]. change (8 * Z.of_nat 4 - 1) with 31. lia. }
    rewrite E. destruct (_ <=? Z.to_N o)%N; [reflexivity|]. destruct (lz4_decompress _ _); reflexivity.
Qed.
End Frames.

(** ** C95: does an overflow ever become an answer? *)
Lemma wrap64_mod z : exists k, wrap64 z = z + k * 2 ^ 64.
Proof.
  unfold wrap64, to_signed. cbv zeta. rewrite unsigned_mod. change (2 ^ (8 * Z.of_nat 8)) with (2 ^ 64).
  rewrite Z.mod_mod by (vm_compute; discriminate).
  pose proof (Z.div_mod z (2 ^ 64) ltac:(vm_compute; discriminate)) as D.
  destruct (_ <? _); [exists (- (z / 2 ^ 64))|exists (- (z / 2 ^ 64) - 1)]; lia.
Qed.
Lemma wrap64_range z : is_i64 (wrap64 z).
Proof.
  unfold is_i64, wrap64, to_signed. cbv zeta. rewrite unsigned_mod. change (2 ^ (8 * Z.of_nat 8)) with 18446744073709551616.
  rewrite Z.mod_mod by lia. change (18446744073709551616 / 2) with 9223372036854775808.
  change (- 2 ^ 63) with (-9223372036854775808). change (2 ^ 63) with 9223372036854775808.
  pose proof (Z.mod_pos_bound z 18446744073709551616 ltac:(lia)). destruct (Z.ltb_spec (z mod 18446744073709551616) 9223372036854775808); lia.
Qed.
Lemma wrap64_unique z w k : is_i64 w -> w = z + k * 2 ^ 64 -> wrap64 z = w.
Proof.
  intros H ->. destruct (wrap64_mod z) as (j & E). pose proof (wrap64_range z) as R. unfold is_i64 in *. rewrite E in R |- *.
  assert (j = k); [|subst; reflexivity]. change (2 ^ 64) with 18446744073709551616 in *.
  change (- 2 ^ 63) with (-9223372036854775808) in *. change (2 ^ 63) with 9223372036854775808 in *. lia.
Qed.
Lemma wrap64_zero k : wrap64 (k * 2 ^ 64) = 0.
Proof. apply (wrap64_unique _ _ (- k)); [vm_compute; split; [discriminate|reflexivity]|lia]. Qed.

Lemma pow_zero n : 64 <= n -> exists k, 10 ^ n = k * 2 ^ 64.
Proof.
  intros H. exists (5 ^ 64 * 10 ^ (n - 64)). replace n with (64 + (n - 64)) at 1 by lia.
  rewrite Z.pow_add_r by lia. replace (10 ^ 64) with (5 ^ 64 * 2 ^ 64) by (vm_compute; reflexivity). lia.
Qed.
Lemma factor_zero p : (10 <= p < 19)%N -> pow_factor_release p = 0.
Proof.
  intros H. unfold pow_factor_release.
  assert (E : (9 - Z.of_N p) mod 2 ^ 32 = 2 ^ 32 + 9 - Z.of_N p).
  { symmetry. apply (Z.mod_unique _ _ (-1)); [|lia]. left. change (2 ^ 32) with 4294967296. lia. }
  rewrite E. destruct (pow_zero (2 ^ 32 + 9 - Z.of_N p)) as (k & K); [change (2 ^ 32) with 4294967296; lia|]. rewrite K. apply wrap64_zero.
Qed.

(** Comparing decimals: with scales of at most 18 there is always an answer. It is whether the
    mantissas agree after bringing them to one scale, modulo 2^64. *)
Theorem c95_equality_partial a b : (d_scale a <= 18)%N -> (d_scale b <= 18)%N ->
  is_i64 (d_underlying a) -> is_i64 (d_underlying b) ->
  let m := N.max (d_scale a) (d_scale b) in
  exists r, decimal_eq_release a b = Ok r /\
    (r = true <-> exists k, d_underlying a * 10 ^ Z.of_N (m - d_scale a) = d_underlying b * 10 ^ Z.of_N (m - d_scale b) + k * 2 ^ 64) /\
    (is_i64 (d_underlying a * 10 ^ Z.of_N (m - d_scale a)) -> is_i64 (d_underlying b * 10 ^ Z.of_N (m - d_scale b)) ->
     (r = true <-> same_number (d_underlying a) (d_scale a) (d_underlying b) (d_scale b))).
Proof.
  intros Ha Hb Ia Ib m.
  assert (M : forall x y f, is_i64 y -> (y =? wrap64 (x * f)) = true <-> exists k, x * f = y + k * 2 ^ 64).
  { intros x y f I. rewrite Z.eqb_eq. split.
    - intros ->. destruct (wrap64_mod (x * f)) as (k & E). exists (- k). lia.
    - intros (k & E). symmetry. apply (wrap64_unique _ _ (- k)); [exact I|lia]. }
  assert (W : forall x y, is_i64 x -> is_i64 y -> (x =? y) = true <-> exists k, x * 10 ^ 0 = y * 10 ^ 0 + k * 2 ^ 64).
  { intros x y Ix Iy. rewrite Z.eqb_eq. change (10 ^ 0) with 1. split; [intros ->; exists 0; lia|]. intros (k & E). unfold is_i64 in *.
    change (2 ^ 64) with 18446744073709551616 in *.
    change (- 2 ^ 63) with (-9223372036854775808) in *. change (2 ^ 63) with 9223372036854775808 in *. lia. }
  assert (R : exists r, decimal_eq_release a b = Ok r /\
    (r = true <-> exists k, d_underlying a * 10 ^ Z.of_N (m - d_scale a) = d_underlying b * 10 ^ Z.of_N (m - d_scale b) + k * 2 ^ 64)).
  { unfold decimal_eq_release. destruct (N.compare_spec (d_scale a) (d_scale b)) as [E|E|E].
    - eexists. split; [reflexivity|]. replace (m - d_scale a)%N with 0%N by lia. replace (m - d_scale b)%N with 0%N by lia.
      apply W; assumption.
    - rewrite factors10_ok by lia. cbn [rbind]. eexists. split; [reflexivity|].
      replace (m - d_scale a)%N with (d_scale b - d_scale a)%N by lia. replace (m - d_scale b)%N with 0%N by lia.
      rewrite (M _ _ _ Ib). change (10 ^ Z.of_N 0) with 1. rewrite Z.mul_1_r. reflexivity.
    - rewrite factors10_ok by lia. cbn [rbind]. eexists. split; [reflexivity|].
      replace (m - d_scale b)%N with (d_scale a - d_scale b)%N by lia. replace (m - d_scale a)%N with 0%N by lia.
      rewrite (M _ _ _ Ia). change (10 ^ Z.of_N 0) with 1. rewrite Z.mul_1_r.
      split; intros (k & K); exists (- k); lia. }
  destruct R as (r & R & S). exists r. split; [exact R|]. split; [exact S|]. intros Fa Fb.
  destruct (c91_comparison a b Ha Hb) as [C _]. destruct C as (r' & E & C).
  { split; intros L; [replace (d_scale b - d_scale a)%N with (m - d_scale a)%N by lia|replace (d_scale a - d_scale b)%N with (m - d_scale b)%N by lia]; assumption. }
  apply c94_equality in E. rewrite R in E. injection E as <-. exact C.
Qed.

(** Reading a DateTime64: exact where the number of nanoseconds is an i64 (C92); with a precision of 10
    to 18 every stored number is the beginning of 1970, and storing panics. *)
Theorem c95_time_partial v p : (p <= 9)%N -> is_i64 (v * 10 ^ (9 - Z.of_N p)) ->
  to_datetime_release v p = to_datetime v p.
Proof.
  intros H I. unfold to_datetime_release, to_datetime, to_datetime_opt_release, to_datetime_opt.
  destruct (N.ltb_spec p 19); [|lia]. destruct (pow_factor p) as [f|e|q] eqn:E; [|revert E; unfold pow_factor; destruct (N.leb_spec p 9); [intros E; discriminate E|lia]..].
  assert (F : f = 10 ^ (9 - Z.of_N p)) by (revert E; unfold pow_factor; destruct (N.leb_spec p 9); [congruence|lia]).
  apply pow_ok in E as [-> _]. cbn [rbind]. unfold i64_mul. rewrite <- F in I. rewrite (proj2 (i64_ok_iff _) I). cbn [rbind].
  rewrite (wrap64_id _ I). reflexivity.
Qed.
Theorem c95_time_refuted v p secs nanos : (10 <= p < 19)%N -> is_i64 (secs * 1000000000 + Z.of_N nanos) ->
  to_datetime_release v p = Ok (0, 0%N) /\ to_datetime v p = Panic PArith /\
  from_datetime_release secs nanos p = Panic PArith.
Proof.
  intros H I. unfold to_datetime_release, to_datetime, to_datetime_opt_release, to_datetime_opt, from_datetime_release.
  rewrite (proj2 (i64_ok_iff _) I). rewrite (factor_zero p H), Z.mul_0_r. destruct (N.ltb_spec p 19); [|lia]. cbv zeta.
  split; [vm_compute; reflexivity|]. split; [|reflexivity].
  unfold pow_factor. destruct (N.leb_spec p 9); [lia|]. reflexivity.
Qed.

(** The claim is false of the code: the following overflow in a release build without anybody
    noticing. *)
Theorem c95_refuted :
  (* 2^46 + 1 and 1 are not the same number, but the one is equal to 1.000000000000000000 *)
  (decimal_eq_release (mk_decimal (2 ^ 46 + 1) N64 18 0) (mk_decimal (10 ^ 18) N64 18 18) = Ok true /\
     ~ same_number (2 ^ 46 + 1) 0 (10 ^ 18) 18) /\
  (* Decimal::of(100_i8, 1) is 100 * 10 = -24 modulo 256 *)
  decimal_of_release I8 100 1 = Ok (mk_decimal (-24) N64 18 1) /\
  (* writing 10^10 into a column with ten digits after the point *)
  set_scale_release (mk_decimal (10 ^ 10) N64 18 0) 10 = Ok (mk_decimal 7766279631452241920 N64 18 10) /\
  (* the time 2 * 10^10 s (in the year 2603), stored with precision 0, is read as one in 2019 *)
  to_datetime_release (2 * 10 ^ 10) 0 = Ok (1553255926, 290448384%N) /\
  (* the corrupted frame *)
  forall lz4, exists s, bytes_ok s /\ run (read_frame_release lz4) s = Panic PUndefined.
Proof.
  split; [split; [vm_compute; reflexivity|vm_compute; discriminate]|].
  split; [vm_compute; reflexivity|]. split; [vm_compute; reflexivity|]. split; [vm_compute; reflexivity|].
  intros lz4. destruct (c11_short_frame_refuted lz4) as (s & B & _ & R). exists s. split; [exact B|].
  rewrite c94_frame, R. reflexivity.
Qed.

(** ** C96: equality of decimals in a release build *)
Theorem c96_reflexive a : decimal_eq_release a a = Ok true.
Proof. unfold decimal_eq_release. rewrite N.compare_refl, Z.eqb_refl. reflexivity. Qed.
Theorem c96_symmetric a b : decimal_eq_release a b = decimal_eq_release b a.
Proof.
  unfold decimal_eq_release. rewrite (N.compare_antisym (d_scale a) (d_scale b)).
  destruct (N.compare (d_scale a) (d_scale b)); cbn [CompOpp]; [rewrite Z.eqb_sym; reflexivity|reflexivity|reflexivity].
Qed.
Theorem c96_total_partial a b : (d_scale a <= 18)%N -> (d_scale b <= 18)%N -> exists r, decimal_eq_release a b = Ok r.
Proof.
  intros Ha Hb. unfold decimal_eq_release. destruct (N.compare_spec (d_scale a) (d_scale b)); [eauto|..];
    rewrite factors10_ok by lia; cbn [rbind]; eauto.
Qed.
Theorem c96_transitive_refuted : exists a b c,
  decimal_eq_release a b = Ok true /\ decimal_eq_release b c = Ok true /\ decimal_eq_release a c = Ok false /\
  decimal_new (d_underlying a) (d_scale a) = Ok a /\ decimal_new (d_underlying b) (d_scale b) = Ok b /\
  decimal_new (d_underlying c) (d_scale c) = Ok c.
Proof.
  exists (mk_decimal 1 N64 18 0), (mk_decimal (10 ^ 18) N64 18 18), (mk_decimal (2 ^ 46 + 1) N64 18 0).
  repeat split; vm_compute; reflexivity.
Qed.

Print Assumptions c94_equality.
Print Assumptions c94_scale.
Print Assumptions c94_of.
Print Assumptions c94_to_stored.
Print Assumptions c94_from_stored.
Print Assumptions c94_cell.
Print Assumptions c94_frame.
Print Assumptions c95_equality_partial.
Print Assumptions c95_time_partial.
Print Assumptions c95_time_refuted.
Print Assumptions c95_refuted.
Print Assumptions c96_reflexive.
Print Assumptions c96_symmetric.
Print Assumptions c96_total_partial.
Print Assumptions c96_transitive_refuted.

(** The answers of C94 exist. *)
Example c94_case :
  at_ (CDecimalAdapter (CDecimal [1234; -5] 18 2 N64) 18 4 N64) 1 = Ok (VDecimal (mk_decimal (-500) N64 18 4)) /\
  at_release (CDecimalAdapter (CDecimal [1234; -5] 18 2 N64) 18 4 N64) 1 = Ok (VDecimal (mk_decimal (-500) N64 18 4)) /\
  decimal_of I32 123 4 = Ok (mk_decimal 1230000 N64 18 4) /\
  to_datetime 1546300800123 3 = Ok (1546300800, 123000000%N) /\
  from_datetime 1546300800 123000000 3 = Ok 1546300800123 /\
  (exists f, run (read_frame lz4_decode) f = Ok ([1; 2; 3]%N, [9%N]) /\ run (read_frame_release lz4_decode) f = Ok ([1; 2; 3]%N, [9%N])).
Proof.
  do 5 (split; [vm_compute; reflexivity|]). exists (compress_frame lz4_store [1; 2; 3]%N ++ [9%N]). split; vm_compute; reflexivity.
Qed.
Example c95_case :
  decimal_eq_release (mk_decimal 200 N64 18 2) (mk_decimal 20000 N32 9 4) = Ok true /\
  decimal_eq_release (mk_decimal 201 N64 18 2) (mk_decimal 20000 N32 9 4) = Ok false /\
  row_bounds_release [5; 3]%N 1 = Panic PCapacity /\ row_bounds_release [3; 5]%N 1 = Ok (3, 5)%nat.
Proof. repeat split; vm_compute; reflexivity. Qed.
