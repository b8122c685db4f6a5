(** C43, C44, C45, C50, C51: decimals. *)
From Coq Require Import String.
From Verif Require Import Base Bytes Types Text Decimal Columns SpecNum TextProofs DecimalProofs WireProofs.
Open Scope list_scope.
Open Scope Z_scope.

(** C43, the part that holds: the text is the exact expansion for every decimal that is not
    negative, and for the negative ones of absolute value 1 or more. What is missing for C43
    is the negative numbers between -1 and 0, for which it is false (below). *)
Theorem c43_decimal_text_partial : forall d,
  0 <= d_underlying d \/ 10 ^ Z.of_N (d_scale d) <= Z.abs (d_underlying d) ->
  expansion (decimal_to_str d) (d_underlying d) (N.to_nat (d_scale d)).
Proof.
  intros d H. destruct (Z.ltb_spec (d_underlying d) 0) as [L|L].
  - destruct H as [H|H]; [lia|].
    apply (decimal_to_str_long d true); [lia|discriminate|].
    apply digits_of_length_gt. rewrite N2Nat.id.
    assert (Q : Z.of_N (10 ^ d_scale d) = 10 ^ Z.of_N (d_scale d)) by (rewrite N2Z.inj_pow; reflexivity).
    lia.
  - destruct (Nat.le_gt_cases (List.length (digits_of (Z.to_N (d_underlying d)))) (N.to_nat (d_scale d))).
    + apply decimal_to_str_short; assumption.
    + apply (decimal_to_str_long d false); [discriminate|lia|].
      rewrite Z.abs_eq by lia. assumption.
Qed.
Print Assumptions c43_decimal_text_partial.

Example c43_example :
  decimal_to_str (mk_decimal 12345 N64 18 3) = str "12.345" /\
  decimal_to_str (mk_decimal 5 N64 18 3) = str "0.005" /\
  decimal_to_str (mk_decimal (-12345) N64 18 3) = str "-12.345" /\
  10 ^ Z.of_N 3 <= Z.abs (-12345).
Proof. repeat split; vm_compute; try reflexivity. discriminate. Qed.

(** C43 is false of the code: -0.05 with scale 4 prints as "0.-500", and -0.5 with
    scale 1 as "-.5". *)
Theorem c43_negative_fraction_refuted :
  exists d, decimal_new (-500) 4 = Ok d /\
    decimal_to_str d = str "0.-500" /\ ~ expansion (decimal_to_str d) (-500) 4.
Proof.
  exists (mk_decimal (-500) N64 18 4). split; [reflexivity|].
  assert (E : decimal_to_str (mk_decimal (-500) N64 18 4) = str "0.-500") by (vm_compute; reflexivity).
  split; [exact E|]. rewrite E. intros H. apply (expansion_minus _ _ _ H). vm_compute. tauto.
Qed.
Print Assumptions c43_negative_fraction_refuted.

(** C44, the part that holds: whenever the comparison returns, it is numeric equality; it
    fails only when bringing the coarser number to the finer scale leaves the i64 range
    (and then it panics). Scales are those of any [Decimal] the API makes. *)
Theorem c44_decimal_equality_partial : forall a b, (d_scale a <= 18)%N -> (d_scale b <= 18)%N ->
  match decimal_eq a b with
  | Ok r => r = true <-> same_number (d_underlying a) (d_scale a) (d_underlying b) (d_scale b)
  | Err _ => False
  | Panic p => p = PArith /\
      ((d_scale a < d_scale b)%N /\ ~ is_i64 (d_underlying a * 10 ^ Z.of_N (d_scale b - d_scale a)) \/
       (d_scale b < d_scale a)%N /\ ~ is_i64 (d_underlying b * 10 ^ Z.of_N (d_scale a - d_scale b)))
  end.
Proof. exact decimal_eq_spec. Qed.
Print Assumptions c44_decimal_equality_partial.

(** Decimals that compare equal compare equal the other way round. *)
Theorem c44_symmetric : forall a b r, decimal_eq a b = Ok r -> decimal_eq b a = Ok r.
Proof.
  intros a b r. unfold decimal_eq. rewrite (N.compare_antisym (d_scale b) (d_scale a)).
  destruct (N.compare (d_scale b) (d_scale a)); cbn [CompOpp]; auto.
  intros H. rewrite Z.eqb_sym. exact H.
Qed.
Print Assumptions c44_symmetric.

Example c44_example :
  decimal_eq (mk_decimal 200 N64 18 2) (mk_decimal 20000 N32 9 4) = Ok true /\
  decimal_eq (mk_decimal 200 N64 18 2) (mk_decimal 20001 N64 18 4) = Ok false /\
  same_number 200 2 20000 4.
Proof. repeat split; vm_compute; reflexivity. Qed.

(** C44 is false of the code: comparing 10 (scale 0) with anything of scale 18 panics. *)
Theorem c44_comparison_panic_refuted : exists a b,
  decimal_new 10 0 = Ok a /\ decimal_new 1 18 = Ok b /\ decimal_eq a b = Panic PArith.
Proof. do 2 eexists. repeat split; vm_compute; reflexivity. Qed.
Print Assumptions c44_comparison_panic_refuted.

(** C45, rescaling: to a larger scale the value is kept exactly, or the operation fails
    because the mantissa would leave the i64 range; to a smaller one the fraction is cut
    towards zero. *)
Theorem c45_rescale : forall d s, (d_scale d <= 18)%N -> (s <= 18)%N ->
  match set_scale d s with
  | Ok d' => d_scale d' = s /\
      ((d_scale d <= s)%N -> same_number (d_underlying d') s (d_underlying d) (d_scale d)) /\
      ((s <= d_scale d)%N -> truncated (d_underlying d) (d_scale d - s) (d_underlying d'))
  | Err _ => False
  | Panic p => p = PArith /\ (d_scale d < s)%N /\ ~ is_i64 (d_underlying d * 10 ^ Z.of_N (s - d_scale d))
  end.
Proof.
  intros d s Hd Hs. unfold set_scale. destruct (N.compare_spec s (d_scale d)) as [E|E|E].
  - split; [auto|]. subst s. split; [reflexivity|]. intros _. rewrite N.sub_diag.
    unfold truncated. change (10 ^ Z.of_N 0) with 1. rewrite Z.mul_1_r. split; [lia|apply Z.square_nonneg].
  - rewrite factors10_ok by lia. cbn. split; [reflexivity|]. split; [lia|]. intros _. apply quot_truncated.
  - rewrite factors10_ok by lia. cbn.
    destruct (i64_mul_cases (d_underlying d) (10 ^ Z.of_N (s - d_scale d))) as [[A ->]|[A ->]]; cbn.
    + split; [reflexivity|]. split; [|lia]. intros _. apply same_number_sym, rescaled_up; lia.
    + auto.
Qed.
Print Assumptions c45_rescale.

Example c45_example :
  set_scale (mk_decimal (-12999) N64 18 3) 2 = Ok (mk_decimal (-1299) N64 18 2) /\
  truncated (-12999) 1 (-1299) /\
  set_scale (mk_decimal 12000 N64 18 3) 4 = Ok (mk_decimal 120000 N64 18 4) /\
  same_number 120000 4 12000 3.
Proof. unfold truncated, same_number. repeat split; vm_compute; try reflexivity; discriminate. Qed.

(** C45, storing: what a decimal column reads back after a push is the number pushed,
    provided the scales agree and the mantissa fits the column. *)
Theorem c45_store_partial : forall l p s nb d,
  d_scale d = s -> is_i64 (d_underlying d) ->
  (nb = N32 -> - 2 ^ 31 <= d_underlying d < 2 ^ 31) ->
  exists c, push (CDecimal l p s nb) (VDecimal d) = Ok c /\
    at_ c (List.length l) = Ok (VDecimal (mk_decimal (d_underlying d) nb p s)).
Proof.
  intros l p s nb d Hs H64 H32. exists (CDecimal (l ++ [d_underlying d]) p s nb). split.
  - cbn. f_equal. f_equal. f_equal. f_equal. destruct nb; [|reflexivity].
    specialize (H32 eq_refl). cbn [internal]. unfold as_i32.
    apply to_signed_unsigned; [lia|cbn; lia].
  - cbn. unfold index. rewrite nth_error_app2, Nat.sub_diag by lia. reflexivity.
Qed.
Print Assumptions c45_store_partial.

Example c45_store_example :
  push (CDecimal [] 9 4 N32) (VDecimal (mk_decimal (-20000) N64 18 4)) = Ok (CDecimal [-20000] 9 4 N32).
Proof. vm_compute. reflexivity. Qed.

(** C45 is false of the code for storing: a mantissa of 2^32 + 7 goes into a 32-bit column
    as 7, and a decimal of another scale is stored with its mantissa unchanged, which
    turns 1.5 into 0.15. *)
Theorem c45_store_refuted :
  (exists d c, decimal_new (2 ^ 32 + 7) 2 = Ok d /\ push (CDecimal [] 9 2 N32) (VDecimal d) = Ok c /\
     at_ c 0 = Ok (VDecimal (mk_decimal 7 N32 9 2)) /\ ~ same_number (2 ^ 32 + 7) 2 7 2) /\
  (exists d c, decimal_new 15 1 = Ok d /\ push (CDecimal [] 18 2 N64) (VDecimal d) = Ok c /\
     at_ c 0 = Ok (VDecimal (mk_decimal 15 N64 18 2)) /\ ~ same_number 15 1 15 2).
Proof.
  split; do 2 eexists; (split; [vm_compute; reflexivity|]); (split; [vm_compute; reflexivity|]);
    (split; [vm_compute; reflexivity|]); unfold same_number; vm_compute; discriminate.
Qed.
Print Assumptions c45_store_refuted.

(** C50, the part that holds: a decimal made from an integer denotes that integer, when the
    power of ten fits the source's own type and the scaled number fits an i64. What is
    missing is narrow source types, whose power of ten is cut to their own width. *)
Theorem c50_decimal_of_partial : forall t v s d, scalar_ok t v = true ->
  (match t with I8 | I16 | I32 | I64 | U8 | U16 | U32 | U64 => True | _ => False end) ->
  scalar_ok t (10 ^ Z.of_N s) = true -> is_i64 (v * 10 ^ Z.of_N s) -> decimal_of t v s = Ok d ->
  same_number (d_underlying d) (d_scale d) v 0 /\ d_scale d = s /\ d_underlying d <= 10 ^ 18.
Proof.
  intros t v s d Hv Ht Hf HI H. unfold decimal_of in H.
  destruct (N.ltb_spec 18 s) as [|Hs]; [discriminate|].
  rewrite factors10_ok in H by lia. cbn [rbind] in H. unfold base_scale in H.
  assert (C : cast_to_scalar t (10 ^ Z.of_N s) = 10 ^ Z.of_N s).
  { unfold cast_to_scalar. destruct t; try contradiction; cbn [is_signed];
      first [apply to_signed_unsigned; [cbn; lia|unfold scalar_ok in Hf; cbn in Hf |- *; lia]
            |unfold to_unsigned; rewrite Z2N.id by (apply Z.mod_pos_bound; reflexivity);
             apply Z.mod_small; unfold scalar_ok in Hf; cbn [width] in Hf |- *; lia]. }
  rewrite C in H. destruct (scalar_ok t (v * 10 ^ Z.of_N s)) eqn:OK; [|discriminate]. cbn [rbind] in H.
  rewrite to_signed_unsigned in H; [|lia|unfold is_i64 in HI; cbn; lia].
  destruct (Z.ltb_spec (10 ^ 18) (v * 10 ^ Z.of_N s)) as [|LE]; [discriminate|].
  injection H as <-. cbn [d_underlying d_scale]. split; [|split; [reflexivity|exact LE]].
  unfold same_number. change (10 ^ Z.of_N 0) with 1. lia.
Qed.
Print Assumptions c50_decimal_of_partial.

Example c50_example : decimal_of I32 (-2) 4 = Ok (mk_decimal (-20000) N64 18 4) /\
  scalar_ok I32 (10 ^ 4) = true.
Proof. split; vm_compute; reflexivity. Qed.

(** C50 is false of the code: two as an i8 with scale 4 becomes 0.0032, because 10000 cut to
    an i8 is 16; and 2^63 as a u64 becomes a negative number. *)
Theorem c50_narrow_source_refuted :
  decimal_of I8 2 4 = Ok (mk_decimal 32 N64 18 4) /\ ~ same_number 32 4 2 0 /\
  decimal_of U64 (2 ^ 63) 0 = Ok (mk_decimal (- 2 ^ 63) N64 18 0).
Proof. unfold same_number. repeat split; vm_compute; try reflexivity; discriminate. Qed.
Print Assumptions c50_narrow_source_refuted.

(** C51 is false of the code: 2.00 and 2.0000 compare equal but hash differently. *)
Theorem c51_equal_but_hash_differs_refuted : exists a b,
  decimal_new 200 2 = Ok a /\ decimal_new 20000 4 = Ok b /\
  decimal_eq a b = Ok true /\ decimal_hash_input a <> decimal_hash_input b.
Proof. do 2 eexists. repeat split; try (vm_compute; reflexivity). vm_compute. discriminate. Qed.
Print Assumptions c51_equal_but_hash_differs_refuted.

(** The part of C51 that holds: equal decimals of the same scale, made by the API's own
    constructor, hash alike. *)
Theorem c51_same_scale_partial : forall u1 u2 s a b,
  decimal_new u1 s = Ok a -> decimal_new u2 s = Ok b -> decimal_eq a b = Ok true ->
  decimal_hash_input a = decimal_hash_input b.
Proof.
  intros u1 u2 s a b Ha Hb E. unfold decimal_new in *. destruct (18 <? s)%N; [discriminate|].
  injection Ha as <-. injection Hb as <-. unfold decimal_eq in E. cbn [d_scale d_underlying] in E.
  rewrite N.compare_refl in E. injection E as E. apply Z.eqb_eq in E. subst. reflexivity.
Qed.
Print Assumptions c51_same_scale_partial.
