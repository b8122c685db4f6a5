(** C43 and C50 where they are false of the code: exactly what the code does instead. *)
From Coq Require Import String.
From Verif Require Import Base Bytes Types Text Decimal Columns SpecNum TextProofs DecimalProofs WireProofs.
Open Scope list_scope.
Open Scope Z_scope.

(** C43, the rest of it: between -1 and 0 the minus sign takes the place of a digit. With [ds] the digits of the number without its
    sign, there is no digit before the point if they fill the fraction, and otherwise the sign stands among the digits. *)
Theorem c43_negative_exact d : - 10 ^ Z.of_N (d_scale d) < d_underlying d < 0 ->
  exists ds, digits_ok ds /\ dec_value ds = - d_underlying d /\ hd 0%N ds <> 0%N /\
    let k := N.to_nat (d_scale d) in
    (List.length ds <= k)%nat /\
    decimal_to_str d =
      if Nat.eqb (List.length ds) k then str "-." ++ map (fun d => (48 + d)%N) ds
      else str "0." ++ repeat 48%N (k - List.length ds - 1) ++ str "-" ++ map (fun d => (48 + d)%N) ds.
Proof.
  intros H. exists (digits_of (Z.to_N (- d_underlying d))).
  destruct (digits_of_spec (Z.to_N (- d_underlying d))) as (A & B & C & D & E). set (ds := digits_of (Z.to_N (- d_underlying d))) in *.
  split; [exact A|]. split; [rewrite B; lia|]. split; [apply E; lia|]. cbv zeta.
  assert (K : (0 < N.to_nat (d_scale d))%nat).
  { destruct (d_scale d) as [|p]; [cbn in H; lia|lia]. }
  assert (L : (List.length ds <= N.to_nat (d_scale d))%nat).
  { apply digits_of_length_le; [exact K|]. rewrite N2Nat.id.
    assert (Q : Z.of_N (10 ^ d_scale d) = 10 ^ Z.of_N (d_scale d)) by (rewrite N2Z.inj_pow; reflexivity). lia. }
  split; [exact L|]. unfold decimal_to_str. set (k := N.to_nat (d_scale d)) in *.
  assert (P : print_Z (d_underlying d) = 45%N :: map (fun d => (48 + d)%N) ds).
  { unfold print_Z. rewrite (proj2 (Z.ltb_lt _ _)) by lia. rewrite print_N_map. reflexivity. }
  rewrite P. unfold pad_zeros. cbn [List.length]. rewrite map_length.
  set (r := map (fun d0 : N => (48 + d0)%N) ds). assert (Lr : List.length r = List.length ds) by apply map_length.
  destruct (Nat.eqb_spec (List.length ds) k) as [Q|Q].
  - replace (k - S (List.length ds))%nat with 0%nat by lia. cbn [repeat app List.length]. rewrite Lr.
    replace (S (List.length ds) - k)%nat with 1%nat by lia. reflexivity.
  - rewrite app_length, repeat_length. cbn [List.length]. rewrite Lr.
    replace (k - S (List.length ds) + S (List.length ds) - k)%nat with 0%nat by lia. unfold insert_at. cbn [firstn skipn app].
    replace (k - List.length ds - 1)%nat with (k - S (List.length ds))%nat by lia. reflexivity.
Qed.
Print Assumptions c43_negative_exact.
Example c43_negative_case :
  decimal_to_str (mk_decimal (-5) N64 18 1) = str "-.5" /\ decimal_to_str (mk_decimal (-500) N64 18 6) = str "0.00-500" /\
  - 10 ^ Z.of_N 6 < -500 < 0.
Proof. repeat split; vm_compute; reflexivity. Qed.

(** C50, all of it: the power of ten is taken in the source's own type [t] as the number [g] of it that differs from it by a multiple of
    2^bits. The product is refused if it is none of that type or, as an i64, above 10^18; the decimal is that i64. *)
Theorem c50_exact t v s : scalar_ok t v = true ->
  (match t with I8 | I16 | I32 | I64 | U8 | U16 | U32 | U64 => True | _ => False end) -> (s <= 18)%N ->
  exists g u, scalar_ok t g = true /\ (2 ^ (8 * Z.of_nat (width t)) | g - 10 ^ Z.of_N s) /\ is_i64 u /\ (2 ^ 64 | u - v * g) /\
    decimal_of t v s =
      if scalar_ok t (v * g) then if 10 ^ 18 <? u then Panic PExplicit else Ok (mk_decimal u N64 18 s) else Panic PArith.
Proof.
  intros Hv Ht Hs.
  assert (M : forall w z, (0 < w)%nat -> (2 ^ (8 * Z.of_nat w) | to_signed w (to_unsigned w z) - z)).
  { intros w z W. assert (P : 0 < 2 ^ (8 * Z.of_nat w)) by (apply Z.pow_pos_nonneg; lia). unfold to_signed.
    unfold to_unsigned. rewrite Z2N.id by (apply Z.mod_pos_bound; exact P). rewrite Z.mod_mod by lia.
    pose proof (Z.div_mod z (2 ^ (8 * Z.of_nat w)) ltac:(lia)) as D. set (m := 2 ^ (8 * Z.of_nat w)) in *.
    destruct (z mod m <? m / 2); [exists (- (z / m))|exists (- (z / m) - 1)]; lia. }
  assert (M0 : forall w z, (2 ^ (8 * Z.of_nat w) | Z.of_N (to_unsigned w z) - z)).
  { intros w z. assert (P : 0 < 2 ^ (8 * Z.of_nat w)) by (apply Z.pow_pos_nonneg; lia).
    unfold to_unsigned. rewrite Z2N.id by (apply Z.mod_pos_bound; exact P).
    pose proof (Z.div_mod z (2 ^ (8 * Z.of_nat w)) ltac:(lia)) as D. set (m := 2 ^ (8 * Z.of_nat w)) in *.
    exists (- (z / m)); lia. }
  exists (cast_to_scalar t (10 ^ Z.of_N s)). set (g := cast_to_scalar t (10 ^ Z.of_N s)).
  exists (to_signed 8 (to_unsigned 8 (v * g))). split; [|split; [|split; [|split]]].
  - unfold g, cast_to_scalar. destruct t; try contradiction; cbn [is_signed width];
      match goal with
      | |- scalar_ok _ (to_signed ?w ?n) = true => pose proof (to_signed_range w n ltac:(lia)) as R
      | |- scalar_ok _ (Z.of_N (to_unsigned ?w ?n)) = true => pose proof (to_unsigned_bound w n) as R; rewrite pow256_two in R
      end; unfold scalar_ok; cbn [width]; apply andb_true_intro; split;
      [apply Z.leb_le|apply Z.ltb_lt|apply Z.leb_le|apply Z.ltb_lt|apply Z.leb_le|apply Z.ltb_lt|apply Z.leb_le|apply Z.ltb_lt
      |apply Z.leb_le|apply Z.ltb_lt|apply Z.leb_le|apply Z.ltb_lt|apply Z.leb_le|apply Z.ltb_lt|apply Z.leb_le|apply Z.ltb_lt]; lia.
  - unfold g, cast_to_scalar. destruct t; try contradiction; cbn [is_signed width]; first [apply M; lia|apply M0].
  - unfold is_i64. pose proof (to_signed_range 8 (to_unsigned 8 (v * g)) ltac:(lia)) as R. exact R.
  - exact (M 8%nat (v * g) ltac:(lia)).
  - unfold decimal_of. rewrite (proj2 (N.ltb_ge _ _)) by exact Hs. rewrite factors10_ok by exact Hs. cbn [rbind]. unfold base_scale. fold g.
    destruct (scalar_ok t (v * g)); reflexivity.
Qed.
Print Assumptions c50_exact.
(** 5 as an i16 with scale 5: 100000 is -31072 as an i16, and -155360 is no i16; 1 becomes -0.31072. *)
Example c50_exact_case :
  scalar_ok I16 (-31072) = true /\ -31072 - 10 ^ Z.of_N 5 = -2 * 2 ^ 16 /\
  decimal_of I16 5 5 = Panic PArith /\ decimal_of I16 1 5 = Ok (mk_decimal (-31072) N64 18 5).
Proof. repeat split; vm_compute; reflexivity. Qed.
