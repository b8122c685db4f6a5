(** Lemmas on decimals. *)
From Coq Require Import String.
From Verif Require Import Base Bytes Types Text Decimal SpecNum TextProofs WireProofs.
Open Scope list_scope.
Open Scope Z_scope.

Lemma factors10_ok d : (d <= 18)%N -> factors10 d = Ok (10 ^ Z.of_N d).
Proof. intros H. unfold factors10. destruct (N.leb_spec d 18); [reflexivity|lia]. Qed.

Lemma i64_ok_iff z : i64_ok z = true <-> is_i64 z.
Proof. unfold i64_ok, is_i64. lia. Qed.

Lemma i64_mul_cases a b :
  (is_i64 (a * b) /\ i64_mul a b = Ok (a * b)) \/ (~ is_i64 (a * b) /\ i64_mul a b = Panic PArith).
Proof.
  unfold i64_mul. destruct (i64_ok (a * b)) eqn:E.
  - left. split; [apply i64_ok_iff, E|reflexivity].
  - right. split; [intros H; apply i64_ok_iff in H; congruence|reflexivity].
Qed.

Lemma pow10_split (a b : N) : (a <= b)%N -> 10 ^ Z.of_N b = 10 ^ Z.of_N (b - a) * 10 ^ Z.of_N a.
Proof.
  intros H. replace (Z.of_N b) with (Z.of_N (b - a) + Z.of_N a) by lia. apply Z.pow_add_r; lia.
Qed.
Lemma pow10_pos k : 0 < 10 ^ Z.of_N k.
Proof. apply Z.pow_pos_nonneg; lia. Qed.

Lemma rescaled_up m1 m2 (s1 s2 : N) : (s1 <= s2)%N ->
  (same_number m1 s1 m2 s2 <-> m2 = m1 * 10 ^ Z.of_N (s2 - s1)).
Proof.
  intros H. unfold same_number. rewrite (pow10_split s1 s2 H), Z.mul_assoc.
  pose proof (pow10_pos s1). split; intros E.
  - apply Z.mul_cancel_r in E; lia.
  - rewrite E. reflexivity.
Qed.
Lemma same_number_sym m1 s1 m2 s2 : same_number m1 s1 m2 s2 <-> same_number m2 s2 m1 s1.
Proof. unfold same_number. lia. Qed.

Lemma decimal_eq_spec a b : (d_scale a <= 18)%N -> (d_scale b <= 18)%N ->
  match decimal_eq a b with
  | Ok r => r = true <-> same_number (d_underlying a) (d_scale a) (d_underlying b) (d_scale b)
  | Err _ => False
  | Panic p => p = PArith /\
      ((d_scale a < d_scale b)%N /\ ~ is_i64 (d_underlying a * 10 ^ Z.of_N (d_scale b - d_scale a)) \/
       (d_scale b < d_scale a)%N /\ ~ is_i64 (d_underlying b * 10 ^ Z.of_N (d_scale a - d_scale b)))
  end.
Proof.
  intros Ha Hb. unfold decimal_eq. destruct (N.compare_spec (d_scale a) (d_scale b)) as [E|E|E].
  - unfold same_number. rewrite E, Z.eqb_eq. pose proof (pow10_pos (d_scale b)).
    split; [intros ->; reflexivity|intros H1; apply Z.mul_cancel_r in H1; lia].
  - rewrite factors10_ok by lia. cbn.
    destruct (i64_mul_cases (d_underlying a) (10 ^ Z.of_N (d_scale b - d_scale a))) as [[A ->]|[A ->]]; cbn.
    + rewrite Z.eqb_eq, rescaled_up by lia. reflexivity.
    + auto.
  - rewrite factors10_ok by lia. cbn.
    destruct (i64_mul_cases (d_underlying b) (10 ^ Z.of_N (d_scale a - d_scale b))) as [[A ->]|[A ->]]; cbn.
    + rewrite Z.eqb_eq, same_number_sym, rescaled_up by lia. reflexivity.
    + auto.
Qed.

(** ** Printing *)
Lemma map_digit_repeat k : map (fun d => (48 + d)%N) (repeat 0%N k) = repeat 48%N k.
Proof. induction k; [reflexivity|]. cbn. f_equal. exact IHk. Qed.

Lemma hd_not_point ds rest : digits_ok ds -> ds <> [] ->
  match map (fun d => (48 + d)%N) ds ++ rest with 46%N :: _ => true | _ => false end = false.
Proof.
  intros H NE. destruct ds as [|d ds]; [congruence|]. inversion H; subst.
  cbn. destruct d as [|p]; [reflexivity|].
  do 4 (destruct p as [p|p|]; try reflexivity; try lia).
Qed.

Lemma point_case (r : bytes) :
  match r with 46%N :: _ => 48%N :: r | _ => r end =
  if match r with 46%N :: _ => true | _ => false end then 48%N :: r else r.
Proof.
  destruct r as [|b r]; [reflexivity|]. destruct b as [|p]; [reflexivity|].
  repeat (destruct p as [p|p|]; try reflexivity).
Qed.

Lemma insert_split (a b : bytes) x : insert_at (List.length a) x (a ++ b) = a ++ [x] ++ b.
Proof.
  unfold insert_at. rewrite firstn_app, skipn_app, Nat.sub_diag, firstn_all, skipn_all.
  cbn. rewrite app_nil_r. reflexivity.
Qed.

(** The split of the digits, sign excluded, when they reach beyond the fraction. *)
Lemma decimal_to_str_long d neg : (neg = true -> d_underlying d < 0) -> (neg = false -> 0 <= d_underlying d) ->
  (N.to_nat (d_scale d) < List.length (digits_of (Z.to_N (Z.abs (d_underlying d)))))%nat ->
  expansion (decimal_to_str d) (d_underlying d) (N.to_nat (d_scale d)).
Proof.
  intros Hn Hp HL. set (ds := digits_of (Z.to_N (Z.abs (d_underlying d)))) in *.
  destruct (digits_of_spec (Z.to_N (Z.abs (d_underlying d)))) as (A & B & C & D & E). fold ds in A, B, C, D, E.
  set (k := N.to_nat (d_scale d)) in *. set (n := List.length ds) in *.
  set (ip := firstn (n - k) ds). set (fp := skipn (n - k) ds).
  assert (Hds : ds = ip ++ fp) by (symmetry; apply firstn_skipn).
  assert (Lip : List.length ip = (n - k)%nat) by (unfold ip; rewrite firstn_length; lia).
  assert (Lfp : List.length fp = k) by (unfold fp; rewrite skipn_length; lia).
  assert (Oip : digits_ok ip /\ digits_ok fp).
  { rewrite Hds in A. apply Forall_app in A. exact A. }
  assert (NE : ip <> []) by (intros X0; rewrite X0 in Lip; change (0 = n - k)%nat in Lip; lia).
  assert (P : print_Z (d_underlying d) =
    (if neg then [45%N] else []) ++ map (fun d => (48 + d)%N) ip ++ map (fun d => (48 + d)%N) fp).
  { rewrite <- map_app, <- Hds. unfold print_Z. destruct neg.
    - destruct (Z.ltb_spec (d_underlying d) 0) as [L|L]; [|specialize (Hn eq_refl); lia].
      rewrite print_N_map. unfold ds. rewrite Z.abs_neq by lia. reflexivity.
    - destruct (Z.ltb_spec (d_underlying d) 0) as [L|L]; [specialize (Hp eq_refl); lia|].
      rewrite print_N_map. unfold ds. rewrite Z.abs_eq by lia. reflexivity. }
  exists neg, ip, fp. unfold decimal_to_str. fold k. rewrite P.
  set (mi := map (fun d0 : N => (48 + d0)%N) ip) in *. set (mf := map (fun d0 : N => (48 + d0)%N) fp) in *.
  assert (Lm : List.length mi = (n - k)%nat /\ List.length mf = k) by (unfold mi, mf; rewrite !map_length; auto).
  set (sg := if neg then [45%N] else []) in *.
  assert (Lt : List.length (sg ++ mi ++ mf) = (List.length sg + n)%nat) by (rewrite !app_length; lia).
  unfold pad_zeros. rewrite Lt. replace (k - (List.length sg + n))%nat with 0%nat by lia. cbn [repeat app].
  rewrite Lt.
  replace (List.length sg + n - k)%nat with (List.length (sg ++ mi)) by (rewrite app_length; lia).
  rewrite app_assoc, insert_split, point_case.
  assert (HP : match (sg ++ mi) ++ [46%N] ++ mf with 46%N :: _ => true | _ => false end = false).
  { unfold sg. destruct neg; [reflexivity|]. cbn [app]. apply hd_not_point; tauto. }
  rewrite HP.
  split; [unfold decimal_text; fold sg mi mf; rewrite <- app_assoc; reflexivity|].
  split; [tauto|]. split; [tauto|]. split; [exact Lfp|]. split; [exact NE|]. split.
  - intros H0. destruct (Z.eq_dec (d_underlying d) 0) as [Z0|Z0].
    + assert (n = 1%nat). { unfold n. rewrite D by lia. reflexivity. }
      destruct ip; [congruence|]. cbn [List.length] in *. lia.
    + exfalso. apply E; [lia|]. rewrite Hds. destruct ip; [congruence|]. cbn in H0 |- *. exact H0.
  - rewrite <- Hds, B. destruct neg; lia.
Qed.

Lemma decimal_to_str_short d : 0 <= d_underlying d ->
  (List.length (digits_of (Z.to_N (d_underlying d))) <= N.to_nat (d_scale d))%nat ->
  expansion (decimal_to_str d) (d_underlying d) (N.to_nat (d_scale d)).
Proof.
  intros Hp HL. set (ds := digits_of (Z.to_N (d_underlying d))) in *.
  destruct (digits_of_spec (Z.to_N (d_underlying d))) as (A & B & C & D & E). fold ds in A, B, C, D, E.
  set (k := N.to_nat (d_scale d)) in *.
  exists false, [0%N], (repeat 0%N (k - List.length ds) ++ ds).
  unfold decimal_to_str. fold k.
  assert (P : print_Z (d_underlying d) = map (fun d => (48 + d)%N) ds).
  { unfold print_Z. destruct (Z.ltb_spec (d_underlying d) 0); [lia|]. apply print_N_map. }
  rewrite P. unfold pad_zeros. rewrite map_length, <- map_digit_repeat, <- map_app.
  set (fp := repeat 0%N (k - List.length ds) ++ ds).
  assert (Lf : List.length fp = k) by (unfold fp; rewrite app_length, repeat_length; lia).
  rewrite map_length, Lf, Nat.sub_diag. unfold insert_at. cbn [firstn skipn app].
  split; [reflexivity|].
  split; [repeat constructor|]. split.
  { apply Forall_app. split; [|exact A]. apply Forall_forall. intros x Hx. apply repeat_spec in Hx. lia. }
  split; [first [exact Lf|reflexivity]|]. split; [discriminate|]. split; [reflexivity|].
  unfold fp. cbn [app]. change (0%N :: repeat 0%N (k - List.length ds) ++ ds) with
    (repeat 0%N (S (k - List.length ds)) ++ ds).
  rewrite dec_value_repeat0, B. lia.
Qed.

(** Texts with a minus sign after the first character are no expansion, nor are those whose
    first character before the point is a sign. *)
Lemma expansion_minus s m k : expansion s m k -> ~ In 45%N (tl s).
Proof.
  intros (neg & ip & fp & -> & Hi & Hf & _ & NE & _) H.
  assert (X : forall ds, digits_ok ds -> ~ In 45%N (map (fun d => (48 + d)%N) ds)).
  { intros ds _ HI. apply in_map_iff in HI as (d & E & _). lia. }
  unfold decimal_text in H. destruct neg; cbn [app tl] in H.
  - apply in_app_iff in H as [H|[H|H]]; [exact (X _ Hi H)|discriminate|exact (X _ Hf H)].
  - destruct ip as [|d ip]; [congruence|]. cbn [map app tl] in H.
    inversion Hi; subst.
    apply in_app_iff in H as [H|[H|H]]; [exact (X _ H3 H)|discriminate|exact (X _ Hf H)].
Qed.

Lemma quot_truncated x k : truncated x k (Z.quot x (10 ^ Z.of_N k)).
Proof.
  unfold truncated. pose proof (pow10_pos k) as P. set (f := 10 ^ Z.of_N k) in *.
  pose proof (Z.quot_rem' x f) as Q.
  assert (X : forall y q r, 0 <= q -> 0 <= r < f -> y = f * q + r ->
            Z.abs (q * f) <= Z.abs y < Z.abs (q * f) + f /\ 0 <= q * y).
  { intros y q r Hq Hr ->. assert (0 <= q * f) by nia.
    rewrite !Z.abs_eq by nia. split; [nia|]. apply Z.mul_nonneg_nonneg; nia. }
  destruct (Z.le_gt_cases 0 x) as [H|H].
  - apply (X x _ (Z.rem x f)); [apply Z.quot_pos; lia|apply Z.rem_bound_pos; lia|exact Q].
  - pose proof (Z.quot_opp_l x f ltac:(lia)) as QO. pose proof (Z.rem_opp_l x f ltac:(lia)) as RO.
    destruct (X (- x) (- (x ÷ f)) (- Z.rem x f)) as [Y1 Y2].
    + rewrite <- QO. apply Z.quot_pos; lia.
    + rewrite <- RO. apply Z.rem_bound_pos; lia.
    + lia.
    + rewrite Z.mul_opp_l, !Z.abs_opp in Y1. split; [exact Y1|nia].
Qed.
