(** Printing and reading decimal numbers. *)
From Coq Require Import String.
From Verif Require Import Base Text SpecNum.
Open Scope list_scope.
Open Scope N_scope.

Lemma is_digit_iff b : is_digit b = true <-> 48 <= b <= 57.
Proof. unfold is_digit. rewrite andb_true_iff, !N.leb_le. reflexivity. Qed.

Lemma digits_value_app a b acc :
  digits_value acc (a ++ b) = match digits_value acc a with Some v => digits_value v b | None => None end.
Proof.
  revert acc. induction a as [|x a IH]; intros acc; [reflexivity|].
  cbn. destruct (is_digit x); [apply IH|reflexivity].
Qed.

(** The digits printed, as numbers below ten. *)
Fixpoint dec_digits (fuel : nat) (n : N) : list N :=
  match fuel with
  | O => []
  | S f => if n <? 10 then [n] else dec_digits f (n / 10) ++ [n mod 10]
  end.
Lemma print_digits_map fuel n : print_digits fuel n = map (fun d => 48 + d) (dec_digits fuel n).
Proof.
  revert n. induction fuel as [|f IH]; intros n; [reflexivity|].
  cbn [print_digits dec_digits]. destruct (n <? 10); [reflexivity|].
  rewrite IH, map_app. reflexivity.
Qed.

Definition digits_of (n : N) : list N := dec_digits (S (N.size_nat n)) n.
Lemma print_N_map n : print_N n = map (fun d => 48 + d) (digits_of n).
Proof. apply print_digits_map. Qed.

Lemma dec_value_snoc ds d : dec_value (ds ++ [d]) = (10 * dec_value ds + Z.of_N d)%Z.
Proof. unfold dec_value. rewrite fold_left_app. reflexivity. Qed.

Lemma size_nat_bound n : n < 2 ^ N.of_nat (N.size_nat n).
Proof.
  destruct n as [|p]; [reflexivity|]. cbn [N.size_nat].
  induction p as [p IH|p IH|]; cbn [Pos.size_nat].
  - rewrite Nat2N.inj_succ, N.pow_succ_r'. lia.
  - rewrite Nat2N.inj_succ, N.pow_succ_r'. lia.
  - reflexivity.
Qed.

Lemma dec_digits_spec fuel : forall n, n < 2 ^ N.of_nat fuel ->
  let ds := dec_digits (S fuel) n in
  digits_ok ds /\ dec_value ds = Z.of_N n /\ ds <> [] /\
  (n < 10 -> ds = [n]) /\ (0 < n -> hd 0 ds <> 0).
Proof.
  induction fuel as [|f IH]; intros n Hn ds; subst ds.
  - change (2 ^ N.of_nat 0) with 1 in Hn. assert (n = 0) as -> by lia.
    cbn. split; [repeat constructor|]. repeat split; [discriminate|]. lia.
  - change (dec_digits (S (S f)) n) with
      (if n <? 10 then [n] else dec_digits (S f) (n / 10) ++ [n mod 10]).
    destruct (N.ltb_spec n 10) as [L|L].
    + split; [repeat constructor; exact L|]. split; [cbn; lia|]. split; [discriminate|].
      split; [reflexivity|]. cbn. lia.
    + rewrite Nat2N.inj_succ, N.pow_succ_r' in Hn.
      destruct (IH (n / 10)) as (A & B & C & D & E); [lia|].
      split; [apply Forall_app; split; [exact A|repeat constructor; lia]|].
      split; [rewrite dec_value_snoc, B; lia|].
      split; [destruct (dec_digits (S f) (n / 10)); discriminate|].
      split; [lia|]. intros _. specialize (E ltac:(lia)).
      destruct (dec_digits (S f) (n / 10)); [congruence|exact E].
Qed.

Lemma digits_of_spec n : let ds := digits_of n in
  digits_ok ds /\ dec_value ds = Z.of_N n /\ ds <> [] /\
  (n < 10 -> ds = [n]) /\ (0 < n -> hd 0 ds <> 0).
Proof. apply dec_digits_spec, size_nat_bound. Qed.

Lemma dec_value_app a b : dec_value (a ++ b) = (dec_value a * 10 ^ Z.of_nat (List.length b) + dec_value b)%Z.
Proof.
  revert a. induction b as [|d b IH] using rev_ind; intros a.
  - rewrite app_nil_r. cbn [List.length]. change (10 ^ Z.of_nat 0)%Z with 1%Z. unfold dec_value at 3. cbn. lia.
  - rewrite app_assoc, !dec_value_snoc, IH, app_length. cbn [List.length].
    replace (Z.of_nat (List.length b + 1)) with (1 + Z.of_nat (List.length b))%Z by lia.
    rewrite Z.pow_add_r by lia. lia.
Qed.

Lemma dec_value_bounds ds : digits_ok ds -> (0 <= dec_value ds < 10 ^ Z.of_nat (List.length ds))%Z.
Proof.
  induction ds as [|d ds IH] using rev_ind; intros H; [cbn; lia|].
  apply Forall_app in H as [H1 H2]. inversion H2; subst. rewrite dec_value_snoc, app_length.
  cbn [List.length]. replace (Z.of_nat (List.length ds + 1)) with (1 + Z.of_nat (List.length ds))%Z by lia.
  rewrite Z.pow_add_r by lia. specialize (IH H1). lia.
Qed.

Lemma dec_value_repeat0 k ds : dec_value (repeat 0 k ++ ds) = dec_value ds.
Proof. induction k; [reflexivity|]. cbn. exact IHk. Qed.

(** A number of [n] below [10^k] has at most [k] digits (one for zero). *)
Lemma digits_of_length_le n k : (0 < k)%nat -> n < 10 ^ N.of_nat k -> (List.length (digits_of n) <= k)%nat.
Proof.
  intros Hk Hn. destruct (digits_of_spec n) as (A & B & C & D & E).
  destruct (N.eq_dec n 0) as [->|Hz]; [rewrite D by lia; cbn; lia|].
  specialize (E ltac:(lia)). destruct (digits_of n) as [|d ds]; [congruence|]. cbn [hd] in E.
  destruct (Nat.le_gt_cases (List.length (d :: ds)) k) as [|G]; [assumption|exfalso].
  change (d :: ds) with ([d] ++ ds) in B. rewrite dec_value_app in B.
  inversion A; subst. destruct (dec_value_bounds ds H2) as [P _].
  cbn [List.length] in G. unfold dec_value at 1 in B. cbn [fold_left] in B.
  assert (10 ^ Z.of_nat k <= 10 ^ Z.of_nat (List.length ds))%Z by (apply Z.pow_le_mono_r; lia).
  assert (Q : (Z.of_N (10 ^ N.of_nat k) = 10 ^ Z.of_nat k)%Z) by (rewrite N2Z.inj_pow, nat_N_Z; reflexivity).
  nia.
Qed.

Lemma digits_of_length_gt n k : 10 ^ N.of_nat k <= n -> (k < List.length (digits_of n))%nat.
Proof.
  intros Hn. destruct (digits_of_spec n) as (A & B & _).
  pose proof (dec_value_bounds _ A) as [_ P]. rewrite B in P.
  destruct (Nat.le_gt_cases (List.length (digits_of n)) k) as [G|]; [exfalso|assumption].
  assert (10 ^ Z.of_nat (List.length (digits_of n)) <= 10 ^ Z.of_nat k)%Z by (apply Z.pow_le_mono_r; lia).
  assert (Q : (Z.of_N (10 ^ N.of_nat k) = 10 ^ Z.of_nat k)%Z) by (rewrite N2Z.inj_pow, nat_N_Z; reflexivity).
  lia.
Qed.

Lemma digits_value_map ds acc : digits_ok ds ->
  digits_value acc (map (fun d => 48 + d) ds) =
  Some (Z.to_N (Z.of_N acc * 10 ^ Z.of_nat (List.length ds) + dec_value ds)).
Proof.
  intros H. revert acc. induction ds as [|d ds IH]; intros acc.
  - cbn. f_equal. lia.
  - inversion H; subst. cbn [map digits_value].
    replace (is_digit (48 + d)) with true by (symmetry; apply is_digit_iff; lia).
    rewrite IH by assumption. f_equal. f_equal.
    change (d :: ds) with ([d] ++ ds). rewrite dec_value_app. cbn [List.length app].
    unfold dec_value at 2. cbn [fold_left].
    rewrite Nat2Z.inj_succ, Z.pow_succ_r by lia.
    replace (Z.of_N (acc * 10 + (48 + d - 48))) with (Z.of_N acc * 10 + Z.of_N d)%Z by lia. lia.
Qed.

Lemma digits_value_print n : digits_value 0 (print_N n) = Some n.
Proof.
  destruct (digits_of_spec n) as (A & B & _). rewrite print_N_map, digits_value_map by assumption.
  rewrite B. f_equal. lia.
Qed.

Lemma print_N_nonempty n : print_N n <> [].
Proof.
  destruct (digits_of_spec n) as (_ & _ & C & _). rewrite print_N_map.
  destruct (digits_of n); [congruence|discriminate].
Qed.

Lemma print_N_digits n : Forall (fun b => is_digit b = true) (print_N n).
Proof.
  destruct (digits_of_spec n) as (A & _). rewrite print_N_map. apply Forall_forall. intros x Hx.
  apply in_map_iff in Hx as (d & <- & Hd). apply is_digit_iff.
  unfold digits_ok in A. rewrite Forall_forall in A. specialize (A d Hd). lia.
Qed.

Lemma parse_uint_print max n : n <= max -> parse_uint max (print_N n) = Some n.
Proof.
  intros H. unfold parse_uint. pose proof (print_N_nonempty n) as NE.
  pose proof (print_N_digits n) as D. pose proof (digits_value_print n) as V.
  destruct (print_N n) as [|b r] eqn:E; [congruence|].
  inversion D; subst. apply is_digit_iff in H2.
  assert (B : match b return bytes with 43 => r | _ => b :: r end = b :: r).
  { destruct b as [|p]; [reflexivity|]. repeat (destruct p as [p|p|]; try reflexivity; try lia). }
  cbv zeta. rewrite B, V. destruct (N.leb_spec n max); [reflexivity|lia].
Qed.
