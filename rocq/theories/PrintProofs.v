(** Lemmas about printed texts. *)
From Coq Require Import String Lia.
From Verif Require Import Base Bytes Utf8 Types Text Decimal DateTime Values Columns Block Print SpecNum SpecPrint TextProofs DecimalProofs.
Open Scope list_scope. Open Scope Z_scope.

(** * The calendar *)
Fixpoint check (p : Z -> bool) (fuel : nat) (z : Z) : bool :=
  match fuel with O => true | S f => if p z then check p f (z + 1) else false end.
Lemma check_all p fuel : forall z, check p fuel z = true -> forall k, z <= k < z + Z.of_nat fuel -> p k = true.
Proof.
  induction fuel as [|f IH]; intros z H k K; [lia|]. cbn [check] in H. destruct (p z) eqn:E; [|discriminate].
  destruct (Z.eq_dec k z) as [->|N]; [exact E|]. apply (IH (z + 1) H). lia.
Qed.
(** The day of the 400 years at which a year begins (in March) and ends, and its number of days. *)
Definition start (y : Z) : Z := 365 * y + y / 4 - y / 100.
Definition finish (y : Z) : Z := if y =? 399 then 146097 else start (y + 1).
Definition yoe_of (doe : Z) : Z := (doe - doe / 1460 + doe / 36524 - doe / 146096) / 365.
Definition year_ok (y : Z) : bool :=
  (yoe_of (start y) =? y) && (yoe_of (finish y - 1) =? y) &&
  (finish y - start y =? if leap (y + 1) then 366 else 365).
Lemma all_years : check year_ok (Z.to_nat 400) 0 = true.
Proof. vm_compute. reflexivity. Qed.
Lemma year_ok_all y : 0 <= y < 400 ->
  yoe_of (start y) = y /\ yoe_of (finish y - 1) = y /\ finish y - start y = if leap (y + 1) then 366 else 365.
Proof.
  intros H. pose proof (check_all _ _ _ all_years y ltac:(rewrite Z2Nat.id by lia; lia)) as K. unfold year_ok in K.
  rewrite !andb_true_iff, !Z.eqb_eq in K. tauto.
Qed.
Lemma yoe_step a : 0 <= a -> yoe_of a <= yoe_of (a + 1).
Proof.
  intros H. unfold yoe_of. apply Z.div_le_mono; [lia|].
  replace 146096 with (36524 * 4) by reflexivity. rewrite <- !Z.div_div by lia.
  assert ((a + 1) / 1460 <= a / 1460 + 1) by lia. assert (a / 36524 <= (a + 1) / 36524) by (apply Z.div_le_mono; lia).
  set (p := a / 36524) in *. set (q := (a + 1) / 36524) in *. clearbody p q. lia.
Qed.
Lemma yoe_mono a b : 0 <= a <= b -> yoe_of a <= yoe_of b.
Proof.
  intros H. replace b with (a + Z.of_nat (Z.to_nat (b - a))) by lia. generalize (Z.to_nat (b - a)). intros n.
  induction n as [|n IH]; [rewrite Z.add_0_r; lia|]. pose proof (yoe_step (a + Z.of_nat n) ltac:(lia)).
  replace (a + Z.of_nat (S n)) with (a + Z.of_nat n + 1) by lia. lia.
Qed.
Lemma start_bound y : 0 <= y -> 0 <= start y.
Proof. intros H. unfold start. lia. Qed.
Lemma in_year y doe : 0 <= y < 400 -> start y <= doe < finish y -> yoe_of doe = y.
Proof.
  intros Y D. destruct (year_ok_all y Y) as (A & B & _). pose proof (start_bound y ltac:(lia)).
  pose proof (yoe_mono (start y) doe ltac:(lia)). pose proof (yoe_mono doe (finish y - 1) ltac:(lia)). lia.
Qed.
Lemma some_year doe : 0 <= doe < 146097 -> exists y, 0 <= y < 400 /\ start y <= doe < finish y.
Proof.
  intros D. assert (forall k, (k < 400)%nat -> doe < finish (Z.of_nat k) -> exists y, 0 <= y < 400 /\ start y <= doe < finish y) as G.
  { induction k as [|k IH]; intros K F.
    - exists 0. split; [lia|]. split; [change (start 0) with 0; lia|exact F].
    - destruct (Z.lt_ge_cases doe (finish (Z.of_nat k))) as [L|L]; [apply IH; [lia|exact L]|].
      exists (Z.of_nat (S k)). split; [lia|]. split; [|exact F]. unfold finish in L. destruct (Z.eqb_spec (Z.of_nat k) 399); [lia|].
      replace (Z.of_nat (S k)) with (Z.of_nat k + 1) by lia. exact L. }
  apply (G (Z.to_nat 399)); [lia|]. rewrite Z2Nat.id by lia. change (finish 399) with 146097. lia.
Qed.
(** The month and the day of a day of such a year, and whether the year has changed. *)
Definition month_day (doy : Z) : Z * Z * Z :=
  let mp := (5 * doy + 2) / 153 in
  let m := if mp <? 10 then mp + 3 else mp - 9 in
  ((if m <=? 2 then 1 else 0), m, doy - (153 * mp + 2) / 5 + 1).
Lemma civil_at era y doy : 0 <= y < 400 -> 0 <= doy < finish y - start y ->
  civil (146097 * era + start y + doy - 719468) =
  let '(c, m, d) := month_day doy in (y + 400 * era + c, m, d).
Proof.
  intros Y D. assert (0 <= start y + doy < 146097) as B.
  { pose proof (start_bound y ltac:(lia)). split; [lia|]. assert (finish y <= 146097); [|lia].
    unfold finish. destruct (Z.eqb_spec y 399); [lia|]. unfold start. lia. }
  unfold civil. cbv zeta. replace (146097 * era + start y + doy - 719468 + 719468) with (start y + doy + era * 146097) by lia.
  assert ((start y + doy + era * 146097) / 146097 = era) as -> by (rewrite Z.div_add, Z.div_small by lia; lia).
  assert ((start y + doy + era * 146097) mod 146097 = start y + doy) as -> by (rewrite Z_mod_plus_full; apply Z.mod_small; lia).
  change ((start y + doy - (start y + doy) / 1460 + (start y + doy) / 36524 - (start y + doy) / 146096) / 365) with (yoe_of (start y + doy)).
  rewrite (in_year y (start y + doy)) by lia. replace (start y + doy - (365 * y + y / 4 - y / 100)) with doy by (unfold start; lia).
  unfold month_day. cbv zeta. f_equal. f_equal. lia.
Qed.
Definition mlen (l : bool) (m : Z) : Z :=
  if m =? 2 then (if l then 29 else 28) else if (m =? 4) || (m =? 6) || (m =? 9) || (m =? 11) then 30 else 31.
Definition doy_ok (l : bool) (doy : Z) : bool :=
  let '(c, m, d) := month_day doy in
  (1 <=? m) && (m <=? 12) && (1 <=? d) && (d <=? 31) && ((c =? 1) || negb (m =? 2)) &&
  if doy + 1 <? (if l then 366 else 365)
  then let '(c', m', d') := month_day (doy + 1) in
       if d <? mlen l m then (c' =? c) && (m' =? m) && (d' =? d + 1)
       else if m <? 12 then (c' =? c) && (m' =? m + 1) && (d' =? 1)
       else (c' =? c + 1) && (m' =? 1) && (d' =? 1)
  else if doy + 1 =? (if l then 366 else 365) then (c =? 1) && (m =? 2) && (d =? mlen l 2) else true.
Lemma all_doys : check (fun d => doy_ok true d && doy_ok false d) (Z.to_nat 366) 0 = true.
Proof. vm_compute. reflexivity. Qed.
Lemma doy_ok_all l doy : 0 <= doy < 366 -> doy_ok l doy = true.
Proof.
  intros H. pose proof (check_all _ _ _ all_doys doy ltac:(rewrite Z2Nat.id by lia; lia)) as K. apply andb_true_iff in K as [A B].
  destruct l; assumption.
Qed.
Lemma leap_shift y k : leap (y + 400 * k) = leap y.
Proof.
  assert ((y + 400 * k) mod 4 = y mod 4) as E4 by (replace (y + 400 * k) with (y + (100 * k) * 4) by lia; apply Z_mod_plus_full).
  assert ((y + 400 * k) mod 100 = y mod 100) as E100 by (replace (y + 400 * k) with (y + (4 * k) * 100) by lia; apply Z_mod_plus_full).
  assert ((y + 400 * k) mod 400 = y mod 400) as E400 by (replace (y + 400 * k) with (y + k * 400) by lia; apply Z_mod_plus_full).
  unfold leap. rewrite E4, E100, E400. reflexivity.
Qed.
(** Every day is a day of a year. *)
Lemma day_at n : exists era y doy, 0 <= y < 400 /\ 0 <= doy < finish y - start y /\ n = 146097 * era + start y + doy - 719468.
Proof.
  pose proof (Z.div_mod (n + 719468) 146097 ltac:(lia)) as E. pose proof (Z.mod_pos_bound (n + 719468) 146097 ltac:(lia)) as B.
  destruct (some_year _ B) as (y & Y & D). exists ((n + 719468) / 146097), y, ((n + 719468) mod 146097 - start y).
  split; [exact Y|]. lia.
Qed.
Lemma civil_next n : civil (n + 1) = next_day (civil n).
Proof.
  destruct (day_at n) as (era & y & doy & Y & D & ->). rewrite (civil_at era y doy Y D).
  destruct (year_ok_all y Y) as (_ & _ & L). assert (0 <= doy < 366) as D' by (destruct (leap (y + 1)); lia).
  pose proof (doy_ok_all (leap (y + 1)) doy D') as K. unfold doy_ok in K.
  destruct (month_day doy) as [[c m] d] eqn:M.
  apply andb_true_iff in K as [K S]. rewrite !andb_true_iff in K. destruct K as [[[[K1 K2] K3] K4] K5].
  cbn [next_day]. assert (month_length (y + 400 * era + c) m = mlen (leap (y + 1)) m) as ->.
  { unfold month_length, mlen. destruct (Z.eqb_spec m 2) as [->|N]; [|reflexivity]. cbn [negb orb] in K5. replace c with 1 by lia.
    replace (y + 400 * era + 1) with (y + 1 + 400 * era) by lia. rewrite leap_shift. reflexivity. }
  rewrite <- L in S. destruct (Z.ltb_spec (doy + 1) (finish y - start y)) as [A|A].
  - replace (146097 * era + start y + doy - 719468 + 1) with (146097 * era + start y + (doy + 1) - 719468) by lia.
    rewrite civil_at by lia. destruct (month_day (doy + 1)) as [[c' m'] d'].
    destruct (d <? mlen (leap (y + 1)) m); [|destruct (m <? 12)]; rewrite !andb_true_iff, !Z.eqb_eq in S; destruct S as [[-> ->] ->]; [reflexivity|reflexivity|].
    f_equal. f_equal. lia.
  - replace (doy + 1 =? finish y - start y) with true in S by lia. rewrite !andb_true_iff, !Z.eqb_eq in S. destruct S as [[-> ->] ->].
    rewrite Z.ltb_irrefl. change (2 <? 12) with true. change (2 + 1) with 3. cbv iota.
    destruct (Z.eq_dec y 399) as [->|N].
    + replace (146097 * era + start 399 + doy - 719468 + 1) with (146097 * (era + 1) + start 0 + 0 - 719468).
      2:{ change (finish 399) with 146097 in *. change (start 0) with 0. lia. }
      rewrite civil_at; [|lia|change (finish 0 - start 0) with 365; lia]. change (month_day 0) with (0, 3, 1). cbv iota. f_equal. f_equal. lia.
    + assert (finish y = start (y + 1)) as F by (unfold finish; destruct (Z.eqb_spec y 399); [lia|reflexivity]).
      replace (146097 * era + start y + doy - 719468 + 1) with (146097 * era + start (y + 1) + 0 - 719468) by lia.
      rewrite civil_at; [|lia|]. 2:{ destruct (year_ok_all (y + 1) ltac:(lia)) as (_ & _ & L'). clear - L'. destruct (leap (y + 1 + 1)); lia. }
      change (month_day 0) with (0, 3, 1). cbv iota. f_equal. f_equal. lia.
Qed.
Lemma civil_parts n : let '(y, m, d) := civil n in 1 <= m <= 12 /\ 1 <= d <= 31.
Proof.
  destruct (day_at n) as (era & y & doy & Y & D & ->). rewrite (civil_at era y doy Y D).
  destruct (year_ok_all y Y) as (_ & _ & L). assert (0 <= doy < 366) as D' by (destruct (leap (y + 1)); lia).
  pose proof (doy_ok_all true doy D') as K. unfold doy_ok in K. destruct (month_day doy) as [[c m] d].
  apply andb_true_iff in K as [K _]. rewrite !andb_true_iff in K. lia.
Qed.
Lemma civil_after n : civil (Z.of_N n) = date_after n.
Proof.
  unfold date_after. induction n as [|n IH] using N.peano_ind; [reflexivity|].
  rewrite N.iter_succ, <- IH, <- civil_next. f_equal. lia.
Qed.
(** Dates count up. *)
Definition rank (x : Z * Z * Z) : Z := let '(y, m, d) := x in 10000 * y + 100 * m + d.
Lemma rank_next n : rank (civil n) < rank (civil (n + 1)).
Proof.
  rewrite civil_next. pose proof (civil_parts n) as P. destruct (civil n) as [[y m] d]. cbn [next_day].
  destruct (d <? _); [cbn; lia|]. destruct (m <? 12); cbn; lia.
Qed.
Lemma rank_mono a b : a < b -> rank (civil a) < rank (civil b).
Proof.
  intros H. replace b with (a + 1 + Z.of_N (Z.to_N (b - a - 1))) by lia. generalize (Z.to_N (b - a - 1)). clear.
  induction n as [|n IH] using N.peano_ind; [rewrite Z.add_0_r; apply rank_next|].
  replace (a + 1 + Z.of_N (N.succ n)) with (a + 1 + Z.of_N n + 1) by lia. pose proof (rank_next (a + 1 + Z.of_N n)). lia.
Qed.
Lemma civil_inj a b : civil a = civil b -> a = b.
Proof.
  intros E. destruct (Z.lt_trichotomy a b) as [L|[L|L]]; [|exact L|].
  - pose proof (rank_mono a b L). rewrite E in *. lia.
  - pose proof (rank_mono b a L). rewrite E in *. lia.
Qed.
(** Years count up. *)
Definition year (x : Z * Z * Z) : Z := let '(y, _, _) := x in y.
Lemma year_next x : year x <= year (next_day x).
Proof. destruct x as [[y m] d]. cbn [next_day]. destruct (d <? _); [cbn; lia|]. destruct (m <? 12); cbn; lia. Qed.
Lemma year_mono a b : a <= b -> year (civil a) <= year (civil b).
Proof.
  intros H. replace b with (a + Z.of_N (Z.to_N (b - a))) by lia. generalize (Z.to_N (b - a)). clear.
  induction n as [|n IH] using N.peano_ind; [rewrite Z.add_0_r; lia|].
  replace (a + Z.of_N (N.succ n)) with (a + Z.of_N n + 1) by lia. rewrite civil_next. pose proof (year_next (civil (a + Z.of_N n))). lia.
Qed.
Lemma civil_year n : -719528 <= n < 2932897 -> 0 <= year (civil n) <= 9999.
Proof.
  intros H. pose proof (year_mono (-719528) n ltac:(lia)) as A. pose proof (year_mono n 2932896 ltac:(lia)) as B.
  change (year (civil (-719528))) with 0 in A. change (year (civil 2932896)) with 9999 in B. lia.
Qed.

(** * Texts *)
Lemma app_same_length {A} (a b r s : list A) : List.length a = List.length b -> a ++ r = b ++ s -> a = b /\ r = s.
Proof.
  revert b. induction a as [|x a IH]; intros b L E; destruct b as [|y b]; try discriminate L; [auto|].
  injection E as -> E. destruct (IH b ltac:(cbn in L; lia) E) as [-> ->]. auto.
Qed.
Lemma map_digit_inj a b : map (fun d => (48 + d)%N) a = map (fun d => (48 + d)%N) b -> a = b.
Proof.
  revert b. induction a as [|x a IH]; intros [|y b] E; cbn in E; try discriminate E; [reflexivity|].
  injection E as E1 E2. f_equal; [lia|apply IH, E2].
Qed.
Lemma fixed_len w z s : fixed w z s -> List.length s = w.
Proof. intros (ds & -> & _ & L & _). rewrite map_length. exact L. Qed.
Lemma fixed_inj w z z' s : fixed w z s -> fixed w z' s -> z = z'.
Proof. intros (ds & -> & _ & _ & <-) (ds' & E & _ & _ & <-). apply map_digit_inj in E as <-. reflexivity. Qed.
Lemma fixed_padded w z : (0 < w)%nat -> 0 <= z < 10 ^ Z.of_nat w -> fixed w z (padded w z).
Proof.
  intros W B. destruct (digits_of_spec (Z.to_N z)) as (A & V & _). unfold padded, pad_zeros.
  assert (List.length (digits_of (Z.to_N z)) <= w)%nat as L.
  { apply digits_of_length_le; [exact W|]. assert (Z.of_N (10 ^ N.of_nat w) = 10 ^ Z.of_nat w) by (rewrite N2Z.inj_pow, nat_N_Z; reflexivity). lia. }
  exists (repeat 0%N (w - List.length (digits_of (Z.to_N z))) ++ digits_of (Z.to_N z)).
  rewrite print_N_map, map_length. split; [rewrite map_app, map_digit_repeat; reflexivity|].
  split; [apply Forall_app; split; [apply Forall_forall; intros x H; apply repeat_spec in H as ->; lia|exact A]|].
  split; [rewrite app_length, repeat_length; lia|]. rewrite dec_value_repeat0, V. lia.
Qed.
Lemma date_iso n : -719528 <= n < 2932897 -> iso_date (civil n) (date_text n).
Proof.
  intros H. unfold date_text. pose proof (civil_year n H) as Y. pose proof (civil_parts n) as P. destruct (civil n) as [[y m] d]. cbn [year] in Y.
  exists (padded 4 y), (padded 2 m), (padded 2 d). repeat split; apply fixed_padded; change (10 ^ Z.of_nat 4) with 10000; change (10 ^ Z.of_nat 2) with 100; lia.
Qed.
Lemma clock_iso s : 0 <= s < 86400 -> iso_clock s (clock_text s).
Proof.
  intros H. exists (s / 3600), (s / 60 mod 60), (s mod 60), (padded 2 (s / 3600)), (padded 2 (s / 60 mod 60)), (padded 2 (s mod 60)).
  assert (0 <= s / 3600 < 24) by lia. assert (0 <= s / 60 mod 60 < 60) by (apply Z.mod_pos_bound; lia).
  assert (0 <= s mod 60 < 60) by (apply Z.mod_pos_bound; lia).
  assert (s = 3600 * (s / 3600) + 60 * (s / 60 mod 60) + s mod 60).
  { pose proof (Z.div_mod s 60 ltac:(lia)). pose proof (Z.div_mod (s / 60) 60 ltac:(lia)) as E. rewrite Z.div_div in E by lia. change (60 * 60) with 3600 in E. lia. }
  repeat split; try (apply fixed_padded; change (10 ^ Z.of_nat 2) with 100); lia.
Qed.
Lemma iso_date_inj a b s t r u : iso_date a s -> iso_date b t -> s ++ r = t ++ u -> a = b /\ r = u.
Proof.
  destruct a as [[y m] d], b as [[y' m'] d']. intros (a1 & b1 & c1 & A1 & B1 & C1 & ->) (a2 & b2 & c2 & A2 & B2 & C2 & ->) E.
  pose proof (fixed_len _ _ _ A1). pose proof (fixed_len _ _ _ A2). pose proof (fixed_len _ _ _ B1). pose proof (fixed_len _ _ _ B2).
  pose proof (fixed_len _ _ _ C1). pose proof (fixed_len _ _ _ C2). rewrite <- !app_assoc in E.
  apply app_same_length in E as [<- E]; [|lia]. apply app_same_length in E as [_ E]; [|reflexivity].
  apply app_same_length in E as [<- E]; [|lia]. apply app_same_length in E as [_ E]; [|reflexivity].
  apply app_same_length in E as [<- <-]; [|lia].
  rewrite (fixed_inj _ _ _ _ A1 A2), (fixed_inj _ _ _ _ B1 B2), (fixed_inj _ _ _ _ C1 C2). auto.
Qed.
Lemma iso_clock_inj a b s t r u : iso_clock a s -> iso_clock b t -> s ++ r = t ++ u -> a = b /\ r = u.
Proof.
  intros (h1 & m1 & s1 & a1 & b1 & c1 & A1 & B1 & C1 & -> & -> & _) (h2 & m2 & s2 & a2 & b2 & c2 & A2 & B2 & C2 & -> & -> & _) E.
  pose proof (fixed_len _ _ _ A1). pose proof (fixed_len _ _ _ A2). pose proof (fixed_len _ _ _ B1). pose proof (fixed_len _ _ _ B2).
  pose proof (fixed_len _ _ _ C1). pose proof (fixed_len _ _ _ C2). rewrite <- !app_assoc in E.
  apply app_same_length in E as [<- E]; [|lia]. apply app_same_length in E as [_ E]; [|reflexivity].
  apply app_same_length in E as [<- E]; [|lia]. apply app_same_length in E as [_ E]; [|reflexivity].
  apply app_same_length in E as [<- <-]; [|lia].
  rewrite (fixed_inj _ _ _ _ A1 A2), (fixed_inj _ _ _ _ B1 B2), (fixed_inj _ _ _ _ C1 C2). auto.
Qed.

(** * Texts that end where they end *)
Definition stops (r : bytes) : Prop := match r with [] => True | c :: _ => is_digit c = false end.
Lemma digits_stop a b r s : Forall (fun x => is_digit x = true) a -> Forall (fun x => is_digit x = true) b ->
  stops r -> stops s -> a ++ r = b ++ s -> a = b /\ r = s.
Proof.
  revert b. induction a as [|x a IH]; intros b A B R S E; destruct b as [|y b].
  - auto.
  - cbn in E. subst r. cbn in R. inversion_clear B. congruence.
  - cbn in E. subst s. cbn in S. inversion_clear A. congruence.
  - injection E as -> E. inversion_clear A. inversion_clear B. destruct (IH b) as [-> ->]; auto.
Qed.
Lemma print_N_inj a b : print_N a = print_N b -> a = b.
Proof. intros E. pose proof (digits_value_print a) as A. rewrite E, digits_value_print in A. congruence. Qed.
Lemma print_N_stop a b r s : stops r -> stops s -> print_N a ++ r = print_N b ++ s -> a = b /\ r = s.
Proof.
  intros R S E. apply digits_stop in E as [E ->]; auto using print_N_digits. split; [apply print_N_inj, E|reflexivity].
Qed.
Lemma print_N_head n : exists c x, print_N n = c :: x /\ is_digit c = true.
Proof.
  pose proof (print_N_digits n) as D. pose proof (print_N_nonempty n) as NE. destruct (print_N n) as [|c x]; [congruence|].
  inversion_clear D. eauto.
Qed.
Lemma print_Z_stop a b r s : stops r -> stops s -> print_Z a ++ r = print_Z b ++ s -> a = b /\ r = s.
Proof.
  intros R S E. unfold print_Z in E. destruct (Z.ltb_spec a 0) as [A|A], (Z.ltb_spec b 0) as [B|B]; cbn [app] in E.
  - injection E as E. apply print_N_stop in E as [E ->]; auto. split; [lia|reflexivity].
  - exfalso. destruct (print_N_head (Z.to_N b)) as (c & x & Eq & D). rewrite Eq in E. injection E as <- _. discriminate D.
  - exfalso. destruct (print_N_head (Z.to_N a)) as (c & x & Eq & D). rewrite Eq in E. injection E as -> _. discriminate D.
  - apply print_N_stop in E as [E ->]; auto. split; [lia|reflexivity].
Qed.
Lemma digit_chars ds : digits_ok ds -> Forall (fun x => is_digit x = true) (map (fun d => (48 + d)%N) ds).
Proof. intros H. apply Forall_map. eapply Forall_impl; [|exact H]. intros d D. cbn in D. apply is_digit_iff. lia. Qed.
Lemma expansion_stop a b k m n r s : expansion a m k -> expansion b n k -> a ++ r = b ++ s -> m = n /\ r = s.
Proof.
  intros (g & ip & fp & -> & I1 & F1 & L1 & NE1 & _ & ->) (h & ip' & fp' & -> & I2 & F2 & L2 & NE2 & _ & ->) E.
  unfold decimal_text in E.
  assert (forall x, ip <> [] -> forall q, [45%N] ++ q = map (fun d => (48 + d)%N) ip ++ x -> digits_ok ip -> False) as X1.
  { intros x NE q Q D. destruct ip as [|d ds]; [congruence|]. injection Q as Q _. inversion_clear D. lia. }
  assert (forall x, ip' <> [] -> forall q, [45%N] ++ q = map (fun d => (48 + d)%N) ip' ++ x -> digits_ok ip' -> False) as X2.
  { intros x NE q Q D. destruct ip' as [|d ds]; [congruence|]. injection Q as Q _. inversion_clear D. lia. }
  rewrite <- !app_assoc in E.
  destruct g, h; cbn [app] in E.
  - injection E as E. apply (digits_stop _ _ (46%N :: _) (46%N :: _)) in E as [E1 E]; [|apply digit_chars; assumption|apply digit_chars; assumption|reflexivity|reflexivity].
    injection E as E. apply app_same_length in E as [E2 ->]; [|rewrite !map_length; lia]. apply map_digit_inj in E1 as ->. apply map_digit_inj in E2 as ->. auto.
  - exfalso. exact (X2 _ NE2 _ E I2).
  - exfalso. symmetry in E. exact (X1 _ NE1 _ E I1).
  - apply (digits_stop _ _ (46%N :: _) (46%N :: _)) in E as [E1 E]; [|apply digit_chars; assumption|apply digit_chars; assumption|reflexivity|reflexivity].
    injection E as E. apply app_same_length in E as [E2 ->]; [|rewrite !map_length; lia]. apply map_digit_inj in E1 as ->. apply map_digit_inj in E2 as ->. auto.
Qed.
Lemma byte_stop_list (l m : bytes) r s : List.length l = List.length m -> stops r -> stops s ->
  concat_sep (str ".") (map print_N l) ++ r = concat_sep (str ".") (map print_N m) ++ s -> l = m /\ r = s.
Proof.
  revert m. induction l as [|a l IH]; intros m L R S E; destruct m as [|b m]; try discriminate L; [auto|].
  destruct l as [|a' l], m as [|b' m]; try discriminate L.
  - cbn in E. apply print_N_stop in E as [-> ->]; auto.
  - cbn [map concat_sep] in E. rewrite <- !app_assoc in E. apply print_N_stop in E as [-> E]; [|reflexivity|reflexivity].
    apply app_same_length in E as [_ E]; [|reflexivity]. destruct (IH (b' :: m) ltac:(cbn in *; lia) R S E) as [-> ->]. auto.
Qed.
Lemma hex_len b : List.length (hex b) = (2 * List.length b)%nat.
Proof. induction b as [|x b IH]; [reflexivity|]. cbn [hex flat_map app List.length]. fold (hex b). rewrite IH. lia. Qed.
Lemma hex_digit_inj a b : (a < 16 -> b < 16 -> hex_digit a = hex_digit b -> a = b)%N.
Proof. unfold hex_digit. intros A B. destruct (N.ltb_spec a 10), (N.ltb_spec b 10); lia. Qed.
Lemma hex_inj a b : Forall (fun x => x < 256)%N a -> Forall (fun x => x < 256)%N b -> hex a = hex b -> a = b.
Proof.
  revert b. induction a as [|x a IH]; intros b A B E; destruct b as [|y b]; try discriminate E; [reflexivity|].
  cbn [hex flat_map app] in E. injection E as E1 E2 E3. inversion_clear A as [|? ? X A']. inversion_clear B as [|? ? Y B'].
  f_equal; [|apply IH; assumption]. apply hex_digit_inj in E1; [|apply N.div_lt_upper_bound; lia|apply N.div_lt_upper_bound; lia].
  apply hex_digit_inj in E2; [|apply N.mod_lt; lia|apply N.mod_lt; lia].
  rewrite (N.div_mod x 16), (N.div_mod y 16), E1, E2 by lia. reflexivity.
Qed.
Lemma uuid_len b : List.length b = 16%nat -> List.length (uuid_text b) = 36%nat.
Proof.
  intros L. unfold uuid_text. set (u := rev (firstn 8 b) ++ rev (skipn 8 b)).
  assert (List.length u = 16%nat) as U by (subst u; rewrite app_length, !rev_length, firstn_length, skipn_length; lia).
  cbn [concat_sep]. rewrite !app_length, !hex_len, !firstn_length, !skipn_length, U. reflexivity.
Qed.
Lemma uuid_inj a b : List.length a = 16%nat -> List.length b = 16%nat -> Forall (fun x => x < 256)%N a -> Forall (fun x => x < 256)%N b ->
  uuid_text a = uuid_text b -> a = b.
Proof.
  intros LA LB A B E. unfold uuid_text in E.
  set (u := rev (firstn 8 a) ++ rev (skipn 8 a)) in *. set (v := rev (firstn 8 b) ++ rev (skipn 8 b)) in *.
  assert (List.length u = 16%nat) as U by (subst u; rewrite app_length, !rev_length, firstn_length, skipn_length; lia).
  assert (List.length v = 16%nat) as V by (subst v; rewrite app_length, !rev_length, firstn_length, skipn_length; lia).
  assert (Forall (fun x => x < 256)%N u) as FU.
  { apply Forall_app. split; apply Forall_rev; rewrite <- (firstn_skipn 8 a) in A; apply Forall_app in A; tauto. }
  assert (Forall (fun x => x < 256)%N v) as FV.
  { apply Forall_app. split; apply Forall_rev; rewrite <- (firstn_skipn 8 b) in B; apply Forall_app in B; tauto. }
  assert (u = v) as W.
  { clearbody u v. cbn [concat_sep] in E.
    assert (forall n l, Forall (fun x => x < 256)%N l -> Forall (fun x => x < 256)%N (firstn n l)) as Fn by (intros n l F; rewrite <- (firstn_skipn n l) in F; apply Forall_app in F; tauto).
    assert (forall n l, Forall (fun x => x < 256)%N l -> Forall (fun x => x < 256)%N (skipn n l)) as Sn by (intros n l F; rewrite <- (firstn_skipn n l) in F; apply Forall_app in F; tauto).
    apply app_same_length in E as [E1 E]; [|rewrite !hex_len, !firstn_length; lia]. apply app_same_length in E as [_ E]; [|reflexivity].
    apply app_same_length in E as [E2 E]; [|rewrite !hex_len, !firstn_length, !skipn_length; lia]. apply app_same_length in E as [_ E]; [|reflexivity].
    apply app_same_length in E as [E3 E]; [|rewrite !hex_len, !firstn_length, !skipn_length; lia]. apply app_same_length in E as [_ E]; [|reflexivity].
    apply app_same_length in E as [E4 E]; [|rewrite !hex_len, !firstn_length, !skipn_length; lia]. apply app_same_length in E as [_ E]; [|reflexivity].
    apply hex_inj in E; auto. apply hex_inj in E1; auto. apply hex_inj in E2; auto. apply hex_inj in E3; auto. apply hex_inj in E4; auto.
    do 17 (destruct u as [|? u]; try discriminate U). do 17 (destruct v as [|? v]; try discriminate V). cbn in E, E1, E2, E3, E4. congruence. }
  unfold u, v in W. apply app_same_length in W as [W1 W2]; [|rewrite !rev_length, !firstn_length; lia].
  rewrite <- (firstn_skipn 8 a), <- (firstn_skipn 8 b). f_equal; [rewrite <- (rev_involutive (firstn 8 a)), W1|rewrite <- (rev_involutive (skipn 8 a)), W2]; apply rev_involutive.
Qed.
