(** C30, C40, C45, C51 and C52, exactly: what happens to the names, dates, times and decimals of which those do not hold. *)
From Coq Require Import String Lia.
From Verif Require Import Base Bytes Utf8 Reader Wire Types Text Decimal DateTime Values Columns Block Casts Compress Packets Client
  SpecNum SpecWire SpecClient Utf8Proofs WireProofs PropClient.
Open Scope list_scope.

Lemma unsigned_exact k z : (0 < k)%nat -> (0 <= Z.of_N (to_unsigned k z) < 2 ^ (8 * Z.of_nat k))%Z /\ exists m, (z = Z.of_N (to_unsigned k z) + m * 2 ^ (8 * Z.of_nat k))%Z.
Proof.
  intros K. unfold to_unsigned. set (m := (2 ^ (8 * Z.of_nat k))%Z).
  assert (0 < m)%Z by (apply Z.pow_pos_nonneg; lia). pose proof (Z.mod_pos_bound z m H). rewrite Z2N.id by lia. split; [lia|].
  exists (z / m)%Z. pose proof (Z.div_mod z m). lia.
Qed.

(** C40. Whatever the date, given as days since 1970: the cell holds the one day of the range that differs from it by a multiple of 65536
    days. So every date outside the range becomes another one. *)
Theorem c40_exact l tz days : exists c d, push (CDate l tz) (value_of_date days) = Ok c /\
  (do v <- at_ c (length l); value_date v) = Ok d /\
  (0 <= d <= 65535 /\ exists m, days = d + m * 65536)%Z.
Proof.
  destruct (unsigned_exact 2 days ltac:(lia)) as [B M]. change (2 ^ (8 * Z.of_nat 2))%Z with 65536%Z in *.
  assert (E : get_days (Z.of_N (get_days days)) = get_days days).
  { unfold get_days. destruct (unsigned_exact 2 (Z.of_N (to_unsigned 2 days)) ltac:(lia)) as [B2 (m & M2)].
    change (2 ^ (8 * Z.of_nat 2))%Z with 65536%Z in *. nia. }
  exists (CDate (l ++ [get_days days]) tz), (Z.of_N (get_days days)). split; [unfold value_of_date; cbn; rewrite E; reflexivity|].
  split; [|split; [unfold get_days; lia|exact M]].
  cbn [at_]. unfold index. rewrite nth_error_app2, Nat.sub_diag by lia. reflexivity.
Qed.
Print Assumptions c40_exact.

(** C52. Whatever the time: its second, up to a multiple of 2^32; fractions of seconds and the zone are dropped. *)
Theorem c52_exact l tz s n z : exists c t, push (CDateTime l tz) (VChrono s n z) = Ok c /\
  (do v <- at_ c (length l); value_datetime v) = Ok (t, 0%N, tz) /\
  (0 <= t < 2 ^ 32 /\ exists m, s = t + m * 2 ^ 32)%Z.
Proof.
  destruct (unsigned_exact 4 s ltac:(lia)) as [B M].
  exists (CDateTime (l ++ [as_u32 s]) tz), (Z.of_N (as_u32 s)). split; [reflexivity|]. split; [|split; [exact B|exact M]].
  cbn [at_]. unfold index. rewrite nth_error_app2, Nat.sub_diag by lia. reflexivity.
Qed.
Print Assumptions c52_exact.

(** C45. Whatever the decimal: the cell has the column's scale, precision and width, and the decimal's whole number as it is (64 bits), or up
    to a multiple of 2^32 (32 bits); the decimal's own scale makes no difference. *)
Theorem c45_store_exact l p s nb d : is_i64 (d_underlying d) ->
  exists c v, push (CDecimal l p s nb) (VDecimal d) = Ok c /\
    at_ c (length l) = Ok (VDecimal (mk_decimal v nb p s)) /\
    (nb = N64 -> v = d_underlying d) /\
    (nb = N32 -> - 2 ^ 31 <= v < 2 ^ 31 /\ exists m, d_underlying d = v + m * 2 ^ 32)%Z.
Proof.
  intros _. eexists (CDecimal (l ++ [internal nb d]) p s nb), (internal nb d). split; [reflexivity|].
  split; [cbn [at_]; unfold index; rewrite nth_error_app2, Nat.sub_diag by lia; reflexivity|].
  split; intros ->; [reflexivity|]. cbn [internal]. unfold as_i32.
  destruct (unsigned_exact 4 (d_underlying d) ltac:(lia)) as [B (m & M)]. 
  pose proof (to_signed_range 4 (to_unsigned 4 (d_underlying d)) ltac:(lia)) as R. split; [exact R|].
  unfold to_signed. change (2 ^ (8 * Z.of_nat 4))%Z with (2 ^ 32)%Z in *. rewrite (Z.mod_small (Z.of_N _)) by exact B.
  destruct (_ <? _)%Z; [exists m; exact M|]. exists (m + 1)%Z. rewrite M at 1. lia.
Qed.
Print Assumptions c45_store_exact.

(** C51. Two decimals that a caller makes feed a hasher the same data just if they have the same whole number and the same scale. So of two
    that are equal and have different scales, each is a key of its own. *)
Theorem c51_exact u v s t a b : decimal_new u s = Ok a -> decimal_new v t = Ok b ->
  (decimal_hash_input a = decimal_hash_input b <-> u = v /\ s = t).
Proof.
  unfold decimal_new. intros A B. destruct (18 <? s)%N; [discriminate|]. destruct (18 <? t)%N; [discriminate|].
  injection A as <-. injection B as <-. unfold decimal_hash_input. cbn. split; [intros E; injection E as -> ->; auto|intros [-> ->]; reflexivity].
Qed.
Print Assumptions c51_exact.

(** C30. Which characters are numeric: the digits, the superscripts and fractions of Latin-1, and those beyond it that Unicode calls so. *)
Section Names.
Variable numeric_beyond : bytes -> bool.
Definition numeric (c : N) : Prop :=
  (48 <= c <= 57)%N \/ In c [178; 179; 185; 188; 189; 190]%N \/ (256 <= c)%N /\ numeric_beyond (utf8_encode c) = true.
Definition numeric_name (s : bytes) : Prop :=
  exists cs, Forall unicode_scalar cs /\ s = concat (map utf8_encode cs) /\ Forall numeric cs.

Lemma beyond_numeric b b2 l : (196 <= b < 256)%N -> char_numeric numeric_beyond (b :: b2 :: l) = numeric_beyond (b :: b2 :: l).
Proof.
  intros H. unfold char_numeric. destruct b as [|q]; [lia|].
  repeat (destruct q as [q|q|]; try reflexivity; try (exfalso; lia)).
Qed.
Definition latin_numeric (c : N) : bool :=
  (((48 <=? c) && (c <=? 57)) || existsb (N.eqb c) [178; 179; 185; 188; 189; 190])%N.
Lemma latin_check : forallb (fun k => let c := N.of_nat k in
  Bool.eqb (char_numeric numeric_beyond (utf8_encode c)) (latin_numeric c)) (seq 0 256) = true.
Proof. vm_compute. reflexivity. Qed.
Lemma numeric_spec c : unicode_scalar c -> char_numeric numeric_beyond (utf8_encode c) = true <-> numeric c.
Proof.
  intros [H _]. unfold numeric. destruct (N.lt_ge_cases c 256) as [L|G].
  - pose proof latin_check as K. rewrite forallb_forall in K. specialize (K (N.to_nat c)). rewrite N2Nat.id in K. cbv zeta in K.
    rewrite Bool.eqb_true_iff in K. rewrite K by (apply in_seq; lia). unfold latin_numeric.
    rewrite Bool.orb_true_iff, Bool.andb_true_iff, !N.leb_le, existsb_exists. split.
    + intros [X|(x & I & E)]; [left; exact X|]. apply N.eqb_eq in E. subst. right. left. exact I.
    + intros [X|[I|[X _]]]; [left; exact X| |lia]. right. exists c. split; [exact I|apply N.eqb_refl].
  - assert (E : char_numeric numeric_beyond (utf8_encode c) = numeric_beyond (utf8_encode c)).
    { unfold utf8_encode. rewrite (proj2 (N.ltb_ge c 128)) by lia. destruct (N.ltb_spec c 2048) as [A|A].
      { apply beyond_numeric. assert (4 <= c / 64)%N by (apply N.div_le_lower_bound; lia). assert (c / 64 < 32)%N by (apply N.div_lt_upper_bound; lia). lia. }
      destruct (N.ltb_spec c 65536) as [B|B].
      { apply beyond_numeric. assert (c / 4096 < 16)%N by (apply N.div_lt_upper_bound; lia). lia. }
      apply beyond_numeric. assert (c / 262144 < 16)%N by (apply N.div_lt_upper_bound; lia). lia. }
    rewrite E. split; [auto|]. intros [X|[X|[_ X]]]; [lia| |exact X]. cbn in X. lia.
Qed.
Lemma numeric_all cs : Forall unicode_scalar cs -> forall n, (length (concat (map utf8_encode cs)) <= n)%nat ->
  all_numeric numeric_beyond n (concat (map utf8_encode cs)) = true <-> Forall numeric cs.
Proof.
  induction 1 as [|c cs Hc F IH]; intros n Hn; [destruct n; split; constructor|].
  cbn [map concat] in *. rewrite app_length in Hn. pose proof (encode_length c) as L. destruct n as [|n]; [lia|]. cbn [all_numeric].
  destruct (utf8_encode c ++ concat (map utf8_encode cs)) as [|b l] eqn:E.
  { destruct (utf8_encode c); [cbn in L; lia|discriminate E]. }
  rewrite <- E. rewrite (first_char_encode numeric_beyond c _ Hc). rewrite Bool.andb_true_iff, (numeric_spec c Hc), (IH n) by lia.
  split; [intros [X Y]; constructor; assumption|intros X; inversion_clear X; auto].
Qed.

(** C30. A name is bare just if all its characters are numeric (so the empty name is), in backticks otherwise; and just the names with a backtick
    are refused. *)
Theorem c30_exact table b : Forall (fun x => is_utf8 (fst x)) (b_cols b) ->
  (make_query numeric_beyond table b = Err EOther <-> Exists (fun x => In 96%N (fst x)) (b_cols b)) /\
  (forall q, make_query numeric_beyond table b = Ok q -> exists pieces,
     Forall2 (fun x p => numeric_name (fst x) /\ p = fst x \/ ~ numeric_name (fst x) /\ p = str "`" ++ fst x ++ str "`") (b_cols b) pieces /\
     q_sql q = str "INSERT INTO " ++ q_sql table ++ str " (" ++ concat_sep (str ", ") pieces ++ str ") VALUES") /\
  (forall p, make_query numeric_beyond table b <> Panic p).
Proof.
  intros U. destruct (c30_names_partial numeric_beyond table b U) as [A B].
  assert (D : Forall (fun x => ~ In 96%N (fst x)) (b_cols b) \/ Exists (fun x => In 96%N (fst x)) (b_cols b)).
  { destruct (Exists_dec (fun x => In 96%N (fst x)) (b_cols b)) as [X|X]; [intros x; apply in_dec, N.eq_dec|right; exact X|left; apply Forall_Exists_neg; exact X]. }
  assert (one : forall s p, is_utf8 s -> column_name_to_string numeric_beyond s = Ok p ->
    numeric_name s /\ p = s \/ ~ numeric_name s /\ p = str "`" ++ s ++ str "`").
  { intros s p (cs & F & ->). unfold column_name_to_string. pose proof (numeric_all cs F _ (le_n _)) as N.
    destruct (all_numeric _ _ _) eqn:Q.
    - intros E. injection E as <-. left. split; [|reflexivity]. exists cs. repeat split; auto. apply N. reflexivity.
    - destruct (existsb _ _); [discriminate|]. intros E. injection E as <-. right. split; [|reflexivity].
      intros (cs' & F' & E & N'). pose proof (numeric_all cs' F' (length (concat (map utf8_encode cs))) ltac:(rewrite E; lia)) as M.
      rewrite <- E in M. rewrite (proj2 M N') in Q. discriminate. }
  split; [|split].
  - split; [|exact B]. intros E. destruct D as [D|D]; [|exact D]. destruct (A D) as (ps & _ & E'). rewrite E' in E. discriminate.
  - intros q E. unfold make_query in E. match type of E with context [mapM ?f ?l] => destruct (mapM f l) as [ps| |] eqn:M end; cbn [rbind] in E; try discriminate.
    injection E as <-. exists ps. split; [|reflexivity]. clear A B D. revert ps M. induction U as [|x xs Hx U IH]; intros ps M.
    + injection M as <-. constructor.
    + cbn [mapM] in M. destruct (column_name_to_string numeric_beyond (fst x)) as [p| |] eqn:P; cbn [rbind] in M; try discriminate.
      match type of M with context [mapM ?f ?l] => destruct (mapM f l) as [ps'| |] eqn:M' end; cbn [rbind] in M; try discriminate. injection M as <-. constructor; [apply one; assumption|apply IH; reflexivity].
  - intros p E. destruct D as [D|D]; [destruct (A D) as (ps & _ & E')|rewrite (B D) in E; discriminate]. rewrite E' in E. discriminate.
Qed.
End Names.
Print Assumptions c30_exact.

Example c30_exact_case :
  let b := mk_block info_default [([], CVec U8 []); (str "12", CVec U8 []); ([194; 189]%N, CVec U8 []); (str "a", CVec U8 [])] in
  make_query (fun _ => false) (mk_query (str "t") []) b = Ok (mk_query (str "INSERT INTO t (, 12, " ++ [194; 189]%N ++ str ", `a`) VALUES") []) /\
  numeric_name (fun _ => false) [194; 189]%N /\ ~ numeric_name (fun _ => false) (str "a").
Proof.
  cbv zeta. split; [vm_compute; reflexivity|]. split.
  - exists [189%N]. split; [constructor; [unfold unicode_scalar; lia|constructor]|]. split; [reflexivity|]. constructor; [right; left; cbn; tauto|constructor].
  - intros (cs & F & E & N). pose proof (numeric_all (fun _ => false) cs F 1) as K. rewrite <- E in K.
    apply (proj2 (K (le_n 1))) in N. discriminate N.
Qed.
Example c40_exact_case : exists c, push (CDate [] []) (value_of_date (-719529)) = Ok c /\ (do v <- at_ c 0; value_date v) = Ok 1367%Z.
Proof. exists (CDate [1367%N] []). split; vm_compute; reflexivity. Qed.
Example c45_exact_case : exists c, push (CDecimal [] 9 2 N32) (VDecimal (mk_decimal (2 ^ 31) N64 18 4)) = Ok c /\
  at_ c 0 = Ok (VDecimal (mk_decimal (- 2 ^ 31) N32 9 2)).
Proof. exists (CDecimal [- 2 ^ 31]%Z 9 2 N32). split; vm_compute; reflexivity. Qed.
Example c51_exact_case : exists a b, decimal_new 0 0 = Ok a /\ decimal_new 0 1 = Ok b /\ decimal_eq a b = Ok true /\ decimal_hash_input a <> decimal_hash_input b.
Proof. do 2 eexists. repeat split; try reflexivity. discriminate. Qed.
Example c52_exact_case : exists c, push (CDateTime [] []) (VChrono (2 ^ 33 + 5) 7 (str "UTC")) = Ok c /\ at_ c 0 = Ok (VDateTime 5 []).
Proof. exists (CDateTime [5%N] []). split; vm_compute; reflexivity. Qed.
