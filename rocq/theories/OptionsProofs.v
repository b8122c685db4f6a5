(** Facts about the model of options and URLs. *)
From Coq Require Import String.
From Verif Require Import Base Utf8 Text Types TypeNames Packets Options SpecNum SpecWire SpecOptions.
From Verif Require Import Utf8Proofs TextProofs TypeNamesProofs BlockOpsProofs.
Open Scope list_scope.

(** * Lossy decoding *)

Ltac ranges := unfold second_ok, cont, in_range in *; lia.

Lemma utf8_lossy_valid l : utf8_valid l = true -> utf8_lossy l = l.
Proof.
  remember (length l) as n eqn:En. assert (L : length l <= n) by lia. clear En. revert l L.
  induction n as [|n IH]; intros l L V.
  { destruct l; [reflexivity|cbn in L; lia]. }
  destruct l as [|b0 l1]; [reflexivity|]. cbn [utf8_valid utf8_lossy] in *. cbn [length] in L.
  destruct (b0 <? 128)%N eqn:E0; [f_equal; apply IH; [lia|exact V]|].
  destruct l1 as [|b1 l2]; [discriminate V|]. cbn [length] in L.
  destruct (in_range 194 223 b0) eqn:E1.
  { apply andb_true_iff in V as [-> V]. do 2 f_equal. apply IH; [lia|exact V]. }
  destruct l2 as [|b2 l3]; [discriminate V|]. cbn [length] in L.
  assert (H3 : (b0 <? 240)%N = true -> second_ok b0 b1 = true -> cont b2 = true -> utf8_valid l3 = true -> in_range 224 244 b0 = true ->
    (if in_range 224 244 b0 then if second_ok b0 b1 then if cont b2 then if (b0 <? 240)%N then b0 :: b1 :: b2 :: utf8_lossy l3
      else match l3 with [] => replacement | b3 :: l4 => if cont b3 then b0 :: b1 :: b2 :: b3 :: utf8_lossy l4 else replacement ++ utf8_lossy l3 end
      else replacement ++ utf8_lossy (b2 :: l3) else replacement ++ utf8_lossy (b1 :: b2 :: l3) else replacement ++ utf8_lossy (b1 :: b2 :: l3)) = b0 :: b1 :: b2 :: l3).
  { intros -> -> -> V' ->. do 3 f_equal. apply IH; [lia|exact V']. }
  destruct (b0 =? 224)%N eqn:E2.
  { apply andb_true_iff in V as [V V3]. apply andb_true_iff in V as [V1 V2]. apply H3; try assumption; clear - E2 V1; ranges. }
  destruct (in_range 225 236 b0 || in_range 238 239 b0) eqn:E3.
  { apply andb_true_iff in V as [V V3]. apply andb_true_iff in V as [V1 V2]. apply H3; try assumption; clear - E3 V1; ranges. }
  destruct (b0 =? 237)%N eqn:E4.
  { apply andb_true_iff in V as [V V3]. apply andb_true_iff in V as [V1 V2]. apply H3; try assumption; clear - E4 V1; ranges. }
  destruct l3 as [|b3 l4]; [discriminate V|]. cbn [length] in L. clear H3.
  assert (H4 : (b0 <? 240)%N = false -> second_ok b0 b1 = true -> cont b2 = true -> cont b3 = true -> utf8_valid l4 = true -> in_range 224 244 b0 = true ->
    (if in_range 224 244 b0 then if second_ok b0 b1 then if cont b2 then if (b0 <? 240)%N then b0 :: b1 :: b2 :: utf8_lossy (b3 :: l4)
      else if cont b3 then b0 :: b1 :: b2 :: b3 :: utf8_lossy l4 else replacement ++ utf8_lossy (b3 :: l4)
      else replacement ++ utf8_lossy (b2 :: b3 :: l4) else replacement ++ utf8_lossy (b1 :: b2 :: b3 :: l4) else replacement ++ utf8_lossy (b1 :: b2 :: b3 :: l4)) = b0 :: b1 :: b2 :: b3 :: l4).
  { intros -> -> -> -> V' ->. do 4 f_equal. apply IH; [lia|exact V']. }
  destruct (b0 =? 240)%N eqn:E5; [|destruct (in_range 241 243 b0) eqn:E6; [|destruct (b0 =? 244)%N eqn:E7; [|discriminate V]]];
    apply andb_true_iff in V as [V V4]; apply andb_true_iff in V as [V V3]; apply andb_true_iff in V as [V1 V2];
    apply H4; try assumption; clear H4 IH; ranges.
Qed.

Lemma utf8_valid_replacement l : utf8_valid (replacement ++ l) = utf8_valid l.
Proof. reflexivity. Qed.
Lemma utf8_lossy_text l : utf8_valid (utf8_lossy l) = true.
Proof.
  remember (length l) as n eqn:En. assert (L : length l <= n) by lia. clear En. revert l L.
  induction n as [|n IH]; intros l L.
  { destruct l; [reflexivity|cbn in L; lia]. }
  destruct l as [|b0 l1]; [reflexivity|]. cbn [length] in L. cbn [utf8_lossy].
  destruct (b0 <? 128)%N eqn:E0; [cbn [utf8_valid]; rewrite E0; apply IH; lia|].
  destruct l1 as [|b1 l2]; [reflexivity|]. cbn [length] in L.
  assert (R1 : utf8_valid (replacement ++ utf8_lossy (b1 :: l2)) = true).
  { rewrite utf8_valid_replacement. apply IH. cbn [length]. lia. }
  destruct (in_range 194 223 b0) eqn:E1.
  { destruct (cont b1) eqn:C1; [|exact R1]. cbn [utf8_valid]. rewrite E0, E1, C1. apply IH. lia. }
  destruct (in_range 224 244 b0) eqn:E2; [|exact R1].
  destruct (second_ok b0 b1) eqn:S1; [|exact R1].
  destruct l2 as [|b2 l3]; [reflexivity|]. cbn [length] in L.
  assert (R2 : utf8_valid (replacement ++ utf8_lossy (b2 :: l3)) = true).
  { rewrite utf8_valid_replacement. apply IH. cbn [length]. lia. }
  destruct (cont b2) eqn:C2; [|exact R2].
  destruct (b0 <? 240)%N eqn:E3.
  - cbn [utf8_valid]. rewrite E0, E1, C2, IH by lia.
    destruct (b0 =? 224)%N eqn:E4; [clear IH R1 R2; ranges|].
    destruct (in_range 225 236 b0 || in_range 238 239 b0) eqn:E5; [clear IH R1 R2; ranges|].
    destruct (b0 =? 237)%N eqn:E6; [clear IH R1 R2; ranges|].
    clear IH R1 R2. exfalso. ranges.
  - destruct l3 as [|b3 l4]; [reflexivity|]. cbn [length] in L.
    destruct (cont b3) eqn:C3; [|rewrite utf8_valid_replacement; apply IH; cbn [length]; lia].
    cbn [utf8_valid]. rewrite E0, E1, C2, C3, IH by lia.
    destruct (b0 =? 224)%N eqn:E4; [clear IH R1 R2; exfalso; ranges|].
    destruct (in_range 225 236 b0 || in_range 238 239 b0) eqn:E5; [clear IH R1 R2; exfalso; ranges|].
    destruct (b0 =? 237)%N eqn:E6; [clear IH R1 R2; exfalso; ranges|].
    destruct (b0 =? 240)%N eqn:E7; [clear IH R1 R2; ranges|].
    destruct (in_range 241 243 b0) eqn:E8; [clear IH R1 R2; ranges|].
    destruct (b0 =? 244)%N eqn:E9; [clear IH R1 R2; ranges|].
    clear IH R1 R2. exfalso. ranges.
Qed.

(** * Percent decoding *)

Lemma not_37 {A} (b : N) (x y : A) : b <> 37%N -> match b with 37%N => x | _ => y end = y.
Proof.
  intros H. destruct b as [|p]; [reflexivity|].
  repeat (destruct p as [p|p|]; try reflexivity; try congruence).
Qed.
Lemma percent_decode_raw b s : b <> 37%N -> percent_decode (b :: s) = b :: percent_decode s.
Proof.
  intros H. destruct b as [|p]; [reflexivity|].
  do 6 (destruct p as [p|p|]; try reflexivity; try congruence).
Qed.
Lemma percent_decode_none s : ~ In 37%N s -> percent_decode s = s.
Proof.
  induction s as [|b s IH]; [reflexivity|]. intros H. rewrite percent_decode_raw by (intros ->; apply H; left; reflexivity).
  f_equal. apply IH. intros I. apply H. right. exact I.
Qed.
Lemma hex_digit_of d b : hex d b -> hex_digit b = Some d.
Proof.
  unfold hex, hex_digit, is_digit. intros H.
  destruct ((48 <=? b)%N && (b <=? 57)%N) eqn:E1; [f_equal; lia|].
  destruct ((97 <=? b)%N && (b <=? 102)%N) eqn:E2; [f_equal; lia|].
  destruct ((65 <=? b)%N && (b <=? 70)%N) eqn:E3; [f_equal; lia|]. exfalso. lia.
Qed.
Lemma percent_decoded raw e s : percent raw e s -> percent_decode e = s.
Proof.
  induction 1 as [|b e s R NP H IH|h l x y e s X Y H IH]; [reflexivity|rewrite percent_decode_raw by exact NP; congruence|].
  cbn [percent_decode]. rewrite (hex_digit_of _ _ X), (hex_digit_of _ _ Y). congruence.
Qed.
Lemma form_percent raw e s : form raw e s -> percent (fun _ => True) (map plus_space e) s.
Proof.
  assert (P : forall b, b <> 43%N -> plus_space b = b).
  { intros b H. unfold plus_space. destruct (N.eqb_spec b 43); congruence. }
  assert (X : forall d b, hex d b -> b <> 43%N) by (intros d b; unfold hex; lia).
  induction 1 as [|b e s R N1 N2 N3 H IH|e s H IH|h l x y e s HX HY H IH]; cbn [map].
  - constructor.
  - rewrite P by exact N2. constructor; auto.
  - constructor; [exact I|discriminate|exact IH].
  - rewrite (P h), (P l) by eauto. apply percent_hex; assumption.
Qed.
Lemma form_decoded raw e s : form raw e s -> is_utf8 s -> form_decode e = s.
Proof.
  intros H U. unfold form_decode. rewrite (percent_decoded _ _ _ (form_percent _ _ _ H)).
  apply utf8_lossy_valid, utf8_valid_spec, U.
Qed.
Lemma form_no_amp raw e s : form raw e s -> ~ In 38%N e.
Proof.
  assert (X : forall d b, hex d b -> b <> 38%N) by (intros d b; unfold hex; lia).
  induction 1 as [|b e s R N1 N2 N3 H IH|e s H IH|h l x y e s HX HY H IH]; cbn [In]; [tauto|intuition congruence|intuition congruence|].
  apply X in HX, HY. intuition congruence.
Qed.
Lemma form_raw_bytes c raw e s : ~ raw c -> c <> 37%N -> c <> 43%N -> (forall d, ~ hex d c) -> form raw e s -> ~ In c e.
Proof.
  intros NR N1 N2 NH. induction 1 as [|b e s R M1 M2 M3 H IH|e s H IH|h l x y e s HX HY H IH]; cbn [In]; [tauto| | |].
  - intros [->|I]; tauto.
  - intros [E|I]; [congruence|tauto].
  - intros [E|[->|[->|I]]]; [congruence| | |tauto]; [exact (NH _ HX)|exact (NH _ HY)].
Qed.

Lemma split_first_app b x y : ~ In b x -> split_first b (x ++ b :: y) = (x, Some y).
Proof.
  induction x as [|a x IH]; intros H; cbn [app split_first].
  - rewrite N.eqb_refl. reflexivity.
  - destruct (N.eqb_spec a b); [exfalso; apply H; left; exact e|]. rewrite IH; [reflexivity|]. intros I. apply H. right. exact I.
Qed.
Lemma form_pair_text e p : pair_text e p -> is_utf8 (fst p) -> is_utf8 (snd p) -> form_pair e = p.
Proof.
  intros (k & v & -> & K & V) U1 U2. unfold form_pair. rewrite split_first_app.
  - rewrite (form_decoded _ _ _ K U1), (form_decoded _ _ _ V U2). destruct p. reflexivity.
  - apply (form_raw_bytes 61%N _ _ _) with (5 := K); try discriminate; [intros H; apply H; reflexivity|]. intros d. unfold hex. lia.
Qed.
Lemma pair_text_ok e p : pair_text e p -> e <> [] /\ ~ In 38%N e.
Proof.
  intros (k & v & -> & K & V). split; [destruct k; discriminate|]. rewrite in_app_iff. cbn [In].
  apply form_no_amp in K, V. intuition congruence.
Qed.
Lemma split_concat b l : l <> [] -> Forall (fun x => ~ In b x) l -> split_on b (concat_sep [b] l) = l.
Proof.
  induction l as [|x l IH]; [congruence|]. intros _ F. apply Forall_cons_iff in F as [Hx F]. destruct l as [|y l].
  - apply split_on_none, Hx.
  - cbn [concat_sep]. cbn [app]. rewrite split_on_app by exact Hx. f_equal. apply IH; [discriminate|exact F].
Qed.
Lemma query_pairs_text q l : query_text q l -> Forall (fun p => is_utf8 (fst p) /\ is_utf8 (snd p)) l -> form_pairs q = l.
Proof.
  intros (es & F & ->) U. unfold form_pairs. destruct es as [|e es].
  { inversion F; subst. reflexivity. }
  assert (A : Forall (fun e => e <> [] /\ ~ In 38%N e) (e :: es)).
  { clear U. induction F; constructor; eauto using pair_text_ok. }
  rewrite split_concat; [|discriminate|eapply Forall_impl; [|exact A]; cbn; tauto].
  replace (filter _ (e :: es)) with (e :: es).
  - clear A. induction F as [|x y xs ys P F IH]; [reflexivity|]. apply Forall_cons_iff in U as [[U1 U2] U]. cbn [map].
    rewrite (form_pair_text _ _ P U1 U2), IH by exact U. reflexivity.
  - clear - A. induction A as [|x l [H _] A IH]; [reflexivity|]. cbn [filter]. destruct x; [congruence|]. rewrite <- IH. reflexivity.
Qed.
Lemma form_pairs_utf8 q p : In p (form_pairs q) -> is_utf8 (fst p) /\ is_utf8 (snd p).
Proof.
  unfold form_pairs. intros H. apply in_map_iff in H as (x & <- & _). unfold form_pair.
  destruct (split_first 61 x) as [k v]. cbn [fst snd]. unfold form_decode. split; apply utf8_valid_spec, utf8_lossy_text.
Qed.

(** * Parsers *)

Lemma numeral_iff s n : numeral s n <-> s <> [] /\ digits_value 0 s = Some n /\ (n < 2 ^ 64)%N.
Proof.
  split.
  - intros (ds & -> & NE & D & V & L). split; [destruct ds; [congruence|discriminate]|]. split; [|exact L].
    rewrite digits_value_map by exact D. rewrite V. f_equal. lia.
  - intros (NE & V & L).
    assert (G : forall s acc m, digits_value acc s = Some m -> exists ds, s = map (fun d => (48 + d)%N) ds /\ digits_ok ds).
    { clear. induction s as [|b s IH]; intros acc m H; [exists []; split; [reflexivity|constructor]|]. cbn [digits_value] in H.
      destruct (is_digit b) eqn:E; [|discriminate H]. destruct (IH _ _ H) as (ds & -> & D). apply is_digit_iff in E.
      exists ((b - 48)%N :: ds). split; [cbn [map]; f_equal; lia|constructor; [lia|exact D]]. }
    destruct (G _ _ _ V) as (ds & -> & D). exists ds. repeat split; auto; [destruct ds; [cbn in NE; congruence|discriminate]|].
    rewrite digits_value_map in V by exact D. injection V as V.
    pose proof (dec_value_bounds ds D) as [P _]. lia.
Qed.
Lemma parse_usize_iff s n : parse_usize s = Some n <-> says_number s n.
Proof.
  unfold parse_usize, parse_uint, says_number.
  assert (B : forall t, match t with [] => None | _ => match digits_value 0 t with Some v => if (v <=? 2 ^ 64 - 1)%N then Some v else None | None => None end end
    = Some n <-> numeral t n).
  { intros t. rewrite numeral_iff. destruct t as [|b t]; [split; [discriminate|intros [H _]; congruence]|].
    destruct (digits_value 0 (b :: t)) as [v|]; [|split; [discriminate|intros (_ & H & _); discriminate H]].
    destruct (N.leb_spec v (2 ^ 64 - 1)).
    - split; [intros E; injection E as ->; split; [discriminate|split; [reflexivity|lia]]|intros (_ & E & _); congruence].
    - split; [discriminate|]. intros (_ & E & L). injection E as ->. lia. }
  assert (P : forall t, ~ numeral (43%N :: t) n).
  { intros t H. apply numeral_iff in H as (_ & H & _). discriminate H. }
  destruct s as [|b s].
  - etransitivity; [exact (B [])|]. split; [auto|]. intros [H|(t & H & _)]; [exact H|discriminate H].
  - destruct (N.eq_dec b 43) as [->|NB].
    + etransitivity; [exact (B s)|]. split; [eauto|]. intros [H|(t & H & T)]; [contradiction (P _ H)|]. injection H as ->. exact T.
    + assert (E : match b return bytes with 43%N => s | _ => b :: s end = b :: s).
      { destruct b as [|p]; [reflexivity|]. do 6 (destruct p as [p|p|]; try reflexivity; try congruence). }
      cbv zeta. rewrite E. etransitivity; [exact (B (b :: s))|]. split; [auto|]. intros [H|(t & H & _)]; [exact H|congruence].
Qed.
Lemma bytes_eqb_iff a b : bytes_eqb a b = true <-> a = b.
Proof. unfold bytes_eqb. destruct (bytes_eq_dec a b); split; congruence. Qed.
Lemma bytes_eqb_no a b : bytes_eqb a b = false <-> a <> b.
Proof. unfold bytes_eqb. destruct (bytes_eq_dec a b); split; congruence. Qed.

Lemma numeral_pdigits d n r : numeral d n -> is_digit (hd 0%N r) = false -> pdigits (d ++ r) = (d, r).
Proof.
  intros (ds & -> & _ & D & _) H. apply pdigits_app; [|exact H]. apply Forall_forall. intros x I.
  apply in_map_iff in I as (y & <- & I). unfold digits_ok in D. rewrite Forall_forall in D. apply is_digit_iff. specialize (D y I). lia.
Qed.
Lemma pdigits_split s : s = fst (pdigits s) ++ snd (pdigits s).
Proof.
  induction s as [|b s IH]; [reflexivity|]. cbn [pdigits]. destruct (is_digit b); [|reflexivity].
  destruct (pdigits s) as [d r]. cbn [fst snd app] in *. congruence.
Qed.
Lemma pdigits_digits s : Forall (fun b => is_digit b = true) (fst (pdigits s)).
Proof.
  induction s as [|b s IH]; [constructor|]. cbn [pdigits]. destruct (is_digit b) eqn:E; [|constructor].
  destruct (pdigits s) as [d r]. constructor; auto.
Qed.
Lemma parse_duration_iff s t : parse_duration s = Some t <-> says_time s t.
Proof.
  unfold parse_duration, says_time, from_secs, from_millis. split.
  - pose proof (pdigits_split s) as E. pose proof (pdigits_digits s) as D. destruct (pdigits s) as [d r]. cbn [fst snd] in E, D.
    destruct (parse_uint (2 ^ 64 - 1) d) as [n|] eqn:P; [|discriminate].
    apply (parse_usize_iff d n) in P. assert (M : numeral d n).
    { destruct P as [P|(u & -> & _)]; [exact P|]. inversion D; subst. discriminate. }
    destruct (bytes_eqb r (str "s")) eqn:R1; [apply bytes_eqb_iff in R1; intros H; injection H as <-; exists d, n; split; [exact M|left; split; [congruence|reflexivity]]|].
    destruct (bytes_eqb r (str "ms")) eqn:R2; [apply bytes_eqb_iff in R2; intros H; injection H as <-; exists d, n; split; [exact M|right; split; [congruence|reflexivity]]|discriminate].
  - intros (d & n & M & H). assert (P : parse_uint (2 ^ 64 - 1) d = Some n) by (apply (parse_usize_iff d n); left; exact M).
    destruct H as [[-> ->]|[-> ->]]; rewrite (numeral_pdigits d n) by (exact M || reflexivity); rewrite P; reflexivity.
Qed.
Lemma parse_opt_duration_iff s t : parse_opt_duration s = Some t <-> says_time_or_none s t.
Proof.
  unfold parse_opt_duration, says_time_or_none. destruct (bytes_eqb s (str "none")) eqn:E.
  - apply bytes_eqb_iff in E. subst s. destruct t as [t|]; [|tauto]. split; [discriminate|].
    intros H. apply parse_duration_iff in H. vm_compute in H. discriminate H.
  - apply bytes_eqb_no in E. destruct t as [t|].
    + rewrite <- parse_duration_iff. destruct (parse_duration s); split; congruence.
    + split; [destruct (parse_duration s); discriminate|contradiction].
Qed.
Lemma parse_bool_iff s b : parse_bool s = Some b <-> says_flag s b.
Proof.
  unfold parse_bool, says_flag. destruct (bytes_eqb s (str "true")) eqn:E1; [apply bytes_eqb_iff in E1; subst s|apply bytes_eqb_no in E1].
  { destruct b; split; try reflexivity; intros H; vm_compute in H; discriminate H. }
  destruct (bytes_eqb s (str "false")) eqn:E2; [apply bytes_eqb_iff in E2; subst s|apply bytes_eqb_no in E2].
  { destruct b; split; try reflexivity; intros H; vm_compute in H; discriminate H. }
  destruct b; split; congruence.
Qed.
Lemma parse_compression_iff s b : parse_compression s = Some b <-> says_codec s b.
Proof.
  unfold parse_compression, says_codec. destruct (bytes_eqb s (str "none")) eqn:E1; [apply bytes_eqb_iff in E1; subst s|apply bytes_eqb_no in E1].
  { destruct b; split; try reflexivity; intros H; vm_compute in H; discriminate H. }
  destruct (bytes_eqb s (str "lz4")) eqn:E2; [apply bytes_eqb_iff in E2; subst s|apply bytes_eqb_no in E2].
  { destruct b; split; try reflexivity; intros H; vm_compute in H; discriminate H. }
  destruct b; split; congruence.
Qed.
Lemma split_on_parts b s : split_on b s <> [] /\ s = concat_sep [b] (split_on b s) /\ Forall (fun x => ~ In b x) (split_on b s).
Proof.
  induction s as [|c s (NE & E & F)].
  { split; [discriminate|split; [reflexivity|repeat constructor; intros []]]. }
  cbn [split_on]. destruct (N.eqb_spec c b) as [->|NB].
  - split; [discriminate|]. split; [|constructor; [intros []|exact F]].
    destruct (split_on b s) as [|w ws]; [congruence|]. cbn [concat_sep app] in *. congruence.
  - destruct (split_on b s) as [|w ws]; [congruence|]. apply Forall_cons_iff in F as [F1 F2].
    split; [discriminate|]. split; [|constructor; [intros [H|H]; tauto|exact F2]].
    destruct ws; cbn [concat_sep app] in *; congruence.
Qed.
Lemma each_host_iff parse_url hs l : each_host parse_url hs = Some l <-> Forall2 (fun h u => parse_url (str "tcp://" ++ h) = Some u) hs l.
Proof.
  revert l. induction hs as [|h hs IH]; intros l; cbn [each_host].
  - split; [intros E; injection E as <-; constructor|intros F; inversion F; reflexivity].
  - destruct (parse_url (str "tcp://" ++ h)) as [u|] eqn:P; [|split; [discriminate|intros F; inversion F; congruence]].
    destruct (each_host parse_url hs) as [us|].
    + split; [intros E; injection E as <-; constructor; [exact P|apply IH; reflexivity]|].
      intros F. inversion F; subst. apply IH in H3. congruence.
    + split; [discriminate|]. intros F. inversion F; subst. apply IH in H3. discriminate H3.
Qed.
Lemma parse_hosts_iff parse_url s l : parse_hosts parse_url s = Some l <-> says_hosts parse_url s l.
Proof.
  unfold parse_hosts, says_hosts. rewrite each_host_iff. split.
  - intros H. exists (split_on 44 s). destruct (split_on_parts 44 s) as (A & B & C). auto.
  - intros (hs & NE & -> & F & H). rewrite split_concat by assumption. exact H.
Qed.

(** * Parameters *)

(** What is kept when one parameter is set. *)
Definition same_but parse_url tls (k : bytes) (o o' : opts) : Prop :=
  (forall k' f r, In (k', f, r) (parameters parse_url tls) -> k' <> k -> f o' = f o) /\
  op_settings o' = op_settings o /\ op_addr o' = op_addr o /\ op_database o' = op_database o /\
  op_username o' = op_username o /\ op_password o' = op_password o.

Ltac pick H := repeat (destruct H as [H|H]; [injection H as <- <- <-|]); try contradiction H.
Ltac known_names := repeat match goal with |- context [bytes_eqb ?a ?b] =>
  let r := eval vm_compute in (bytes_eqb a b) in change (bytes_eqb a b) with r end; cbv iota; cbn [andb].

Lemma param_effect parse_url tls k f reads o v : In (k, f, reads) (parameters parse_url tls) ->
  (exists o', set_param parse_url tls o k v = Ok o' /\ reads (utf8_lossy (percent_decode v)) (f o') /\ same_but parse_url tls k o o') \/
  (set_param parse_url tls o k v = Err (EUrlParam k v) /\ forall x, ~ reads (utf8_lossy (percent_decode v)) x).
Proof.
  intros H. unfold parameters in H. destruct tls; cbn [app] in H; pick H; unfold set_param; known_names; unfold parse_param;
  match goal with |- context [match ?p with Some _ => _ | None => _ end] => destruct p as [x|] eqn:P end; cbn [rbind].
  all: try (right; split; [reflexivity|]; intros x R; destruct x; cbn in R; try contradiction R;
    first [apply parse_usize_iff in R|apply parse_bool_iff in R|apply parse_duration_iff in R|apply parse_opt_duration_iff in R
          |apply parse_compression_iff in R|apply parse_hosts_iff in R]; congruence).
  all: left; eexists; (split; [reflexivity|]); (split;
    [cbn; first [apply parse_usize_iff|apply parse_bool_iff|apply parse_duration_iff|apply parse_opt_duration_iff
          |apply parse_compression_iff|apply parse_hosts_iff]; exact P|]);
    (split; [|repeat split]); intros k' f' r' H NE; unfold parameters in H; cbn [app] in H; pick H; try reflexivity; congruence.
Qed.

Lemma set_other parse_url tls k o v : ~ is_parameter parse_url tls k ->
  set_param parse_url tls o k v = Ok (set_settings o (map_insert k (mk_setting (SString v) true) (op_settings o))).
Proof.
  intros H. unfold is_parameter, parameters in H. rewrite map_app in H.
  assert (N : forall s, In s (map (fun p => fst (fst p)) (parameters parse_url tls)) -> bytes_eqb k s = false).
  { intros s I. apply bytes_eqb_no. intros ->. apply H. unfold parameters in I. rewrite map_app in I. exact I. }
  unfold set_param. unfold parameters in N. rewrite map_app in N. cbn [map fst] in N.
  repeat match goal with |- context [if bytes_eqb k ?s then _ else _] => rewrite (N s) by (cbn [app In]; tauto) end.
  destruct tls; cbn [andb].
  - repeat match goal with |- context [if bytes_eqb k ?s then _ else _] => rewrite (N s) by (cbn [app In map fst]; tauto) end. reflexivity.
  - reflexivity.
Qed.

Lemma is_parameter_dec parse_url tls k : {exists f r, In (k, f, r) (parameters parse_url tls)} + {~ is_parameter parse_url tls k}.
Proof.
  destruct (in_dec bytes_eq_dec k (map (fun p => fst (fst p)) (parameters parse_url tls))) as [I|I]; [left|right; exact I].
  apply in_map_iff in I as ([[k' f] r] & E & I). cbn in E. subst k'. eauto.
Qed.
Lemma parameter_once parse_url tls k f r f' r' : In (k, f, r) (parameters parse_url tls) -> In (k, f', r') (parameters parse_url tls) -> f = f' /\ r = r'.
Proof.
  assert (D : NoDup (map (fun p => fst (fst p)) (parameters parse_url tls))).
  { destruct tls; cbn [parameters app map fst];
      repeat (apply NoDup_cons; [cbn [In]; intros I; repeat (destruct I as [I|I]; [vm_compute in I; discriminate I|]); exact I|]); apply NoDup_nil. }
  intros H H'. apply In_nth_error in H as [i H]. apply In_nth_error in H' as [j H'].
  assert (i = j).
  { eapply NoDup_nth_error; [exact D|rewrite map_length; apply nth_error_Some; congruence|].
    rewrite (map_nth_error _ _ _ H), (map_nth_error _ _ _ H'). reflexivity. }
  subst j. rewrite H in H'. injection H' as -> ->. auto.
Qed.

Lemma setting_named_insert k k' x o : setting_named k (set_settings o (map_insert k' x (op_settings o))) =
  if bytes_eq_dec k k' then Some x else setting_named k o.
Proof.
  unfold setting_named. cbn [op_settings set_settings]. induction (op_settings o) as [|[n y] l IH]; cbn [map_insert find fst snd].
  - destruct (bytes_eq_dec k k'); reflexivity.
  - unfold bytes_eqb. destruct (bytes_eq_dec k' n) as [->|NE]; cbn [find fst snd].
    + destruct (bytes_eq_dec k n); reflexivity.
    + destruct (bytes_eq_dec k n) as [->|NE2]; [|exact IH]. destruct (bytes_eq_dec n k'); [congruence|reflexivity].
Qed.
Lemma map_insert_names {A} k (x : A) l : NoDup (map fst l) -> NoDup (map fst (map_insert k x l)).
Proof.
  assert (I : forall l n, In n (map fst (map_insert k x l)) -> n = k \/ In n (map fst l)).
  { clear. induction l as [|[n' y] l IH]; intros n H; cbn [map_insert] in H.
    - destruct H as [H|[]]. left. symmetry. exact H.
    - destruct (bytes_eqb k n'); cbn [map fst In] in *; [tauto|]. destruct H as [H|H]; [tauto|]. destruct (IH _ H); tauto. }
  induction l as [|[n y] l IH]; intros D; cbn [map_insert].
  - constructor; [intros []|constructor].
  - inversion D; subst. destruct (bytes_eqb k n) eqn:E; cbn [map fst]; [exact D|]. constructor; [|auto].
    intros H. destruct (I _ _ H) as [->|H']; [|contradiction]. rewrite bytes_eqb_refl in E. discriminate E.
Qed.
Lemma given_last_cons k p l : given_last k (p :: l) =
  match given_last k l with Some v => Some v | None => if bytes_eq_dec k (fst p) then Some (snd p) else None end.
Proof.
  unfold given_last. cbn [fold_left].
  assert (G : forall r, fold_left (fun r p => if bytes_eq_dec k (fst p) then Some (snd p) else r) l r =
    match fold_left (fun r p => if bytes_eq_dec k (fst p) then Some (snd p) else r) l None with Some v => Some v | None => r end).
  { induction l as [|q l IH]; intros r; [reflexivity|]. cbn [fold_left].
    rewrite IH. destruct (bytes_eq_dec k (fst q)).
    - rewrite (IH (Some _)). destruct (fold_left _ l None); reflexivity.
    - reflexivity. }
  apply G.
Qed.

Lemma decoded_again v : is_utf8 v -> ~ In 37%N v -> utf8_lossy (percent_decode v) = v.
Proof. intros U H. rewrite percent_decode_none by exact H. apply utf8_lossy_valid, utf8_valid_spec, U. Qed.

Lemma set_params_done parse_url tls l : Forall (fun p => is_utf8 (snd p) /\ (is_parameter parse_url tls (fst p) -> ~ In 37%N (snd p))) l ->
  forall o,
  (exists o', set_params parse_url tls o l = Ok o' /\ params_done parse_url tls o l o' /\ Forall (fun p => ~ bad_parameter parse_url tls p) l) \/
  (exists l1 p l2, l = l1 ++ p :: l2 /\ Forall (fun p => ~ bad_parameter parse_url tls p) l1 /\ bad_parameter parse_url tls p /\
     set_params parse_url tls o l = Err (EUrlParam (fst p) (snd p))).
Proof.
  induction 1 as [|[k v] l [U NP] F IH]; intros o.
  { left. exists o. split; [reflexivity|]. split; [|constructor]. constructor; try reflexivity. intros D. exact D. }
  cbn [fst snd] in U, NP. cbn [set_params].
  destruct (is_parameter_dec parse_url tls k) as [(f & r & I)|NI].
  - assert (IP : is_parameter parse_url tls k) by (unfold is_parameter; apply in_map_iff; exists (k, f, r); auto).
    pose proof (decoded_again v U (NP IP)) as D.
    destruct (param_effect parse_url tls k f r o v I) as [(o1 & E & R & K)|[E R]]; rewrite D in R; rewrite E; cbn [rbind].
    + assert (NB : ~ bad_parameter parse_url tls (k, v)).
      { intros (f' & r' & I' & B). cbn [fst snd] in I', B. destruct (parameter_once _ _ _ _ _ _ _ I I') as [-> ->]. exact (B _ R). }
      destruct (IH o1) as [(o' & E' & P & G)|(l1 & p & l2 & -> & G & B & E')].
      * left. exists o'. split; [exact E'|]. split; [|constructor; assumption].
        destruct K as (K1 & K2 & K3 & K4 & K5 & K6). destruct P as [P1 P2 P3 PO P4 P5 P6 P7]. constructor; try congruence.
        -- intros k' f' r' I'. rewrite given_last_cons. specialize (P1 k' f' r' I'). destruct (given_last k' l); [exact P1|].
           cbn [fst snd]. rewrite P1. destruct (bytes_eq_dec k' k) as [->|NE]; [|apply (K1 _ _ _ I' NE)].
           destruct (parameter_once _ _ _ _ _ _ _ I I') as [-> ->]. exact R.
        -- intros k' N'. rewrite given_last_cons, (P2 k' N'). destruct (given_last k' l); [reflexivity|]. cbn [fst snd].
           destruct (bytes_eq_dec k' k) as [->|NE]; [contradiction|]. unfold setting_named. rewrite K2. reflexivity.
        -- intros k' I'. rewrite (P3 k' I'). unfold setting_named. rewrite K2. reflexivity.
        -- rewrite K2 in PO. exact PO.
      * right. exists ((k, v) :: l1), p, l2. split; [reflexivity|]. split; [constructor; assumption|]. split; [exact B|exact E'].
    + right. exists [], (k, v), l. split; [reflexivity|]. split; [constructor|]. split; [|reflexivity].
      exists f, r. split; [exact I|exact R].
  - rewrite (set_other parse_url tls k o v NI). cbn [rbind].
    assert (NB : ~ bad_parameter parse_url tls (k, v)).
    { intros (f' & r' & I' & _). apply NI. unfold is_parameter. apply in_map_iff. exists (k, f', r'). auto. }
    destruct (IH (set_settings o (map_insert k (mk_setting (SString v) true) (op_settings o)))) as [(o' & E' & P & G)|(l1 & p & l2 & -> & G & B & E')].
    + left. exists o'. split; [exact E'|]. split; [|constructor; assumption].
      destruct P as [P1 P2 P3 PO P4 P5 P6 P7]. constructor; try assumption.
      * intros k' f' r' I'. rewrite given_last_cons. specialize (P1 k' f' r' I'). destruct (given_last k' l); [exact P1|].
        cbn [fst snd]. destruct (bytes_eq_dec k' k) as [->|NE].
        { contradiction NI. unfold is_parameter. apply in_map_iff. exists (k, f', r'). auto. }
        rewrite P1. clear - I'. unfold parameters in I'. destruct tls; cbn [app] in I'; pick I'; reflexivity.
      * intros k' N'. rewrite given_last_cons, (P2 k' N'). destruct (given_last k' l); [reflexivity|]. cbn [fst snd].
        rewrite setting_named_insert. destruct (bytes_eq_dec k' k); reflexivity.
      * intros k' I'. rewrite (P3 k' I'), setting_named_insert. destruct (bytes_eq_dec k' k); [congruence|reflexivity].
      * intros D. apply PO. cbn [op_settings set_settings]. apply map_insert_names, D.
    + right. exists ((k, v) :: l1), p, l2. split; [reflexivity|]. split; [constructor; assumption|]. split; [exact B|exact E'].
Qed.
