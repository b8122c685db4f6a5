(** The type of a loaded column, and which type names make the parser panic. *)
From Coq Require Import String.
From Verif Require Import Base Bytes Reader Wire Types Text TypeNames Values Columns SpecTypes
  TextProofs ReaderProofs WireProofs TypeNamesProofs PushProofs.
Open Scope list_scope.
Open Scope nat_scope.

(** ** Names of parts are shorter *)
Definition enough (fuel : nat) (t : sqltype) : Prop := (List.length (type_name t) < fuel)%nat.

Lemma name_longer (a : bytes) t fuel : a <> [] ->
  (List.length (a ++ type_name t ++ str ")") < S fuel)%nat -> enough fuel t.
Proof. unfold enough. rewrite !app_length. destruct a; [congruence|]. cbn. lia. Qed.

Lemma enough_nullable fuel t : enough (S fuel) (TNullable t) -> enough fuel t.
Proof. apply (name_longer (str "Nullable(")). discriminate. Qed.
Lemma enough_array fuel t : enough (S fuel) (TArray t) -> enough fuel t.
Proof. apply (name_longer (str "Array(")). discriminate. Qed.
Lemma enough_low fuel t : enough (S fuel) (TLowCardinality t) -> enough fuel t.
Proof. apply (name_longer (str "LowCardinality(")). discriminate. Qed.
Lemma enough_agg fuel f t : enough (S fuel) (TAgg f t) -> enough fuel t.
Proof. unfold enough. cbn [type_name]. rewrite !app_length. cbn. lia. Qed.
Lemma enough_map fuel k v : enough (S fuel) (TMap k v) -> enough fuel k /\ enough fuel v.
Proof. unfold enough. cbn [type_name]. rewrite !app_length. cbn. lia. Qed.

Section Load.
Variable tz_known : bytes -> bool.

(** ** The type of whatever was loaded *)
Lemma bind_inv {A B} (p : P A) (f : A -> P B) s b r :
  run (pbind p f) s = Ok (b, r) -> exists a r', run p s = Ok (a, r') /\ run (f a) r' = Ok (b, r).
Proof. rewrite run_bind. destruct (run p s) as [[a r']|e|q]; try discriminate. eauto. Qed.

Ltac step H :=
  first
  [ injection H as <- <-
  | let a := fresh "x" in let r := fresh "r" in let E := fresh "E" in
    apply bind_inv in H as (a & r & E & H) ].

Lemma get_inv {A} n (k : bytes -> P A) s a r :
  run (Get n k) s = Ok (a, r) -> exists l s', run (k l) s' = Ok (a, r).
Proof. cbn [run]. destruct (n <=? lenN s)%N; [eauto|discriminate]. Qed.

Lemma load_type tz t : forall fuel size s c r, nameable tz_known t -> enough fuel t ->
  run (load_data tz_known fuel (type_name t) size tz) s = Ok (c, r) -> ctype c = plain_type t.
Proof.
  induction t as [sc| |n| |[|p z|]| | | |t IH|t IH|t IH|p sc|vals|vals|f t IH|k IHk v IHv];
    intros fuel size s c r N L H; destruct fuel as [|fuel]; try (unfold enough in L; lia);
    cbn [load_data] in H; rewrite (classify_name tz_known) in H by exact N;
    cbn [lift pbind kind_of] in H; cbn [plain_type nameable] in *.
  - step H. cbn [run] in H. step H. reflexivity.
  - step H. cbn [run] in H. step H. reflexivity.
  - step H. step H. step H. cbn [run] in H. step H. reflexivity.
  - step H. cbn [run] in H. step H. reflexivity.
  - step H. step H. cbn [run] in H. step H. reflexivity.
  - step H. step H. cbn [run] in H. step H. cbn [get_timezone] in E. destruct N as (_ & _ & K). rewrite K in E.
    cbn [run] in E. injection E as <- <-. reflexivity.
  - step H. step H. cbn [run] in H. step H. reflexivity.
  - step H. step H. apply get_inv in H as (l & s' & H). cbn [run] in H. step H. reflexivity.
  - step H. step H. apply get_inv in H as (l & s' & H). cbn [run] in H. step H. reflexivity.
  - step H. step H. apply get_inv in H as (l & s' & H). cbn [run] in H. step H. reflexivity.
  - step H. apply get_inv in H as (l & s' & H). step H. cbn [run] in H. step H.
    cbn [ctype]. f_equal. eapply IH; [apply N|apply enough_nullable, L|exact E0].
  - step H. step H. cbn [run] in H. step H.
    cbn [ctype]. f_equal. eapply IH; [apply N|apply enough_array, L|exact E0].
  - unfold load_low in H. destruct (size =? 0)%N.
    + step H. step H. cbn [run] in H. step H. cbn [ctype]. f_equal.
      eapply IH; [apply N|apply enough_low, L|exact E].
    + step H. destruct (negb _); [discriminate|]. step H. destruct (ix_of_flags _) as [ix|]; [|discriminate].
      destruct (negb _); [discriminate|]. destruct (_ =? 0)%N; [discriminate|].
      step H. step H. step H. step H. destruct (_ =? _)%N; [|discriminate].
      cbn [run] in H. step H. cbn [ctype]. f_equal. eapply IH; [apply N|apply enough_low, L|exact E2].
  - step H. cbn [run] in H. step H. reflexivity.
  - step H. cbn [run] in H. step H. reflexivity.
  - step H. cbn [run] in H. step H. reflexivity.
  - step H. cbn [run] in H. step H. cbn [ctype]. f_equal. eapply IH; [apply N|eapply enough_agg, L|exact E].
  - step H. step H. step H. cbn [run] in H. step H. apply enough_map in L as [Lk Lv].
    destruct N as (Nk & _ & Nv). cbn [ctype]. f_equal; [eapply IHk|eapply IHv]; eassumption.
Qed.

(** ** An empty column can always be loaded *)
Lemma read_vec_0 sc s : run (read_vec sc 0) s = Ok ([], s).
Proof. unfold read_vec. change (0 * N.of_nat (width sc))%N with 0%N. change (alloc 0) with (Ret tt). cbn [pbind]. change s with ([] ++ s) at 1. rewrite run_get by reflexivity. reflexivity. Qed.

Lemma read_offsets_0 s : run (read_offsets 0) s = Ok (([], 0%N), s).
Proof. unfold read_offsets. rewrite run_bind, read_vec_0. reflexivity. Qed.

Lemma load_ip_0 k s :
  exists c, run (let! n := mul_usize 0 (N.of_nat (ip_size k)) in
                 let! _ := alloc n in Get n (fun l => Ret (CIp k l))) s = Ok (c, s).
Proof.
  unfold mul_usize. change (0 * N.of_nat (ip_size k))%N with 0%N. cbn [N.ltb]. change (0 <? 2 ^ 64)%N with true.
  cbn [pbind]. change (alloc 0) with (Ret tt). cbn [pbind]. change s with ([] ++ s) at 1.
  rewrite run_get by reflexivity. eexists. reflexivity.
Qed.

Lemma load_none tz t : forall fuel s, nameable tz_known t -> enough fuel t ->
  exists c, run (load_data tz_known fuel (type_name t) 0 tz) s = Ok (c, s).
Proof.
  induction t as [sc| |n| |[|p z|]| | | |t IH|t IH|t IH|p sc|vals|vals|f t IH|k IHk v IHv];
    intros fuel s N L; destruct fuel as [|fuel]; try (unfold enough in L; lia);
    cbn [load_data]; rewrite (classify_name tz_known) by exact N;
    cbn [lift pbind kind_of]; cbn [nameable] in *.
  - eexists. rewrite run_bind, read_vec_0. reflexivity.
  - eexists. reflexivity.
  - eexists. reflexivity.
  - eexists. rewrite run_bind, read_vec_0. reflexivity.
  - eexists. cbn [get_timezone pbind]. rewrite run_bind, read_vec_0. reflexivity.
  - eexists. cbn [get_timezone]. destruct N as (_ & _ & ->). cbn [pbind]. rewrite run_bind, read_vec_0. reflexivity.
  - eexists. cbn [get_timezone pbind]. rewrite run_bind, read_vec_0. reflexivity.
  - apply (load_ip_0 IpV4).
  - apply (load_ip_0 IpV6).
  - apply (load_ip_0 IpUuid).
  - destruct (IH fuel s (proj1 N) (enough_nullable _ _ L)) as [c H]. eexists.
    change (alloc 0) with (Ret tt). cbn [pbind].
    change s with ([] ++ s) at 1. rewrite run_get by reflexivity. rewrite run_bind, H. reflexivity.
  - destruct (IH fuel s N (enough_array _ _ L)) as [c H]. eexists.
    rewrite run_bind, read_offsets_0. cbn [snd fst].
    rewrite run_bind, H. reflexivity.
  - destruct (IH fuel s N (enough_low _ _ L)) as [c H]. eexists.
    unfold load_low. cbn [N.eqb]. rewrite run_bind, H, run_bind, read_vec_0. reflexivity.
  - eexists. rewrite run_bind, read_vec_0. reflexivity.
  - eexists. rewrite run_bind, read_vec_0. reflexivity.
  - eexists. rewrite run_bind, read_vec_0. reflexivity.
  - destruct (IH fuel s (proj1 N) (enough_agg _ _ _ L)) as [c H]. eexists. rewrite run_bind, H. reflexivity.
  - apply enough_map in L as [Lk Lv]. destruct N as (Nk & _ & Nv).
    destruct (IHk fuel s Nk Lk) as [ck Hk]. destruct (IHv fuel s Nv Lv) as [cv Hv]. eexists.
    rewrite run_bind, read_offsets_0. cbn [snd fst].
    rewrite run_bind, Hk, run_bind, Hv. reflexivity.
Qed.
End Load.

(** ** Names that make the parser panic *)
Definition ascii (s : bytes) : Prop := Forall (fun b => (b < 128)%N) s.

Lemma ascii_app a b : ascii (a ++ b) <-> ascii a /\ ascii b.
Proof. apply Forall_app. Qed.
Lemma ascii_firstn n s : ascii s -> ascii (firstn n s).
Proof. intros H. rewrite <- (firstn_skipn n s) in H. apply ascii_app in H. tauto. Qed.
Lemma ascii_skipn n s : ascii s -> ascii (skipn n s).
Proof. intros H. rewrite <- (firstn_skipn n s) in H. apply ascii_app in H. tauto. Qed.
Lemma ascii_rev s : ascii s -> ascii (rev s).
Proof. apply Forall_rev. Qed.
Lemma ascii_drop f s : ascii s -> ascii (drop_while f s).
Proof. induction 1 as [|b s Hb Hs IH]; [constructor|]. cbn. destruct (f b); [exact IH|constructor; assumption]. Qed.
Lemma ascii_trim_matches f s : ascii s -> ascii (trim_matches f s).
Proof. intros H. apply ascii_rev, ascii_drop, ascii_rev, ascii_drop, H. Qed.

Lemma ascii_boundary s i : ascii s -> i <= List.length s -> char_boundary s i = true.
Proof.
  intros H L. unfold char_boundary. destruct (Nat.eqb_spec i 0); [reflexivity|].
  destruct (Nat.eqb_spec i (List.length s)); [reflexivity|]. cbn [orb].
  destruct (Nat.ltb_spec i (List.length s)) as [B|]; [|lia]. unfold ascii in H. rewrite Forall_forall in H.
  specialize (H _ (nth_In s 0%N B)). unfold is_cont. cbn [andb].
  destruct (N.leb_spec 128 (nth i s 0%N)); [lia|reflexivity].
Qed.

Lemma ascii_slice s a b : ascii s -> a <= b -> b <= List.length s ->
  exists x, str_slice s a b = Ok x /\ ascii x.
Proof.
  intros H A B. unfold str_slice. rewrite !ascii_boundary by (auto; lia).
  destruct (Nat.leb_spec a b); [|lia]. destruct (Nat.leb_spec b (List.length s)); [|lia].
  eexists. split; [reflexivity|]. apply ascii_firstn, ascii_skipn, H.
Qed.

Lemma find_byte_lt b s c : find_byte b s = Some c -> c < List.length s.
Proof.
  revert c. induction s as [|x s IH]; intros c H; [discriminate|]. cbn in *.
  destruct (x =? b)%N; [injection H as <-; lia|]. destruct (find_byte b s); [|discriminate].
  injection H as <-. specialize (IH _ eq_refl). lia.
Qed.
Lemma find_char_lt b s c : find_char b s = Some c -> c < List.length s.
Proof.
  revert c. induction s as [|x s IH]; intros c H; [discriminate|]. cbn in *.
  destruct (x =? b)%N; [injection H as <-; lia|]. destruct (find_char b s); [|discriminate].
  injection H as <-. specialize (IH _ eq_refl). destruct (is_cont x); lia.
Qed.

Lemma strip_prefix_app p s r : strip_prefix p s = Some r -> s = p ++ r.
Proof.
  revert s. induction p as [|a p IH]; intros s H; [cbn in H; injection H as <-; reflexivity|].
  destruct s as [|b s]; [discriminate|]. cbn [strip_prefix] in H.
  destruct (N.eqb_spec a b) as [->|]; [|discriminate]. cbn. f_equal. apply IH, H.
Qed.
Lemma starts_with_app p s : starts_with p s = true -> exists r, s = p ++ r.
Proof.
  unfold starts_with. destruct (strip_prefix p s) as [r|] eqn:E; [|discriminate].
  exists r. apply strip_prefix_app, E.
Qed.

(** A keyword followed by at most one more character. *)
Definition cut_short (s : bytes) : Prop :=
  exists k x, In k [str "Nullable"; str "FixedString"; str "Array"; str "Map"] /\
    s = k ++ x /\ (List.length x <= 1)%nat.

Definition quiet {A} (r : res A) : Prop := match r with Panic _ => False | _ => True end.

Lemma short_or_not k x : In k [str "Nullable"; str "FixedString"; str "Array"; str "Map"] ->
  cut_short (k ++ x) \/ (2 <= List.length x).
Proof.
  intros H. destruct (Nat.le_gt_cases (List.length x) 1); [left|right; lia]. exists k, x. auto.
Qed.

Lemma decimal_scan_inv s : forall rest idx nb po pc nb' po' pc',
  s = firstn idx s ++ rest -> idx + List.length rest = List.length s ->
  (forall i, po = Some i -> i < List.length s /\ nth i s 0%N = 40%N /\ ~ In 41%N (firstn i s)) ->
  (forall i, pc = Some i -> i < List.length s /\ nth i s 0%N = 41%N) ->
  decimal_scan s idx rest nb po pc = Some (nb', po', pc') ->
  (forall i, po' = Some i -> i < List.length s /\ nth i s 0%N = 40%N /\ ~ In 41%N (firstn i s)) /\
  (forall i, pc' = Some i -> i < List.length s /\ nth i s 0%N = 41%N).
Proof.
  induction rest as [|b rest IH]; intros idx nb po pc nb' po' pc' E L HO HC H.
  - cbn in H. injection H as <- <- <-. auto.
  - assert (LB : idx < List.length s) by (cbn [List.length] in L; lia).
    assert (FL : List.length (firstn idx s) = idx) by (rewrite firstn_length; lia).
    assert (NB : nth idx s 0%N = b).
    { rewrite E. rewrite app_nth2 by lia. rewrite FL, Nat.sub_diag. reflexivity. }
    assert (E' : s = firstn (S idx) s ++ rest).
    { transitivity (firstn idx s ++ b :: rest); [exact E|].
      assert (X : firstn (S idx) s = firstn idx s ++ [b]).
      { rewrite E at 1. rewrite firstn_app, FL. replace (S idx - idx) with 1 by lia.
        rewrite (firstn_all2 (firstn idx s)) by lia. reflexivity. }
      rewrite X, <- app_assoc. reflexivity. }
    assert (L' : S idx + List.length rest = List.length s) by (cbn [List.length] in L; lia).
    cbn [decimal_scan] in H.
    assert (HC' : forall i, (if (b =? 41)%N then Some idx else pc) = Some i ->
                  i < List.length s /\ nth i s 0%N = 41%N).
    { intros i Hi. destruct (N.eqb_spec b 41) as [B|]; [|apply HC, Hi].
      injection Hi as <-. rewrite NB. auto. }
    destruct (N.eqb_spec b 40) as [B|B].
    + assert (HO' : forall pre, firstn idx s = pre -> ~ In 41%N pre ->
        forall i, Some idx = Some i -> i < List.length s /\ nth i s 0%N = 40%N /\ ~ In 41%N (firstn i s)).
      { intros pre P NI i Hi. injection Hi as <-. rewrite NB, P. auto. }
      unfold bytes_eqb in H.
      destruct (bytes_eq_dec (firstn idx s) (str "Decimal")) as [P|_].
      { eapply IH; [exact E'|exact L'| |exact HC'|exact H]. eapply HO'; [exact P|vm_compute; intuition discriminate]. }
      destruct (bytes_eq_dec (firstn idx s) (str "Decimal32")) as [P|_].
      { eapply IH; [exact E'|exact L'| |exact HC'|exact H]. eapply HO'; [exact P|vm_compute; intuition discriminate]. }
      destruct (bytes_eq_dec (firstn idx s) (str "Decimal64")) as [P|_].
      { eapply IH; [exact E'|exact L'| |exact HC'|exact H]. eapply HO'; [exact P|vm_compute; intuition discriminate]. }
      discriminate.
    + eapply IH; [exact E'|exact L'|exact HO|exact HC'|exact H].
Qed.

Lemma quiet_decimal s : ascii s -> quiet (parse_decimal s).
Proof.
  intros A. unfold parse_decimal. destruct (_ <? _); [exact I|]. destruct (negb _); [exact I|].
  destruct (decimal_scan s 0 s None None None) as [[[nb [po|]] [pc|]]|] eqn:D; try exact I.
  destruct (decimal_scan_inv s s 0 None None None nb (Some po) (Some pc) eq_refl eq_refl) as [HO HC];
    [discriminate|discriminate|exact D|].
  destruct (HO po eq_refl) as (P1 & P2 & P3). destruct (HC pc eq_refl) as (C1 & C2).
  assert (O : po < pc).
  { destruct (Nat.lt_trichotomy po pc) as [X|[->|X]]; [exact X|congruence|].
    exfalso. apply P3. rewrite <- C2.
    assert (Q : nth pc s 0%N = nth pc (firstn po s) 0%N).
    { rewrite <- (firstn_skipn po s) at 1. apply app_nth1. rewrite firstn_length. lia. }
    rewrite Q. apply nth_In. rewrite firstn_length. lia. }
  destruct (ascii_slice s (po + 1) pc A) as (x & -> & _); [lia|lia|exact I].
Qed.

Lemma quiet_agg s : ascii s -> quiet (parse_agg s).
Proof.
  intros A. unfold parse_agg. destruct (starts_with (str "SimpleAggregateFunction(") s) eqn:S; [|exact I].
  destruct (ends_with_byte 41 s); [|exact I]. cbn [andb].
  apply starts_with_app in S as [r ->].
  destruct (ascii_slice (str "SimpleAggregateFunction(" ++ r) 23 (List.length (str "SimpleAggregateFunction(" ++ r)) A)
    as (x & -> & Ax); [rewrite app_length; cbn; lia|lia|]. cbn [rbind].
  apply (ascii_trim_matches is_paren) in Ax.
  destruct (find_byte 44 (trim_matches is_paren x)) as [c|] eqn:F; [|exact I].
  apply find_byte_lt in F.
  destruct (ascii_slice (trim_matches is_paren x) 0 c Ax) as (f & -> & _); [lia|lia|]. cbn [rbind].
  destruct (ascii_slice (trim_matches is_paren x) (c + 1) (List.length (trim_matches is_paren x)) Ax) as (t & -> & _);
    [lia|lia|exact I].
Qed.

Lemma scan_up_ok b s fuel lo : ascii s ->
  exists lo', scan_up b s fuel lo = Ok lo' /\ (lo <= lo').
Proof.
  intros A. revert lo. induction fuel as [|fuel IH]; intros lo; [exists lo; auto|]. cbn [scan_up].
  destruct (Nat.ltb_spec lo (List.length s)); [|exists lo; auto].
  destruct (ascii_slice s lo (lo + 1) A) as (x & -> & _); [lia|lia|]. cbn [rbind].
  destruct (bytes_eqb x [b]); [exists lo; auto|]. destruct (IH (S lo)) as (lo' & -> & L). exists lo'. split; [reflexivity|lia].
Qed.

Lemma scan_down_ok b s lo hi : ascii s -> hi < List.length s ->
  exists hi', scan_down b s lo hi = Ok hi' /\ (hi' <= hi).
Proof.
  intros A. induction hi as [|hi IH]; intros L.
  - cbn [scan_down]. destruct (Nat.ltb_spec lo 0); [lia|]. exists 0. auto.
  - cbn [scan_down]. destruct (lo <? S hi); [|exists (S hi); auto].
    destruct (ascii_slice s (S hi) (S hi + 1) A) as (x & -> & _); [lia|lia|]. cbn [rbind].
    destruct (bytes_eqb x [b]); [exists (S hi); auto|]. destruct IH as (hi' & -> & L'); [lia|]. exists hi'. split; [reflexivity|lia].
Qed.

Lemma quiet_low s : ascii s -> quiet (parse_low_cardinality s).
Proof.
  intros A. unfold parse_low_cardinality. destruct (starts_with _ s) eqn:S; [|exact I].
  apply starts_with_app in S as [r ->].
  destruct (scan_up_ok 40 (str "LowCardinality" ++ r) (List.length (str "LowCardinality" ++ r)) 14 A) as (lo & -> & L).
  cbn [rbind].
  assert (LS : 14 <= List.length (str "LowCardinality" ++ r)) by (rewrite app_length; cbn; lia).
  destruct (scan_down_ok 41 (str "LowCardinality" ++ r) lo (List.length (str "LowCardinality" ++ r) - 1) A)
    as (hi & -> & H); [lia|]. cbn [rbind].
  destruct (Nat.leb_spec hi lo); [exact I|].
  destruct (ascii_slice (str "LowCardinality" ++ r) (lo + 1) hi A) as (x & -> & _); [lia|lia|exact I].
Qed.

Lemma classify_panic s : ascii s -> quiet (classify s) \/ cut_short s.
Proof.
  intros A.
  unfold classify. destruct (match_str simple_names s); [left; exact I|].
  assert (Q1 : cut_short s \/ quiet (parse_nullable s)).
  { unfold parse_nullable. destruct (starts_with _ s) eqn:S; [|right; exact I].
    apply starts_with_app in S as [r ->].
    destruct (short_or_not (str "Nullable") r) as [C|L]; [cbn; tauto|left; exact C|right].
    destruct (ascii_slice (str "Nullable" ++ r) 9 (List.length (str "Nullable" ++ r) - 1) A) as (x & -> & _);
      [rewrite app_length; cbn; lia|lia|exact I]. }
  destruct Q1 as [C|Q1]; [right; exact C|].
  destruct (parse_nullable s) as [[i|]|e|p]; [left; exact I| |left; exact I|contradiction]. cbn [rbind].
  assert (Q2 : cut_short s \/ quiet (parse_fixed_string s)).
  { unfold parse_fixed_string. destruct (starts_with _ s) eqn:S; [|right; exact I].
    apply starts_with_app in S as [r ->].
    destruct (short_or_not (str "FixedString") r) as [C|L]; [cbn; tauto|left; exact C|right].
    destruct (ascii_slice (str "FixedString" ++ r) 12 (List.length (str "FixedString" ++ r) - 1) A) as (x & -> & _);
      [rewrite app_length; cbn; lia|lia|exact I]. }
  destruct Q2 as [C|Q2]; [right; exact C|].
  destruct (parse_fixed_string s) as [[i|]|e|p]; [left; exact I| |left; exact I|contradiction]. cbn [rbind].
  assert (Q3 : cut_short s \/ quiet (parse_array s)).
  { unfold parse_array. destruct (starts_with _ s) eqn:S; [|right; exact I].
    apply starts_with_app in S as [r ->].
    destruct (short_or_not (str "Array") r) as [C|L]; [cbn; tauto|left; exact C|right].
    destruct (ascii_slice (str "Array" ++ r) 6 (List.length (str "Array" ++ r) - 1) A) as (x & -> & _);
      [rewrite app_length; cbn; lia|lia|exact I]. }
  destruct Q3 as [C|Q3]; [right; exact C|].
  destruct (parse_array s) as [[i|]|e|p]; [left; exact I| |left; exact I|contradiction]. cbn [rbind].
  assert (Q4 : cut_short s \/ quiet (parse_map s)).
  { unfold parse_map. destruct (starts_with _ s) eqn:S; [|right; exact I].
    apply starts_with_app in S as [r ->].
    destruct (short_or_not (str "Map") r) as [C|L]; [cbn; tauto|left; exact C|right].
    destruct (ascii_slice (str "Map" ++ r) 4 (List.length (str "Map" ++ r) - 1) A) as (x & -> & Ax);
      [rewrite app_length; cbn; lia|lia|]. cbn [rbind].
    destruct (find_char 44 x) as [c|] eqn:F; [|exact I]. apply find_char_lt in F.
    destruct (ascii_slice x 0 c Ax) as (y & -> & _); [lia|lia|]. cbn [rbind].
    destruct (ascii_slice x (c + 1) (List.length x) Ax) as (z & -> & _); [lia|lia|exact I]. }
  destruct Q4 as [C|Q4]; [right; exact C|]. left.
  destruct (parse_map s) as [[[i j]|]|e|p]; [exact I| |exact I|contradiction]. cbn [rbind].
  pose proof (quiet_decimal s A) as Q5.
  destruct (parse_decimal s) as [[[[i j] nb]|]|e|p]; [exact I| |exact I|contradiction]. cbn [rbind].
  destruct (parse_enum8 s); [exact I|]. destruct (parse_enum16 s); [exact I|].
  destruct (parse_date_time s); [exact I|]. destruct (parse_date_time64 s) as [[? ?]|]; [exact I|].
  pose proof (quiet_agg s A) as Q6.
  destruct (parse_agg s) as [[[i j]|]|e|p]; [exact I| |exact I|contradiction]. cbn [rbind].
  pose proof (quiet_low s A) as Q7.
  destruct (parse_low_cardinality s) as [[i|]|e|p]; [exact I|exact I|exact I|contradiction].
Qed.
