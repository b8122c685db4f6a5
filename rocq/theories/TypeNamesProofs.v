(** Parsing what [type_name] prints. *)
From Coq Require Import String.
From Verif Require Import Base Bytes Types Text TypeNames SpecTypes TextProofs ReaderProofs.
Open Scope list_scope.
Open Scope nat_scope.

(** ** Strings *)
Definition solid (b : N) : bool := (b <? 128)%N && negb (ws1 b).

Lemma solid_front a s : solid a = true -> space_front (a :: s) = None.
Proof.
  intros H. apply andb_true_iff in H as [L W]. apply N.ltb_lt in L.
  cbn [space_front]. destruct (ws1 a); [discriminate|].
  destruct s as [|b s]; [reflexivity|].
  assert (E : ws2 a b = false). { unfold ws2. destruct (N.eqb_spec a 194); [lia|reflexivity]. }
  rewrite E. destruct s as [|c s]; [reflexivity|].
  assert (E3 : ws3 a b c = false).
  { unfold ws3. destruct (N.eqb_spec a 225), (N.eqb_spec a 226), (N.eqb_spec a 227); try lia; try reflexivity. }
  rewrite E3. reflexivity.
Qed.

Lemma solid_back a s : solid a = true -> space_back (a :: s) = None.
Proof.
  intros H. apply andb_true_iff in H as [L W]. apply N.ltb_lt in L.
  cbn [space_back]. destruct (ws1 a); [discriminate|].
  destruct s as [|b s]; [reflexivity|].
  assert (E : ws2 b a = false).
  { unfold ws2. destruct (N.eqb_spec a 133), (N.eqb_spec a 160); try lia; try apply andb_false_r. }
  rewrite E. destruct s as [|c s]; [reflexivity|].
  assert (E3 : ws3 c b a = false).
  { unfold ws3. destruct (N.eqb_spec a 128), (N.eqb_spec a 159), (N.eqb_spec a 168), (N.eqb_spec a 169),
      (N.eqb_spec a 175), (N.leb_spec 128 a); try lia.
    }
  rewrite E3. reflexivity.
Qed.

Lemma trim_start_solid a s : solid a = true -> trim_start (a :: s) = a :: s.
Proof. intros H. unfold trim_start. cbn [List.length strip_while]. rewrite solid_front by exact H. reflexivity. Qed.

Lemma trim_start_space s : trim_start (32%N :: s) = trim_start s.
Proof. reflexivity. Qed.

Lemma trim_end_solid a s : solid a = true -> trim_end (s ++ [a]) = s ++ [a].
Proof.
  intros H. unfold trim_end. rewrite rev_app_distr, app_length, Nat.add_1_r. cbn [rev app strip_while].
  rewrite solid_back by exact H. cbn [rev]. rewrite rev_involutive. reflexivity.
Qed.

(** A string whose first and last bytes are visible ASCII characters. *)
Definition framed (s : bytes) : Prop :=
  (exists a r, s = a :: r /\ solid a = true) /\ (exists r a, s = r ++ [a] /\ solid a = true).

Lemma trim_framed s : framed s -> trim s = s.
Proof.
  intros [(a & r & -> & A) (r' & z & E & Z)]. unfold trim. rewrite trim_start_solid by exact A.
  rewrite E, trim_end_solid by exact Z. reflexivity.
Qed.

Lemma solid_not_cont b : solid b = true -> is_cont b = false.
Proof. intros H. apply andb_true_iff in H as [L _]. apply N.ltb_lt in L. unfold is_cont. lia. Qed.

Lemma str_slice_mid a i b :
  is_cont (hd 0%N (i ++ b)) = false -> is_cont (hd 0%N b) = false ->
  str_slice (a ++ i ++ b) (List.length a) (List.length a + List.length i) = Ok i.
Proof.
  intros A B. unfold str_slice.
  assert (CB : forall x y, is_cont (hd 0%N y) = false -> char_boundary (x ++ y) (List.length x) = true).
  { intros x y Hy. unfold char_boundary. rewrite app_length, app_nth2, Nat.sub_diag by lia.
    destruct y as [|c y]; cbn [hd nth List.length] in *.
    - rewrite Nat.add_0_r, Nat.eqb_refl, orb_true_r. reflexivity.
    - rewrite Hy. destruct (Nat.ltb_spec (List.length x) (List.length x + S (List.length y))); [|lia].
      cbn. apply orb_true_r. }
  rewrite CB by exact A. rewrite app_assoc. rewrite <- (app_length a i). rewrite (CB (a ++ i)) by exact B.
  rewrite <- app_assoc. rewrite !app_length.
  destruct (Nat.leb_spec (List.length a) (List.length a + List.length i)); [|lia].
  destruct (Nat.leb_spec (List.length a + List.length i) (List.length a + (List.length i + List.length b))); [|lia].
  cbn [andb]. rewrite skipn_app, skipn_all, Nat.sub_diag. cbn [app skipn].
  replace (List.length a + List.length i - List.length a) with (List.length i) by lia.
  rewrite firstn_app, firstn_all, Nat.sub_diag. cbn [firstn]. rewrite app_nil_r. reflexivity.
Qed.

(** The text between an opening keyword and the closing parenthesis. *)
Lemma slice_args a i n :
  List.length a = n -> is_cont (hd 41%N i) = false ->
  str_slice (a ++ i ++ [41%N]) n (List.length (a ++ i ++ [41%N]) - 1) = Ok i.
Proof.
  intros <- H. replace (List.length (a ++ i ++ [41%N]) - 1) with (List.length a + List.length i)
    by (rewrite !app_length; cbn [List.length]; lia).
  apply str_slice_mid; [|reflexivity]. destruct i; [reflexivity|exact H].
Qed.

Lemma eq_ignore_case_in b s n : eq_ignore_case s n = true -> In b s -> lower b = b ->
  exists c, In c n /\ lower c = b.
Proof.
  revert n. induction s as [|x s IH]; intros n H HI L; [contradiction|].
  destruct n as [|y n]; [discriminate|]. cbn [eq_ignore_case] in H.
  apply andb_true_iff in H as [E H]. apply N.eqb_eq in E. destruct HI as [->|HI].
  - exists y. split; [left; reflexivity|congruence].
  - destruct (IH n H HI L) as (c & C & D). exists c. split; [right; exact C|exact D].
Qed.

Lemma no_simple s : In 40%N s -> match_str simple_names s = None.
Proof.
  intros HI.
  assert (G : forall l, forallb (fun p => negb (existsb (fun c => (lower c =? 40)%N) (fst p))) l = true ->
              match_str l s = None).
  { induction l as [|[n k] l IH]; intros H; [reflexivity|]. cbn [match_str].
    cbn [forallb fst] in H. apply andb_true_iff in H as [A B].
    destruct (eq_ignore_case s n) eqn:E; [|apply IH, B].
    destruct (eq_ignore_case_in 40%N s n E HI eq_refl) as (c & C & D).
    assert (X : existsb (fun c => (lower c =? 40)%N) n = true).
    { apply existsb_exists. exists c. split; [exact C|]. apply N.eqb_eq, D. }
    rewrite X in A. discriminate. }
  apply G. vm_compute. reflexivity.
Qed.

(** ** Digits and words *)
Lemma pdigits_app d r : Forall (fun b => is_digit b = true) d -> is_digit (hd 0%N r) = false ->
  pdigits (d ++ r) = (d, r).
Proof.
  intros D R. induction D as [|b d Hb _ IH].
  - destruct r as [|c r]; [reflexivity|]. cbn [app pdigits hd] in *. rewrite R. reflexivity.
  - cbn [app pdigits]. rewrite Hb, IH. reflexivity.
Qed.

Lemma print_N_head n : exists a r, print_N n = a :: r /\ is_digit a = true.
Proof.
  pose proof (print_N_nonempty n) as NE. pose proof (print_N_digits n) as D.
  destruct (print_N n) as [|a r]; [congruence|]. inversion D; subst. eauto.
Qed.

Lemma digit_solid b : is_digit b = true -> solid b = true.
Proof. intros H. apply is_digit_iff in H. unfold solid, ws1. lia. Qed.

Lemma pword_body_app w r : unquoted w -> pword_body (w ++ 39%N :: r) = Some (w, 39%N :: r).
Proof.
  induction 1 as [|b w [A B] _ IH]; [reflexivity|]. cbn [app pword_body].
  destruct (N.eqb_spec b 92); [contradiction|]. destruct (N.eqb_spec b 39); [contradiction|].
  rewrite IH. reflexivity.
Qed.

Lemma pword_app w r : unquoted w -> pword (39%N :: w ++ 39%N :: r) = Some (w, r).
Proof. intros H. unfold pword. cbn [ptoken]. rewrite N.eqb_refl, pword_body_app by exact H. reflexivity. Qed.

Lemma pinteger_app z r : (-32768 <= z <= 32767)%Z -> is_digit (hd 0%N r) = false ->
  pinteger (print_Z z ++ r) = Some (z, r).
Proof.
  intros Hz Hr. unfold pinteger, print_Z.
  destruct (Z.ltb_spec z 0).
  - change ((45%N :: print_N (Z.to_N (- z))) ++ r) with (45%N :: (print_N (Z.to_N (- z)) ++ r)).
    cbn [ptoken]. rewrite N.eqb_refl, pdigits_app by (auto using print_N_digits).
    destruct (print_N_head (Z.to_N (- z))) as (a & d & E & _). rewrite digits_value_print, E.
    rewrite Z2N.id by lia. rewrite Z.opp_involutive.
    destruct (Z.leb_spec (-32768) z); [|lia]. destruct (Z.leb_spec z 32767); [|lia]. reflexivity.
  - destruct (print_N_head (Z.to_N z)) as (a & d & E & D).
    assert (T : ptoken 45 (print_N (Z.to_N z) ++ r) = None).
    { rewrite E. cbn [app ptoken]. apply is_digit_iff in D. destruct (N.eqb_spec a 45); [lia|reflexivity]. }
    rewrite T, pdigits_app by (auto using print_N_digits). rewrite digits_value_print, E.
    rewrite Z2N.id by lia.
    destruct (Z.leb_spec (-32768) z); [|lia]. destruct (Z.leb_spec z 32767); [|lia]. reflexivity.
Qed.

Lemma print_Z_head z : exists a r, print_Z z = a :: r /\ solid a = true.
Proof.
  unfold print_Z. destruct (z <? 0)%Z; [eexists _, _; split; reflexivity|].
  destruct (print_N_head (Z.to_N z)) as (a & r & E & D). exists a, r. split; [exact E|apply digit_solid, D].
Qed.

Definition entry_ok (e : bytes * Z) : Prop := unquoted (fst e) /\ (-32768 <= snd e <= 32767)%Z.

Lemma ppair_entry e r : entry_ok e -> solid (hd 0%N r) = true -> is_digit (hd 0%N r) = false ->
  ppair (enum_entry e ++ r) = Some (e, r).
Proof.
  intros [U Z] S D. destruct e as [w z]. cbn [fst snd] in *. unfold ppair, enum_entry. cbn [fst snd].
  change ((str "'" ++ w ++ str "' = " ++ print_Z z) ++ r)
    with (39%N :: (w ++ str "' = " ++ print_Z z) ++ r).
  rewrite trim_start_solid by reflexivity.
  replace ((w ++ str "' = " ++ print_Z z) ++ r) with (w ++ 39%N :: (str " = " ++ print_Z z ++ r))
    by (rewrite <- !app_assoc; reflexivity).
  rewrite pword_app by exact U.
  change (trim_start (str " = " ++ print_Z z ++ r)) with (trim_start (61%N :: 32%N :: print_Z z ++ r)).
  rewrite trim_start_solid by reflexivity. cbn [ptoken]. rewrite N.eqb_refl, trim_start_space.
  destruct (print_Z_head z) as (a & q & E & Sa).
  assert (T : trim_start (print_Z z ++ r) = print_Z z ++ r).
  { rewrite E. cbn [app]. apply trim_start_solid, Sa. }
  rewrite T, pinteger_app by assumption.
  destruct r as [|c r]; [reflexivity|]. rewrite trim_start_solid by exact S. reflexivity.
Qed.

Lemma ppairs_entries es r fuel : es <> [] -> Forall entry_ok es -> (List.length es <= fuel)%nat ->
  ppairs fuel (concat_sep (str ",") (map enum_entry es) ++ 41%N :: r) = Some (es, 41%N :: r).
Proof.
  revert fuel. induction es as [|e es IH]; intros fuel NE F L; [congruence|].
  destruct fuel as [|fuel]; [cbn [List.length] in L; lia|]. inversion F; subst. cbn [ppairs].
  destruct es as [|e' es].
  - cbn [map concat_sep]. rewrite ppair_entry by (auto; reflexivity). cbn [ptoken]. reflexivity.
  - replace (concat_sep (str ",") (map enum_entry (e :: e' :: es)) ++ 41%N :: r)
      with (enum_entry e ++ 44%N :: (concat_sep (str ",") (map enum_entry (e' :: es)) ++ 41%N :: r)).
    2:{ change (concat_sep (str ",") (map enum_entry (e :: e' :: es)))
          with (enum_entry e ++ str "," ++ concat_sep (str ",") (map enum_entry (e' :: es))).
        rewrite <- !app_assoc. reflexivity. }
    rewrite ppair_entry by (auto; reflexivity). cbn [ptoken]. rewrite N.eqb_refl.
    rewrite IH; [reflexivity|discriminate|assumption|cbn [List.length] in *; lia].
Qed.

Lemma entry_head e : exists r, enum_entry e = 39%N :: r.
Proof. destruct e. eexists. reflexivity. Qed.

Lemma concat_sep_length es :
  (List.length es <= List.length (concat_sep (str ",") (map enum_entry es)))%nat.
Proof.
  induction es as [|e es IH]; [cbn; lia|]. destruct (entry_head e) as [r E].
  destruct es as [|e' es].
  - cbn [map concat_sep List.length]. rewrite E. cbn [List.length]. lia.
  - change (concat_sep (str ",") (map enum_entry (e :: e' :: es)))
      with (enum_entry e ++ str "," ++ concat_sep (str ",") (map enum_entry (e' :: es))).
    rewrite !app_length. rewrite E. cbn [List.length str] in *. cbn in *. lia.
Qed.

Lemma concat_sep_head es : es <> [] ->
  exists r, concat_sep (str ",") (map enum_entry es) = 39%N :: r.
Proof.
  destruct es as [|e es]; intros H; [congruence|]. destruct (entry_head e) as [r E].
  destruct es as [|e' es].
  - exists r. exact E.
  - change (concat_sep (str ",") (map enum_entry (e :: e' :: es)))
      with (enum_entry e ++ str "," ++ concat_sep (str ",") (map enum_entry (e' :: es))).
    rewrite E. eexists. reflexivity.
Qed.

Lemma parse_enum_ok kw es : solid (hd 32%N kw) = true -> es <> [] -> Forall entry_ok es ->
  parse_enum kw (kw ++ 40%N :: concat_sep (str ",") (map enum_entry es) ++ [41%N]) = Some es.
Proof.
  intros K NE F. unfold parse_enum. destruct kw as [|k kw]; [discriminate|]. cbn [app].
  rewrite trim_start_solid by exact K. 
  assert (SP : forall p s, strip_prefix p (p ++ s) = Some s).
  { induction p as [|x p IH]; intros s; [reflexivity|]. cbn [app strip_prefix]. rewrite N.eqb_refl. apply IH. }
  change (k :: kw ++ 40%N :: concat_sep (str ",") (map enum_entry es) ++ [41%N])
    with ((k :: kw) ++ 40%N :: concat_sep (str ",") (map enum_entry es) ++ [41%N]).
  rewrite SP. rewrite trim_start_solid by reflexivity. cbn [ptoken]. rewrite N.eqb_refl.
  assert (T : trim_start (concat_sep (str ",") (map enum_entry es) ++ [41%N]) =
              concat_sep (str ",") (map enum_entry es) ++ [41%N]).
  { destruct (concat_sep_head es NE) as [r E]. rewrite E. cbn [app]. apply trim_start_solid. reflexivity. }
  rewrite T, ppairs_entries; auto.
  rewrite app_length. pose proof (concat_sep_length es). lia.
Qed.

(** ** Alternatives that do not apply *)
Lemma no_decimal s : starts_with (str "Decimal") s = false -> parse_decimal s = Ok None.
Proof. intros H. unfold parse_decimal. rewrite H. destruct (_ <? _); reflexivity. Qed.

Lemma no_enum kw s : solid (hd 32%N s) = true -> strip_prefix kw s = None -> parse_enum kw s = None.
Proof.
  intros S H. destruct s as [|a s]; [discriminate|]. unfold parse_enum.
  rewrite trim_start_solid by exact S. rewrite H. reflexivity.
Qed.
Lemma no_enum8 s : solid (hd 32%N s) = true -> strip_prefix (str "Enum8") s = None -> parse_enum8 s = None.
Proof. intros S H. unfold parse_enum8. rewrite no_enum by assumption. reflexivity. Qed.

Lemma no_date_time s : solid (hd 32%N s) = true -> strip_prefix (str "DateTime") s = None ->
  strip_prefix (str "Timestamp") s = None -> parse_date_time s = None.
Proof.
  intros S A B. destruct s as [|a s]; [discriminate|]. unfold parse_date_time.
  rewrite trim_start_solid by exact S. rewrite A, B. reflexivity.
Qed.

Lemma no_date_time64 s : solid (hd 32%N s) = true -> strip_prefix (str "DateTime64") s = None ->
  parse_date_time64 s = None.
Proof.
  intros S A. destruct s as [|a s]; [discriminate|]. unfold parse_date_time64.
  rewrite trim_start_solid by exact S. rewrite A. reflexivity.
Qed.

(** ** Names *)
Lemma name_head t : exists a r, type_name t = a :: r /\ (65 <= a <= 90)%N.
Proof.
  assert (G : forall a r s, s = a :: r -> ((65 <=? a) && (a <=? 90))%N = true ->
              exists a r, s = a :: r /\ (65 <= a <= 90)%N).
  { intros a r s E H. exists a, r. split; [exact E|lia]. }
  destruct t; try (eapply G; reflexivity).
  - destruct s; eapply G; reflexivity.
  - destruct d; eapply G; reflexivity.
Qed.

Lemma last_solid s : s <> [] -> solid (last s 0%N) = true -> exists r a, s = r ++ [a] /\ solid a = true.
Proof. intros NE H. exists (removelast s), (last s 0%N). split; [apply app_removelast_last, NE|exact H]. Qed.

Lemma name_framed t : framed (type_name t).
Proof.
  split.
  - destruct (name_head t) as (a & r & E & H). exists a, r. split; [exact E|]. unfold solid, ws1. lia.
  - assert (G : forall (a : bytes) x, exists r z, a ++ x ++ [41%N] = r ++ [z] /\ solid z = true).
    { intros a x. exists (a ++ x), 41%N. split; [apply app_assoc|reflexivity]. }
    destruct t as [s| | | |[|p tz|]| | | | | | | | | | |]; cbn [type_name];
      try (apply last_solid; [discriminate|reflexivity]).
    + destruct s; (apply last_solid; [discriminate|reflexivity]).
    + apply (G (str "FixedString(")).
    + exists (str "DateTime64(" ++ print_N p ++ str ", '" ++ tz ++ str "'"), 41%N.
      split; [rewrite <- !app_assoc; reflexivity|reflexivity].
    + apply (G (str "Nullable(")).
    + apply (G (str "Array(")).
    + apply (G (str "LowCardinality(")).
    + exists (str "Decimal(" ++ print_N precision ++ str ", " ++ print_N scale), 41%N.
      split; [rewrite <- !app_assoc; reflexivity|reflexivity].
    + apply (G (str "Enum8(")).
    + apply (G (str "Enum16(")).
    + exists (str "SimpleAggregateFunction(" ++ agg_name f ++ str ", " ++ type_name t), 41%N.
      split; [rewrite <- !app_assoc; reflexivity|reflexivity].
    + exists (str "Map(" ++ type_name t1 ++ str ", " ++ type_name t2), 41%N.
      split; [rewrite <- !app_assoc; reflexivity|reflexivity].
Qed.

Lemma name_hd t d : is_cont (hd d (type_name t)) = false.
Proof. destruct (name_head t) as (a & r & -> & H). cbn [hd]. unfold is_cont. lia. Qed.

(** What the name of a type selects. *)
Definition kind_of (t : sqltype) : kind :=
  match t with
  | TNum s => KNum s
  | TString => KString
  | TFixedString n => KFixed n
  | TDate => KDate
  | TDateTime (DateTime64 p tz) => KDateTime64 p (Some tz)
  | TDateTime _ => KDateTime None
  | TIpv4 => KIp IpV4
  | TIpv6 => KIp IpV6
  | TUuid => KIp IpUuid
  | TNullable i => KNullable (type_name i)
  | TArray i => KArray (type_name i)
  | TLowCardinality i => KLow (type_name i)
  | TDecimal p s => KDecimal p s (if (p <=? 9)%N then N32 else N64)
  | TEnum8 vals => KEnum8 vals
  | TEnum16 vals => KEnum16 vals
  | TAgg f i => KAgg f (type_name i)
  | TMap k v => KMap (type_name k) (type_name v)
  end.

Lemma in_paren (a : bytes) x : In 40%N a -> In 40%N (a ++ x).
Proof. intros H. apply in_or_app. left. exact H. Qed.

Ltac skip_to := rewrite no_simple by (apply in_paren; vm_compute; tauto).

Lemma find_char_name k r : Forall (fun b => (b < 128)%N /\ b <> 44%N) k ->
  find_char 44 (k ++ 44%N :: r) = Some (List.length k).
Proof.
  induction 1 as [|b k [A B] _ IH]; [reflexivity|]. cbn [app find_char List.length].
  destruct (N.eqb_spec b 44); [contradiction|]. rewrite IH. unfold is_cont.
  destruct (N.leb_spec 128 b); [lia|]. reflexivity.
Qed.

Lemma find_byte_app b x r : ~ In b x -> find_byte b (x ++ b :: r) = Some (List.length x).
Proof.
  induction x as [|c x IH]; intros H; cbn [app find_byte List.length].
  - rewrite N.eqb_refl. reflexivity.
  - destruct (N.eqb_spec c b) as [->|]; [exfalso; apply H; left; reflexivity|].
    rewrite IH; [reflexivity|]. intros HI. apply H. right. exact HI.
Qed.

Lemma print_N_ascii n : Forall (fun b => (b < 128)%N /\ b <> 44%N) (print_N n).
Proof.
  eapply Forall_impl; [|apply print_N_digits]. intros b H. apply is_digit_iff in H. lia.
Qed.

Lemma unary_name k : unary k -> Forall (fun b => (b < 128)%N /\ b <> 44%N) (type_name k).
Proof.
  assert (C : forall s, forallb (fun b => (b <? 128) && negb (b =? 44))%N s = true ->
              Forall (fun b => (b < 128)%N /\ b <> 44%N) s).
  { intros s H. apply Forall_forall. intros b HI. rewrite forallb_forall in H. specialize (H b HI). lia. }
  assert (CZ : forall z, Forall (fun b => (b < 128)%N /\ b <> 44%N) (print_Z z)).
  { intros z. unfold print_Z. destruct (z <? 0)%Z; [constructor; [lia|]|]; apply print_N_ascii. }
  induction k as [s| |n| |[|p tz|]| | | |k IH|k IH|k IH|p s|vals|vals|f k IH|k1 IH1 k2 IH2];
    cbn [unary type_name]; intros U; try contradiction;
    try (apply C; reflexivity);
    repeat (apply Forall_app; split); try (apply C; reflexivity); auto.
  - destruct s; apply C; reflexivity.
  - apply print_N_ascii.
  - destruct vals as [|[l z] [|? ?]]; try contradiction. cbn [map concat_sep enum_entry fst snd].
    unfold enum_entry; cbn [fst snd].
    repeat (apply Forall_app; split); try (apply C; reflexivity); auto.
  - destruct vals as [|[l z] [|? ?]]; try contradiction. cbn [map concat_sep enum_entry fst snd].
    unfold enum_entry; cbn [fst snd].
    repeat (apply Forall_app; split); try (apply C; reflexivity); auto.
Qed.

Lemma decimal_scan_tail s x nb po pc idx : Forall (fun b => (b < 128)%N /\ b <> 40%N /\ b <> 41%N) x ->
  decimal_scan s idx (x ++ [41%N]) nb po pc = Some (nb, po, Some (idx + List.length x)).
Proof.
  intros F. revert idx. induction F as [|b x (A & B & C) _ IH]; intros idx; cbn [app decimal_scan List.length].
  - cbn. rewrite Nat.add_0_r. reflexivity.
  - destruct (N.eqb_spec b 41); [contradiction|]. destruct (N.eqb_spec b 40); [contradiction|].
    rewrite IH. do 2 f_equal. f_equal. lia.
Qed.

Lemma split_on_none b x : ~ In b x -> split_on b x = [x].
Proof.
  induction x as [|c x IH]; intros H; [reflexivity|]. cbn [split_on].
  destruct (N.eqb_spec c b) as [->|]; [exfalso; apply H; left; reflexivity|].
  rewrite IH; [reflexivity|]. intros HI. apply H. right. exact HI.
Qed.
Lemma split_on_app b x r : ~ In b x -> split_on b (x ++ b :: r) = x :: split_on b r.
Proof.
  induction x as [|c x IH]; intros H; cbn [app split_on].
  - rewrite N.eqb_refl. reflexivity.
  - destruct (N.eqb_spec c b) as [->|]; [exfalso; apply H; left; reflexivity|].
    rewrite IH; [reflexivity|]. intros HI. apply H. right. exact HI.
Qed.

Lemma print_N_framed n : framed (print_N n).
Proof.
  split.
  - destruct (print_N_head n) as (a & r & E & D). exists a, r. split; [exact E|apply digit_solid, D].
  - apply last_solid; [apply print_N_nonempty|]. apply digit_solid.
    pose proof (print_N_digits n) as D. rewrite Forall_forall in D. apply D.
    rewrite (app_removelast_last 0%N (print_N_nonempty n)) at 2. apply in_or_app. right. left. reflexivity.
Qed.

Lemma parse_decimal_ok p s : (s <= p <= 18)%N ->
  parse_decimal (type_name (TDecimal p s)) = Ok (Some (p, s, if (p <=? 9)%N then N32 else N64)).
Proof.
  intros H. cbn [type_name]. set (body := print_N p ++ str ", " ++ print_N s).
  assert (E : str "Decimal(" ++ print_N p ++ str ", " ++ print_N s ++ str ")" = str "Decimal(" ++ body ++ [41%N]).
  { unfold body. rewrite <- !app_assoc. reflexivity. }
  rewrite E. unfold parse_decimal.
  assert (L : (List.length (str "Decimal(" ++ body ++ [41%N]) <? 12) = false).
  { apply Nat.ltb_ge. rewrite !app_length. unfold body. rewrite !app_length.
    destruct (print_N_head p) as (a & r & -> & _). destruct (print_N_head s) as (a' & r' & -> & _).
    cbn. lia. }
  rewrite L.
  change (starts_with (str "Decimal") (str "Decimal(" ++ body ++ [41%N])) with true. cbn [negb].
  assert (D : decimal_scan (str "Decimal(" ++ body ++ [41%N]) 0 (str "Decimal(" ++ body ++ [41%N]) None None None
              = Some (None, Some 7, Some (8 + List.length body))).
  { transitivity (decimal_scan (str "Decimal(" ++ body ++ [41%N]) 8 (body ++ [41%N]) None (Some 7) None).
    - reflexivity.
    - apply decimal_scan_tail. unfold body. repeat (apply Forall_app; split).
      + eapply Forall_impl; [|apply print_N_digits]. intros b Hb. apply is_digit_iff in Hb. lia.
      + repeat constructor; cbn; lia.
      + eapply Forall_impl; [|apply print_N_digits]. intros b Hb. apply is_digit_iff in Hb. lia. }
  rewrite D. change (7 + 1) with (List.length (str "Decimal(")).
  change (8 + List.length body) with (List.length (str "Decimal(") + List.length body).
  rewrite str_slice_mid; [| |reflexivity].
  2:{ unfold body. destruct (print_N_head p) as (a & r & -> & Hd). cbn [app hd].
      apply solid_not_cont, digit_solid, Hd. }
  cbn [rbind].
  assert (NC : forall n, ~ In 44%N (print_N n)).
  { intros n HI. pose proof (print_N_ascii n) as F. rewrite Forall_forall in F. apply (proj2 (F _ HI)). reflexivity. }
  unfold body. change (print_N p ++ str ", " ++ print_N s) with (print_N p ++ 44%N :: (32%N :: print_N s)).
  rewrite split_on_app by apply NC. rewrite split_on_none.
  2:{ intros [X|X]; [discriminate|]. exact (NC _ X). }
  cbn [map]. rewrite (trim_framed (print_N p)) by apply print_N_framed.
  assert (T : trim (32%N :: print_N s) = print_N s).
  { unfold trim. rewrite trim_start_space. apply (trim_framed (print_N s)), print_N_framed. }
  rewrite T, !parse_uint_print by (unfold u8_max; lia).
  destruct (N.ltb_spec p s); [lia|]. unfold from_precision.
  destruct (N.leb_spec p 9); [reflexivity|]. destruct (N.leb_spec p 18); [reflexivity|lia].
Qed.

Lemma date_time64_ok p tz : (p < 2 ^ 32)%N -> unquoted tz ->
  parse_date_time64 (type_name (TDateTime (DateTime64 p tz))) = Some (p, Some tz).
Proof.
  intros P U. cbn [type_name]. unfold parse_date_time64.
  change (trim_start (str "DateTime64(" ++ print_N p ++ str ", '" ++ tz ++ str "')"))
    with (trim_start (68%N :: (str "ateTime64(" ++ print_N p ++ str ", '" ++ tz ++ str "')"))).
  rewrite trim_start_solid by reflexivity.
  change (strip_prefix (str "DateTime64") (68%N :: (str "ateTime64(" ++ print_N p ++ str ", '" ++ tz ++ str "')")))
    with (Some (40%N :: print_N p ++ str ", '" ++ tz ++ str "')")).
  cbv iota beta. rewrite trim_start_solid by reflexivity. cbn [ptoken]. rewrite N.eqb_refl.
  assert (T : forall x, trim_start (print_N p ++ x) = print_N p ++ x).
  { intros x. destruct (print_N_head p) as (a & r & -> & Hd). cbn [app]. apply trim_start_solid, digit_solid, Hd. }
  rewrite T, pdigits_app by (auto using print_N_digits).
  rewrite parse_uint_print by (unfold u32_max; lia).
  change (str ", '" ++ tz ++ str "')") with (44%N :: 32%N :: 39%N :: tz ++ str "')").
  rewrite trim_start_solid by reflexivity. cbn [ptoken]. rewrite N.eqb_refl, trim_start_space.
  rewrite trim_start_solid by reflexivity. change (str "')") with (39%N :: [41%N]).
  rewrite pword_app by exact U. rewrite trim_start_solid by reflexivity. reflexivity.
Qed.

Lemma parse_map_ok k v : unary k ->
  parse_map (type_name (TMap k v)) = Ok (Some (type_name k, type_name v)).
Proof.
  intros U. cbn [type_name].
  assert (E : str "Map(" ++ type_name k ++ str ", " ++ type_name v ++ str ")"
              = str "Map(" ++ (type_name k ++ 44%N :: 32%N :: type_name v) ++ [41%N]).
  { rewrite <- !app_assoc. reflexivity. }
  rewrite E. unfold parse_map.
  change (starts_with (str "Map") (str "Map(" ++ (type_name k ++ 44%N :: 32%N :: type_name v) ++ [41%N])) with true.
  cbv iota. rewrite slice_args; [|reflexivity|].
  2:{ pose proof (name_hd k 41%N) as X. destruct (name_head k) as (a & r & Ek & _). rewrite Ek in X |- *. exact X. }
  cbn [rbind]. rewrite find_char_name by (apply unary_name, U).
  pose proof (str_slice_mid [] (type_name k) (44%N :: 32%N :: type_name v)) as S1. cbn [List.length Nat.add app] in S1.
  rewrite S1; [|destruct (name_head k) as (a & r & Ek & Hr); rewrite Ek; cbn [app hd]; unfold is_cont; lia|reflexivity].
  cbn [rbind].
  pose proof (str_slice_mid (type_name k ++ [44%N]) (32%N :: type_name v) []) as S2.
  rewrite app_nil_r, app_length, <- app_assoc in S2. cbn [app] in S2.
  replace (List.length (type_name k ++ 44%N :: 32%N :: type_name v))
    with (List.length (type_name k) + List.length [44%N] + List.length (32%N :: type_name v)).
  2:{ rewrite app_length. cbn [List.length]. lia. }
  change 1 with (List.length [44%N]) at 1. rewrite S2 by reflexivity.
  cbn [rbind]. rewrite (trim_framed (type_name k)) by apply name_framed.
  unfold trim at 1. rewrite trim_start_space.
  change (trim_end (trim_start (type_name v))) with (trim (type_name v)).
  rewrite trim_framed by apply name_framed. reflexivity.
Qed.

Lemma agg_parse_name f : agg_parse (agg_name f) = Some f.
Proof. destruct f; reflexivity. Qed.

Lemma agg_name_ok f : framed (agg_name f) /\ ~ In 44%N (agg_name f) /\
  exists a r, agg_name f = a :: r /\ is_paren a = false /\ solid a = true.
Proof.
  split; [split|split].
  - destruct f; eexists _, _; (split; [reflexivity|reflexivity]).
  - destruct f; (apply last_solid; [discriminate|reflexivity]).
  - destruct f; vm_compute; intuition discriminate.
  - destruct f; eexists _, _; repeat split; reflexivity.
Qed.

Lemma one_word_last t : one_word t -> exists r a, type_name t = r ++ [a] /\ is_paren a = false.
Proof.
  intros H. assert (G : forall s, s <> [] -> is_paren (last s 0%N) = false ->
    exists r a, s = r ++ [a] /\ is_paren a = false).
  { intros s NE L. exists (removelast s), (last s 0%N). split; [apply app_removelast_last, NE|exact L]. }
  destruct t as [s| | | |[| |]| | | | | | | | | | |]; cbn in H; try contradiction;
    try (apply G; [discriminate|reflexivity]).
  destruct s; (apply G; [discriminate|reflexivity]).
Qed.

Lemma trim_parens x y z : is_paren x = false -> is_paren z = false ->
  trim_matches is_paren (40%N :: (x :: y ++ [z]) ++ [41%N]) = x :: y ++ [z].
Proof.
  intros X Z. unfold trim_matches. cbn [drop_while]. change (is_paren 40) with true. cbv iota.
  cbn [app drop_while]. rewrite X.
  change (x :: (y ++ [z]) ++ [41%N]) with ((x :: y ++ [z]) ++ [41%N]). rewrite rev_app_distr.
  cbn [rev app drop_while]. change (is_paren 41) with true. cbv iota.
  rewrite rev_app_distr. cbn [rev app drop_while]. rewrite Z. cbn [rev].
  rewrite rev_app_distr. rewrite rev_involutive. cbn [rev app]. reflexivity.
Qed.

Lemma parse_agg_ok f i : one_word i ->
  parse_agg (type_name (TAgg f i)) = Ok (Some (f, type_name i)).
Proof.
  intros O. cbn [type_name]. destruct (agg_name_ok f) as (FF & NC & a & r & Ef & Pa & Sa).
  destruct (one_word_last i O) as (ri & zi & Ei & Pz).
  set (args := agg_name f ++ str ", " ++ type_name i).
  assert (E : str "SimpleAggregateFunction(" ++ agg_name f ++ str ", " ++ type_name i ++ str ")"
              = str "SimpleAggregateFunction" ++ (40%N :: args ++ [41%N])).
  { unfold args. rewrite <- !app_assoc. reflexivity. }
  rewrite E. unfold parse_agg.
  assert (EW : ends_with_byte 41 (str "SimpleAggregateFunction" ++ 40%N :: args ++ [41%N]) = true).
  { unfold ends_with_byte. change (40%N :: args ++ [41%N]) with ((40%N :: args) ++ [41%N]).
    rewrite app_assoc, rev_app_distr. reflexivity. }
  rewrite EW.
  change (starts_with (str "SimpleAggregateFunction(") (str "SimpleAggregateFunction" ++ 40%N :: args ++ [41%N]))
    with true. cbn [andb].
  pose proof (str_slice_mid (str "SimpleAggregateFunction") (40%N :: args ++ [41%N]) []) as S.
  rewrite app_nil_r in S. rewrite <- app_length in S.
  change (List.length (str "SimpleAggregateFunction")) with 23 in S.
  rewrite S by reflexivity. cbn [rbind].
  assert (EA : args = a :: (r ++ str ", " ++ ri) ++ [zi]).
  { unfold args. rewrite Ef, Ei. cbn [app]. rewrite <- !app_assoc. reflexivity. }
  assert (TP : trim_matches is_paren (40%N :: args ++ [41%N]) = args).
  { rewrite EA. apply trim_parens; assumption. }
  rewrite TP. clear TP EA E EW S.
  unfold args. change (str ", " ++ type_name i) with (44%N :: 32%N :: type_name i).
  rewrite find_byte_app by exact NC.
  pose proof (str_slice_mid [] (agg_name f) (44%N :: 32%N :: type_name i)) as S1. cbn [List.length Nat.add app] in S1.
  rewrite S1; [|rewrite Ef; cbn [app hd]; apply solid_not_cont, Sa|reflexivity].
  cbn [rbind].
  pose proof (str_slice_mid (agg_name f ++ [44%N]) (32%N :: type_name i) []) as S2.
  rewrite app_nil_r, app_length, <- app_assoc in S2. cbn [app] in S2.
  replace (List.length (agg_name f ++ 44%N :: 32%N :: type_name i))
    with (List.length (agg_name f) + List.length [44%N] + List.length (32%N :: type_name i)).
  2:{ rewrite app_length. cbn [List.length]. lia. }
  change 1 with (List.length [44%N]) at 1. rewrite S2 by reflexivity.
  cbn [rbind]. rewrite (trim_framed (agg_name f)) by exact FF. rewrite agg_parse_name.
  unfold trim. rewrite trim_start_space.
  change (trim_end (trim_start (type_name i))) with (trim (type_name i)).
  rewrite trim_framed by apply name_framed. reflexivity.
Qed.

Lemma parse_low_ok i :
  parse_low_cardinality (type_name (TLowCardinality i)) = Ok (Some (type_name i)).
Proof.
  cbn [type_name]. change (str ")") with [41%N]. unfold parse_low_cardinality.
  change (starts_with (str "LowCardinality") (str "LowCardinality(" ++ type_name i ++ [41%N])) with true.
  cbv iota. set (s := str "LowCardinality(" ++ type_name i ++ [41%N]).
  assert (L : List.length s = 15 + List.length (type_name i) + 1).
  { unfold s. rewrite !app_length. change (List.length (str "LowCardinality(")) with 15. cbn [List.length]. lia. }
  destruct (name_head i) as (a & r & Ei & Hr).
  assert (Li : List.length (type_name i) = S (List.length r)) by (rewrite Ei; reflexivity).
  assert (U : scan_up 40 s (List.length s) 14 = Ok 14).
  { rewrite L. cbn [Nat.add scan_up].
    destruct (Nat.ltb_spec 14 (List.length s)); [|lia].
    pose proof (str_slice_mid (str "LowCardinality") [40%N] (type_name i ++ [41%N])) as S1.
    change (str "LowCardinality" ++ [40%N] ++ type_name i ++ [41%N]) with s in S1.
    change (List.length (str "LowCardinality") + List.length [40%N]) with (14 + 1) in S1.
    change (List.length (str "LowCardinality")) with 14 in S1.
    change 15 with (14 + 1). rewrite S1; [reflexivity|reflexivity|].
    rewrite Ei. cbn [app hd]. unfold is_cont. lia. }
  rewrite U. cbn [rbind].
  assert (Hi : List.length s - 1 = 15 + List.length (type_name i)) by lia. rewrite Hi.
  assert (D : scan_down 41 s 14 (15 + List.length (type_name i)) = Ok (15 + List.length (type_name i))).
  { cbn [Nat.add scan_down].
    destruct (Nat.ltb_spec 14 (S (14 + List.length (type_name i)))); [|cbn [Nat.add] in *; lia].
    cbn [Nat.add].
    pose proof (str_slice_mid (str "LowCardinality(" ++ type_name i) [41%N] []) as S1.
    rewrite app_nil_r, <- app_assoc in S1. fold s in S1. rewrite app_length in S1.
    change (List.length (str "LowCardinality(")) with 15 in S1. cbn [Nat.add List.length] in S1.
    rewrite S1 by reflexivity. reflexivity. }
  rewrite D. cbn [rbind].
  destruct (Nat.leb_spec (15 + List.length (type_name i)) 14); [lia|].
  change (14 + 1) with (List.length (str "LowCardinality(")).
  change (15 + List.length (type_name i)) with (List.length (str "LowCardinality(") + List.length (type_name i)).
  unfold s. rewrite str_slice_mid; [| |reflexivity].
  - cbn [rbind]. rewrite trim_framed by apply name_framed. reflexivity.
  - rewrite Ei. cbn [app hd]. unfold is_cont. lia.
Qed.

Section Classify.
Variable tz_known : bytes -> bool.

Lemma slice_name a n i : List.length a = n ->
  str_slice (a ++ type_name i ++ [41%N]) n (List.length (a ++ type_name i ++ [41%N]) - 1) = Ok (type_name i).
Proof. intros E. apply slice_args; [exact E|apply name_hd]. Qed.

Lemma entries8 vals : Forall (fun e : bytes * Z => unquoted (fst e) /\ (-128 <= snd e <= 127)%Z) vals ->
  Forall entry_ok vals.
Proof. apply Forall_impl. intros e [A B]. split; [exact A|lia]. Qed.

Lemma as_i8_id z : (-128 <= z <= 127)%Z -> as_i8 z = z.
Proof.
  intros H. unfold as_i8, to_signed, to_unsigned. change (2 ^ (8 * Z.of_nat 1))%Z with 256%Z.
  rewrite Z2N.id by (apply Z.mod_pos_bound; lia). rewrite Zmod_mod. change (256 / 2)%Z with 128%Z.
  destruct (Z.ltb_spec (z mod 256) 128); lia.
Qed.

Theorem classify_name t : nameable tz_known t -> classify (type_name t) = Ok (Some (kind_of t)).
Proof.
  destruct t as [s| |n| |[|p tz|]| | | |i|i|i|p s|vals|vals|f i|k v]; intros H;
    try reflexivity.
  - destruct s; reflexivity.
  - cbn [type_name nameable kind_of] in *. unfold classify. skip_to.
    replace (parse_nullable (str "FixedString(" ++ print_N n ++ str ")")) with (Ok (@None bytes)) by reflexivity.
    cbn [rbind]. unfold parse_fixed_string.
    change (starts_with (str "FixedString") (str "FixedString(" ++ print_N n ++ str ")")) with true. cbv iota.
    change (str ")") with [41%N]. rewrite slice_args; [|reflexivity|].
    + cbn [rbind]. rewrite parse_uint_print by (unfold usize_max; lia). reflexivity.
    + destruct (print_N_head n) as (a & r & -> & D). cbn [hd]. apply solid_not_cont, digit_solid, D.
  - cbn [nameable kind_of] in *. destruct H as (P & U & K). pose proof (date_time64_ok p tz P U) as D.
    remember (type_name (TDateTime (DateTime64 p tz))) as s eqn:Es. cbn [type_name] in Es.
    assert (N0 : match_str simple_names s = None) by (rewrite Es; skip_to; reflexivity).
    assert (N1 : parse_nullable s = Ok None) by (rewrite Es; reflexivity).
    assert (N2 : parse_fixed_string s = Ok None) by (rewrite Es; reflexivity).
    assert (N3 : parse_array s = Ok None) by (rewrite Es; reflexivity).
    assert (N4 : parse_map s = Ok None) by (rewrite Es; reflexivity).
    assert (N5 : parse_decimal s = Ok None) by (rewrite Es; apply no_decimal; reflexivity).
    assert (N6 : parse_enum8 s = None) by (rewrite Es; apply no_enum8; reflexivity).
    assert (N7 : parse_enum16 s = None) by (rewrite Es; apply no_enum; reflexivity).
    assert (N8 : parse_date_time s = None).
    { rewrite Es. unfold parse_date_time.
      change (str "DateTime64(" ++ print_N p ++ str ", '" ++ tz ++ str "')")
        with (68%N :: (str "ateTime64(" ++ print_N p ++ str ", '" ++ tz ++ str "')")).
      rewrite trim_start_solid by reflexivity. reflexivity. }
    unfold classify. rewrite N0, N1. cbn [rbind]. rewrite N2. cbn [rbind]. rewrite N3. cbn [rbind].
    rewrite N4. cbn [rbind]. rewrite N5. cbn [rbind]. rewrite N6, N7, N8, D. reflexivity.
  - cbn [type_name nameable kind_of] in *. destruct H as [_ NN]. unfold classify. skip_to.
    unfold parse_nullable.
    change (starts_with (str "Nullable") (str "Nullable(" ++ type_name i ++ str ")")) with true. cbv iota.
    change (str ")") with [41%N]. rewrite slice_name by reflexivity. cbn [rbind].
    assert (S : starts_with (str "Nullable") (type_name i) = false).
    { destruct i as [s| |n| |[|p tz|]| | | |i|i|i|p s|vals|vals|f i|k v]; try reflexivity; try contradiction.
      destruct s; reflexivity. }
    rewrite S. reflexivity.
  - cbn [type_name nameable kind_of] in *. unfold classify. skip_to.
    replace (parse_nullable (str "Array(" ++ type_name i ++ str ")")) with (Ok (@None bytes)) by reflexivity.
    cbn [rbind].
    replace (parse_fixed_string (str "Array(" ++ type_name i ++ str ")")) with (Ok (@None N)) by reflexivity.
    cbn [rbind]. unfold parse_array.
    change (starts_with (str "Array") (str "Array(" ++ type_name i ++ str ")")) with true. cbv iota.
    change (str ")") with [41%N]. rewrite slice_name by reflexivity. reflexivity.
  - cbn [kind_of] in *. pose proof (parse_low_ok i) as D.
    remember (type_name (TLowCardinality i)) as s eqn:Es. cbn [type_name] in Es.
    assert (N0 : match_str simple_names s = None) by (rewrite Es; skip_to; reflexivity).
    assert (N1 : parse_nullable s = Ok None) by (rewrite Es; reflexivity).
    assert (N2 : parse_fixed_string s = Ok None) by (rewrite Es; reflexivity).
    assert (N3 : parse_array s = Ok None) by (rewrite Es; reflexivity).
    assert (N4 : parse_map s = Ok None) by (rewrite Es; reflexivity).
    assert (N5 : parse_decimal s = Ok None) by (rewrite Es; apply no_decimal; reflexivity).
    assert (N6 : parse_enum8 s = None) by (rewrite Es; apply no_enum8; reflexivity).
    assert (N7 : parse_enum16 s = None) by (rewrite Es; apply no_enum; reflexivity).
    assert (N8 : parse_date_time s = None) by (rewrite Es; apply no_date_time; reflexivity).
    assert (N9 : parse_date_time64 s = None) by (rewrite Es; apply no_date_time64; reflexivity).
    assert (N10 : parse_agg s = Ok None) by (rewrite Es; reflexivity).
    unfold classify. rewrite N0, N1. cbn [rbind]. rewrite N2. cbn [rbind]. rewrite N3. cbn [rbind].
    rewrite N4. cbn [rbind]. rewrite N5. cbn [rbind]. rewrite N6, N7, N8, N9, N10. cbn [rbind]. rewrite D. reflexivity.
  - cbn [nameable kind_of] in *. pose proof (parse_decimal_ok p s H) as D.
    remember (type_name (TDecimal p s)) as n eqn:Es. cbn [type_name] in Es.
    assert (N0 : match_str simple_names n = None) by (rewrite Es; skip_to; reflexivity).
    assert (N1 : parse_nullable n = Ok None) by (rewrite Es; reflexivity).
    assert (N2 : parse_fixed_string n = Ok None) by (rewrite Es; reflexivity).
    assert (N3 : parse_array n = Ok None) by (rewrite Es; reflexivity).
    assert (N4 : parse_map n = Ok None) by (rewrite Es; reflexivity).
    unfold classify. rewrite N0, N1. cbn [rbind]. rewrite N2. cbn [rbind]. rewrite N3. cbn [rbind].
    rewrite N4. cbn [rbind]. rewrite D. reflexivity.
  - cbn [nameable kind_of] in *. destruct H as [NE F].
    pose proof (parse_enum_ok (str "Enum8") vals eq_refl NE (entries8 vals F)) as D.
    change (str "Enum8" ++ 40%N :: concat_sep (str ",") (map enum_entry vals) ++ [41%N])
      with (type_name (TEnum8 vals)) in D.
    remember (type_name (TEnum8 vals)) as n eqn:Es. cbn [type_name] in Es.
    assert (N0 : match_str simple_names n = None) by (rewrite Es; skip_to; reflexivity).
    assert (N1 : parse_nullable n = Ok None) by (rewrite Es; reflexivity).
    assert (N2 : parse_fixed_string n = Ok None) by (rewrite Es; reflexivity).
    assert (N3 : parse_array n = Ok None) by (rewrite Es; reflexivity).
    assert (N4 : parse_map n = Ok None) by (rewrite Es; reflexivity).
    assert (N5 : parse_decimal n = Ok None) by (rewrite Es; apply no_decimal; reflexivity).
    unfold classify. rewrite N0, N1. cbn [rbind]. rewrite N2. cbn [rbind]. rewrite N3. cbn [rbind].
    rewrite N4. cbn [rbind]. rewrite N5. cbn [rbind]. unfold parse_enum8. rewrite D.
    do 3 f_equal. clear - F. induction F as [|[l z] es [_ R] _ IH]; [reflexivity|].
    cbn [map fst snd] in *. rewrite IH, as_i8_id by exact R. reflexivity.
  - cbn [nameable kind_of] in *. destruct H as [NE F].
    pose proof (parse_enum_ok (str "Enum16") vals eq_refl NE F) as D.
    change (str "Enum16" ++ 40%N :: concat_sep (str ",") (map enum_entry vals) ++ [41%N])
      with (type_name (TEnum16 vals)) in D.
    remember (type_name (TEnum16 vals)) as n eqn:Es. cbn [type_name] in Es.
    assert (N0 : match_str simple_names n = None) by (rewrite Es; skip_to; reflexivity).
    assert (N1 : parse_nullable n = Ok None) by (rewrite Es; reflexivity).
    assert (N2 : parse_fixed_string n = Ok None) by (rewrite Es; reflexivity).
    assert (N3 : parse_array n = Ok None) by (rewrite Es; reflexivity).
    assert (N4 : parse_map n = Ok None) by (rewrite Es; reflexivity).
    assert (N5 : parse_decimal n = Ok None) by (rewrite Es; apply no_decimal; reflexivity).
    assert (N6 : parse_enum8 n = None) by (rewrite Es; apply no_enum8; reflexivity).
    unfold classify. rewrite N0, N1. cbn [rbind]. rewrite N2. cbn [rbind]. rewrite N3. cbn [rbind].
    rewrite N4. cbn [rbind]. rewrite N5. cbn [rbind]. rewrite N6. unfold parse_enum16. rewrite D. reflexivity.
  - cbn [nameable kind_of] in *. destruct H as [_ O]. pose proof (parse_agg_ok f i O) as D.
    remember (type_name (TAgg f i)) as s eqn:Es. cbn [type_name] in Es.
    assert (N0 : match_str simple_names s = None) by (rewrite Es; skip_to; reflexivity).
    assert (N1 : parse_nullable s = Ok None) by (rewrite Es; reflexivity).
    assert (N2 : parse_fixed_string s = Ok None) by (rewrite Es; reflexivity).
    assert (N3 : parse_array s = Ok None) by (rewrite Es; reflexivity).
    assert (N4 : parse_map s = Ok None) by (rewrite Es; reflexivity).
    assert (N5 : parse_decimal s = Ok None) by (rewrite Es; apply no_decimal; reflexivity).
    assert (N6 : parse_enum8 s = None) by (rewrite Es; apply no_enum8; reflexivity).
    assert (N7 : parse_enum16 s = None) by (rewrite Es; apply no_enum; reflexivity).
    assert (N8 : parse_date_time s = None) by (rewrite Es; apply no_date_time; reflexivity).
    assert (N9 : parse_date_time64 s = None) by (rewrite Es; apply no_date_time64; reflexivity).
    unfold classify. rewrite N0, N1. cbn [rbind]. rewrite N2. cbn [rbind]. rewrite N3. cbn [rbind].
    rewrite N4. cbn [rbind]. rewrite N5. cbn [rbind]. rewrite N6, N7, N8, N9, D. reflexivity.
  - cbn [nameable kind_of] in *. destruct H as (_ & U & _). pose proof (parse_map_ok k v U) as D.
    remember (type_name (TMap k v)) as s eqn:Es. cbn [type_name] in Es.
    assert (N0 : match_str simple_names s = None) by (rewrite Es; skip_to; reflexivity).
    assert (N1 : parse_nullable s = Ok None) by (rewrite Es; reflexivity).
    assert (N2 : parse_fixed_string s = Ok None) by (rewrite Es; reflexivity).
    assert (N3 : parse_array s = Ok None) by (rewrite Es; reflexivity).
    unfold classify. rewrite N0, N1. cbn [rbind]. rewrite N2. cbn [rbind]. rewrite N3. cbn [rbind].
    rewrite D. reflexivity.
Qed.
End Classify.
