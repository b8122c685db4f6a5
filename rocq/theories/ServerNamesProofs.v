(** What the client makes of the names by which a server calls its types. *)
From Coq Require Import String.
From Verif Require Import Base Bytes Reader Types Text TypeNames Columns SpecNum SpecWire SpecPackets SpecTypes SpecNative.
From Verif Require Import TextProofs TypeNamesProofs.
Open Scope list_scope.
Open Scope nat_scope.

(** ** Numbers have one text *)
Lemma dec_value_nonneg ds : (0 <= dec_value ds)%Z.
Proof.
  induction ds as [|d ds IH] using rev_ind; [vm_compute; discriminate|]. rewrite dec_value_snoc. lia.
Qed.
Lemma dec_value_zero l : forall x, dec_value (x :: l) = 0%Z -> x = 0%N.
Proof.
  induction l as [|y l IH] using rev_ind; intros x H.
  - unfold dec_value in H. cbn in H. lia.
  - change (x :: l ++ [y]) with ((x :: l) ++ [y]) in H. rewrite dec_value_snoc in H.
    pose proof (dec_value_nonneg (x :: l)). apply IH. lia.
Qed.
Definition short (ds : list N) : Prop := hd 1%N ds = 0%N -> length ds = 1.
Lemma short_front ds d : short (ds ++ [d]) -> ds = [] \/ hd 1%N ds <> 0%N.
Proof.
  destruct ds as [|x ds]; intros H; [left; reflexivity|right]. intros E. specialize (H E).
  cbn [app length] in H. rewrite app_length in H. cbn in H. lia.
Qed.
Lemma digits_unique : forall a b, digits_ok a -> digits_ok b -> dec_value a = dec_value b ->
  a <> [] -> b <> [] -> short a -> short b -> a = b.
Proof.
  induction a as [|d a IH] using rev_ind; intros b A B V NA NB SA SB; [congruence|].
  destruct b as [|e b _] using rev_ind; [congruence|]. clear NA NB.
  apply Forall_app in A as [A D]. apply Forall_app in B as [B E].
  pose proof (Forall_inv D) as Hd. pose proof (Forall_inv E) as He. clear D E. cbv beta in Hd, He.
  rewrite !dec_value_snoc in V. pose proof (dec_value_nonneg a) as PA. pose proof (dec_value_nonneg b) as PB.
  assert (Z.of_N d = Z.of_N e /\ dec_value a = dec_value b) as [Ed Ev] by lia.
  apply N2Z.inj in Ed. subst e. f_equal.
  assert (G : forall l : list N, hd 1%N l <> 0%N -> dec_value l = 0%Z -> l = []).
  { intros [|x l] H Z; [reflexivity|]. exfalso. apply H. apply (dec_value_zero l), Z. }
  destruct (short_front _ _ SA) as [->|SA1], (short_front _ _ SB) as [->|SB1]; try reflexivity.
  - symmetry. apply G; [exact SB1|rewrite <- Ev; reflexivity].
  - apply G; [exact SA1|rewrite Ev; reflexivity].
  - destruct a as [|x a]; [symmetry; apply G; [exact SB1|rewrite <- Ev; reflexivity]|].
    destruct b as [|y b]; [apply G; [exact SA1|rewrite Ev; reflexivity]|].
    apply IH; try assumption; try discriminate; intros Z; [contradiction (SA1 Z)|contradiction (SB1 Z)].
Qed.
Lemma digits_text_print n d : digits_text n d -> d = print_N n.
Proof.
  intros (ds & -> & O & V & NE & S). rewrite print_N_map. f_equal.
  destruct (digits_of_spec n) as (A & B & C & E & D). apply digits_unique; try assumption; [congruence|].
  intros Z. destruct (N.eqb_spec n 0) as [->|]; [rewrite E by reflexivity; reflexivity|].
  exfalso. apply D; [lia|]. destruct (digits_of n); [congruence|exact Z].
Qed.
Lemma label_print e n : label_name e n -> n = enum_entry e.
Proof.
  intros (d & D & ->). apply digits_text_print in D as ->. unfold enum_entry, print_Z. destruct e as [l z]. cbn [fst snd].
  destruct (Z.ltb_spec z 0).
  - replace (Z.abs_N z) with (Z.to_N (- z)) by lia. reflexivity.
  - replace (Z.abs_N z) with (Z.to_N z) by lia. reflexivity.
Qed.
Lemma labels_print vals ns : Forall2 label_name vals ns -> ns = map enum_entry vals.
Proof. induction 1 as [|e n vals ns H _ IH]; [reflexivity|]. cbn [map]. rewrite (label_print _ _ H), IH. reflexivity. Qed.

(** ** Enums as the server writes them, with a blank after each comma *)
Lemma listed_more n ns : ns <> [] -> listed (n :: ns) = n ++ str ", " ++ listed ns.
Proof. destruct ns; [congruence|reflexivity]. Qed.
Lemma ppair_blank s : ppair (32%N :: s) = ppair s.
Proof. unfold ppair. rewrite trim_start_space. reflexivity. Qed.
Lemma ppairs_blank fuel s : ppairs fuel (32%N :: s) = ppairs fuel s.
Proof. destruct fuel as [|fuel]; [reflexivity|]. cbn [ppairs]. rewrite ppair_blank. reflexivity. Qed.
Lemma ppairs_listed es r fuel : es <> [] -> Forall entry_ok es -> (List.length es <= fuel)%nat ->
  ppairs fuel (listed (map enum_entry es) ++ 41%N :: r) = Some (es, 41%N :: r).
Proof.
  revert fuel. induction es as [|e es IH]; intros fuel NE F L; [congruence|].
  destruct fuel as [|fuel]; [cbn [List.length] in L; lia|]. inversion F; subst. cbn [ppairs].
  destruct es as [|e' es].
  - cbn [map listed]. rewrite ppair_entry by (auto; reflexivity). cbn [ptoken]. reflexivity.
  - cbn [map]. rewrite listed_more by discriminate.
    change (enum_entry e' :: map enum_entry es) with (map enum_entry (e' :: es)).
    rewrite <- !app_assoc. change (str ", ") with [44%N; 32%N]. cbn [app].
    rewrite ppair_entry by (auto; reflexivity). cbn [ptoken]. rewrite N.eqb_refl, ppairs_blank.
    rewrite IH; [reflexivity|discriminate|assumption|cbn [List.length] in *; lia].
Qed.
Lemma listed_head es : es <> [] -> exists r, listed (map enum_entry es) = 39%N :: r.
Proof.
  destruct es as [|e es]; intros H; [congruence|]. destruct (entry_head e) as [r E].
  destruct es as [|e' es]; [exists r; exact E|].
  cbn [map]. rewrite listed_more by discriminate. rewrite E. eexists. reflexivity.
Qed.
Lemma listed_length es : (List.length es <= List.length (listed (map enum_entry es)))%nat.
Proof.
  induction es as [|e es IH]; [cbn; lia|]. destruct (entry_head e) as [r E]. destruct es as [|e' es].
  - cbn [map listed List.length]. rewrite E. cbn [List.length]. lia.
  - cbn [map] in *. rewrite listed_more by discriminate. rewrite !app_length, E. cbn [List.length] in *. lia.
Qed.
Lemma parse_enum_listed kw es : solid (hd 32%N kw) = true -> es <> [] -> Forall entry_ok es ->
  parse_enum kw (kw ++ 40%N :: listed (map enum_entry es) ++ [41%N]) = Some es.
Proof.
  intros K NE F. unfold parse_enum. destruct kw as [|k kw]; [discriminate|]. cbn [app].
  rewrite trim_start_solid by exact K.
  assert (SP : forall p s, strip_prefix p (p ++ s) = Some s).
  { induction p as [|x p IH]; intros s; [reflexivity|]. cbn [app strip_prefix]. rewrite N.eqb_refl. apply IH. }
  change (k :: kw ++ 40%N :: listed (map enum_entry es) ++ [41%N])
    with ((k :: kw) ++ 40%N :: listed (map enum_entry es) ++ [41%N]).
  rewrite SP. rewrite trim_start_solid by reflexivity. cbn [ptoken]. rewrite N.eqb_refl.
  assert (T : trim_start (listed (map enum_entry es) ++ [41%N]) = listed (map enum_entry es) ++ [41%N]).
  { destruct (listed_head es NE) as [r E]. rewrite E. cbn [app]. apply trim_start_solid. reflexivity. }
  rewrite T, ppairs_listed; auto. rewrite app_length. pose proof (listed_length es). lia.
Qed.

(** ** Names of types within names *)
Definition headed (n : bytes) : Prop := exists a r, n = a :: r /\ (65 <= a <= 90)%N.
Lemma headed_cont n d : headed n -> is_cont (hd d n) = false.
Proof. intros (a & r & -> & H). cbn [hd]. unfold is_cont. lia. Qed.
Lemma slice_headed a n i : List.length a = n -> headed i ->
  str_slice (a ++ i ++ [41%N]) n (List.length (a ++ i ++ [41%N]) - 1) = Ok i.
Proof. intros E H. apply slice_args; [exact E|apply headed_cont, H]. Qed.

Lemma parse_map_named k v : headed k -> framed k -> no_comma k -> framed v ->
  parse_map (str "Map(" ++ k ++ str ", " ++ v ++ str ")") = Ok (Some (k, v)).
Proof.
  intros H Fk C Fv.
  assert (E : str "Map(" ++ k ++ str ", " ++ v ++ str ")" = str "Map(" ++ (k ++ 44%N :: 32%N :: v) ++ [41%N]).
  { rewrite <- !app_assoc. reflexivity. }
  rewrite E. unfold parse_map.
  change (starts_with (str "Map") (str "Map(" ++ (k ++ 44%N :: 32%N :: v) ++ [41%N])) with true.
  cbv iota. rewrite slice_args; [|reflexivity|].
  2:{ destruct H as (a & r & -> & Ha). cbn [app hd]. unfold is_cont. lia. }
  cbn [rbind]. rewrite find_char_name by exact C.
  pose proof (str_slice_mid [] k (44%N :: 32%N :: v)) as S1. cbn [List.length Nat.add app] in S1.
  rewrite S1; [|destruct H as (a & r & -> & Ha); cbn [app hd]; unfold is_cont; lia|reflexivity].
  cbn [rbind].
  pose proof (str_slice_mid (k ++ [44%N]) (32%N :: v) []) as S2.
  rewrite app_nil_r, app_length, <- app_assoc in S2. cbn [app] in S2.
  replace (List.length (k ++ 44%N :: 32%N :: v)) with (List.length k + List.length [44%N] + List.length (32%N :: v)).
  2:{ rewrite app_length. cbn [List.length]. lia. }
  change 1 with (List.length [44%N]) at 1. rewrite S2 by reflexivity.
  cbn [rbind]. rewrite (trim_framed k) by exact Fk.
  unfold trim at 1. rewrite trim_start_space.
  change (trim_end (trim_start v)) with (trim v). rewrite trim_framed by exact Fv. reflexivity.
Qed.

Lemma parse_agg_named f i : framed i -> ~ In 40%N i -> ~ In 41%N i ->
  parse_agg (str "SimpleAggregateFunction(" ++ agg_name f ++ str ", " ++ i ++ str ")") = Ok (Some (f, i)).
Proof.
  intros Fi N0 N1. destruct (agg_name_ok f) as (FF & NC & a & r & Ef & Pa & Sa).
  assert (exists ri zi, i = ri ++ [zi] /\ is_paren zi = false) as (ri & zi & Ei & Pz).
  { destruct Fi as [_ (q & z & E & _)]. exists q, z. split; [exact E|]. unfold is_paren.
    assert (In z i) as I by (rewrite E; apply in_or_app; right; left; reflexivity).
    destruct (N.eqb_spec z 40) as [->|]; [contradiction|]. destruct (N.eqb_spec z 41) as [->|]; [contradiction|]. reflexivity. }
  set (args := agg_name f ++ str ", " ++ i).
  assert (E : str "SimpleAggregateFunction(" ++ agg_name f ++ str ", " ++ i ++ str ")"
              = str "SimpleAggregateFunction" ++ (40%N :: args ++ [41%N])).
  { unfold args. rewrite <- !app_assoc. reflexivity. }
  rewrite E. unfold parse_agg.
  assert (EW : ends_with_byte 41 (str "SimpleAggregateFunction" ++ 40%N :: args ++ [41%N]) = true).
  { unfold ends_with_byte. change (40%N :: args ++ [41%N]) with ((40%N :: args) ++ [41%N]).
    rewrite app_assoc, rev_app_distr. reflexivity. }
  rewrite EW.
  change (starts_with (str "SimpleAggregateFunction(") (str "SimpleAggregateFunction" ++ 40%N :: args ++ [41%N]))
    with true. cbn [andb].
  pose proof (str_slice_mid (str "SimpleAggregateFunction") (40%N :: args ++ [41%N]) []) as S.
  rewrite app_nil_r in S. rewrite <- app_length in S.
  change (List.length (str "SimpleAggregateFunction")) with 23 in S.
  rewrite S by reflexivity. cbn [rbind].
  assert (EA : args = a :: (r ++ str ", " ++ ri) ++ [zi]).
  { unfold args. rewrite Ef, Ei. cbn [app]. rewrite <- !app_assoc. reflexivity. }
  assert (TP : trim_matches is_paren (40%N :: args ++ [41%N]) = args).
  { rewrite EA. apply trim_parens; assumption. }
  rewrite TP. clear TP EA E EW S.
  unfold args. change (str ", " ++ i) with (44%N :: 32%N :: i).
  rewrite find_byte_app by exact NC.
  pose proof (str_slice_mid [] (agg_name f) (44%N :: 32%N :: i)) as S1. cbn [List.length Nat.add app] in S1.
  rewrite S1; [|rewrite Ef; cbn [app hd]; apply solid_not_cont, Sa|reflexivity].
  cbn [rbind].
  pose proof (str_slice_mid (agg_name f ++ [44%N]) (32%N :: i) []) as S2.
  rewrite app_nil_r, app_length, <- app_assoc in S2. cbn [app] in S2.
  replace (List.length (agg_name f ++ 44%N :: 32%N :: i))
    with (List.length (agg_name f) + List.length [44%N] + List.length (32%N :: i)).
  2:{ rewrite app_length. cbn [List.length]. lia. }
  change 1 with (List.length [44%N]) at 1. rewrite S2 by reflexivity.
  cbn [rbind]. rewrite (trim_framed (agg_name f)) by exact FF. rewrite agg_parse_name.
  unfold trim. rewrite trim_start_space.
  change (trim_end (trim_start i)) with (trim i). rewrite trim_framed by exact Fi. reflexivity.
Qed.

Lemma parse_low_named i : headed i -> framed i ->
  parse_low_cardinality (str "LowCardinality(" ++ i ++ str ")") = Ok (Some i).
Proof.
  intros (a & r & Ei & Hr) Fi. change (str ")") with [41%N]. unfold parse_low_cardinality.
  change (starts_with (str "LowCardinality") (str "LowCardinality(" ++ i ++ [41%N])) with true.
  cbv iota. set (s := str "LowCardinality(" ++ i ++ [41%N]).
  assert (L : List.length s = 15 + List.length i + 1).
  { unfold s. rewrite !app_length. change (List.length (str "LowCardinality(")) with 15. cbn [List.length]. lia. }
  assert (Li : List.length i = S (List.length r)) by (rewrite Ei; reflexivity).
  assert (U : scan_up 40 s (List.length s) 14 = Ok 14).
  { rewrite L. cbn [Nat.add scan_up].
    destruct (Nat.ltb_spec 14 (List.length s)); [|lia].
    pose proof (str_slice_mid (str "LowCardinality") [40%N] (i ++ [41%N])) as S1.
    change (str "LowCardinality" ++ [40%N] ++ i ++ [41%N]) with s in S1.
    change (List.length (str "LowCardinality") + List.length [40%N]) with (14 + 1) in S1.
    change (List.length (str "LowCardinality")) with 14 in S1.
    change 15 with (14 + 1). rewrite S1; [reflexivity|reflexivity|].
    rewrite Ei. cbn [app hd]. unfold is_cont. lia. }
  rewrite U. cbn [rbind].
  assert (Hi : List.length s - 1 = 15 + List.length i) by lia. rewrite Hi.
  assert (D : scan_down 41 s 14 (15 + List.length i) = Ok (15 + List.length i)).
  { cbn [Nat.add scan_down].
    destruct (Nat.ltb_spec 14 (S (14 + List.length i))); [|cbn [Nat.add] in *; lia].
    cbn [Nat.add].
    pose proof (str_slice_mid (str "LowCardinality(" ++ i) [41%N] []) as S1.
    rewrite app_nil_r, <- app_assoc in S1. fold s in S1. rewrite app_length in S1.
    change (List.length (str "LowCardinality(")) with 15 in S1. cbn [Nat.add List.length] in S1.
    rewrite S1 by reflexivity. reflexivity. }
  rewrite D. cbn [rbind].
  destruct (Nat.leb_spec (15 + List.length i) 14); [lia|].
  change (14 + 1) with (List.length (str "LowCardinality(")).
  change (15 + List.length i) with (List.length (str "LowCardinality(") + List.length i).
  unfold s. rewrite str_slice_mid; [| |reflexivity].
  - cbn [rbind]. rewrite trim_framed by exact Fi. reflexivity.
  - rewrite Ei. cbn [app hd]. unfold is_cont. lia.
Qed.

(** ** What the name selects *)
Section Named.
Variable tz_known : bytes -> bool.
Variables tz zone : bytes.

Lemma named_headed t n : server_name tz zone t n -> headed n.
Proof.
  assert (G : forall a r s, s = a :: r -> ((65 <=? a) && (a <=? 90))%N = true -> headed s).
  { intros a r s E H. exists a, r. split; [exact E|lia]. }
  intros H. destruct H; try (eapply G; reflexivity). destruct s; eapply G; reflexivity.
Qed.
Lemma named_framed t n : server_name tz zone t n -> framed n.
Proof.
  intros H. split.
  - destruct (named_headed _ _ H) as (a & r & -> & A). exists a, r. split; [reflexivity|]. unfold solid, ws1. lia.
  - assert (G : forall x : bytes, exists r z, x ++ str ")" = r ++ [z] /\ solid z = true).
    { intros x. exists x, 41%N. split; reflexivity. }
    destruct H; try (apply last_solid; [discriminate|reflexivity]); try (rewrite !app_assoc; apply G).
    + destruct s; (apply last_solid; [discriminate|reflexivity]).
    + exists (str "DateTime('" ++ zone ++ str "'"), 41%N. split; [rewrite <- !app_assoc; reflexivity|reflexivity].
    + exists (str "DateTime64(" ++ d ++ str ", '" ++ z ++ str "'"), 41%N. split; [rewrite <- !app_assoc; reflexivity|reflexivity].
Qed.

Definition kind_fits (t : sqltype) (k : kind) (n : bytes) : Prop :=
  match t with
  | TDateTime DateTime32 => exists o, k = KDateTime o /\ get_timezone tz_known o tz = Ret zone
  | TDateTime (DateTime64 p z) => exists o, k = KDateTime64 p o /\ get_timezone tz_known o tz = Ret z
  | TNullable i => exists m, k = KNullable m /\ server_name tz zone i m /\ length m < length n
  | TArray i => exists m, k = KArray m /\ server_name tz zone i m /\ length m < length n
  | TLowCardinality i => exists m, k = KLow m /\ server_name tz zone i m /\ length m < length n
  | TAgg f i => exists m, k = KAgg f m /\ server_name tz zone i m /\ length m < length n
  | TMap x y => exists m l, k = KMap m l /\ server_name tz zone x m /\ server_name tz zone y l /\
                  length m < length n /\ length l < length n
  | _ => k = kind_of t
  end.

Lemma shorter (a b m : bytes) : a <> [] -> length m < length (a ++ m ++ b).
Proof. rewrite !app_length. destruct a; [congruence|]. cbn. lia. Qed.

Lemma date_time_zoned : unquoted zone -> parse_date_time (str "DateTime('" ++ zone ++ str "')") = Some (Some zone).
Proof.
  intros U. unfold parse_date_time.
  change (str "DateTime('" ++ zone ++ str "')") with (68%N :: str "ateTime" ++ 40%N :: 39%N :: zone ++ str "')").
  rewrite trim_start_solid by reflexivity.
  change (strip_prefix (str "DateTime") (68%N :: str "ateTime" ++ 40%N :: 39%N :: zone ++ str "')"))
    with (Some (40%N :: 39%N :: zone ++ str "')")). cbv iota beta.
  rewrite trim_start_solid by reflexivity. cbn [ptoken]. rewrite N.eqb_refl.
  rewrite trim_start_solid by reflexivity. change (str "')") with (39%N :: [41%N]).
  rewrite pword_app by exact U. rewrite trim_start_solid by reflexivity. reflexivity.
Qed.
Lemma date_time64_plain p : (p < 2 ^ 32)%N -> parse_date_time64 (str "DateTime64(" ++ print_N p ++ str ")") = Some (p, None).
Proof.
  intros P. unfold parse_date_time64.
  change (trim_start (str "DateTime64(" ++ print_N p ++ str ")"))
    with (trim_start (68%N :: (str "ateTime64(" ++ print_N p ++ str ")"))).
  rewrite trim_start_solid by reflexivity.
  change (strip_prefix (str "DateTime64") (68%N :: (str "ateTime64(" ++ print_N p ++ str ")")))
    with (Some (40%N :: print_N p ++ str ")")).
  cbv iota beta. rewrite trim_start_solid by reflexivity. cbn [ptoken]. rewrite N.eqb_refl.
  assert (T : forall x, trim_start (print_N p ++ x) = print_N p ++ x).
  { intros x. destruct (print_N_head p) as (a & r & -> & Hd). cbn [app]. apply trim_start_solid, digit_solid, Hd. }
  rewrite T, pdigits_app by (auto using print_N_digits).
  rewrite parse_uint_print by (unfold u32_max; lia). reflexivity.
Qed.

Ltac others s Es :=
  assert (N0 : match_str simple_names s = None) by (rewrite Es; skip_to; reflexivity);
  assert (N1 : parse_nullable s = Ok None) by (rewrite Es; reflexivity);
  assert (N2 : parse_fixed_string s = Ok None) by (rewrite Es; reflexivity);
  assert (N3 : parse_array s = Ok None) by (rewrite Es; reflexivity);
  unfold classify; rewrite N0, N1; cbn [rbind]; rewrite N2; cbn [rbind]; rewrite N3; cbn [rbind].
Ltac others5 s Es :=
  assert (N4 : parse_map s = Ok None) by (rewrite Es; reflexivity);
  assert (N5 : parse_decimal s = Ok None) by (rewrite Es; apply no_decimal; reflexivity);
  rewrite N4; cbn [rbind]; rewrite N5; cbn [rbind].
Ltac others7 s Es :=
  others5 s Es;
  assert (N6 : parse_enum8 s = None) by (rewrite Es; apply no_enum8; reflexivity);
  assert (N7 : parse_enum16 s = None) by (rewrite Es; apply no_enum; reflexivity);
  rewrite N6, N7.
Ltac others9 s Es :=
  others7 s Es;
  assert (N8 : parse_date_time s = None) by (rewrite Es; apply no_date_time; reflexivity);
  assert (N9 : parse_date_time64 s = None) by (rewrite Es; apply no_date_time64; reflexivity);
  rewrite N8, N9.

Theorem named_classify t n : server_name tz zone t n -> nameable tz_known t ->
  unquoted zone -> tz_known zone = true -> exists k, classify n = Ok (Some k) /\ kind_fits t k n.
Proof.
  intros H N U K. destruct H as [s| |m d D| |E| |p d D|p d z D| | | |i m H|i m H|i m H|p s d e D E|vals ns F|vals ns F|f i m H P0 P1|k v m l Hk C Hv].
  - exists (KNum s). split; [|reflexivity]. change (number_name s) with (type_name (TNum s)). rewrite (classify_name tz_known) by exact N. reflexivity.
  - exists KString. split; reflexivity.
  - apply digits_text_print in D as ->. exists (KFixed m). split; [|reflexivity]. exact (classify_name tz_known (TFixedString m) N).
  - exists KDate. split; reflexivity.
  - exists (KDateTime None). split; [reflexivity|]. exists None. split; [reflexivity|]. rewrite E. reflexivity.
  - exists (KDateTime (Some zone)). split; [|exists (Some zone); split; [reflexivity|]; unfold get_timezone; rewrite K; reflexivity].
    pose proof (date_time_zoned U) as D. remember (str "DateTime('" ++ zone ++ str "')") as s eqn:Es.
    others s Es. others7 s Es. rewrite D. reflexivity.
  - apply digits_text_print in D as ->. cbn [nameable] in N. destruct N as (P & _ & _).
    exists (KDateTime64 p None). split; [|exists None; split; reflexivity].
    pose proof (date_time64_plain p P) as D. remember (str "DateTime64(" ++ print_N p ++ str ")") as s eqn:Es.
    assert (N8 : parse_date_time s = None).
    { rewrite Es. unfold parse_date_time.
      change (str "DateTime64(" ++ print_N p ++ str ")") with (68%N :: (str "ateTime64(" ++ print_N p ++ str ")")).
      rewrite trim_start_solid by reflexivity. reflexivity. }
    others s Es. others7 s Es. rewrite N8, D. reflexivity.
  - apply digits_text_print in D as ->. exists (KDateTime64 p (Some z)).
    split; [exact (classify_name tz_known (TDateTime (DateTime64 p z)) N)|].
    exists (Some z). split; [reflexivity|]. destruct N as (_ & _ & N). unfold get_timezone. rewrite N. reflexivity.
  - exists (KIp IpV4). split; reflexivity.
  - exists (KIp IpV6). split; reflexivity.
  - exists (KIp IpUuid). split; reflexivity.
  - exists (KNullable m). pose proof (named_headed _ _ H) as Hh. destruct N as [_ NN]. split.
    + unfold classify. skip_to. unfold parse_nullable.
      change (starts_with (str "Nullable") (str "Nullable(" ++ m ++ str ")")) with true. cbv iota.
      change (str ")") with [41%N]. rewrite slice_headed by (try reflexivity; exact Hh). cbn [rbind].
      assert (S : starts_with (str "Nullable") m = false).
      { destruct H; try reflexivity; try contradiction. destruct s; reflexivity. }
      rewrite S. reflexivity.
    + exists m. split; [reflexivity|]. split; [exact H|]. apply shorter. discriminate.
  - exists (KArray m). pose proof (named_headed _ _ H) as Hh. split.
    + unfold classify. skip_to.
      replace (parse_nullable (str "Array(" ++ m ++ str ")")) with (Ok (@None bytes)) by reflexivity.
      cbn [rbind].
      replace (parse_fixed_string (str "Array(" ++ m ++ str ")")) with (@Ok (option BinNums.N) None) by reflexivity.
      cbn [rbind]. unfold parse_array.
      change (starts_with (str "Array") (str "Array(" ++ m ++ str ")")) with true. cbv iota.
      change (str ")") with [41%N]. rewrite slice_headed by (try reflexivity; exact Hh). reflexivity.
    + exists m. split; [reflexivity|]. split; [exact H|]. apply shorter. discriminate.
  - exists (KLow m). split.
    + pose proof (parse_low_named m (named_headed _ _ H) (named_framed _ _ H)) as D.
      remember (str "LowCardinality(" ++ m ++ str ")") as s eqn:Es. others s Es. others9 s Es.
      assert (N10 : parse_agg s = Ok None) by (rewrite Es; reflexivity). rewrite N10. cbn [rbind]. rewrite D. reflexivity.
    + exists m. split; [reflexivity|]. split; [exact H|]. apply shorter. discriminate.
  - apply digits_text_print in D as ->. apply digits_text_print in E as ->. eexists. split; [exact (classify_name tz_known (TDecimal p s) N)|reflexivity].
  - apply labels_print in F as ->. exists (KEnum8 vals). split; [|reflexivity]. destruct N as [NE F].
    pose proof (parse_enum_listed (str "Enum8") vals eq_refl NE (entries8 vals F)) as D.
    change (str "Enum8" ++ 40%N :: listed (map enum_entry vals) ++ [41%N]) with (str "Enum8(" ++ listed (map enum_entry vals) ++ str ")") in D.
    remember (str "Enum8(" ++ listed (map enum_entry vals) ++ str ")") as s eqn:Es. others s Es. others5 s Es.
    unfold parse_enum8. rewrite D. do 3 f_equal. clear - F. induction F as [|[l z] es [_ R] _ IH]; [reflexivity|].
    cbn [map fst snd] in *. rewrite IH, as_i8_id by exact R. reflexivity.
  - apply labels_print in F as ->. exists (KEnum16 vals). split; [|reflexivity]. destruct N as [NE F].
    pose proof (parse_enum_listed (str "Enum16") vals eq_refl NE F) as D.
    change (str "Enum16" ++ 40%N :: listed (map enum_entry vals) ++ [41%N]) with (str "Enum16(" ++ listed (map enum_entry vals) ++ str ")") in D.
    remember (str "Enum16(" ++ listed (map enum_entry vals) ++ str ")") as s eqn:Es. others s Es. others5 s Es.
    assert (N6 : parse_enum8 s = None) by (rewrite Es; apply no_enum8; reflexivity). rewrite N6.
    unfold parse_enum16. rewrite D. reflexivity.
  - exists (KAgg f m). split.
    + pose proof (parse_agg_named f m (named_framed _ _ H) P0 P1) as D.
      change (function_name f) with (agg_name f).
      remember (str "SimpleAggregateFunction(" ++ agg_name f ++ str ", " ++ m ++ str ")") as s eqn:Es. others s Es. others9 s Es.
      rewrite D. reflexivity.
    + exists m. split; [reflexivity|]. split; [exact H|]. rewrite !app_length. cbn. lia.
  - exists (KMap m l). split.
    + pose proof (parse_map_named m l (named_headed _ _ Hk) (named_framed _ _ Hk) C (named_framed _ _ Hv)) as D.
      remember (str "Map(" ++ m ++ str ", " ++ l ++ str ")") as s eqn:Es. others s Es. rewrite D. reflexivity.
    + exists m, l. split; [reflexivity|]. split; [exact Hk|]. split; [exact Hv|]. rewrite !app_length. cbn. lia.
Qed.
End Named.
