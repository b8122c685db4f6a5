(** C61-C64: what a table receives when a block of other types is inserted into it. *)
From Verif Require Import Base Bytes Utf8 Reader Wire Types Text TypeNames Decimal DateTime Values Columns Casts Block.
From Verif Require Import SpecWire SpecColumns SpecTypes SpecCasts SpecBlock ReaderProofs Utf8Proofs WireProofs PushProofs TypeNamesProofs LoadTypeProofs SendProofs RangeProofs.
From Verif Require Import CastProofs CastSendProofs CastMainProofs CastBlockProofs CastTotalProofs.
Open Scope nat_scope.

(** ** C61: the cells of a converted column arrive
    Partial: maps that are not of the table's own type are left out (only those whose keys are times
    or enumerations can be converted, and these cannot be read: C49), so are dictionaries of
    DateTime64 (which cannot be written: below), parts of array columns beyond the first are wrong
    (C13), and cells that have no counterpart in the table are the subject of the refuted statements
    below. *)
Theorem c61_converted_partial tz_known tz parse_ipv4 parse_ipv6 c vs t ws c' a b :
  convertible tz_known tz parse_ipv4 parse_ipv6 c vs t ws ->
  cast_col parse_ipv4 parse_ipv6 c t = Ok c' -> fits c' ->
  a <= b <= length vs -> a = 0 \/ flat c' = true ->
  ctype c' = t /\
  exists bs d, save c' a b = Ok bs /\
    (forall r, run (load_column tz_known (type_name t) (N.of_nat (b - a)) tz) (bs ++ r) = Ok (d, r)) /\
    ctype d = t /\ holds d (firstn (b - a) (skipn a ws)).
Proof.
  intros H E F B K. destruct (convertible_conveys _ _ _ _ _ _ _ _ _ H E F) as [T [_ C]]. split; [exact T|].
  assert (length ws = length vs) as L.
  { destruct H as (_ & _ & _ & HM & _). apply mapO_length in HM. exact HM. }
  destruct (C a b ltac:(lia) K) as (bs & S & d & Td & Hd & R). exists bs, d. split; [exact S|]. split; [|split; [exact Td|exact Hd]].
  intros r. unfold load_column. assert (lenN (sub ws a b) = N.of_nat (b - a)) as LS by (unfold lenN; rewrite sub_length by lia; reflexivity).
  rewrite LS in R. apply R. unfold enough. lia.
Qed.
Print Assumptions c61_converted_partial.

(** ** C62: which conversions there are *)
Theorem c62_only_these parse_ipv4 parse_ipv6 c dst :
  (accepted (ctype c) dst = false -> cast_col parse_ipv4 parse_ipv6 c dst = Err EInvalidType) /\
  (forall c', cast_col parse_ipv4 parse_ipv6 c dst = Ok c' ->
     accepted (ctype c) dst = true /\ (table_type dst -> ctype c' = dst)).
Proof.
  split; [apply cast_refused|]. intros c' E. eapply casted_type, cast_inv, E.
Qed.
Print Assumptions c62_only_these.
Theorem c62_all_of_these_partial tz_known tz parse_ipv4 parse_ipv6 c vs dst ws :
  unsliced c -> convertible tz_known tz parse_ipv4 parse_ipv6 c vs dst ws -> accepted (ctype c) dst = true ->
  (80 * lenN vs <= isize_max)%N -> exists c', cast_col parse_ipv4 parse_ipv6 c dst = Ok c'.
Proof.
  intros U (HB & HH & HP & HM & NM & TT & NE & CV & B & ST) A SZ. eapply cast_total; eassumption.
Qed.
Print Assumptions c62_all_of_these_partial.

(** ** C63: an inserted block arrives in pieces *)
Theorem c63_insert_partial tz_known tz parse_ipv4 parse_ipv6 size m b header plans b' :
  b_cols b = map pl_column plans -> map (fun h => ctype (snd h)) (b_cols header) = map pl_type plans ->
  Forall (insertable tz_known tz parse_ipv4 parse_ipv6 m) plans -> plans <> [] -> 0 < m -> 0 < size ->
  (N.of_nat m < 2 ^ 64)%N -> (lenN plans < 2 ^ 64)%N ->
  block_cast parse_ipv4 parse_ipv6 b header = Ok b' -> Forall (fun x => fits (snd x)) (b_cols b') ->
  (m <= size \/ Forall (fun x => flat (snd x) = true) (b_cols b')) ->
  exists ps qs, block_chunks size b' = Ok ps /\
    Forall2 (fun p q => exists bs, write_block p = Ok bs /\ forall r, run (raw_load tz_known tz) (bs ++ r) = Ok (q, r)) ps qs /\
    Forall (fun q => length (b_cols q) = length plans) qs /\
    forall j x, nth_error plans j = Some x -> exists parts, concat parts = pl_wanted x /\
      Forall2 (fun q part => exists d, nth_error (b_cols q) j = Some (fst (pl_column x), d) /\ ctype d = pl_type x /\ holds d part) qs parts.
Proof.
  intros EB EH HI NE Hm Hs BM BP EC FT FL. destruct (insert_pieces tz_known tz parse_ipv4 parse_ipv6 size m b header plans b') as (ps & qs & A1 & A2 & A3 & A4); auto.
  exists ps, qs. repeat split; auto. eapply Forall_impl; [|exact A3]. intros q [H _]. exact H.
Qed.
Print Assumptions c63_insert_partial.

(** Blocks with a column too many, too few, or of a type that cannot be converted, are refused. *)
Theorem c63_refused parse_ipv4 parse_ipv6 b header :
  (length (b_cols header) <> length (b_cols b) -> block_cast parse_ipv4 parse_ipv6 b header = Err EOutOfRange) /\
  (forall done d n c rest hdone h hrest, b_cols b = done ++ (n, c) :: rest -> b_cols header = hdone ++ h :: hrest ->
     cast_columns parse_ipv4 parse_ipv6 done hdone = Ok d -> length hdone = length done -> length hrest = length rest ->
     accepted (ctype c) (ctype (snd h)) = false ->
     block_cast parse_ipv4 parse_ipv6 b header = Err EInvalidType).
Proof.
  split.
  - intros H. unfold block_cast. destruct (Nat.eqb_spec (length (b_cols header)) (length (b_cols b))); [contradiction|reflexivity].
  - intros done d n c rest hdone [hn h] hrest E1 E2 E3 L1 L2 A. unfold block_cast. rewrite E1, E2, !app_length. cbn [length].
    rewrite L1, L2, Nat.eqb_refl. cbn [negb]. cbn [snd] in A.
    enough (cast_columns parse_ipv4 parse_ipv6 (done ++ (n, c) :: rest) (hdone ++ (hn, h) :: hrest) = Err EInvalidType) as X.
    { unfold column in *. rewrite X. reflexivity. }
    clear E1 E2 L2 b header. revert done d E3 L1. induction hdone as [|[hm hh] hdone IH]; intros [|[k x] done] d E3 L1; try discriminate L1.
    + cbn [app cast_columns]. rewrite cast_refused by exact A. reflexivity.
    + cbn [app cast_columns] in *. inv_do E3. inv_do E3. injection L1 as L1. rewrite E. cbn [rbind]. rewrite (IH _ _ E0 L1). reflexivity.
Qed.
Print Assumptions c63_refused.

(** ** C64: times given to the second or finer *)
Definition tick (p : N) (x : Z * N * bytes) : Z :=
  let '(s, n, _) := x in ((s * 1000000000 + Z.of_N n) / 10 ^ (9 - Z.of_N p))%Z.
Definition in_reach (x : Z * N * bytes) : Prop :=
  let '(s, n, _) := x in (0 <= s)%Z /\ (s * 1000000000 + Z.of_N n < 2 ^ 63)%Z.
Theorem c64_times tz_known tz parse_ipv4 parse_ipv6 l z0 p z a b :
  Forall in_reach l -> (p <= 9)%N -> unquoted z -> tz_known z = true -> (8 * lenN l <= isize_max)%N ->
  a <= b <= length l ->
  exists c' bs d, cast_col parse_ipv4 parse_ipv6 (CChrono l z0) (TDateTime (DateTime64 p z)) = Ok c' /\
    save c' a b = Ok bs /\
    (forall r, run (load_column tz_known (type_name (TDateTime (DateTime64 p z))) (N.of_nat (b - a)) tz) (bs ++ r) = Ok (d, r)) /\
    ctype d = TDateTime (DateTime64 p z) /\
    holds d (map (fun x => VDateTime64 (tick p x) p z) (firstn (b - a) (skipn a l))).
Proof.
  intros F Hp U Z SZ B.
  assert (forall x, in_reach x -> chrono_cell (TDateTime (DateTime64 p z)) x = Ok (marshal I64 (tick p x)) /\ scalar_ok I64 (tick p x) = true) as K.
  { intros [[s n] w] [H1 H2]. cbn [chrono_cell tick]. unfold from_datetime, pow_factor. rewrite (proj2 (N.leb_le p 9) Hp).
    change (2 ^ 63)%Z with 9223372036854775808%Z in H2.
    assert (i64_ok (s * 1000000000 + Z.of_N n) = true) as -> by (unfold i64_ok; change (2 ^ 63)%Z with 9223372036854775808%Z; apply andb_true_iff; lia).
    cbn [rbind]. assert (0 < 10 ^ (9 - Z.of_N p))%Z as P2 by (apply Z.pow_pos_nonneg; lia).
    rewrite Z.quot_div_nonneg by lia. split; [reflexivity|].
    pose proof (Z.div_pos (s * 1000000000 + Z.of_N n) (10 ^ (9 - Z.of_N p)) ltac:(lia) P2).
    pose proof (Z.div_le_upper_bound (s * 1000000000 + Z.of_N n) (10 ^ (9 - Z.of_N p)) (s * 1000000000 + Z.of_N n) P2 ltac:(nia)).
    unfold scalar_ok. cbn. apply andb_true_iff. lia. }
  set (l' := firstn (b - a) (skipn a l)).
  assert (Forall in_reach l') as F'.
  { apply Forall_forall. intros x Hx. eapply Forall_forall in F; [exact F|].
    rewrite <- (firstn_skipn a l). apply in_or_app. right. rewrite <- (firstn_skipn (b - a) (skipn a l)). apply in_or_app. left. exact Hx. }
  assert (length l' = b - a) as L' by (unfold l'; rewrite firstn_length, skipn_length; lia).
  assert (mapM (chrono_cell (TDateTime (DateTime64 p z))) l' = Ok (map (fun x => marshal I64 (tick p x)) l')) as M.
  { clear -F' K. induction F' as [|x k H _ IH]; [reflexivity|]. cbn [mapM map]. rewrite (proj1 (K x H)), IH. reflexivity. }
  assert (nameable tz_known (TDateTime (DateTime64 p z))) as NM by (cbn [nameable]; split; [lia|auto]).
  destruct (recv_datetime64 tz_known tz p z (map (tick p) l') NM) as (d & Td & Hd & R).
  { apply Forall_map. eapply Forall_impl; [|exact F']. intros x H. apply K, H. }
  { unfold lenN in *. rewrite map_length. lia. }
  exists (CChronoAdapter (CChrono l z0) (TDateTime (DateTime64 p z))), (image I64 (map (tick p) l')), d.
  split; [reflexivity|]. split; [|split; [|split; [exact Td|]]].
  - cbn [save ctype]. rewrite eqb_sqltype_refl, cut_ok by lia. fold (sub l a b). cbn [rbind].
    change (sub l a b) with l'. rewrite M. cbn [rbind]. f_equal. unfold image. rewrite map_map. reflexivity.
  - intros r. unfold load_column. unfold lenN in R. rewrite !map_length, L' in R. apply R. unfold enough. lia.
  - rewrite map_map in Hd. exact Hd.
Qed.
Print Assumptions c64_times.

(** ** Cases *)
Definition some_zone (_ : bytes) : bool := true.
Definition no_ip (_ : bytes) : option bytes := None.
(** A parser that knows 1.2.3.4. *)
Definition one_ip (b : bytes) : option bytes :=
  if bytes_eqb b [49; 46; 50; 46; 51; 46; 52]%N then Some [1; 2; 3; 4]%N else None.

Example c61_fixed_case :
  convertible some_zone [] no_ip no_ip (CString [[97]; [98; 99]])%N [VString [97]; VString [98; 99]]%N (TFixedString 3)
    [VString [97; 0; 0]; VString [98; 99; 0]]%N /\
  fits (CFixedAdapter (CString [[97]; [98; 99]])%N 3).
Proof.
  split; [|exact I]. split; [|split; [|split; [|split; [|split; [|split; [|split; [|split; [|split; [|split]]]]]]]]].
  - cbn [built sound]. split; [repeat constructor; cbn; discriminate|cbn; discriminate].
  - split; [reflexivity|]. intros [|[|i]] v H; try (injection H as <-; reflexivity). destruct i; discriminate H.
  - repeat constructor.
  - reflexivity.
  - cbn. lia.
  - exact I.
  - cbn. discriminate.
  - right. exact I.
  - cbn. discriminate.
  - repeat constructor; cbn; discriminate.
  - left. exact I.
Qed.
Example c61_decimal_case :
  convertible some_zone [] no_ip no_ip (CDecimal [-15; 200]%Z 5 1 N32) [VDecimal (mk_decimal (-15) N32 5 1); VDecimal (mk_decimal 200 N32 5 1)]
    (TDecimal 18 4) [VDecimal (mk_decimal (-15000) N64 18 4); VDecimal (mk_decimal 200000 N64 18 4)].
Proof.
  split; [|split; [|split; [|split; [|split; [|split; [|split; [|split; [|split; [|split]]]]]]]]].
  - cbn [built sound]. split; [reflexivity|]. split; [repeat constructor|cbn; discriminate].
  - split; [reflexivity|]. intros [|[|i]] v H; try (injection H as <-; reflexivity). destruct i; discriminate H.
  - repeat constructor.
  - reflexivity.
  - cbn. lia.
  - exact I.
  - exact I.
  - right. exact I.
  - cbn. discriminate.
  - repeat constructor.
  - left. exact I.
Qed.
(** Arrays of chrono times into Array(DateTime64(3)). *)
Example c61_array_case :
  convertible some_zone [85]%N no_ip no_ip (CArray (CChrono [(5%Z, 0, [66]); (7%Z, 0, [66])]%N [66]%N) [1; 2]%N)
    [VArray (TDateTime DtChrono) [VDateTime 5 [66]]; VArray (TDateTime DtChrono) [VDateTime 7 [66]]]%N
    (TArray (TDateTime (DateTime64 3 [67]%N)))
    [VArray (TDateTime (DateTime64 3 [67]%N)) [VDateTime64 5000 3 [67]%N];
     VArray (TDateTime (DateTime64 3 [67]%N)) [VDateTime64 7000 3 [67]%N]].
Proof.
  split; [|split; [|split; [|split; [|split; [|split; [|split; [|split; [|split; [|split]]]]]]]]].
  - cbn [built]. split; [|split; [reflexivity|split; [cbn; lia|split; [cbn; lia|cbn; discriminate]]]].
    split; [repeat constructor; cbn; lia|cbn; discriminate].
  - split; [reflexivity|]. intros [|[|i]] v H; try (injection H as <-; reflexivity). destruct i; discriminate H.
  - repeat constructor.
  - reflexivity.
  - cbn. split; [lia|]. split; [|reflexivity]. repeat constructor; cbn; lia || discriminate.
  - cbn. lia.
  - exact I.
  - right. exact I.
  - cbn. discriminate.
  - repeat constructor.
  - left. cbn. repeat constructor.
Qed.
(** Times of any zones into LowCardinality(DateTime). *)
Example c61_dictionary_case :
  let c := CChrono [(5%Z, 7, [66]); (5%Z, 0, [67])]%N [68]%N in
  convertible some_zone [85]%N no_ip no_ip c [VDateTime 5 [66]; VDateTime 5 [67]]%N
    (TLowCardinality (TDateTime DateTime32)) [VDateTime 5 [85]; VDateTime 5 [85]]%N /\
  exists d, cast_col no_ip no_ip c (TLowCardinality (TDateTime DateTime32)) = Ok d /\ fits d /\
    exists bs, save d 0 2 = Ok bs /\ length bs = 38.
Proof.
  split; [split; [|split; [|split; [|split; [|split; [|split; [|split; [|split; [|split; [|split]]]]]]]]]|].
  - cbn [built]. split; [repeat constructor; cbn; lia|cbn; discriminate].
  - split; [reflexivity|]. intros [|[|i]] v H; try (injection H as <-; reflexivity). destruct i; discriminate H.
  - repeat constructor.
  - reflexivity.
  - exact I.
  - split; [reflexivity|exact I].
  - exact I.
  - right. exact I.
  - cbn. discriminate.
  - repeat constructor.
  - right. exact I.
  - eexists. split; [vm_compute; reflexivity|]. split; [split; [exact I|vm_compute; discriminate]|]. eexists. split; vm_compute; reflexivity.
Qed.
Example c62_cases :
  accepted TString TIpv4 = true /\ accepted (TEnum8 [([97]%N, 1%Z)]) (TEnum8 []) = true /\
  accepted TString TUuid = false /\ accepted (TNum U8) (TNum U16) = false /\
  accepted (TArray TString) (TArray (TFixedString 3)) = false.
Proof. repeat split. Qed.
Example c62_total_case : unsliced (CString [[97]; [98; 99]])%N /\ accepted (ctype (CString [[97]; [98; 99]])%N) (TFixedString 3) = true /\
  (80 * lenN [VString [97]; VString [98; 99]]%N <= isize_max)%N.
Proof. split; [exact I|]. split; [reflexivity|]. cbn. discriminate. Qed.
Definition case_plans : list plan :=
  [mk_plan ([120]%N, CString [[97]; [98; 99]]%N) [VString [97]; VString [98; 99]]%N (TFixedString 3) [VString [97; 0; 0]; VString [98; 99; 0]]%N].
Example c63_case :
  Forall (insertable some_zone [] no_ip no_ip 2) case_plans /\
  exists b', block_cast no_ip no_ip (mk_block info_default (map pl_column case_plans))
      (mk_block info_default [([121]%N, CFixed 3 [])]) = Ok b' /\
    Forall (fun x => fits (snd x)) (b_cols b') /\ Forall (fun x => flat (snd x) = true) (b_cols b') /\
    exists p q, block_chunks 1 b' = Ok [p; q].
Proof.
  split.
  - constructor; [|constructor]. split; [apply utf8_valid_spec; reflexivity|]. split; [cbn; discriminate|].
    split; [apply utf8_valid_spec; vm_compute; reflexivity|]. split; [vm_compute; discriminate|]. split; [apply c61_fixed_case|reflexivity].
  - eexists. split; [reflexivity|]. repeat split; try (repeat constructor; fail). do 2 eexists. reflexivity.
Qed.
Example c64_case : in_reach (5%Z, 123456789, [66])%N /\ tick 3 (5%Z, 123456789, [66])%N = 5123%Z.
Proof. split; [cbn; lia|reflexivity]. Qed.

(** ** Refuted
    REFUTED of the code (C61): a string that is too long for FixedString(n) is cut, without an error. *)
Theorem c61_cut_refuted n (b : bytes) : (n < lenN b)%N ->
  exists c', cast_col no_ip no_ip (CString [b]) (TFixedString n) = Ok c' /\
    save c' 0 1 = Ok (firstn (N.to_nat n) b) /\ length (firstn (N.to_nat n) b) < length b.
Proof.
  intros H. unfold lenN in H. exists (CFixedAdapter (CString [b]) n). split; [reflexivity|]. split.
  - cbn -[N.to_nat resize]. unfold resize. replace (N.to_nat n - length b) with 0 by lia. cbn [repeat]. rewrite !app_nil_r. reflexivity.
  - rewrite firstn_length. lia.
Qed.
Print Assumptions c61_cut_refuted.
Example c61_cut_case : (2 < lenN [97; 98; 99])%N.
Proof. reflexivity. Qed.

(** REFUTED of the code (C61): decimals lose the digits beyond the table's scale (1.25 arrives as 1.2),
    and wrap modulo 2^32 where the table's precision is at most 9 (5000000000 arrives as 705032704). *)
Theorem c61_decimal_refuted :
  (exists c', cast_col no_ip no_ip (CDecimal [125]%Z 5 2 N32) (TDecimal 9 1) = Ok c' /\ save c' 0 1 = Ok (marshal I32 12)) /\
  (exists c', cast_col no_ip no_ip (CDecimal [5000000000]%Z 18 0 N64) (TDecimal 9 0) = Ok c' /\ save c' 0 1 = Ok (marshal I32 705032704)).
Proof. split; eexists; (split; [reflexivity|vm_compute; reflexivity]). Qed.
Print Assumptions c61_decimal_refuted.

(** REFUTED of the code (C61): what is sent of an enumeration is its number, whatever its label is in
    the table: it arrives under another label, or under none. *)
Theorem c61_enum_refuted old new z : old <> new ->
  exists c', cast_col no_ip no_ip (CEnum8 old [z]) (TEnum8 new) = Ok c' /\ save c' 0 1 = Ok (marshal I8 z).
Proof.
  intros H. exists (CEnum8Adapter (CEnum8 old [z]) new). split.
  - cbn [cast_col ctype]. destruct (sqltype_eqb (TEnum8 new) (TEnum8 old)) eqn:E; [apply eqb_sqltype in E; congruence|reflexivity].
  - cbn -[marshal]. rewrite app_nil_r. reflexivity.
Qed.
Print Assumptions c61_enum_refuted.
Example c61_enum_case : label [([97]%N, 1%Z)] 1 = Some [97]%N /\ label [([98]%N, 1%Z)] 1 = Some [98]%N.
Proof. split; reflexivity. Qed.

(** REFUTED of the code (C62): text that is no address panics instead of giving an error. *)
Theorem c62_address_refuted parse_ipv4 parse_ipv6 (b : bytes) : parse_ipv4 b = None -> parse_ipv6 b = None ->
  cast_col parse_ipv4 parse_ipv6 (CString [b]) TIpv4 = Panic PUnwrap /\
  cast_col parse_ipv4 parse_ipv6 (CString [b]) TIpv6 = Panic PUnwrap.
Proof. intros E4 E6. cbn. rewrite E4, E6. split; reflexivity. Qed.
Print Assumptions c62_address_refuted.
Example c62_address_case : one_ip [97]%N = None /\ one_ip [49; 46; 50; 46; 51; 46; 52]%N = Some [1; 2; 3; 4]%N.
Proof. split; reflexivity. Qed.

(** REFUTED of the code (C62): a column of strings into LowCardinality of a number panics instead of giving
    an error; one without rows is let through. *)
Theorem c62_dictionary_refuted (b : bytes) :
  cast_col no_ip no_ip (CString [b]) (TLowCardinality (TNum U8)) = Panic PExplicit /\
  exists c', cast_col no_ip no_ip (CString []) (TLowCardinality (TNum U8)) = Ok c'.
Proof. split; [reflexivity|eexists; reflexivity]. Qed.
Print Assumptions c62_dictionary_refuted.

(** REFUTED of the code (C62): a map is only converted if its keys and its values both must be; times
    as values of strings are refused, and so are numbers where only the function of an aggregate
    differs, and times that were received, into DateTime64. *)
Theorem c62_missing_refuted kl vl offs z p z' f g l : f <> g ->
  cast_col no_ip no_ip (CMap (CString kl) (CChrono vl z) offs) (TMap TString (TDateTime DateTime32)) = Err EInvalidType /\
  cast_col no_ip no_ip (CAgg f (CVec U64 l)) (TAgg g (TNum U64)) = Err EInvalidType /\
  (forall tl, cast_col no_ip no_ip (CDateTime tl z) (TDateTime (DateTime64 p z')) = Err EInvalidType).
Proof.
  intros H. repeat split. apply cast_refused. cbn [ctype accepted restored orb]. destruct (sqltype_eqb (TAgg f (TNum U64)) (TAgg g (TNum U64))) eqn:E; [apply eqb_sqltype in E; congruence|].
  reflexivity.
Qed.
Print Assumptions c62_missing_refuted.

(** REFUTED of the code (C62): a column of times into LowCardinality(DateTime64) is converted to a
    column that panics when it is written. *)
Theorem c62_unwritable_refuted z :
  exists c', cast_col no_ip no_ip (CDateTime [1]%N z) (TLowCardinality (TDateTime (DateTime64 3 z))) = Ok c' /\
    ctype c' = TLowCardinality (TDateTime (DateTime64 3 z)) /\ save c' 0 1 = Panic PUnimplemented.
Proof. eexists. split; [reflexivity|]. split; reflexivity. Qed.
Print Assumptions c62_unwritable_refuted.

(** REFUTED of the code (C64): half a second before 1970 becomes 1970; a time before 1970 put into a
    DateTime becomes one of 2106. *)
Theorem c64_before_1970_refuted :
  (exists c', cast_col no_ip no_ip (CChrono [((-1)%Z, 500000000%N, [])] []) (TDateTime (DateTime64 0 [])) = Ok c' /\
     save c' 0 1 = Ok (marshal I64 0)) /\
  (exists c', cast_col no_ip no_ip (CChrono [((-1)%Z, 0%N, [])] []) (TDateTime DateTime32) = Ok c' /\
     save c' 0 1 = Ok (marshal U32 (2 ^ 32 - 1))) /\
  (exists c', cast_col no_ip no_ip (CChrono [(1%Z, 0%N, [])] []) (TDateTime (DateTime64 10 [])) = Ok c' /\
     save c' 0 1 = Panic PArith).
Proof. repeat split; eexists; (split; [reflexivity|vm_compute; reflexivity]). Qed.
Print Assumptions c64_before_1970_refuted.
