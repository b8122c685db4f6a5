(** Properties C14 and C15: column type names. *)
From Coq Require Import String.
From Verif Require Import Base Bytes Reader Wire Types Text TypeNames Values Columns SpecTypes
  ReaderProofs TypeNamesProofs LoadTypeProofs.
Open Scope list_scope.
Open Scope nat_scope.

(** C14, what holds: for every nameable type (see SpecTypes.v) an empty column can be
    loaded under the printed name, and every column loaded under that name, of any size
    and from any bytes, has that type. Missing: the types SpecTypes.v leaves out, for which
    the claim is false, see [c14_aggregate_refuted] and [c14_labels_refuted]. *)
Theorem c14_names_partial tz_known tz t :
  nameable tz_known t ->
  (exists c, run (load_column tz_known (type_name t) 0 tz) [] = Ok (c, [])) /\
  (forall size s c r, run (load_column tz_known (type_name t) size tz) s = Ok (c, r) ->
     ctype c = plain_type t).
Proof.
  intros N. assert (L : enough (S (List.length (type_name t))) t) by (unfold enough; lia). split.
  - apply load_none; assumption.
  - intros size s c r H. eapply load_type; eassumption.
Qed.
Print Assumptions c14_names_partial.

Definition every_zone (b : bytes) : bool := true.

(** A deeply nested type that is nameable, and its name. *)
Definition example_type : sqltype :=
  TMap (TLowCardinality TString)
       (TArray (TNullable (TEnum16 [(str "a", -1)%Z; (str "b c", 30000)%Z]))).
Example c14_case :
  nameable every_zone example_type /\
  type_name example_type
    = str "Map(LowCardinality(String), Array(Nullable(Enum16('a' = -1,'b c' = 30000))))" /\
  nameable every_zone (TArray (TDecimal 18 4)) /\
  nameable every_zone (TAgg ASum (TNum F64)) /\
  nameable every_zone (TNullable (TDateTime (DateTime64 3 (str "Europe/London")))) /\
  nameable every_zone (TNullable (TFixedString 16)).
Proof.
  split; [|split; [vm_compute; reflexivity|]];
    cbn; unfold every_zone, unquoted; repeat split; try lia; try discriminate;
    try (repeat constructor; cbn; try lia; discriminate).
Qed.

(** C14 is false of the code in general: the name printed for an aggregate over
    FixedString(16) is read back as an aggregate over FixedString(1), so the rows of such a
    column are cut up wrongly; and a name with a quote in an enum label is rejected. *)
Theorem c14_aggregate_refuted :
  exists t c, run (load_column every_zone (type_name t) 0 []) [] = Ok (c, []) /\
    t = TAgg AAny (TFixedString 16) /\ ctype c = TAgg AAny (TFixedString 1).
Proof.
  exists (TAgg AAny (TFixedString 16)), (CAgg AAny (CFixed 1 [])). vm_compute. repeat split; reflexivity.
Qed.
Print Assumptions c14_aggregate_refuted.

Theorem c14_labels_refuted :
  (exists l, type_name (TEnum8 [(l, 1%Z)]) = str "Enum8('it's' = 1)" /\
     run (load_column every_zone (type_name (TEnum8 [(l, 1%Z)])) 0 []) [] = Err EOther) /\
  (exists c, run (load_column every_zone (type_name (TEnum8 [(str "a\b", 1%Z)])) 0 []) [] = Ok (c, []) /\
     ctype c = TEnum8 [(str "ab", 1%Z)]) /\
  run (load_column every_zone (type_name (TMap (TEnum8 [(str "a", 1%Z); (str "b", 2%Z)]) TString)) 0 []) []
    = Err EOther /\
  run (load_column every_zone (type_name (TMap (TNullable (TEnum8 [([195; 169]%N, 1%Z)])) TString)) 0 []) []
    = Err EOther /\
  run (load_column every_zone (type_name (TEnum8 [])) 0 []) [] = Err EOther.
Proof.
  split; [exists (str "it's"); vm_compute; split; reflexivity|].
  split; [exists (CEnum8 [(str "ab", 1%Z)] []); vm_compute; split; reflexivity|].
  vm_compute. repeat split; reflexivity.
Qed.
Print Assumptions c14_labels_refuted.

(** C15 is false of the code: these names, sent by a server, make the client panic. *)
Theorem c15_panics_refuted :
  Forall (fun name => run (load_column every_zone name 0 []) [] = Panic PIndex)
    [str "Nullable"; str "Nullable("; str "FixedString"; str "FixedString("; str "Array"; str "Array(";
     str "Map"; str "Map("; str "Array(Nullable)"; str "Nullable" ++ [195; 169]%N;
     str "LowCardinality" ++ [195; 169]%N].
Proof. repeat constructor. Qed.
Print Assumptions c15_panics_refuted.

(** C15, what holds: an ASCII name is either understood or refused, unless it is one of
    the four keywords Nullable, FixedString, Array and Map followed by at most one
    character. Missing: names nested inside the name (each is looked at in the same way when
    its turn comes), and names with characters outside ASCII. *)
Theorem c15_ascii_partial name :
  Forall (fun b => (b < 128)%N) name ->
  (forall k x, In k [str "Nullable"; str "FixedString"; str "Array"; str "Map"] ->
     name = k ++ x -> (2 <= List.length x)%nat) ->
  exists o, classify name = Ok o.
Proof.
  intros A K. destruct (classify_panic name A) as [Q|(k & x & I & E & L)].
  - destruct (classify name) as [o|e|p] eqn:E; [eauto| |contradiction].
    exfalso. clear K Q. unfold classify in E. destruct (match_str simple_names name); [discriminate|].
    assert (NE : forall a b e, str_slice name a b <> Err e)
      by (intros a b e'; unfold str_slice; destruct (_ && _); discriminate).
    assert (NE' : forall s a b e, str_slice s a b <> Err e)
      by (intros s a b e'; unfold str_slice; destruct (_ && _); discriminate).
    assert (B : forall X (f : bytes -> res X) s a b e, (forall x, f x <> Err e) ->
                (do x <- str_slice s a b; f x) <> Err e).
    { intros X f s a b e' F. specialize (NE' s a b e'). destruct (str_slice s a b); cbn; [apply F|congruence|discriminate]. }
    assert (SU : forall b s fuel lo e, scan_up b s fuel lo <> Err e).
    { intros b s fuel. induction fuel as [|fuel IH]; intros lo e'; cbn [scan_up]; [discriminate|].
      destruct (_ <? _); [|discriminate]. apply B. intros x. destruct (bytes_eqb x [b]); [discriminate|apply IH]. }
    assert (SD : forall b s lo hi e, scan_down b s lo hi <> Err e).
    { intros b s lo hi e'. induction hi as [|hi IH]; cbn [scan_down]; (destruct (_ <? _); [|discriminate]); apply B;
        intros x; (destruct (bytes_eqb x [b]); [discriminate|]); [discriminate|apply IH]. }
    destruct (parse_nullable name) as [[i|]|e0|p] eqn:E1; try discriminate; cbn [rbind] in E.
    2:{ revert E1. unfold parse_nullable. destruct (starts_with _ _); [|discriminate]. apply B. discriminate. }
    destruct (parse_fixed_string name) as [[i|]|e0|p] eqn:E2; try discriminate; cbn [rbind] in E.
    2:{ revert E2. unfold parse_fixed_string. destruct (starts_with _ _); [|discriminate]. apply B. discriminate. }
    destruct (parse_array name) as [[i|]|e0|p] eqn:E3; try discriminate; cbn [rbind] in E.
    2:{ revert E3. unfold parse_array. destruct (starts_with _ _); [|discriminate]. apply B. discriminate. }
    destruct (parse_map name) as [[[i j]|]|e0|p] eqn:E4; try discriminate; cbn [rbind] in E.
    2:{ revert E4. unfold parse_map. destruct (starts_with _ _); [|discriminate]. apply B. intros x.
        destruct (find_char 44 x); [|discriminate]. apply B. intros y. apply B. discriminate. }
    destruct (parse_decimal name) as [[[[i j] nb]|]|e0|p] eqn:E5; try discriminate; cbn [rbind] in E.
    2:{ revert E5. unfold parse_decimal. destruct (_ <? _); [discriminate|]. destruct (negb _); [discriminate|].
        destruct (decimal_scan _ _ _ _ _ _) as [[[nb [po|]] [pc|]]|]; try discriminate. apply B. discriminate. }
    destruct (parse_enum8 name); [discriminate|]. destruct (parse_enum16 name); [discriminate|].
    destruct (parse_date_time name); [discriminate|]. destruct (parse_date_time64 name) as [[? ?]|]; [discriminate|].
    destruct (parse_agg name) as [[[i j]|]|e0|p] eqn:E6; try discriminate; cbn [rbind] in E.
    2:{ revert E6. unfold parse_agg. destruct (_ && _); [|discriminate]. apply B. intros x.
        destruct (find_byte _ _); [|discriminate]. apply B. intros y. apply B. discriminate. }
    destruct (parse_low_cardinality name) as [[i|]|e0|p] eqn:E7; try discriminate.
    revert E7. unfold parse_low_cardinality. destruct (starts_with _ _); [|discriminate].
    destruct (scan_up _ _ _ _) as [lo|e1|p] eqn:U; [|apply SU in U; contradiction|discriminate]. cbn [rbind].
    destruct (scan_down _ _ _ _) as [hi|e1|p] eqn:D; [|apply SD in D; contradiction|discriminate]. cbn [rbind].
    destruct (_ <=? _); [discriminate|]. apply B. discriminate.
  - specialize (K k x I E). lia.
Qed.
Print Assumptions c15_ascii_partial.

(** Names that are not types, and a panicking keyword inside a word it does not start. *)
Example c15_case :
  classify (str "Decimal)(((") = Ok None /\
  classify (str "LowCardinality)") = Ok None /\
  classify (str "SimpleAggregateFunction()") = Ok None /\
  classify (str "(Array") = Ok None /\
  classify (str "Mapped") = Ok None.
Proof. vm_compute. repeat split; reflexivity. Qed.
