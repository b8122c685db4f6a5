(** Properties C47, C41 and C54: typed iteration over columns. *)
From Verif Require Import Base Bytes Utf8 Types TypeNames Decimal DateTime Values Columns SpecColumns
  FromSql SpecFromSql FromSqlProofs Iter SpecIter IterProofs IterMoreProofs.
Open Scope nat_scope.

(** C47, "yields exactly, in order, the values that reading each row yields": an iterator whose
    type matches the column gives as many items as the column has rows, the i-th of which
    says what the cell of row i says, and then ends. Missing: columns of types that are not
    regular, where it is false of the code (below), and dates in zones west of UTC and times
    before 1970 (C41, C23). *)
Theorem c47_items_partial : forall offset r c it, regular (ctype c) -> tidy c -> clocks offset r c ->
  walks r (ctype c) -> iter r c = Ok it ->
  exists xs, clen c = Ok (length xs) /\ yields (next offset r) it xs /\
    forall i v x, at_ c i = Ok v -> nth_error xs i = Some x -> item r v x.
Proof.
  intros offset r c it R T C W H. apply runs_yields.
  apply (iter_runs offset r c c 0 it (part_self c R)); auto. left. auto.
Qed.
Print Assumptions c47_items_partial.

(** And for columns that lend their memory, the iterator can be had. Columns with dates, times
    or dictionaries inside others do not lend theirs (below). *)
Theorem c47_starts_partial : forall r c, regular (ctype c) -> tidy c -> lends false c ->
  walks r (ctype c) -> exists it, iter r c = Ok it.
Proof.
  intros r c R T L W. exact (iter_starts r c c 0 false W (part_self c R) T L (fun _ => eq_refl)).
Qed.
Print Assumptions c47_starts_partial.

(** C47, "skipping ahead by n lands on the same row as n+1 calls to next": for every iterator a
    program can have got hold of, of any column, well-formed or not. *)
Theorem c47_skip : forall offset r n it y, reached offset r it ->
  nexts (next offset r) n it = Ok y -> nth offset r n it = Ok y.
Proof. exact nth_nexts. Qed.
Print Assumptions c47_skip.

(** So any mixture of calls of [next] and [nth] gives the rows it should. *)
Theorem c47_skip_lands : forall offset r n it xs, reached offset r it -> yields (next offset r) it xs ->
  exists it', nth offset r n it = Ok (nth_error xs n, it') /\ reached offset r it' /\
              yields (next offset r) it' (skipn (S n) xs).
Proof. intros offset r n. exact (skips offset r n). Qed.
Print Assumptions c47_skip_lands.

(** C47 for columns of several pieces, such as a whole result has. *)
Theorem c47_concatenated_partial : forall offset r c0 cs,
  Forall (fun p => ctype p = ctype c0 /\ tidy p /\ lends false p /\ clocks offset r p) (c0 :: cs) ->
  regular (ctype c0) -> walks r (ctype c0) ->
  exists it xs, iter_complex r (CConcat c0 cs) = Ok it /\
    clen (CConcat c0 cs) = Ok (length xs) /\ yields (cnext offset r) it xs /\
    forall i v x, at_ (CConcat c0 cs) i = Ok v -> nth_error xs i = Some x -> item r v x.
Proof.
  intros offset r c0 cs F R W. apply complex_runs. eapply Forall_impl; [|exact F].
  intros p (Tp & Td & L & C). split; [exact Tp|]. rewrite <- Tp in R, W.
  destruct (c47_starts_partial r p R Td L W) as [it H]. exists it. split; [exact H|].
  apply (iter_runs offset r p p 0 it (part_self p R)); auto. left. auto.
Qed.
Print Assumptions c47_concatenated_partial.

(** C54, "a type that does not match is an error, and nothing is read but the column's own data":
    for every type without addresses and UUIDs, asking for an iterator either fails, or the type
    matches and the iterator gives the rows. [PUndefined], the model's mark for memory
    that is not what it is taken for, is no outcome. *)
Theorem c54_answers_partial : forall offset r c, typed r -> regular (ctype c) -> tidy c -> stored c ->
  clocks offset r c ->
  (exists e, iter r c = Err e) \/
  (walks r (ctype c) /\ exists it xs, iter r c = Ok it /\ clen c = Ok (length xs) /\
     yields (next offset r) it xs).
Proof.
  intros offset r c Ty R T St C.
  destruct (iter_answers r c c 0 Ty (part_self c R) (or_introl eq_refl) T St) as [[[it H] W]|E]; [|left; exact E].
  right. split; [exact W|]. destruct (c47_items_partial offset r c it R T C W H) as (xs & L & Y & _).
  exists it, xs. auto.
Qed.
Print Assumptions c54_answers_partial.

(** C41: what the iterator makes of a Date column: midnight UTC of each day, as a date in the
    server's zone. *)
Theorem c41_dates : forall offset l tz, exists it, iter IDate (CDate l tz) = Ok it /\
  yields (next offset IDate) it
    (map (fun d => XDate ((Z.of_N d * 86400 + offset tz (Z.of_N d * 86400)%Z) / 86400)%Z) l).
Proof.
  intros offset l tz. exists (mk_date None (SDays l) 0 (length l) tz). split; [reflexivity|].
  assert (G : forall pre post, l = pre ++ post ->
    yields (next offset IDate) (mk_date None (SDays l) (length pre) (length l) tz)
      (map (fun d => XDate ((Z.of_N d * 86400 + offset tz (Z.of_N d * 86400)%Z) / 86400)%Z) post)).
  { intros pre post. revert pre. induction post as [|d post IH]; intros pre E; cbn [map yields next]; unfold date_next;
      cbn [da_index da_len da_low da_data da_tz low_index rbind].
    - rewrite app_nil_r in E. subst pre. rewrite Nat.eqb_refl. eauto.
    - assert (length pre < length l) by (rewrite E, app_length; cbn [length]; lia).
      destruct (Nat.eqb_spec (length pre) (length l)); [lia|].
      unfold date_item. cbn [da_data da_tz]. unfold element.
      replace (nth_error l (length pre)) with (Some d)
        by (rewrite E, nth_error_app2 by lia; rewrite Nat.sub_diag; reflexivity).
      cbn [or_panic rbind]. eexists. split; [reflexivity|].
      specialize (IH (pre ++ [d])). rewrite app_length in IH. cbn [length] in IH.
      replace (length pre + 1) with (S (length pre)) in IH by lia. apply IH.
      rewrite <- app_assoc. exact E. }
  apply (G [] l eq_refl).
Qed.
Print Assumptions c41_dates.

(** The getter reads the day as it is stored; so the two agree exactly where local time is not
    behind UTC (and less than a day ahead) at that midnight. *)
Theorem c41_agree_partial : forall offset l tz i d, nth_error l i = Some d ->
  let s := (Z.of_N d * 86400)%Z in
  (exists v, at_ (CDate l tz) i = Ok v /\ from_sql RDate v = Ok (XDate (Z.of_N d))) /\
  (XDate ((s + offset tz s) / 86400)%Z = XDate (Z.of_N d) <-> (0 <= offset tz s < 86400)%Z).
Proof.
  intros offset l tz i d H s. split.
  - exists (VDate d). cbn [at_]. unfold index, or_panic. rewrite H. split; reflexivity.
  - split.
    + intro E. injection E as E. unfold s in *.
      pose proof (Z.div_mod (Z.of_N d * 86400 + offset tz (Z.of_N d * 86400)) 86400 ltac:(lia))%Z.
      pose proof (Z.mod_pos_bound (Z.of_N d * 86400 + offset tz (Z.of_N d * 86400)) 86400 ltac:(lia))%Z. lia.
    + intro B. f_equal. unfold s in *. symmetry.
      apply (Z.div_unique _ 86400 (Z.of_N d) (offset tz (Z.of_N d * 86400))%Z); lia.
Qed.
Print Assumptions c41_agree_partial.

(** REFUTED of the code: in every zone that was behind UTC at that midnight the iterator gives the
    day before the one that is stored. *)
Theorem c41_west_refuted : forall offset tz d, (-86400 <= offset tz (Z.of_N d * 86400)%Z < 0)%Z ->
  exists it, iter IDate (CDate [d] tz) = Ok it /\
    yields (next offset IDate) it [XDate (Z.of_N d - 1)] /\
    at_ (CDate [d] tz) 0 = Ok (VDate d) /\ from_sql RDate (VDate d) = Ok (XDate (Z.of_N d)).
Proof.
  intros offset tz d B. destruct (c41_dates offset [d] tz) as (it & H & Y). exists it.
  cbn [map] in Y.
  replace ((Z.of_N d * 86400 + offset tz (Z.of_N d * 86400)) / 86400)%Z with (Z.of_N d - 1)%Z in Y.
  - repeat split; auto.
  - apply (Z.div_unique _ 86400 (Z.of_N d - 1) (offset tz (Z.of_N d * 86400) + 86400)%Z); lia.
Qed.
Print Assumptions c41_west_refuted.

(** * Concrete cases *)

(** New York is five hours behind UTC, Moscow three ahead. *)
Definition ny : bytes := [110; 121]%N.
Definition mos : bytes := [109]%N.
Definition hours (tz : bytes) (_ : Z) : Z :=
  if list_eq_dec N.eq_dec tz ny then (-18000)%Z else if list_eq_dec N.eq_dec tz mos then 10800%Z else 0%Z.

(** {"a": [Some 1, None], "b": []}, {} as a column. *)
Definition nested : col :=
  CMap (CString [[97]; [98]]%N)
       (CArray (CNullable (CVec U16 [1; 0]%Z) [0; 1]%N) [2; 2]%N) [2; 2]%N.
Definition nested_type : itype := IMap IBytes (IVec (IOption (INum U16))).
Example c47_nested_hypotheses : regular (ctype nested) /\ tidy nested /\ lends false nested /\
  stored nested /\ typed nested_type /\ clocks hours nested_type nested /\ walks nested_type (ctype nested).
Proof.
  split; [|split; [|split; [|split; [|split; [|split]]]]].
  - cbn. split; [left; reflexivity|exact I].
  - cbn. repeat split; repeat constructor; lia.
  - cbn. auto.
  - cbn. auto.
  - cbn. auto.
  - split; [discriminate|]. intros i v H. unfold nested in H. rewrite PushProofs.at_map in H.
    PushProofs.inv_do H. PushProofs.inv_do H. inversion H; subst. exact I.
  - cbn. constructor; [constructor; left; reflexivity|]. repeat constructor.
Qed.
Example c47_nested_items : exists it, iter nested_type nested = Ok it /\
  yields (next hours nested_type) it
    [XMap [(XBytes [97]%N, XVec [XOption (Some (XNum U16 1)); XOption None]); (XBytes [98]%N, XVec [])];
     XMap []].
Proof.
  eexists. split; [reflexivity|]. eexists. split; [reflexivity|]. eexists. split; [reflexivity|].
  eexists. reflexivity.
Qed.
Example c47_skip_case : exists it, reached hours (INum U8) it /\
  nth hours (INum U8) 2 it = Ok (Some (XNum U8 9), [10]%Z).
Proof.
  exists [7; 8; 9; 10]%Z. split; [|reflexivity]. apply (RcStart hours (INum U8) (CVec U8 [7; 8; 9; 10]%Z)). reflexivity.
Qed.
Definition pieces : list col := [CString [[97]]%N; CString []; CString [[98]]%N].
Example c47_concatenated_hypotheses :
  Forall (fun p => ctype p = ctype (CString []) /\ tidy p /\ lends false p /\ clocks hours IBytes p)
    (CString [] :: pieces) /\ regular TString /\ walks IBytes TString.
Proof.
  split; [|split; [exact I|constructor; left; reflexivity]].
  repeat constructor; try discriminate; intros i v H; cbn [at_] in H; PushProofs.inv_do H; inversion H; exact I.
Qed.
Example c47_concatenated_items : exists it, iter_complex IBytes (CConcat (CString []) pieces) = Ok it /\
  yields (cnext hours IBytes) it [XBytes [97]%N; XBytes [98]%N].
Proof.
  eexists. split; [reflexivity|]. eexists. split; [reflexivity|]. eexists. split; [reflexivity|].
  eexists. reflexivity.
Qed.
Example c41_east_and_west : exists e w,
  iter IDate (CDate [19000; 19001]%N mos) = Ok e /\ iter IDate (CDate [19000; 19001]%N ny) = Ok w /\
  yields (next hours IDate) e [XDate 19000; XDate 19001] /\
  yields (next hours IDate) w [XDate 18999; XDate 19000].
Proof.
  eexists; eexists. split; [reflexivity|]. split; [reflexivity|]. split.
  - eexists. split; [reflexivity|]. eexists. split; [reflexivity|]. eexists. reflexivity.
  - eexists. split; [reflexivity|]. eexists. split; [reflexivity|]. eexists. reflexivity.
Qed.
Example c41_moscow_is_eastern : clocks hours IDate (CDate [19000; 19001]%N mos) /\
  tidy (CDate [19000; 19001]%N mos) /\ lends false (CDate [19000; 19001]%N mos).
Proof.
  split; [|split; [exact I|reflexivity]]. split.
  - intros _. repeat constructor; vm_compute; congruence.
  - intros i v H. cbn [at_] in H. PushProofs.inv_do H. inversion H. exact I.
Qed.
Example c54_wrong_case : iter (IMap IBytes (IVec (IOption (INum U32)))) nested = Err EInvalidType.
Proof. reflexivity. Qed.

(** * False of the code *)

(** REFUTED of the code (C47): the keys of a map keyed by fixed strings are read from the memory
    of its values: {"a": 5} comes out as {"\x05": 5}. *)
Definition fixed_keys : col := CMap (CFixed 1 [97]%N) (CVec U8 [5]%Z) [1]%N.
Theorem c47_fixed_keys_refuted :
  walks (IMap IBytes (INum U8)) (ctype fixed_keys) /\ tidy fixed_keys /\
  exists it, iter (IMap IBytes (INum U8)) fixed_keys = Ok it /\
    yields (next hours (IMap IBytes (INum U8))) it [XMap [(XBytes [5]%N, XNum U8 5)]] /\
    exists k v, at_ fixed_keys 0 = Ok (VMap k v [(VString [97]%N, VNum U8 5)]).
Proof.
  split; [|split].
  - constructor; [constructor; right; eexists; reflexivity|repeat constructor].
  - cbn. repeat split; repeat constructor; lia.
  - eexists. split; [reflexivity|]. split.
    + eexists. split; [reflexivity|]. eexists. reflexivity.
    + eexists; eexists. reflexivity.
Qed.
Print Assumptions c47_fixed_keys_refuted.

(** REFUTED of the code (C47): the keys of a map inside two arrays are read from the memory of its
    values: [[{1: 7}]] comes out as [[{7: 7}]]. *)
Definition deep_map (keys : col) : col := CArray (CArray (CMap keys (CVec U8 [7]%Z) [1]%N) [1]%N) [1]%N.
Definition deep_type (k : itype) : itype := IVec (IVec (IMap k (INum U8))).
Theorem c47_inner_map_refuted :
  walks (deep_type (INum U8)) (ctype (deep_map (CVec U8 [1]%Z))) /\ tidy (deep_map (CVec U8 [1]%Z)) /\
  exists it, iter (deep_type (INum U8)) (deep_map (CVec U8 [1]%Z)) = Ok it /\
    yields (next hours (deep_type (INum U8))) it [XVec [XVec [XMap [(XNum U8 7, XNum U8 7)]]]] /\
    exists t u k v, at_ (deep_map (CVec U8 [1]%Z)) 0 =
      Ok (VArray t [VArray u [VMap k v [(VNum U8 1, VNum U8 7)]]]).
Proof.
  split; [|split].
  - repeat constructor.
  - cbn. repeat split; repeat constructor; lia.
  - eexists. split; [reflexivity|]. split.
    + eexists. split; [reflexivity|]. eexists. reflexivity.
    + eexists; eexists; eexists; eexists. reflexivity.
Qed.
Print Assumptions c47_inner_map_refuted.

(** REFUTED of the code (C54): with strings for keys, the numbers are taken for a pool of strings. *)
Theorem c54_inner_map_refuted :
  walks (deep_type IBytes) (ctype (deep_map (CString [[97]]%N))) /\ tidy (deep_map (CString [[97]]%N)) /\
  iter (deep_type IBytes) (deep_map (CString [[97]]%N)) = Panic PUndefined.
Proof.
  split; [|split; [|reflexivity]].
  - constructor. constructor. constructor; [constructor; left; reflexivity|repeat constructor].
  - cbn. repeat split; repeat constructor; lia.
Qed.
Print Assumptions c54_inner_map_refuted.

(** REFUTED of the code (C47): no column with dates, times or dictionaries inside arrays or
    optional values can be iterated over by its own type, whatever it holds. Nor can the columns
    that a program makes of its own times. *)
Theorem c47_dates_inside_refuted : forall l tz nulls offs s ix idx vm times,
  walks (IOption IDate) (ctype (CNullable (CDate l tz) nulls)) /\
  iter (IOption IDate) (CNullable (CDate l tz) nulls) = Err EUnsupported /\
  walks (IVec IDateTime) (ctype (CArray (CDateTime l tz) offs)) /\
  iter (IVec IDateTime) (CArray (CDateTime l tz) offs) = Err EUnsupported /\
  walks (IVec IBytes) (ctype (CArray (CLow (CString s) ix idx vm) offs)) /\
  iter (IVec IBytes) (CArray (CLow (CString s) ix idx vm) offs) = Err EUnsupported /\
  walks IDateTime (ctype (CChrono times tz)) /\
  iter IDateTime (CChrono times tz) = Err EUnsupported.
Proof.
  intros. repeat split; try reflexivity; try (repeat constructor; fail).
Qed.
Print Assumptions c47_dates_inside_refuted.

(** REFUTED of the code (C54): iteration by address types pays no attention to the column's type.
    A UUID column comes out as four IPv4 addresses a row, the zeros kept for a NULL address as
    the address 0.0.0.0, and reading three IPv4 addresses as IPv6 runs beyond the
    column's memory; a column of strings, numbers or nested ones panics. *)
Theorem c54_addresses_refuted :
  (exists it x, iter IIpv4 (CIp IpUuid (repeat 7%N 16)) = Ok it /\
     yields (next hours IIpv4) it [x; x; x; x]) /\
  (exists it, iter IIpv4 (CNullable (CIp IpV4 [0; 0; 0; 0]%N) [1]%N) = Ok it /\
     yields (next hours IIpv4) it [XIpv4 [0; 0; 0; 0]%N]) /\
  (exists it, iter IIpv6 (CIp IpV4 (repeat 7%N 12)) = Ok it /\ next hours IIpv6 it = Panic PUndefined) /\
  (forall l, iter IIpv4 (CString l) = Panic PIndex) /\
  (forall s l, iter IUuid (CVec s l) = Panic PIndex).
Proof.
  split; [|split; [|split; [|split]]].
  - exists (repeat 7%N 16), (XIpv4 [7; 7; 7; 7]%N). split; [reflexivity|].
    do 4 (eexists; split; [reflexivity|]). eexists. reflexivity.
  - eexists. split; [reflexivity|]. eexists. split; [reflexivity|]. eexists. reflexivity.
  - eexists. split; reflexivity.
  - reflexivity.
  - reflexivity.
Qed.
Print Assumptions c54_addresses_refuted.

(** REFUTED of the code (C54): the elements of a dictionary of dates are read without looking at its
    length, so that an index beyond it reads other memory. The getter panics there. *)
Definition bad_index : col := CLow (CDate [10]%N []) X8 [5]%N None.
Theorem c54_dictionary_refuted :
  (exists it, iter IDate bad_index = Ok it /\ next hours IDate it = Panic PUndefined) /\
  at_ bad_index 0 = Panic PIndex.
Proof. split; [|reflexivity]. eexists. split; reflexivity. Qed.
Print Assumptions c54_dictionary_refuted.

(** REFUTED of the code (C54): over a column of several pieces an iterator of a wrong type is handed
    out, and its first [next] panics. *)
Theorem c54_concatenated_refuted : forall r c0 cs e n, clen c0 = Ok (S n) -> iter r c0 = Err e ->
  exists it, iter_complex r (CConcat c0 cs) = Ok it /\ cnext hours r it = Panic PUnwrap.
Proof.
  intros r c0 cs e n L H. eexists. split; [reflexivity|].
  unfold cnext. cbn [ci_rest length]. remember (S (S (length cs))) as f.
  cbn [cnext_loop ci_current ci_rest ci_type skip_empty]. rewrite L. cbn [rbind Nat.ltb Nat.leb].
  unfold iter in H. cbn [ctype]. rewrite H. reflexivity.
Qed.
Print Assumptions c54_concatenated_refuted.
Example c54_concatenated_case : iter IBytes (CVec U8 [1]%Z) = Err EInvalidType.
Proof. reflexivity. Qed.

(** REFUTED of the code (C47): a null mark other than 0 and 1 is NULL to the iterator and a value to
    the getter. *)
Theorem c47_null_mark_refuted :
  (exists it, iter (IOption (INum U8)) (CNullable (CVec U8 [5]%Z) [2]%N) = Ok it /\
     yields (next hours (IOption (INum U8))) it [XOption None]) /\
  at_ (CNullable (CVec U8 [5]%Z) [2]%N) 0 = Ok (VSome (VNum U8 5)).
Proof.
  split; [|reflexivity]. eexists. split; [reflexivity|]. eexists. split; [reflexivity|]. eexists. reflexivity.
Qed.
Print Assumptions c47_null_mark_refuted.

(** REFUTED of the code (C47): where an array says it is longer than what there is, the iterator
    quietly gives a shorter one. The getter panics. *)
Theorem c47_short_row_refuted :
  (exists it, iter (IVec (INum U8)) (CArray (CVec U8 [5]%Z) [3]%N) = Ok it /\
     yields (next hours (IVec (INum U8))) it [XVec [XNum U8 5]]) /\
  at_ (CArray (CVec U8 [5]%Z) [3]%N) 0 = Panic PIndex.
Proof.
  split; [|reflexivity]. eexists. split; [reflexivity|]. eexists. split; [reflexivity|]. eexists. reflexivity.
Qed.
Print Assumptions c47_short_row_refuted.
