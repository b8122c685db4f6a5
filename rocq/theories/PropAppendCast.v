(** C18 and C61 for columns with times, which are converted before they are sent. *)
From Verif Require Import Base Bytes Utf8 Reader Wire Types Text TypeNames Decimal DateTime Values Columns Casts Block.
From Verif Require Import SpecWire SpecColumns SpecTypes SpecCasts SpecBlock ReaderProofs WireProofs PushProofs TypeNamesProofs LoadTypeProofs SendProofs RangeProofs.
From Verif Require Import CastProofs CastSendProofs CastMainProofs CastBlockProofs CastTotalProofs AppendCastProofs PropCasts.
Open Scope nat_scope.

(** Values appended to a fresh column of any type without DateTime64, and without times in maps and
    dictionaries: the conversion to a table's type that has counterparts for them succeeds, and
    the receiver's column has that type and those counterparts, row for row. [us] is what the
    rows read as before they are sent. The sizes only exclude buffers larger than Rust allows. *)
Theorem append_convert_send_receive tz_known tz parse_ipv4 parse_ipv6 t tz0 c vs us t' ws (w : Prop) :
  from_type t tz0 = Ok c -> no_empty_rows t -> open_times t -> Forall proper vs -> Forall (timely w) vs ->
  mapO (reads_as c) vs = Some us -> (weights vs < 2 ^ 64)%N ->
  mapO (converted tz parse_ipv4 parse_ipv6 (ctype c) t') us = Some ws -> accepted (ctype c) t' = true ->
  nameable tz_known t' -> table_type t' -> no_empty_rows t' -> ctype c = t' \/ covered t' ->
  (lenN vs * row_size t' <= isize_max)%N -> (80 * lenN vs <= isize_max)%N -> Forall short_text ws -> w \/ seconds_only t' ->
  exists c', push_each push c vs = Ok c' /\
    (fits c' -> exists d, cast_col parse_ipv4 parse_ipv6 c' t' = Ok d /\
      (fits d -> exists bs e, save d 0 (length vs) = Ok bs /\
        (forall r, run (load_column tz_known (type_name t') (lenN vs) tz) (bs ++ r) = Ok (e, r)) /\
        ctype e = t' /\ holds e ws)).
Proof.
  intros H NE OT PV TV R B HM A NM TT NE' CV RS SZ ST WS.
  destruct (append_cast tz_known tz parse_ipv4 parse_ipv6 t tz0 c vs us t' ws w) as (c' & E & G); auto.
  exists c'. split; [exact E|]. intros F. destruct (G F) as (C & d & D). exists d. split; [exact D|]. intros Fd.
  pose proof (mapO_length _ _ _ R) as LU. pose proof (mapO_length _ _ _ HM) as LW.
  destruct (c61_converted_partial _ _ _ _ _ _ _ _ _ 0 (length us) C D Fd ltac:(lia) ltac:(auto)) as (_ & bs & e & S & L & T & HH).
  exists bs, e. split; [rewrite <- LU; exact S|]. split; [|split; [exact T|]].
  - intros r. unfold lenN. rewrite <- LU. rewrite Nat.sub_0_r in L. apply L.
  - cbn [skipn] in HH. rewrite Nat.sub_0_r, <- LW, firstn_all in HH. exact HH.
Qed.
Print Assumptions append_convert_send_receive.

(** C18 for times: appended to a nullable column of times, converted to the table's DateTime or
    DateTime64, sent and received, a row is NULL exactly where NULL was appended, and otherwise the
    instant appended. *)
Definition instant (q : dt_type) (tz : bytes) (s : N) : value :=
  match q with DateTime64 p z => VDateTime64 (Z.of_N s * 10 ^ Z.of_N p) p z | _ => VDateTime s tz end.
Definition appended (o : option (N * bytes)) : option value :=
  match o with Some (s, z) => Some (VDateTime s z) | None => None end.
Theorem c18_times tz_known tz parse_ipv4 parse_ipv6 z0 q os :
  Forall (fun o => match o with Some (s, _) => (s < 2 ^ 32)%N | None => True end) os ->
  nameable tz_known (TDateTime q) -> table_type (TDateTime q) -> (80 * lenN os <= isize_max)%N ->
  exists c, push_each push (CNullable (CChrono [] z0) []) (map (fun o => optional (TDateTime DtChrono) (appended o)) os) = Ok c /\
    (fits c -> exists d, cast_col parse_ipv4 parse_ipv6 c (TNullable (TDateTime q)) = Ok d /\
      (fits d -> exists bs e, save d 0 (length os) = Ok bs /\
        (forall r, run (load_column tz_known (type_name (TNullable (TDateTime q))) (lenN os) tz) (bs ++ r) = Ok (e, r)) /\
        ctype e = TNullable (TDateTime q) /\
        holds e (map (fun o => match o with Some (s, _) => VSome (instant q tz s) | None => VNull (TDateTime q) end) os))).
Proof.
  intros F NM TT SZ. set (vs := map (fun o => optional (TDateTime DtChrono) (appended o)) os).
  assert (lenN vs = lenN os) as LV by (unfold vs, lenN; rewrite map_length; reflexivity).
  destruct (append_convert_send_receive tz_known tz parse_ipv4 parse_ipv6 (TNullable (TDateTime DtChrono)) z0 (CNullable (CChrono [] z0) [])
    vs vs (TNullable (TDateTime q)) (map (fun o => match o with Some (s, _) => VSome (instant q tz s) | None => VNull (TDateTime q) end) os) True)
    as (c & E & G); try exact I; try (right; exact I); try (left; exact I).
  - reflexivity.
  - clear. unfold vs. induction os as [|[[s z]|] os IH]; constructor; auto; exact I.
  - clear -F. unfold vs. induction F as [|[[s z]|] os H _ IH]; constructor; auto; cbn.
  - clear -F. unfold vs. induction F as [|[[s z]|] os H _ IH]; [reflexivity| |]; cbn [map mapO appended optional].
    + rewrite IH. cbn [reads_as]. rewrite (proj2 (N.ltb_lt _ _) H). reflexivity.
    + rewrite IH. reflexivity.
  - enough (weights vs = lenN os) as -> by (unfold isize_max in SZ; lia). clear. unfold vs, lenN.
    induction os as [|[[s z]|] os IH]; [reflexivity| |]; cbn [map weights fold_right appended optional weight length];
      fold (weights (map (fun o => optional (TDateTime DtChrono) (appended o)) os)); rewrite IH; lia.
  - assert (sqltype_eqb (TNullable (TDateTime DtChrono)) (TNullable (TDateTime q)) = false) as Q1.
    { destruct q; [reflexivity|reflexivity|contradiction TT]. }
    assert (sqltype_eqb (TDateTime DtChrono) (TDateTime q) = false) as Q2.
    { destruct q; [reflexivity|reflexivity|contradiction TT]. }
    clear -Q1 Q2 TT. unfold vs. cbn [ctype]. induction os as [|[[s z]|] os IH]; [reflexivity| |]; cbn [map mapO appended optional]; rewrite IH;
      cbn [converted]; rewrite Q1, ?Q2; [|reflexivity].
    destruct q; cbn [instant]; [reflexivity| |contradiction TT]. cbn [table_type] in TT. rewrite (proj2 (N.leb_le _ _) TT). reflexivity.
  - destruct q; [reflexivity|reflexivity|contradiction TT].
  - split; [exact NM|exact I].
  - exact TT.
  - rewrite LV. cbn [row_size]. lia.
  - rewrite LV. exact SZ.
  - clear. induction os as [|[[s z]|] os IH]; constructor; auto; exact I.
  - exists c. split; [exact E|]. rewrite LV in G. unfold vs in G. rewrite map_length in G. exact G.
Qed.
Print Assumptions c18_times.

Example c18_times_case : let os := [Some (5, [66]); None; Some (7, [67])]%N in
  Forall (fun o => match o with Some (s, _) => (s < 2 ^ 32)%N | None => True end) os /\
  nameable some_zone (TDateTime (DateTime64 3 [85]%N)) /\ table_type (TDateTime (DateTime64 3 [85]%N)) /\
  exists c d, push_each push (CNullable (CChrono [] []) []) (map (fun o => optional (TDateTime DtChrono) (appended o)) os) = Ok c /\ fits c /\
    cast_col no_ip no_ip c (TNullable (TDateTime (DateTime64 3 [85]%N))) = Ok d /\ fits d.
Proof.
  cbn -[N.pow isize_max]. split; [repeat constructor|]. split; [split; [reflexivity|]; split; [|reflexivity]; repeat constructor; cbn; lia || discriminate|].
  split; [lia|]. do 2 eexists. split; [reflexivity|]. split; [split; vm_compute; discriminate|]. split; [reflexivity|]. split; [exact I|vm_compute; discriminate].
Qed.

(** REFUTED of the code (C18): values that are DateTime64 already, as those of a received block
    are, make columns that cannot be written, nullable or not. *)
Theorem c18_ticks_refuted : let t := TDateTime (DateTime64 3 [85]%N) in
  let os := [VNull t; VSome (VDateTime64 1234 3 [85]%N)] in
  exists c, from_type (TNullable t) [] = Ok (CNullable (CDateTime64 [] 3 [85]%N) []) /\ push_each push (CNullable (CDateTime64 [] 3 [85]%N) []) os = Ok c /\ holds c os /\ cast_col no_ip no_ip c (TNullable t) = Ok c /\ save c 0 2 = Panic PUnimplemented.
Proof.
  exists (CNullable (CDateTime64 [0; 1234]%Z 3 [85]%N) [1; 0]%N). split; [reflexivity|]. split; [vm_compute; reflexivity|].
  split; [|split; reflexivity]. split; [reflexivity|]. intros [|[|i]] v H; try (injection H as <-; reflexivity). destruct i; discriminate H.
Qed.
Print Assumptions c18_ticks_refuted.

(** REFUTED of the code (C49): a map with times as values can be built, row by row, but there is
    no DateTime it could be sent as: the conversion that every column of times needs is refused. *)
Theorem c49_times_refuted z s zz : (s < 2 ^ 32)%N ->
  exists c c', from_type (TMap TString (TDateTime DateTime32)) z = Ok c /\ push c (VMap TString (TDateTime DtChrono) [(VString [97]%N, VDateTime s zz)]) = Ok c' /\ holds c' [VMap TString (TDateTime DtChrono) [(VString [97]%N, VDateTime s zz)]] /\ save c' 0 1 = Panic PUnimplemented /\ (forall q, q <> DtChrono -> cast_col no_ip no_ip c' (TMap TString (TDateTime q)) = Err EInvalidType).
Proof.
  intros H. exists (CMap (CString []) (CChrono [] z) []), (CMap (CString [[97]%N]) (CChrono [(Z.of_N s, 0%N, zz)] z) [1%N]).
  split; [reflexivity|]. split; [reflexivity|]. split; [|split; [reflexivity|]].
  - split; [reflexivity|]. intros [|i] v X; [injection X as <-|destruct i; discriminate X].
    rewrite <- (as_u32_small s H) at 2. reflexivity.
  - intros q Q. destruct q; [reflexivity|reflexivity|congruence].
Qed.
Print Assumptions c49_times_refuted.
