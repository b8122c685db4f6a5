(** Property C23: reading a cell as a Rust type. *)
From Verif Require Import Base Bytes Utf8 Reader Types TypeNames Decimal DateTime Values Columns Block SpecColumns
  SpecTypes TypeNamesProofs LoadTypeProofs PushProofs FromSql SpecFromSql FromSqlProofs.
Open Scope nat_scope.

(** All columns of a block are columns a program can get hold of. *)
Definition block_formed (b : block) : Prop := Forall (fun c => formed (snd c)) (b_cols b).

Lemma get_column_formed b x c : block_formed b -> get_column b x = Ok c -> formed (snd c).
Proof.
  intros F H. unfold get_column in H. inv_do H. unfold index, or_panic in H.
  destruct (nth_error (b_cols b) x0) eqn:E'; [|discriminate H]. injection H as <-.
  apply nth_error_In in E'. unfold block_formed in F. rewrite Forall_forall in F. apply F, E'.
Qed.

(** C23, "returns the stored value unchanged": whatever type a cell is read as, and wherever
    it is, a value that comes back says what the cell says. *)
Theorem c23_unchanged : forall r b row x y, block_formed b -> get r b row x = Ok y ->
  exists v, get_cell b row x = Ok v /\ is_value v y.
Proof.
  intros r b row x y F H. unfold get in H. inv_do H. exists x0. split; [exact E|].
  unfold get_cell in E. inv_do E. pose proof (get_column_formed _ _ _ F E0) as Fc.
  exact (proj1 (from_sql_ok r _ _ _ (at_cell _ Fc _ _ E) H)).
Qed.
Print Assumptions c23_unchanged.

(** C23, "succeeds only if the stored type is the one": of a cell that holds no NULL and no
    empty map, the part about NULL and empty maps being false of the code (below). *)
Theorem c23_stored_type_partial : forall r b row x y c v, block_formed b ->
  get_column b x = Ok c -> at_ (snd c) row = Ok v -> full v ->
  get r b row x = Ok y -> stands r (ctype (snd c)).
Proof.
  intros r b row x y c v F Hc Hv Hf H. unfold get, get_cell in H. rewrite Hc in H. cbn [rbind] in H.
  rewrite Hv in H. cbn [rbind] in H. pose proof (get_column_formed _ _ _ F Hc) as Fc.
  exact (proj2 (from_sql_ok r _ _ _ (at_cell _ Fc _ _ Hv) H) Hf).
Qed.
Print Assumptions c23_stored_type_partial.

(** C23, "otherwise the result is an error": for the same cells, a type that does not stand
    for the column's gives an error, no value and no panic. *)
Theorem c23_wrong_is_error_partial : forall r b row x c v, block_formed b ->
  get_column b x = Ok c -> at_ (snd c) row = Ok v -> full v ->
  ~ stands r (ctype (snd c)) -> exists e, get r b row x = Err e.
Proof.
  intros r b row x c v F Hc Hv Hf N. unfold get, get_cell. rewrite Hc. cbn [rbind]. rewrite Hv. cbn [rbind].
  pose proof (get_column_formed _ _ _ F Hc) as Fc. pose proof (at_cell _ Fc _ _ Hv) as K.
  destruct (from_sql r v) as [y|e|p] eqn:E.
  - contradiction N. exact (proj2 (from_sql_ok r _ _ _ K E) Hf).
  - eauto.
  - contradiction N. exact (from_sql_panic r _ _ _ K Hf E).
Qed.
Print Assumptions c23_wrong_is_error_partial.

(** And the right type does give the value: for every cell, NULL or not, whose strings are
    UTF-8 and whose DateTime64s are between 1970 and 2262. *)
Theorem c23_right_succeeds : forall r b row x c v, block_formed b ->
  get_column b x = Ok c -> at_ (snd c) row = Ok v -> readable v ->
  stands r (ctype (snd c)) -> exists y, get r b row x = Ok y /\ is_value v y.
Proof.
  intros r b row x c v F Hc Hv Hr S. pose proof (get_column_formed _ _ _ F Hc) as Fc.
  destruct (from_sql_there r _ _ (at_cell _ Fc _ _ Hv) Hr S) as [y E].
  exists y. unfold get, get_cell. rewrite Hc. cbn [rbind]. rewrite Hv. cbn [rbind]. split; [exact E|].
  exact (proj1 (from_sql_ok r _ _ _ (at_cell _ Fc _ _ Hv) E)).
Qed.
Print Assumptions c23_right_succeeds.

(** Every column received from a server is one of those the theorems speak of, if its type
    is one of ClickHouse's. *)
Theorem c23_received : forall tz_known tz t fuel size s c r,
  precise_type t -> nameable tz_known t -> enough fuel t ->
  run (load_data tz_known fuel (type_name t) size tz) s = Ok (c, r) -> formed c.
Proof. intros tz_known tz t. apply load_formed. Qed.
Print Assumptions c23_received.

(** A block of a nullable column of maps and a column of DateTime64s, read as the right and as
    wrong types. *)
Definition name_a : bytes := [97]%N.
Definition name_b : bytes := [98]%N.
Definition cells : block := mk_block info_default
  [(name_a, CNullable (CMap (CString [[107]; [108]]%N) (CVec U16 [7; 9]%Z) [1; 2]%N) [0; 0]%N);
   (name_b, CDateTime64 [1234; -1]%Z 3 [85]%N)].
Example c23_cells_formed : block_formed cells.
Proof. unfold block_formed. repeat constructor; cbn; try lia; discriminate. Qed.
Example c23_cells_full : exists v c, get_column cells (ByPos 0) = Ok c /\ at_ (snd c) 1 = Ok v /\ full v /\ readable v.
Proof. do 2 eexists. split; [reflexivity|]. split; [reflexivity|]. cbn. repeat split; discriminate. Qed.
Example c23_cells_right : get (ROption (RMap RString (RNum U16))) cells 1 (ByPos 0) =
    Ok (XOption (Some (XMap [(XText [108]%N, XNum U16 9)]))) /\
  get RDateTime cells 0 (ByName name_b) = Ok (XTime 1 234000000 [85]%N).
Proof. split; vm_compute; reflexivity. Qed.
Example c23_cells_wrong : get (ROption (RMap RString (RNum U32))) cells 1 (ByPos 0) = Err EInvalidType /\
  get RDate cells 0 (ByName name_b) = Err EInvalidType.
Proof. split; vm_compute; reflexivity. Qed.
Example c23_cells_not_stands : ~ stands (ROption (RMap RString (RNum U32))) (ctype (CNullable (CMap (CString []) (CVec U16 []) []) [])).
Proof. intros H. inversion H; subst. inversion H2; subst. inversion H6. Qed.

(** C23 is false of the code for a NULL and for an empty map: a NULL of a Nullable(String)
    column can be read as [Option<u8>], and an empty Map(String, UInt16) as
    [HashMap<u8, Uuid>], without an error. *)
Theorem c23_null_refuted :
  let b := mk_block info_default [(name_a, CNullable (CString [[]]) [1]%N)] in
  block_formed b /\ ~ stands (ROption (RNum U8)) (TNullable TString) /\
  get (ROption (RNum U8)) b 0 (ByPos 0) = Ok (XOption None) /\
  let b' := mk_block info_default [(name_a, CMap (CString []) (CVec U16 []) [0]%N)] in
  block_formed b' /\ ~ stands (RMap (RNum U8) RUuid) (TMap TString (TNum U16)) /\
  get (RMap (RNum U8) RUuid) b' 0 (ByPos 0) = Ok (XMap []).
Proof.
  cbv zeta. split; [|split; [|split; [|split; [|split]]]].
  - repeat constructor.
  - intros H. inversion H; subst. inversion H2.
  - reflexivity.
  - repeat constructor.
  - intros H. inversion H; subst. inversion H3.
  - reflexivity.
Qed.
Print Assumptions c23_null_refuted.

(** Reading as the right type panics instead of giving a value or an error, for a DateTime64
    between two seconds before 1970. *)
Theorem c23_panics_refuted : get RDateTime cells 1 (ByName name_b) = Panic PUnwrap.
Proof. vm_compute. reflexivity. Qed.
Print Assumptions c23_panics_refuted.

(** And a DateTime64 column of a precision above 18, which a program can make although ClickHouse
    has none, reads as 1970 whatever it holds. *)
Theorem c23_precision_refuted : forall t p tz, (19 <= p)%N ->
  get RDateTime (mk_block info_default [(name_a, CDateTime64 [t] p tz)]) 0 (ByPos 0) = Ok (XTime 0 0 tz).
Proof.
  intros t p tz H. unfold get, get_cell, get_column. cbn [get_index rbind b_cols index nth_error or_panic snd at_ from_sql into_time].
  unfold to_datetime, to_datetime_opt. destruct (N.ltb_spec p 19); [lia|]. reflexivity.
Qed.
Print Assumptions c23_precision_refuted.
