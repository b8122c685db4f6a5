(** Converting a column keeps its number of rows, and splitting a block that has rows gives pieces with
    columns. *)
From Verif Require Import Base Bytes Types Values Columns Casts Block.
From Verif Require CastMainProofs ConcatProofs ColumnFromProofs.
Open Scope list_scope. Open Scope nat_scope.

Lemma bind_ok {A B} (a : res A) (f : A -> res B) y : rbind a f = Ok y -> exists x, a = Ok x /\ f x = Ok y.
Proof. destruct a as [x|e|p]; intros H; try discriminate H. exists x. auto. Qed.

Section Len.
Variable parse_ipv4 parse_ipv6 : bytes -> option bytes.
(** The standard library's addresses have four and sixteen octets. *)
Hypothesis ipv4_octets : forall s o, parse_ipv4 s = Some o -> length o = 4.
Hypothesis ipv6_octets : forall s o, parse_ipv6 s = Some o -> length o = 16.

Lemma low_push_len i x idx m v c' : push (CLow i x idx m) v = Ok c' ->
  exists i' x' idx' m', c' = CLow i' x' idx' m' /\ length idx' = S (length idx).
Proof.
  unfold push. cbn [push_as]. intros H. apply bind_ok in H as (m1 & _ & H). apply bind_ok in H as (g & _ & H).
  assert (P : forall x j y, ix_push x idx j = Ok y -> length (snd y) = S (length idx)).
  { unfold ix_push. intros x0 j y E. apply bind_ok in E as (x1 & _ & E). injection E as <-. cbn [snd]. rewrite app_length. cbn. lia. }
  destruct g as [j|].
  - apply bind_ok in H as (xi & E & H). injection H as <-. eauto 8.
  - apply bind_ok in H as (n & _ & H). apply bind_ok in H as (i1 & _ & H). apply bind_ok in H as (m2 & _ & H). apply bind_ok in H as (xi & E & H).
    injection H as <-. eauto 8.
Qed.
Lemma low_each_len vs : forall i x idx m c', push_each push (CLow i x idx m) vs = Ok c' ->
  exists i' x' idx' m', c' = CLow i' x' idx' m' /\ length idx' = length idx + length vs.
Proof.
  induction vs as [|v vs IH]; intros i x idx m c' H; cbn [push_each] in H.
  - injection H as <-. exists i, x, idx, m. split; [reflexivity|]. cbn. lia.
  - apply bind_ok in H as (c1 & E & H). apply low_push_len in E as (i1 & x1 & idx1 & m1 & -> & L).
    apply IH in H as (i2 & x2 & idx2 & m2 & -> & L2). exists i2, x2, idx2, m2. split; [reflexivity|]. rewrite L2, L. cbn. lia.
Qed.

Lemma ip_len w parse : (forall s o, parse s = Some o -> length o = w) -> forall vs bs, mapM (cell_ip parse) vs = Ok bs ->
  length bs = length vs /\ Forall (fun o => length o = w) bs.
Proof.
  intros P. induction vs as [|v vs IH]; intros bs H; cbn [mapM] in H.
  - injection H as <-. split; [reflexivity|constructor].
  - apply bind_ok in H as (y & E & H). apply bind_ok in H as (ys & E2 & H). injection H as <-. apply IH in E2 as [L F].
    split; [cbn; lia|]. constructor; [|exact F]. unfold cell_ip in E. apply bind_ok in E as (s & _ & E).
    destruct (parse s) eqn:Q; [|discriminate E]. injection E as <-. eauto.
Qed.

Lemma cast_len t : forall c c' n, cast_col parse_ipv4 parse_ipv6 c t = Ok c' -> clen c = Ok n -> clen c' = Ok n.
Proof.
  assert (O : forall c t c' n, match data_cast c t with Some c' => Ok c' | None => Err EInvalidType end = Ok c' -> clen c = Ok n -> clen c' = Ok n).
  { intros c t0 c' n H L. destruct (data_cast c t0) eqn:D; [|discriminate H]. injection H as <-. rewrite (CastMainProofs.data_len _ _ _ D). exact L. }
  induction t as [s| |w| |d| | | |t IH|t IH|t IH|p q|vals|vals|f t IH|k IHk v IHv]; intros c c' n H L; cbn [cast_col] in H;
    match type of H with (if ?b then _ else _) = _ => destruct b end;
    try (injection H as <-; exact L); try (eapply O; eassumption).
  - (* String *) destruct (ctype c) as [| | | | | | | | |[[]| | | | | | | | | | | | | | |]| | | | | |]; try (eapply O; eassumption). injection H as <-. exact L.
  - (* FixedString *) destruct (ctype c) as [| | | | | | | | |[[]| | | | | | | | | | | | | | |]| | | | | |]; try (eapply O; eassumption); injection H as <-; exact L.
  - (* IPv4 *) destruct (ctype c); try (eapply O; eassumption). rewrite L in H. cbn [rbind] in H.
    apply bind_ok in H as (vs & E1 & H). apply bind_ok in H as (bs & E2 & H). injection H as <-.
    apply (ip_len 4 parse_ipv4 ipv4_octets) in E2 as [L2 F]. apply ConcatProofs.mapM_length in E1. rewrite seq_length in E1.
    cbn [clen ip_size]. rewrite (ColumnFromProofs.concat_length 4).
    + rewrite map_length, Nat.div_mul by discriminate. f_equal. exact (eq_trans L2 E1).
    + apply Forall_map. eapply Forall_impl; [|exact F]. intros o Ho. cbn beta. rewrite rev_length. exact Ho.
  - (* IPv6 *) destruct (ctype c); try (eapply O; eassumption). rewrite L in H. cbn [rbind] in H.
    apply bind_ok in H as (vs & E1 & H). apply bind_ok in H as (bs & E2 & H). injection H as <-.
    apply (ip_len 16 parse_ipv6 ipv6_octets) in E2 as [L2 F]. apply ConcatProofs.mapM_length in E1. rewrite seq_length in E1.
    cbn [clen ip_size]. rewrite (ColumnFromProofs.concat_length 16) by exact F. rewrite Nat.div_mul by discriminate. f_equal. exact (eq_trans L2 E1).
  - (* Nullable *) destruct t; try (eapply O; eassumption).
    + destruct (ctype c) as [| | | | | | | |[]| | | | | | |]; try (eapply O; eassumption). injection H as <-. exact L.
    + destruct (ctype c) as [| | | | | | | |[]| | | | | | |]; try (eapply O; eassumption). apply bind_ok in H as (nb & _ & H). injection H as <-. exact L.
    + destruct (ctype c) as [| | | | | | | |[]| | | | | | |]; try (eapply O; eassumption). injection H as <-. exact L.
    + destruct (ctype c) as [| | | | | | | |[]| | | | | | |]; try (eapply O; eassumption). injection H as <-. exact L.
  - (* LowCardinality *) destruct (is_inner_low_cardinality (ctype c)); [|eapply O; eassumption]. rewrite L in H. cbn [rbind] in H.
    apply bind_ok in H as (i0 & _ & H). apply bind_ok in H as (vs & E1 & H). apply bind_ok in H as (low & E2 & H).
    apply ConcatProofs.mapM_length in E1. rewrite seq_length in E1.
    apply low_each_len in E2 as (i & x & idx & m & -> & Li). cbn [length plus] in Li.
    assert (G : clen (CLow i x idx m) = Ok n) by (cbn [clen]; f_equal; lia).
    destruct (is_datetime t); [|injection H as <-; exact G]. destruct (data_cast i t); injection H as <-; cbn [clen]; f_equal; lia.
  - (* Decimal *) destruct (ctype c); try (eapply O; eassumption). apply bind_ok in H as (nb & _ & H). injection H as <-. exact L.
  - destruct (ctype c); try (eapply O; eassumption). injection H as <-. exact L.
  - destruct (ctype c); try (eapply O; eassumption). injection H as <-. exact L.
  - apply bind_ok in H as (i & E & H). injection H as <-. cbn [clen]. eapply IH; eassumption.
Qed.

Lemma cast_rows b h b' n : block_cast parse_ipv4 parse_ipv6 b h = Ok b' -> row_count b = Ok n -> b_cols b <> [] ->
  row_count b' = Ok n /\ b_cols b' <> [].
Proof.
  unfold block_cast, row_count. intros H L N0. destruct (length (b_cols h) =? length (b_cols b)) eqn:E; [|discriminate H]. cbn [negb] in H.
  apply Nat.eqb_eq in E. destruct (b_cols b) as [|[x c] cs]; [congruence|]. destruct (b_cols h) as [|[y d] hs]; [discriminate E|].
  cbn [cast_columns] in H. apply bind_ok in H as (cs' & H & J). injection J as <-. apply bind_ok in H as (c' & H & J). apply bind_ok in J as (r & _ & J). injection J as <-.
  cbn [b_cols]. split; [|discriminate]. eapply cast_len; eassumption.
Qed.
End Len.

Lemma append_columns b x b' : append_column b x = Ok b' -> b_cols b' <> [].
Proof.
  unfold append_column. intros H. apply bind_ok in H as (n & _ & H). destruct (b_cols b) as [|y l] eqn:E; [injection H as <-; discriminate|].
  apply bind_ok in H as (m & _ & H). destruct (m =? n); [|discriminate H]. injection H as <-. discriminate.
Qed.
Lemma slice_has_columns cs a b : forall acc r, slice_columns cs a b acc = Ok r -> b_cols acc <> [] \/ cs <> [] -> b_cols r <> [].
Proof.
  induction cs as [|[n c] cs IH]; intros acc r H N0; cbn [slice_columns] in H.
  - injection H as <-. destruct N0; [assumption|congruence].
  - apply bind_ok in H as (acc' & E & H). apply (IH _ _ H). left. exact (append_columns _ _ _ E).
Qed.
Lemma pieces_have_columns n b ps : block_chunks n b = Ok ps -> row_count b <> Ok 0 -> Forall (fun p => b_cols p <> []) ps.
Proof.
  unfold block_chunks. intros H N0. apply bind_ok in H as (m & Em & H). rewrite Em in N0.
  assert (C : b_cols b <> []) by (intros C; unfold row_count in Em; rewrite C in Em; congruence).
  revert H. generalize (m + 2). generalize 0. intros pos fuel. revert pos ps. induction fuel as [|fuel IH]; intros pos ps H; [discriminate H|].
  cbn [chunk_all] in H. apply bind_ok in H as (o & E & H). unfold chunk_next in E. rewrite Em in E. cbn [rbind] in E.
  destruct (m =? 0) eqn:Z; [apply Nat.eqb_eq in Z; congruence|]. cbn [andb] in E.
  destruct (m <=? pos); [injection E as <-; injection H as <-; constructor|].
  apply bind_ok in E as (r & Es & E). injection E as <-. apply bind_ok in H as (rs & E2 & H). injection H as <-. constructor; [|exact (IH _ _ E2)].
  apply (slice_has_columns _ _ _ _ _ Es). right. exact C.
Qed.
