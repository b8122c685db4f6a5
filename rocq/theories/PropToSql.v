(** Properties C55, C56 and C46: Rust values written into rows and columns. *)
From Coq Require Import String.
From Verif Require Import Base Bytes Utf8 Reader Wire SpecWire Types Text TypeNames Decimal DateTime Values Columns SpecColumns Block SpecTypes SpecBlock
  FromSql SpecFromSql ToSql SpecToSql PushProofs FromSqlProofs BlockProofs BlockOpsProofs SendProofs ToSqlProofs ColumnFromProofs.
From Verif Require Utf8Proofs WireProofs Iter SpecIter IterProofs IterMoreProofs PropIter.
Open Scope list_scope. Open Scope nat_scope.

(** * C55: rows *)

(** C55, "a Rust value put in a row is read back as itself": rows of values of the same fields,
    pushed into an empty block, make a block with one column per field, in that order, whose
    cells, read by name or by position, are the values. Fractions of a second are lost
    ([kept]). Missing: dates and times ClickHouse has no room for, keys of maps other than
    integers and text, and four octets, where it is false of the code (below), and rows of other
    fields than the first row's (C22). *)
Theorem c55_rows_partial : forall fs rows, NoDup (map fst fs) -> (total rows < 2 ^ 64)%N ->
  Forall (Forall2 (fun f x => typed (snd f) x /\ room (snd f) x) fs) rows ->
  (forall r r', In r rows -> In r' rows -> Forall2 one_kind r r') ->
  exists vrows b, mapM (row_fields fs) rows = Ok vrows /\ push_rows vrows block_default = Ok b /\
    (rows <> [] -> map fst (b_cols b) = map fst fs) /\
    forall i row j k w x, nth_error rows i = Some row -> nth_error fs j = Some (k, w) -> nth_error row j = Some x ->
      get (rust w) b i (ByPos j) = Ok (kept w x) /\ get (rust w) b i (ByName k) = Ok (kept w x).
Proof.
  intros fs rows D B F K. destruct (rows_good fs rows D B F K) as (vrows & b & A1 & A2 & A3 & A4).
  exists vrows, b. split; [exact A1|]. split; [exact A2|]. split; [exact A3|].
  intros i row j k w x Hi Hj Hx. destruct (A4 i row j k w x Hi Hj Hx) as (c & C1 & C2 & u & U1 & U2).
  assert (N : map fst (b_cols b) = map fst fs) by (apply A3; intros ->; destruct i; discriminate Hi).
  destruct (named_column b j k c) as [G1 G2]; [rewrite N; exact D|exact C1|].
  unfold get, get_cell. rewrite G1, G2. cbn [rbind snd]. rewrite U1. auto.
Qed.
Print Assumptions c55_rows_partial.

(** * C56: columns *)

(** C56, "a column made from a vector holds the vector's elements": *)
Theorem c56_column_partial : forall f xs, lossless f xs -> exists c, column_from f xs = Ok c /\ made_of c f xs.
Proof. intros f xs (E & T & R & [s S] & B). exact (column_from_made f xs s E T R S B). Qed.
Print Assumptions c56_column_partial.

(** And a block built of such columns, of one length, gives them back by name and by position. *)
Theorem c56_block_partial : forall n cols, NoDup (map (fun nfx => fst (fst nfx)) cols) -> cols <> [] ->
  Forall (fun nfx => lossless (snd (fst nfx)) (snd nfx) /\ length (snd nfx) = n) cols ->
  exists b, block_columns block_default cols = Ok b /\ row_count b = Ok n /\
    map fst (b_cols b) = map (fun nfx => fst (fst nfx)) cols /\
    forall j name f xs i x, nth_error cols j = Some (name, f, xs) -> nth_error xs i = Some x ->
      exists y, get (frust f) b i (ByName name) = Ok y /\ get (frust f) b i (ByPos j) = Ok y /\ back x y.
Proof.
  intros n cols D NE F. destruct (block_columns_made n cols block_default) as (new & B & M); auto.
  { intros H. contradiction H. reflexivity. }
  cbn [block_default b_info b_cols app] in B.
  assert (N : map fst new = map (fun nfx => fst (fst nfx)) cols).
  { clear - M. induction M as [|x kc cols new [H _] M IH]; cbn [map]; congruence. }
  exists (mk_block info_default new). split; [exact B|]. split; [|split; [exact N|]].
  - destruct M as [|x [k c] cols new [_ M] _]; [congruence|]. unfold row_count. cbn [b_cols].
    apply Forall_cons_iff in F. destruct F as [[_ L] _]. rewrite <- L. exact (proj1 M).
  - intros j name f xs i x Hj Hx.
    assert (exists c, nth_error new j = Some (name, c) /\ made_of c f xs) as (c & C & Mc).
    { clear - M Hj. revert j Hj. induction M as [|y [k c] cols new [H1 H2] M IH]; intros [|j] Hj; try discriminate Hj.
      - injection Hj as ->. cbn in *. subst k. eauto.
      - exact (IH j Hj). }
    destruct (named_column (mk_block info_default new) j name c) as [G1 G2]; [cbn [b_cols]; rewrite N; exact D|exact C|].
    destruct Mc as (_ & _ & Mc). destruct (Mc i x Hx) as (u & y & U & Y1 & Y2). exists y.
    unfold get, get_cell. rewrite G1, G2. cbn [rbind snd]. rewrite U. auto.
Qed.
Print Assumptions c56_block_partial.

(** A column of another length is refused with a panic. *)
Theorem c56_lengths : forall b m name f xs, lossless f xs -> b_cols b <> [] -> row_count b = Ok m ->
  m <> length xs -> block_column b name f xs = Panic PExplicit.
Proof.
  intros b m name f xs L NE R NM. destruct (c56_column_partial f xs L) as (c & C & M & _).
  unfold block_column. rewrite C. cbn [rbind]. unfold append_column. cbn [snd]. rewrite M. cbn [rbind].
  destruct (b_cols b); [congruence|]. rewrite R. cbn [rbind]. destruct (Nat.eqb_spec m (length xs)); [contradiction|reflexivity].
Qed.
Print Assumptions c56_lengths.

(** * Over the wire *)

(** C47 and C08 together: a column that is written can be iterated over when it is read back, and
    the i-th item says what the cell of row i said when it was written, up to the zone of
    times. Missing: dates (C41) and what [regular] and [lends] leave out (C47). *)
Theorem c47_received_partial : forall tz_known tz offset r n x, column_ok tz_known n x ->
  SpecIter.regular (ctype (snd x)) -> SpecIter.tidy (snd x) -> SpecIter.lends false (snd x) ->
  SpecIter.walks r (ctype (snd x)) -> r <> Iter.IDate ->
  (forall i v, at_ (snd x) i = Ok v -> SpecIter.timely v) ->
  exists bs c' it ys, write_column x = Ok bs /\
    (forall rest, run (read_column tz_known (N.of_nat n) tz) (bs ++ rest) = Ok ((fst x, c'), rest)) /\
    Iter.iter r c' = Ok it /\ length ys = n /\ SpecIter.yields (Iter.next offset r) it ys /\
    forall i v y, at_ (snd x) i = Ok v -> nth_error ys i = Some y -> SpecIter.item r (zoned tz v) y.
Proof.
  intros tz_known tz offset r n x C R T L W ND Tm.
  destruct (run_write_column tz_known tz n x C) as (bs & c' & E & [(D1 & D2 & D3) (I1 & I2 & _)] & Rd).
  rewrite <- D1 in R, W.
  destruct (PropIter.c47_starts_partial r c' R (I1 T) (I2 _ L) W) as [it It].
  destruct (PropIter.c47_items_partial offset r c' it R (I1 T)) as (ys & Y1 & Y2 & Y3); auto.
  - split; [congruence|]. intros i v Hv.
    destruct (IterMoreProofs.lends_in c' _ i v (I2 _ L) (I1 T) Hv) as (m & M & Hm). rewrite D2 in M. injection M as <-.
    rewrite (D3 i Hm) in Hv. cbn [Nat.add] in Hv. destruct (at_ (snd x) i) as [u| |] eqn:Eu; try discriminate Hv.
    injection Hv as <-. specialize (Tm i u Eu). destruct u; try exact I. exact Tm.
  - rewrite D2 in Y1. injection Y1 as Y1. exists bs, c', it, ys. repeat split; auto.
    intros i v y Hv Hy. apply (Y3 i); [|exact Hy]. rewrite D3.
    + cbn [Nat.add]. rewrite Hv. reflexivity.
    + rewrite Y1. apply nth_error_Some. congruence.
Qed.
Print Assumptions c47_received_partial.

Lemma list_ext {A} (l l' : list A) : length l = length l' ->
  (forall i x y, nth_error l i = Some x -> nth_error l' i = Some y -> x = y) -> l = l'.
Proof.
  revert l'. induction l as [|a l IH]; intros [|b l'] L H; try discriminate L; [reflexivity|].
  f_equal; [exact (H 0 a b eq_refl eq_refl)|]. apply IH; [injection L; auto|]. intros i. exact (H (S i)).
Qed.

Lemma flip_parts a b : length a = 8 -> flip_halves (rev a ++ rev b) = a ++ b.
Proof.
  intros H. unfold flip_halves. assert (length (rev a) = 8) as L by (rewrite rev_length; exact H).
  rewrite firstn_app, skipn_app, L, Nat.sub_diag, firstn_O, skipn_O, app_nil_r.
  rewrite firstn_all2, skipn_all2 by lia. cbn [app]. rewrite !rev_involutive. reflexivity.
Qed.

(** * C46: addresses and UUIDs *)
Inductive address_type : ltype -> Iter.itype -> Prop :=
| AtIpv4 : address_type LIpv4 Iter.IIpv4
| AtIpv6 : address_type LIpv6 Iter.IIpv6
| AtUuid : address_type LUuid Iter.IUuid.

(** C46: a vector of addresses or of UUIDs, or of optional ones, made a column, sent and received,
    is read as the same addresses or UUIDs, by the getter and by the iterator. Missing: four octets
    put in a row, where it is false of the code (below). *)
Theorem c46_addresses_partial : forall tz_known tz offset l r f it_type name xs, address_type l r ->
  (f = FVec l /\ it_type = r \/ f = FOption l /\ it_type = Iter.IOption r) ->
  Forall (ftyped f) xs -> is_utf8 name -> (lenN name <= isize_max)%N -> (16 * lenN xs <= isize_max)%N ->
  exists b bs b' c' it, block_column block_default name f xs = Ok b /\ write_block b = Ok bs /\
    (forall rest, run (raw_load tz_known tz) (bs ++ rest) = Ok (b', rest)) /\
    b_cols b' = [(name, c')] /\ clen c' = Ok (length xs) /\
    (forall i x, nth_error xs i = Some x -> get (frust f) b' i (ByName name) = Ok x) /\
    Iter.iter it_type c' = Ok it /\ SpecIter.yields (Iter.next offset it_type) it xs.
Proof.
  intros tz_known tz offset l r f ity name xs A Hf T U L B.
  assert (exists k, kind_of_address l = Some k /\ SpecIter.walks r (ip_type k)) as (k & K & Wk)
    by (destruct A; eexists; split; try reflexivity; constructor).
  pose proof WireProofs.isize_lt as IL.
  assert (HL : lossless f xs).
  { assert (Forall (fun x => cells x = 1%N /\ froom f x /\ of_scale 0 x) xs) as C.
    { eapply Forall_impl; [|exact T]. intros x Hx.
      destruct Hf as [[-> _]|[-> _]]; destruct A; destruct x as [| | | | | | | | | | |[[]|]| |];
        try contradiction Hx; repeat split; exact I. }
    split; [destruct Hf as [[-> _]|[-> _]]; exact I|]. split; [exact T|].
    split; [eapply Forall_impl; [|exact C]; intros x Hx; apply Hx|].
    split; [exists 0%N; eapply Forall_impl; [|exact C]; intros x Hx; apply Hx|].
    assert (total [xs] = lenN xs) as ->; [|lia].
    clear -C. cbn [total fold_right]. rewrite N.add_0_r. unfold lenN. induction C as [|x xs [H _] C IH]; [reflexivity|].
    cbn [fold_right length]. rewrite IH, H. lia. }
  destruct (c56_column_partial f xs HL) as (c & C & ML & MS & MA).
  assert (Sh : sound c /\ nameable tz_known (ctype c) /\ SpecIter.regular (ctype c) /\ SpecIter.tidy c /\ SpecIter.lends false c /\
    SpecIter.walks ity (ctype c) /\ is_utf8 (type_name (ctype c)) /\ (lenN (type_name (ctype c)) <= isize_max)%N /\
    (forall i v, at_ c i = Ok v -> SpecIter.timely v) /\ (forall v, zoned tz (ip_value k v) = ip_value k v) /\
    forall i v, at_ c i = Ok v -> zoned tz v = v).
  { assert (Sz : ip_size k <> 0 /\ ip_size k <= 16) by (destruct k; cbn; lia).
    destruct Hf as [[-> ->]|[-> ->]].
    - destruct (address_plain l k xs K T) as [P Lb]. cbn [column_from] in C. rewrite P in C. injection C as <-.
      set (buf := concat _) in *. cbn [ctype].
      repeat split; try (destruct k; exact I).
      + cbn [sound]. rewrite Lb. apply Nat.mod_mul, Sz.
      + unfold lenN in *. nia.
      + cbn [SpecIter.tidy]. rewrite Lb. apply Nat.mod_mul, Sz.
      + exact Wk.
      + destruct k; apply Utf8Proofs.utf8_valid_spec; reflexivity.
      + destruct k; vm_compute; discriminate.
      + intros i v. cbn [at_]. intros H. inv_do H. injection H as <-. destruct k; exact I.
      + destruct k; reflexivity.
      + intros i v. cbn [at_]. intros H. inv_do H. injection H as <-. destruct k; reflexivity.
    - assert (exists os, xs = map XOption os) as [os ->].
      { clear - T. induction T as [|x xs Hx T [os ->]]; [exists []; reflexivity|].
        destruct x as [| | | | | | | | | | |o| |]; try contradiction Hx. exists (o :: os). reflexivity. }
      assert (T' : Forall (under_option (ltyped l)) os).
      { rewrite Forall_map in T. eapply Forall_impl; [|exact T]. intros [x|] Hx; exact Hx. }
      destruct (address_optional l k os K T') as [P Lb]. cbn [column_from] in C. rewrite P in C. injection C as <-.
      set (buf := concat _) in *. cbn [ctype]. unfold lenN in B. rewrite map_length in B.
      assert (Lc : clen (CIp k buf) = Ok (length (map mark os))).
      { cbn [clen]. rewrite Lb, Nat.div_mul, map_length by apply Sz. reflexivity. }
      repeat split; try (destruct k; exact I).
      + cbn [sound]. rewrite Lb. apply Nat.mod_mul, Sz.
      + unfold lenN in *. nia.
      + exact Lc.
      + unfold lenN. rewrite map_length. lia.
      + cbn [SpecIter.tidy]. rewrite Lb. apply Nat.mod_mul, Sz.
      + exact Lc.
      + rewrite Forall_map. apply Forall_forall. intros [x|] _; cbn; auto.
      + constructor. exact Wk.
      + destruct k; apply Utf8Proofs.utf8_valid_spec; reflexivity.
      + destruct k; vm_compute; discriminate.
      + intros i v. cbn [at_]. intros H. inv_do H. destruct (x =? 1)%N; [injection H as <-; exact I|].
        inv_do H. injection H as <-. exact I.
      + destruct k; reflexivity.
      + intros i v. cbn [at_]. intros H. inv_do H. destruct (x =? 1)%N; [injection H as <-; reflexivity|].
        inv_do H. injection H as <-. cbn [zoned]. f_equal. destruct (cut buf (i * ip_size k) ((i + 1) * ip_size k)); try discriminate E0.
        injection E0 as <-. destruct k; reflexivity. }
  destruct Sh as (S1 & S2 & S3 & S4 & S5 & S6 & S7 & S8 & S9 & _ & S10).
  unfold block_column. rewrite C. cbn [rbind].
  assert (append_column block_default (name, c) = Ok (mk_block info_default [(name, c)])) as ->.
  { unfold append_column. cbn [snd]. rewrite ML. reflexivity. }
  assert (CO : column_ok tz_known (length xs) (name, c)) by (repeat split; assumption).
  destruct (run_write_block_intact tz_known tz (length xs) (mk_block info_default [(name, c)])) as (bs & b' & E & [[_ SB] IN] & Rd).
  { split; [cbn; lia|]. split; [unfold lenN in B; lia|]. split; [reflexivity|]. constructor; [exact CO|constructor]. }
  { discriminate. }
  cbn [b_cols] in SB, IN. inversion SB as [|? [k' c'] ? ? [Hk (D1 & D2 & D3)] SB']. subst. inversion SB'. subst. clear SB SB'.
  cbn [fst snd] in *. subst k'. destruct b' as [info' cols']. cbn [b_cols] in *. subst cols'.
  inversion IN as [|? ? ? ? [_ (I1 & I2 & _)] _]. subst. cbn [snd] in *. clear IN.
  rewrite <- D1 in S3, S6.
  destruct (PropIter.c47_starts_partial ity c' S3 (I1 S4) (I2 _ S5) S6) as [it It].
  destruct (PropIter.c47_items_partial offset ity c' it S3 (I1 S4)) as (ys & Y1 & Y2 & Y3); auto.
  { split.
    { intros Eq. assert (r <> Iter.IDate) by (destruct A; discriminate). destruct Hf as [[_ X]|[_ X]]; congruence. }
    intros i v Hv.
    destruct (IterMoreProofs.lends_in c' _ i v (I2 _ S5) (I1 S4) Hv) as (m & M & Hm). rewrite D2 in M. injection M as <-.
    rewrite (D3 i Hm) in Hv. cbn [Nat.add] in Hv. destruct (at_ c i) as [u| |] eqn:Eu; try discriminate Hv.
    injection Hv as <-. rewrite (S10 i u Eu). exact (S9 i u Eu). }
  exists (mk_block info_default [(name, c)]), bs, (mk_block info' [(name, c')]), c', it.
  split; [reflexivity|]. split; [exact E|]. split; [exact Rd|]. split; [reflexivity|]. split; [exact D2|].
  assert (G : forall i x, nth_error xs i = Some x -> exists u, at_ c' i = Ok u /\ from_sql (frust f) u = Ok x).
  { intros i x Hx. destruct (MA i x Hx) as (u & y & U1 & U2 & U3). exists u.
    assert (i < length xs) by (apply nth_error_Some; congruence).
    rewrite D3 by assumption. cbn [Nat.add]. rewrite U1. cbn [rmap]. rewrite (S10 i u U1). split; [reflexivity|].
    rewrite U2. f_equal. rewrite Forall_forall in T. pose proof (T x (nth_error_In _ _ Hx)) as Tx.
    destruct Hf as [[-> _]|[-> _]]; destruct A; destruct x as [| | | | | | | | | | |[[]|]| |]; try contradiction Tx;
      destruct y as [| | | | | | | | | | |[[]|]| |]; exact U3. }
  split; [|split; [exact It|]].
  - intros i x Hx. destruct (G i x Hx) as (u & U1 & U2). unfold get, get_cell, get_column, get_index. cbn [b_cols find_name].
    unfold bytes_eqb. destruct (bytes_eq_dec name name); [|congruence]. cbn [rbind index or_panic nth_error snd].
    rewrite U1. exact U2.
  - assert (ys = xs) as ->; [|exact Y2]. rewrite D2 in Y1. injection Y1 as Y1.
    apply list_ext; [congruence|]. intros i x y Hx Hy. destruct (G i y Hy) as (u & U1 & U2).
    pose proof (Y3 i u x U1 Hx) as It'. clear - A Hf U2 It'.
    destruct Hf as [[-> ->]|[-> ->]]; destruct A; inversion It'; subst; try discriminate;
      try (match goal with H : SpecIter.item _ _ _ |- _ => inversion H; subst; try discriminate end);
      try (match goal with H : is_value _ _ |- _ => inversion H; subst end);
      cbn [frust lrust from_sql rbind] in U2; try discriminate U2;
      rewrite ?rev_involutive in U2; injection U2 as <-; try reflexivity.
    all: rewrite flip_parts by assumption; reflexivity.
Qed.
Print Assumptions c46_addresses_partial.

(** * Values *)

(** C55 for single values: [T::from(Value::from(x))] is [x], for the types that have both. *)
Definition there_and_back (w : wtype) : Prop :=
  match w with
  | WHas (HNum _) | WHas HText | WHas HDate | WHas HTime | WBytes | WOctets4 => True
  | _ => False
  end.
Theorem c55_values_partial : forall w x, there_and_back w -> typed w x ->
  (forall d, w = WHas HDate -> x = XDate d -> (0 <= d < 65536)%Z) ->
  exists v, into_value w x = Ok v /\ value_as w v = Ok x.
Proof.
  intros w x Hw T R. destruct w as [h| | | | | | | | | | |]; try contradiction Hw; [destruct h; try contradiction Hw| |];
    destruct x; try contradiction T; cbn [into_value has_value value_as]; eexists; (split; [reflexivity|]).
  - cbn [typed has_typed] in T. destruct T as [-> T]. unfold value_num. destruct (scalar_eq_dec s s); [reflexivity|congruence].
  - cbn [typed has_typed] in T. cbn [value_as]. rewrite T. reflexivity.
  - specialize (R days eq_refl eq_refl). cbn [value_as value_date rbind]. rewrite (get_days_small _ R), Z2N.id by lia. reflexivity.
  - reflexivity.
  - reflexivity.
  - reflexivity.
Qed.
Print Assumptions c55_values_partial.

(** * False of the code *)

(** One value put in a fresh block and read back. *)
Definition put_and_get (w : wtype) (r : rtype) (x : rval) : res rval :=
  do row <- row_fields [(str "f", w)] [x];
  do b <- push_rows [row] block_default; get r b 0 (ByName (str "f")).

(** REFUTED of the code (C46, C55): four octets put in a row are read back as the address with its
    octets in the opposite order: 127.0.0.1 as 1.0.0.127. *)
Theorem c46_octets_refuted : forall a b c d,
  typed WOctets4 (XBytes [a; b; c; d]) /\
  put_and_get WOctets4 RIpv4 (XBytes [a; b; c; d]) = Ok (XIpv4 [d; c; b; a]).
Proof. intros. split; reflexivity. Qed.
Print Assumptions c46_octets_refuted.

(** REFUTED of the code (C55): a date before 1970 or after 2149-06-06 comes back as another date, with no
    error. *)
Theorem c55_dates_refuted : forall d, put_and_get (WHas HDate) RDate (XDate d) = Ok (XDate (d mod 65536)).
Proof.
  intros d. assert (H : (0 <= d mod 65536 < 65536)%Z) by (apply Z.mod_pos_bound; lia).
  assert (E : Z.of_N (get_days d) = (d mod 65536)%Z).
  { unfold get_days, to_unsigned. change (2 ^ (8 * Z.of_nat 2))%Z with 65536%Z. rewrite Z2N.id; lia. }
  transitivity (Ok (XDate (Z.of_N (get_days (Z.of_N (get_days d)))))); [reflexivity|].
  rewrite (get_days_small (Z.of_N (get_days d))), Z2N.id by (rewrite E; lia). rewrite E. reflexivity.
Qed.
Print Assumptions c55_dates_refuted.

(** REFUTED of the code (C55): a time comes back without its fraction of a second, and modulo 2^32
    seconds. *)
Theorem c55_times_refuted : forall s n tz,
  put_and_get (WHas HTime) RDateTime (XTime s n tz) = Ok (XTime (s mod 2 ^ 32) 0 tz).
Proof.
  intros s n tz. transitivity (Ok (XTime (Z.of_N (as_u32 s)) 0 tz)); [reflexivity|].
  unfold as_u32, to_unsigned. change (2 ^ (8 * Z.of_nat 4))%Z with (2 ^ 32)%Z.
  rewrite Z2N.id; [reflexivity|]. apply Z.mod_pos_bound. lia.
Qed.
Print Assumptions c55_times_refuted.

(** REFUTED of the code (C55): a map with a [bool] or a [DateTime] for a key cannot be put in a row:
    [Value::from] panics, whatever the entry is. *)
Theorem c55_map_keys_refuted : forall hv k x s n tz,
  (forall v, has_value hv x = Ok v ->
    into_value (WHas (HMap (HNum SBool) hv)) (XMap [(XNum SBool k, x)]) = Panic PUnimplemented /\
    into_value (WHas (HMap HTime hv)) (XMap [(XTime s n tz, x)]) = Panic PUnimplemented).
Proof. intros hv k x s n tz v E. cbn. rewrite E. split; reflexivity. Qed.
Print Assumptions c55_map_keys_refuted.

(** REFUTED of the code (C55): a map with a date for a key can be put in a row and cannot be read:
    reading the cell panics. *)
Theorem c55_date_keys_refuted : forall d z,
  put_and_get (WHas (HMap HDate (HNum U8))) (RMap RDate (RNum U8)) (XMap [(XDate d, XNum U8 z)]) = Panic PUnimplemented.
Proof. intros. reflexivity. Qed.
Print Assumptions c55_date_keys_refuted.

(** REFUTED of the code (C55): two dates of a map that are 65536 days apart become one key, and the
    first's value is lost. *)
Theorem c55_lost_keys_refuted : forall d x y,
  into_value (WHas (HMap HDate (HNum U8))) (XMap [(XDate d, XNum U8 x); (XDate (d + 65536), XNum U8 y)]) =
  into_value (WHas (HMap HDate (HNum U8))) (XMap [(XDate d, XNum U8 y)]).
Proof.
  intros d x y. assert (get_days (d + 65536) = get_days d) as E.
  { unfold get_days, to_unsigned. f_equal. change (2 ^ (8 * Z.of_nat 2))%Z with 65536%Z. rewrite <- (Z.mul_1_l 65536) at 1. apply Z_mod_plus_full. }
  cbn. rewrite E, N.eqb_refl. reflexivity.
Qed.
Print Assumptions c55_lost_keys_refuted.

(** REFUTED of the code (C56): a vector of decimals, or of optional ones, of more than one scale
    cannot be made a column: it panics. *)
Theorem c56_scales_refuted : forall d e, d_scale d <> d_scale e ->
  column_from (FVec LDecimal) [XDecimal d; XDecimal e] = Panic PExplicit /\
  column_from (FOption LDecimal) [XOption (Some (XDecimal d)); XOption None; XOption (Some (XDecimal e))] = Panic PExplicit.
Proof.
  intros d e H. apply N.eqb_neq in H. split; cbn [column_from plain_column optional_column mapM the_decimal the_option
    optional_part rbind map]; unfold decimal_column; cbn [decimals decimal_round rbind]; rewrite H; reflexivity.
Qed.
Print Assumptions c56_scales_refuted.

(** REFUTED of the code (C56): in vectors of times too, fractions of a second are lost and seconds
    wrap modulo 2^32. *)
Theorem c56_times_refuted : forall s n tz, exists c c',
  column_from (FVec LTime) [XTime s n tz] = Ok c /\
  (do u <- at_ c 0; from_sql RDateTime u) = Ok (XTime (s mod 2 ^ 32) 0 tz) /\
  column_from (FArray LTime) [XVec [XTime s n tz]] = Ok c' /\
  (do u <- at_ c' 0; from_sql (RVec EDateTime) u) = Ok (XVec [XTime (s mod 2 ^ 32) 0 tz]).
Proof.
  intros s n tz.
  assert (E : forall s, Z.of_N (as_u32 s) = (s mod 2 ^ 32)%Z).
  { clear. intros s. unfold as_u32, to_unsigned. change (2 ^ (8 * Z.of_nat 4))%Z with (2 ^ 32)%Z.
    rewrite Z2N.id; [reflexivity|]. apply Z.mod_pos_bound. lia. }
  eexists. eexists. split; [reflexivity|]. split.
  - rewrite <- E. reflexivity.
  - split; [reflexivity|]. rewrite <- (Z.mod_mod s) by lia. rewrite <- !E. reflexivity.
Qed.
Print Assumptions c56_times_refuted.

(** * Cases *)

(** Two rows of six fields, among them a map, an optional number, a decimal and a UUID. *)
Definition ex_fields : list (bytes * wtype) :=
  [(str "n", WHas (HNum I32)); (str "s", WHas HText); (str "m", WHas (HMap HText (HMap (HNum U8) HDate)));
   (str "o", WOption (HNum U16)); (str "d", WDecimal); (str "u", WUuid)].
Definition ex_row (n : Z) (o : option rval) : list rval :=
  [XNum I32 n; XText (str "x"); XMap [(XText (str "k"), XMap [(XNum U8 1, XDate 365); (XNum U8 2, XDate 0)])];
   XOption o; XDecimal (mk_decimal 123 N32 5 2); XUuid (map N.of_nat (seq 0 16))].
Definition ex_rows : list (list rval) := [ex_row (-5) None; ex_row 7 (Some (XNum U16 9))].
Example c55_rows_case :
  NoDup (map fst ex_fields) /\ (total ex_rows < 2 ^ 64)%N /\
  Forall (Forall2 (fun f x => typed (snd f) x /\ room (snd f) x) ex_fields) ex_rows /\
  (forall r r', In r ex_rows -> In r' ex_rows -> Forall2 one_kind r r') /\
  exists vrows b, mapM (row_fields ex_fields) ex_rows = Ok vrows /\ push_rows vrows block_default = Ok b /\
    get (ROption (RNum U16)) b 1 (ByName (str "o")) = Ok (XOption (Some (XNum U16 9))) /\
    get RUuid b 0 (ByPos 5) = Ok (XUuid (map N.of_nat (seq 0 16))).
Proof.
  split; [|split; [reflexivity|split; [|split]]].
  - repeat constructor; cbn; intros H; repeat destruct H as [H|H]; try discriminate H; contradiction.
  - assert (forall n o, scalar_ok I32 n = true -> match o with Some y => has_typed (HNum U16) y | None => True end ->
      Forall2 (fun f x => typed (snd f) x /\ room (snd f) x) ex_fields (ex_row n o)) as H.
    { intros n o Hn Ho. unfold ex_fields, ex_row. repeat (apply Forall2_cons || apply Forall2_nil).
      - split; [split; [reflexivity|exact Hn]|exact I].
      - split; [reflexivity|exact I].
      - split; cbn; repeat split; repeat constructor; cbn; try lia; try (intros [H|[]]; discriminate H); intros [].
      - split; [destruct o; exact Ho|]. destruct o as [[]|]; exact I.
      - split; [reflexivity|]. split; [reflexivity|]. intros _. cbn. lia.
      - split; [reflexivity|exact I]. }
    apply Forall_cons; [|apply Forall_cons; [|apply Forall_nil]]; apply H; try reflexivity; exact I || (split; reflexivity).
  - intros r r' [<-|[<-|[]]] [<-|[<-|[]]]; repeat constructor.
  - eexists. eexists. split; [vm_compute; reflexivity|]. split; [vm_compute; reflexivity|]. split; vm_compute; reflexivity.
Qed.
Example c55_values_case : there_and_back (WHas HText) /\ typed (WHas HText) (XText (str "x")) /\
  into_value (WHas HText) (XText (str "x")) = Ok (VString (str "x")) /\
  value_as (WHas HText) (VString (str "x")) = Ok (XText (str "x")).
Proof. repeat split. Qed.

(** Columns of arrays, of maps and of optional decimals. *)
Definition ex_cols : list (bytes * ftype * list rval) :=
  [(str "a", FArray LTime, [XVec [XTime 5 0 utc; XTime 6 0 utc]; XVec []]);
   (str "m", FTextMap F64, [XMap []; XMap [(XText (str "k"), XNum F64 3)]]);
   (str "d", FOption LDecimal, [XOption None; XOption (Some (XDecimal (mk_decimal 5 N64 10 3)))])].
Example c56_block_case :
  NoDup (map (fun nfx => fst (fst nfx)) ex_cols) /\
  Forall (fun nfx => lossless (snd (fst nfx)) (snd nfx) /\ length (snd nfx) = 2) ex_cols /\
  exists b, block_columns block_default ex_cols = Ok b /\
    get (RVec EDateTime) b 0 (ByName (str "a")) = Ok (XVec [XTime 5 0 utc; XTime 6 0 utc]) /\
    get (RMap RString (RNum F64)) b 1 (ByName (str "m")) = Ok (XMap [(XText (str "k"), XNum F64 3)]) /\
    get (ROption RDecimal) b 1 (ByName (str "d")) = Ok (XOption (Some (XDecimal (mk_decimal 5 N64 18 3)))) /\
    get (ROption RDecimal) b 0 (ByName (str "d")) = Ok (XOption None).
Proof.
  split; [|split].
  - repeat constructor; cbn; intros H; repeat destruct H as [H|H]; try discriminate H; contradiction.
  - repeat (apply Forall_cons || apply Forall_nil); (split; [|reflexivity]); unfold lossless; cbn [fst snd];
      (split; [try exact I; discriminate|]); (split; [|split; [|split; [|reflexivity]]]).
    + repeat constructor; discriminate.
    + repeat constructor; cbn; lia.
    + exists 0%N. repeat constructor.
    + repeat constructor; cbn; try (intros []; fail); auto.
    + repeat constructor.
    + exists 0%N. repeat constructor.
    + repeat constructor.
    + repeat constructor.
    + exists 3%N. repeat constructor.
  - eexists. split; [vm_compute; reflexivity|]. repeat split; vm_compute; reflexivity.
Qed.
Example c56_lengths_case : exists b, block_columns block_default ex_cols = Ok b /\ b_cols b <> [] /\ row_count b = Ok 2 /\
  lossless (FVec (LNum U8)) [XNum U8 1] /\ 2 <> length [XNum U8 1] /\
  block_column b (str "z") (FVec (LNum U8)) [XNum U8 1] = Panic PExplicit.
Proof.
  eexists. split; [vm_compute; reflexivity|]. split; [discriminate|]. split; [reflexivity|]. split.
  - split; [exact I|]. split; [repeat constructor|]. split; [repeat constructor|]. split; [exists 0%N; repeat constructor|reflexivity].
  - split; [discriminate|reflexivity].
Qed.

(** 127.0.0.1 and NULL. *)
Example c46_case :
  let xs := [XOption (Some (XIpv4 [127; 0; 0; 1]%N)); XOption None] in
  address_type LIpv4 Iter.IIpv4 /\ Forall (ftyped (FOption LIpv4)) xs /\ (16 * lenN xs <= isize_max)%N /\
  exists b bs, block_column block_default (str "a") (FOption LIpv4) xs = Ok b /\ write_block b = Ok bs /\
    skipn (length bs - 10) bs = [0; 1; 1; 0; 0; 127; 0; 0; 0; 0]%N.
Proof.
  split; [constructor|]. split; [repeat constructor|]. split; [vm_compute; discriminate|].
  eexists. eexists. split; [vm_compute; reflexivity|]. split; [vm_compute; reflexivity|]. reflexivity.
Qed.
Example c47_received_case :
  let c := CMap (CString [[97]; [98]]%N) (CArray (CNullable (CVec U16 [1; 0]%Z) [0; 1]%N) [2; 2]%N) [2; 2]%N in
  column_ok (fun _ => true) 2 (str "m", c) /\ SpecIter.regular (ctype c) /\ SpecIter.tidy c /\ SpecIter.lends false c /\
  SpecIter.walks PropIter.nested_type (ctype c) /\ (forall i v, at_ c i = Ok v -> SpecIter.timely v).
Proof.
  destruct PropIter.c47_nested_hypotheses as (H1 & H2 & H3 & _ & _ & [_ H4] & H5).
  split; [|split; [exact H1|split; [exact H2|split; [exact H3|split; [exact H5|exact H4]]]]].
  split; [apply Utf8Proofs.utf8_valid_spec; reflexivity|]. split; [vm_compute; discriminate|].
  split; [cbn; repeat split; repeat constructor; try lia; try (vm_compute; discriminate)|].
  split; [reflexivity|]. split; [cbn; repeat split; auto|].
  split; [apply Utf8Proofs.utf8_valid_spec; reflexivity|vm_compute; discriminate].
Qed.
