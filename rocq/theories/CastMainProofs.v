(** What a table receives from converted columns: the cases. *)
From Verif Require Import Base Bytes Reader Wire Types Text TypeNames Decimal DateTime Values Columns Casts.
From Verif Require Import SpecColumns SpecTypes SpecCasts SpecNum DecimalProofs ReaderProofs WireProofs PushProofs TypeNamesProofs LoadTypeProofs SendProofs RangeProofs ColumnFromProofs CastProofs CastSendProofs.
Open Scope nat_scope.

Lemma F2_step {A B C} (R : A -> B -> Prop) (Q : C -> B -> Prop) (f : A -> res C) l l' : Forall2 R l l' ->
  (forall x y, R x y -> exists c, f x = Ok c /\ Q c y) -> exists cs, mapM f l = Ok cs /\ Forall2 Q cs l'.
Proof.
  intros H E. induction H as [|x y l l' H _ IH]; [exists []; split; constructor|].
  destruct (E x y H) as (c & F & G), IH as (cs & F' & G'). exists (c :: cs). cbn [mapM]. rewrite F, F'. split; [reflexivity|constructor; auto].
Qed.
Lemma F2_map {A B} (P : A -> Prop) (g : A -> B) l l' : Forall2 (fun x y => P x /\ y = g x) l l' -> Forall P l /\ l' = map g l.
Proof. induction 1 as [|x y l l' [H1 H2] _ [IH1 IH2]]; [split; constructor|]. split; [constructor; auto|cbn; congruence]. Qed.
Lemma F2_left {A B} (P : A -> B -> Prop) (Q : A -> Prop) l l' : Forall2 P l l' -> (forall x y, P x y -> Q x) -> Forall Q l.
Proof. intros F H. induction F; constructor; eauto. Qed.
Lemma F2_impl {A B} (P Q : A -> B -> Prop) l l' : (forall x y, P x y -> Q x y) -> Forall2 P l l' -> Forall2 Q l l'.
Proof. intros H. induction 1; constructor; auto. Qed.
Lemma rows_then c vs (F : value -> res value) a b : holds c vs -> a <= b <= length vs ->
  rows (fun i => do v <- at_ c i; F v) a b = mapM F (sub vs a b).
Proof.
  intros H L. pose proof (rows_holds c vs a b H L) as E. unfold rows in *. revert E. generalize (sub vs a b) as us. generalize (seq a (b - a)) as js.
  induction js as [|j js IH]; intros us E; cbn [mapM] in *; [injection E as <-; reflexivity|].
  destruct (at_ c j) as [v| |]; try discriminate E. cbn [rbind] in *. destruct (mapM (at_ c) js) as [ws| |]; try discriminate E.
  injection E as <-. cbn [mapM]. rewrite (IH ws eq_refl). reflexivity.
Qed.

Section Main.
Variable tz_known : bytes -> bool.
Variable tz : bytes.
Variable parse_ipv4 parse_ipv6 : bytes -> option bytes.
Notation conv := (converted tz parse_ipv4 parse_ipv6).
Notation received := (received tz_known tz).

Lemma conv_same t v : conv t t v = Some (zoned tz v).
Proof. destruct t; cbn [converted]; rewrite eqb_sqltype_refl; reflexivity. Qed.

Lemma conv_null s t x w : conv (TNullable s) (TNullable t) (VNull x) = Some w -> w = VNull t \/ s = t /\ w = VNull x.
Proof.
  cbn [converted]. destruct (sqltype_eqb (TNullable s) (TNullable t)) eqn:E; intros H; injection H as <-; [|auto].
  apply eqb_sqltype in E. injection E as ->. auto.
Qed.
Lemma conv_some s t x w : conv (TNullable s) (TNullable t) (VSome x) = Some w -> exists y, conv s t x = Some y /\ w = VSome y.
Proof.
  cbn [converted]. destruct (sqltype_eqb (TNullable s) (TNullable t)) eqn:E; intros H.
  - injection H as <-. apply eqb_sqltype in E. injection E as ->. rewrite conv_same. eexists. split; reflexivity.
  - destruct (conv s t x); [|discriminate]. injection H as <-. eauto.
Qed.
Lemma mapO_some {A B} (f : A -> B) l : mapO (fun x => Some (f x)) l = Some (map f l).
Proof. induction l as [|x l IH]; [reflexivity|]. cbn. rewrite IH. reflexivity. Qed.
Lemma conv_array s t vs w : conv (TArray s) (TArray t) (VArray s vs) = Some w ->
  exists ws, mapO (conv s t) vs = Some ws /\ w = VArray t ws.
Proof.
  cbn [converted]. destruct (sqltype_eqb (TArray s) (TArray t)) eqn:E; intros H.
  - injection H as <-. apply eqb_sqltype in E. injection E as ->.
    rewrite (mapO_ext _ (fun x => Some (zoned tz x))) by (intros; apply conv_same). rewrite mapO_some.
    eexists. split; reflexivity.
  - destruct (mapO (conv s t) vs); [|discriminate]. injection H as <-. eauto.
Qed.
Lemma conv_agg f g s t v w : conv (TAgg f s) (TAgg g t) v = Some w -> conv s t v = Some w.
Proof.
  cbn [converted]. destruct (sqltype_eqb (TAgg f s) (TAgg g t)) eqn:E; intros H; [|exact H].
  apply eqb_sqltype in E. injection E as -> ->. rewrite conv_same. exact H.
Qed.

(** ** Columns that convert themselves *)
Definition carries (c : col) (t : sqltype) (n : nat) (c' : col) : Prop := forall a b, a <= b <= n -> a = 0 \/ flat c' = true ->
  exists bs d, save c' a b = Ok bs /\ ctype d = t /\ clen d = Ok (b - a) /\
    (forall i v w, i < b - a -> at_ c (a + i) = Ok v -> conv (ctype c) t v = Some w -> at_ d i = Ok w) /\
    forall fuel r, enough fuel t -> run (load_data tz_known fuel (type_name t) (N.of_nat (b - a)) tz) (bs ++ r) = Ok (d, r).

Lemma carries_received c t n c' : (forall a b, a <= b <= n -> a = 0 \/ flat c' = true ->
    exists bs ws, save c' a b = Ok bs /\ received t ws bs /\ length ws = b - a /\
    forall i v w, i < b - a -> at_ c (a + i) = Ok v -> conv (ctype c) t v = Some w -> nth_error ws i = Some w) ->
  carries c t n c'.
Proof.
  intros H a b L F. destruct (H a b L F) as (bs & ws & S & (d & T & [HL HA] & R) & LW & E).
  exists bs, d. split; [exact S|]. split; [exact T|]. split; [congruence|]. split; [eauto|].
  intros fuel r EF. rewrite <- LW. apply R, EF.
Qed.

Lemma built_plain c : built c -> plain_type (ctype c) = ctype c -> sound c.
Proof.
  induction c; cbn [built sound ctype plain_type]; intros H P; try assumption; try contradiction; try discriminate.
  - injection P as P. tauto.
  - injection P as P. tauto.
  - injection P as P. tauto.
Qed.
Lemma table_plain t : table_type t -> plain_type t = t.
Proof.
  induction t; cbn [table_type plain_type]; intros H; try reflexivity; try (rewrite IHt by tauto; reflexivity).
  - destruct d; try reflexivity. contradiction.
  - rewrite IHt1, IHt2 by tauto. reflexivity.
Qed.

Lemma image_map {A} s (f : A -> Z) l : concat (map (fun x => marshal s (f x)) l) = image s (map f l).
Proof. unfold image. rewrite map_map. reflexivity. Qed.

Lemma chrono32 x : in_span x -> chrono_cell (TDateTime DateTime32) x = Ok (marshal U32 (Z.of_N (as_u32 (fst (fst x))))).
Proof. destruct x as [[s n] z]. reflexivity. Qed.
Lemma chrono64 x p z : in_span x -> snd (fst x) = 0%N -> (p <= 9)%N ->
  chrono_cell (TDateTime (DateTime64 p z)) x = Ok (marshal I64 (fst (fst x) * 10 ^ Z.of_N p)) /\
  scalar_ok I64 (fst (fst x) * 10 ^ Z.of_N p) = true /\ Z.of_N (as_u32 (fst (fst x))) = fst (fst x).
Proof.
  destruct x as [[s n] zz]. unfold in_span. cbn [fst snd]. intros H -> Hp. cbn [chrono_cell]. unfold from_datetime, pow_factor.
  rewrite (proj2 (N.leb_le p 9) Hp), Z.add_0_r.
  assert (1000000000 = 10 ^ Z.of_N p * 10 ^ (9 - Z.of_N p))%Z as E.
  { rewrite <- Z.pow_add_r by lia. replace (Z.of_N p + (9 - Z.of_N p))%Z with 9%Z by lia. reflexivity. }
  assert (0 < 10 ^ Z.of_N p)%Z as P1 by (apply Z.pow_pos_nonneg; lia).
  assert (0 < 10 ^ (9 - Z.of_N p))%Z as P2 by (apply Z.pow_pos_nonneg; lia).
  assert (10 ^ Z.of_N p <= 1000000000)%Z as LE by nia.
  assert (i64_ok (s * 1000000000) = true) as -> by (unfold i64_ok; change (2 ^ 63)%Z with 9223372036854775808%Z; change (2 ^ 32)%Z with 4294967296%Z in H; apply andb_true_iff; lia).
  cbn [rbind]. rewrite E, Z.mul_assoc, Z.quot_mul by lia. split; [reflexivity|]. split.
  - unfold scalar_ok. change (2 ^ 32)%Z with 4294967296%Z in H. change (2 ^ (8 * Z.of_nat (width I64) - 1))%Z with 9223372036854775808%Z. apply andb_true_iff. nia.
  - unfold as_u32. apply to_unsigned_small. exact H.
Qed.

Lemma carry_chrono l z t : Forall in_span l -> (8 * lenN l <= isize_max)%N ->
  Forall (fun x : Z * N * bytes => snd (fst x) = 0%N) l \/ seconds_only t -> is_datetime t = true ->
  table_type t -> nameable tz_known t -> carries (CChrono l z) t (length l) (CChronoAdapter (CChrono l z) t).
Proof.
  intros H B WT DT TT NM. destruct t; try discriminate. apply carries_received. intros a b L _.
  cbn [save ctype]. rewrite eqb_sqltype_refl, cut_ok by lia. cbn [rbind].
  assert (forall i v, i < b - a -> at_ (CChrono l z) (a + i) = Ok v ->
    exists x, nth_error (sub l a b) i = Some x /\ v = VDateTime (as_u32 (fst (fst x))) (snd x)) as AT.
  { intros i v Hi E. cbn [at_] in E. inv_do E. unfold index in E0. unfold sub. rewrite nth_error_firstn, nth_error_skipn by exact Hi.
    destruct (nth_error l (a + i)) as [y|]; [|discriminate E0]. injection E0 as <-. destruct y as [[s n] zz]. injection E as <-. eexists. split; reflexivity. }
  assert (Forall in_span (sub l a b)) as HS by (apply sub_Forall, H).
  assert (Forall (fun x : Z * N * bytes => snd (fst x) = 0%N) (sub l a b) \/ seconds_only (TDateTime d)) as HW
    by (destruct WT as [WT|WT]; [left; apply sub_Forall, WT|right; exact WT]).
  assert (lenN (sub l a b) <= lenN l)%N as LN by (apply sub_lenN; lia).
  assert (length (sub l a b) = b - a) as LL by (apply sub_length; lia).
  destruct d as [|p zz|]; [| |contradiction TT].
  all: set (sl := sub l a b) in *; clearbody sl.
  - rewrite (mapM_all _ in_span (fun x => marshal U32 (Z.of_N (as_u32 (fst (fst x))))) sl chrono32 HS).
    cbn [rbind]. rewrite (image_map U32 (fun x => Z.of_N (as_u32 (fst (fst x))))), <- (map_map (fun x : Z * N * bytes => as_u32 (fst (fst x))) Z.of_N).
    eexists. exists (map (fun s => VDateTime s tz) (map (fun x : Z * N * bytes => as_u32 (fst (fst x))) sl)). split; [reflexivity|].
    split; [apply recv_datetime|].
    + apply Forall_map. apply Forall_forall. intros x _. apply (to_unsigned_bound 4).
    + unfold lenN in *. rewrite map_length. lia.
    + rewrite !map_length. split; [exact LL|]. intros i v w Hi E Hw. destruct (AT i v Hi E) as (x & Ex & ->).
      rewrite !nth_error_map, Ex. cbn [option_map]. change (Some (VDateTime (as_u32 (fst (fst x))) tz) = Some w) in Hw. congruence.
  - cbn [table_type] in TT. destruct HW as [HW|[]].
    assert (forall x, In x sl -> in_span x /\ snd (fst x) = 0%N) as HS'
      by (intros x Hx; split; [revert x Hx; apply Forall_forall, HS|revert x Hx; apply Forall_forall, HW]).
    rewrite (mapM_all _ (fun x => in_span x /\ snd (fst x) = 0%N) (fun x => marshal I64 (fst (fst x) * 10 ^ Z.of_N p)) sl)
      by (first [apply Forall_forall; exact HS'|intros x [Hx Hx']; apply chrono64; auto]).
    cbn [rbind]. rewrite (image_map I64 (fun x => (fst (fst x) * 10 ^ Z.of_N p)%Z)).
    eexists. exists (map (fun x => VDateTime64 x p zz) (map (fun x : Z * N * bytes => (fst (fst x) * 10 ^ Z.of_N p)%Z) sl)). split; [reflexivity|].
    split; [apply recv_datetime64; [exact NM| |]|].
    + apply Forall_map. apply Forall_forall. intros x Hx. destruct (HS' x Hx). apply (chrono64 x p zz); auto.
    + unfold lenN in *. rewrite map_length. lia.
    + rewrite !map_length. split; [exact LL|]. intros i v w Hi E Hw. destruct (AT i v Hi E) as (x & Ex & ->).
      rewrite !nth_error_map, Ex. cbn [option_map]. cbn [converted] in Hw.
      change (sqltype_eqb (ctype (CChrono l z)) (TDateTime (DateTime64 p zz))) with false in Hw. cbv iota in Hw.
      rewrite (proj2 (N.leb_le p 9) TT) in Hw. injection Hw as <-.
      destruct (HS' x (nth_error_In _ _ Ex)) as [Q1 Q2].
      rewrite (proj2 (proj2 (chrono64 x p zz Q1 Q2 TT))). reflexivity.
Qed.

Lemma same_carry c n : sound c -> nameable tz_known (ctype c) -> clen c = Ok n -> carries c (ctype c) n c.
Proof.
  intros H NM L a b Hab Hf. destruct (send_column tz_known tz c H NM) as (n' & L' & S). rewrite L in L'. injection L' as <-.
  destruct (S a b Hab Hf) as (bs & d & E & ((D1 & D2 & D3) & _) & R). exists bs, d. repeat (split; [assumption|]). split; [|exact R].
  intros i v w Hi E1 E2. rewrite conv_same in E2. injection E2 as <-. rewrite D3, E1 by exact Hi. reflexivity.
Qed.

Ltac load_step :=
  match goal with F : enough ?fuel ?t |- context [load_data _ ?fuel] =>
    let f := fresh "f" in destruct (load_fuel _ _ F) as [f ->];
    cbn [load_data]; rewrite (classify_name tz_known) by assumption; cbn [lift pbind kind_of] end.

Lemma mapM_conv (f f' : nat -> res value) s t js vs ws : (forall j v w, In j js -> f j = Ok v -> conv s t v = Some w -> f' j = Ok w) ->
  mapM f js = Ok vs -> mapO (conv s t) vs = Some ws -> mapM f' js = Ok ws.
Proof.
  revert vs ws. induction js as [|j js IH]; intros vs ws H E1 E2; cbn [mapM] in *.
  - injection E1 as <-. cbn in E2. congruence.
  - destruct (f j) as [v| |] eqn:Ej; try discriminate E1. cbn [rbind] in *. destruct (mapM f js) as [us| |] eqn:Es; try discriminate E1.
    injection E1 as <-. cbn [mapO] in E2. destruct (conv s t v) as [w|] eqn:Ew; [|discriminate]. destruct (mapO (conv s t) us) as [xs|] eqn:Ex; [|discriminate].
    injection E2 as <-. rewrite (H j v w (or_introl eq_refl) Ej Ew). cbn [rbind]. rewrite (IH us xs); [reflexivity| |reflexivity|exact Ex].
    intros; eapply H; [right|..]; eassumption.
Qed.

Lemma data_carry c : forall t c' n, built c -> whole_times c \/ seconds_only t -> data_cast c t = Some c' -> table_type t -> covered t -> nameable tz_known t ->
  clen c = Ok n -> carries c t n c'.
Proof.
  induction c; intros t c' m0 HB HW HD TT NMP NM HL; cbn [data_cast] in HD; try discriminate.
  - destruct (is_datetime t) eqn:DT; [|discriminate]. injection HD as <-. cbn [clen] in HL. injection HL as <-.
    destruct HB as [H1 H2]. apply carry_chrono; assumption.
  - destruct t; try discriminate. destruct (data_cast c t) as [i'|] eqn:E; [|discriminate]. injection HD as <-.
    destruct HB as (H & HC & B). cbn [table_type covered] in TT, NMP. destruct NM as [NM NN].
    cbn [clen] in HL. rewrite HC in HL. cbn [rbind] in HL. rewrite Nat.eqb_refl in HL. injection HL as <-.
    pose proof (IHc t i' _ H HW E TT NMP NM HC) as S. intros a b Hab Hf.
    destruct (S a b Hab Hf) as (bs & d & E1 & T & D2 & D3 & R). cbn [save]. rewrite cut_ok by lia. cbn [rbind]. rewrite E1. cbn [rbind].
    exists (sub nulls a b ++ bs), (CNullable d (sub nulls a b)). split; [reflexivity|]. split; [cbn; congruence|]. split; [|split].
    + cbn. rewrite D2. cbn. rewrite sub_length, Nat.eqb_refl by lia. reflexivity.
    + intros i v w Hi E2 E3. cbn [at_] in *. rewrite index_sub by exact Hi.
      destruct (index nulls (a + i)) as [f| |]; try discriminate E2. cbn [rbind] in *. cbn [ctype] in E3.
      destruct (f =? 1)%N.
      * injection E2 as <-. rewrite T. destruct (conv_null _ _ _ _ E3) as [->|[-> ->]]; reflexivity.
      * destruct (at_ c (a + i)) as [x| |] eqn:Ex; try discriminate E2. injection E2 as <-.
        destruct (conv_some _ _ _ _ E3) as (y & Ey & ->). rewrite (D3 i x y Hi Ex Ey). reflexivity.
    + intros fuel r F. assert (nameable tz_known (TNullable t)) as N' by (split; assumption). load_step.
      rewrite run_bind, run_alloc by (unfold lenN in B; lia). cbv beta iota. rewrite <- app_assoc.
      rewrite run_get by (unfold lenN; rewrite sub_length by lia; reflexivity).
      rewrite run_bind, R by (apply enough_nullable, F). reflexivity.
  - destruct t; try discriminate. destruct (data_cast c t) as [i'|] eqn:E; [|discriminate]. injection HD as <-.
    destruct HB as (H & HC & C & B & B8). cbn [table_type covered] in TT, NMP. assert (nameable tz_known t) as NM1 by exact NM.
    cbn [clen] in HL. injection HL as <-. pose proof (IHc t i' _ H HW E TT NMP NM1 HC) as S.
    intros a b Hab Hf. destruct Hf as [->|Hf]; [|discriminate].
    rewrite Nat.sub_0_r. cbn [save]. unfold save_offsets. rewrite mapM_index by lia. cbn [rbind skipn fst snd].
    rewrite Nat.sub_0_r. set (o := firstn b offs).
    assert (length o = b) as Lo by (unfold o; rewrite firstn_length; lia).
    pose proof (last_firstn_le offs b C) as LE. fold o in LE.
    destruct (S 0 (N.to_nat (last o 0%N)) ltac:(lia) (or_introl eq_refl)) as (bs & d & E1 & T & D2 & D3 & R).
    rewrite E1. cbn [rbind]. exists (concat (map put_u64 o) ++ bs), (CArray d o). split; [reflexivity|].
    split; [cbn; congruence|]. split; [cbn; congruence|]. split.
    + intros i v w Hi E2 E3. cbn [at_ Nat.add] in *.
      assert (row_bounds o i = row_bounds offs i) as E4 by (apply row_bounds_firstn; exact Hi). rewrite E4.
      destruct (row_bounds offs i) as [[s e]| |] eqn:Eb; try discriminate E2. cbn [rbind fst snd] in *.
      pose proof (row_bounds_le o i s e (climbs_firstn offs b 0%N C) E4) as Hse.
      destruct (mapM (at_ c) (seq s (e - s))) as [vs| |] eqn:EM; try discriminate E2. injection E2 as <-.
      cbn [ctype] in E3. destruct (conv_array _ _ _ _ E3) as (ws & EW & ->).
      rewrite (mapM_conv (at_ c) (at_ d) _ _ _ _ _) with (2 := EM) (3 := EW).
      * cbn [rbind]. rewrite T. reflexivity.
      * intros j x y Hj Q1 Q2. apply in_seq in Hj. refine (D3 j x y _ Q1 Q2). lia.
    + intros fuel r F. load_step.
      rewrite <- app_assoc, run_bind, read_offsets_ok.
      * cbn [snd fst]. rewrite run_bind.
        replace (last o 0%N) with (N.of_nat (N.to_nat (last o 0%N) - 0)) at 1 by lia.
        rewrite R by (apply enough_array, F). reflexivity.
      * apply climbs_firstn, C.
      * lia.
      * unfold lenN in *. lia.
      * unfold lenN. lia.
  - destruct t; try discriminate. contradiction NMP.
  - destruct t; try discriminate. injection HD as <-. cbn [clen] in HL. injection HL as <-. destruct HB as [H B].
    apply carries_received. intros a b Hab _. cbn [save]. rewrite cut_ok by lia. cbn [rbind].
    eexists. exists (map (VEnum8 vals0) (sub l a b)). split; [reflexivity|].
    split; [apply recv_enum8; [exact NM|apply sub_Forall, H|]|].
    + pose proof (sub_lenN l a b ltac:(lia) ltac:(lia)). lia.
    + rewrite map_length, sub_length by lia. split; [reflexivity|]. intros i v w Hi E1 E2. cbn [at_] in E1. rewrite <- (index_sub l a b) in E1 by exact Hi.
      unfold index in E1. rewrite nth_error_map. destruct (nth_error (sub l a b) i) as [z|]; [|discriminate E1]. injection E1 as <-.
      cbn [ctype converted] in E2. destruct (sqltype_eqb (TEnum8 vals) (TEnum8 vals0)) eqn:Q.
      * apply eqb_sqltype in Q. injection Q as <-. injection E2 as <-. reflexivity.
      * destruct (same_label vals vals0 z); [|discriminate]. injection E2 as <-. reflexivity.
  - destruct t; try discriminate. injection HD as <-. cbn [clen] in HL. injection HL as <-. destruct HB as [H B].
    apply carries_received. intros a b Hab _. cbn [save]. rewrite cut_ok by lia. cbn [rbind].
    eexists. exists (map (VEnum16 vals0) (sub l a b)). split; [reflexivity|].
    split; [apply recv_enum16; [exact NM|apply sub_Forall, H|]|].
    + pose proof (sub_lenN l a b ltac:(lia) ltac:(lia)). lia.
    + rewrite map_length, sub_length by lia. split; [reflexivity|]. intros i v w Hi E1 E2. cbn [at_] in E1. rewrite <- (index_sub l a b) in E1 by exact Hi.
      unfold index in E1. rewrite nth_error_map. destruct (nth_error (sub l a b) i) as [z|]; [|discriminate E1]. injection E1 as <-.
      cbn [ctype converted] in E2. destruct (sqltype_eqb (TEnum16 vals) (TEnum16 vals0)) eqn:Q.
      * apply eqb_sqltype in Q. injection Q as <-. injection E2 as <-. reflexivity.
      * destruct (same_label vals vals0 z); [|discriminate]. injection E2 as <-. reflexivity.
  - destruct t; try discriminate. destruct (data_cast c t) as [i'|] eqn:E; [|discriminate]. injection HD as <-.
    cbn [built] in HB. cbn [table_type covered] in TT, NMP. cbn [clen] in HL.
    pose proof (IHc t i' _ HB HW E TT NMP (proj1 NM) HL) as S. intros a b Hab Hf.
    destruct (S a b Hab Hf) as (bs & d & E1 & T & D2 & D3 & R). cbn [save].
    exists bs, (CAgg f0 d). split; [exact E1|]. split; [cbn; congruence|]. split; [exact D2|]. split.
    + intros i v w Hi E2 E3. cbn [at_ ctype] in *. apply conv_agg in E3. eapply D3; eassumption.
    + intros fuel r F. assert (nameable tz_known (TAgg f0 t)) as N' by exact NM. load_step.
      rewrite run_bind, R by (eapply enough_agg, F). reflexivity.
Qed.

(** ** Cells written one by one *)
Definition conveys (c' : col) (t : sqltype) (ws : list value) : Prop :=
  clen c' = Ok (length ws) /\
  forall a b, a <= b <= length ws -> a = 0 \/ flat c' = true -> exists bs, save c' a b = Ok bs /\ received t (sub ws a b) bs.

Lemma octet_byte vs bs : mapO octet vs = Some bs -> mapM value_byte vs = Ok bs.
Proof.
  revert bs. induction vs as [|v vs IH]; intros bs H; cbn [mapO mapM] in *; [injection H as <-; reflexivity|].
  destruct (octet v) as [n|] eqn:E; [|discriminate]. destruct (mapO octet vs); [|discriminate]. injection H as <-.
  rewrite (IH _ eq_refl). destruct v as [[]| | | | | | | | | | | | | | |]; try discriminate E. injection E as <-. reflexivity.
Qed.
Lemma octets_fixed t v b : octets t v = Some b -> fixed_cell v = Ok b /\ string_cell v = Ok b.
Proof.
  intros H. destruct t as [| | | | | | | | |[[]| | | | | | | | | | | | | | |]| | | | | |]; try discriminate H;
  destruct v as [s z|b'| | | | | | | | | |[[]| | | | | | | | | | | | | | |] vs| | | |]; try discriminate H; cbn [fixed_cell string_cell octets] in *;
    first [injection H as <-; split; reflexivity | split; apply octet_byte, H].
Qed.
Lemma resize_pad n b : resize n b = pad_or_cut n b.
Proof.
  unfold resize, pad_or_cut. rewrite firstn_app. f_equal. rewrite firstn_repeat. f_equal. lia.
Qed.
Lemma resize_length n b : length (resize n b) = n.
Proof. unfold resize. rewrite app_length, firstn_length, repeat_length. lia. Qed.

Lemma sub_bound {A} (l : list A) a b k : a <= b <= length l -> (lenN l * k <= isize_max)%N -> (lenN (sub l a b) * k <= isize_max)%N.
Proof. intros H B. pose proof (sub_lenN l a b ltac:(lia) ltac:(lia)). nia. Qed.

Lemma say_fixed src c n vs ws : holds c vs -> (src = TString \/ src = TArray (TNum U8)) ->
  Forall2 (fun v w => conv src (TFixedString n) v = Some w) vs ws -> n <> 0%N -> (n < 2 ^ 64)%N ->
  (lenN vs * (n + 80) <= isize_max)%N -> conveys (CFixedAdapter c n) (TFixedString n) ws.
Proof.
  intros H T F H0 HN B. pose proof (F2_length _ _ _ F) as L. split; [cbn [clen]; rewrite (proj1 H); congruence|]. intros a b Hab _.
  cbn [save]. rewrite (rows_holds c vs) by (congruence || assumption || lia). cbn [rbind].
  destruct (F2_step _ (fun x w => True /\ w = VString (resize (N.to_nat n) x)) fixed_cell _ _ (F2_sub _ _ _ a b F)) as (bs & E & Q).
  { intros v w R. assert (exists b, octets src v = Some b /\ as_fixed n b = Some w) as (x & E1 & E2).
    { cbn [converted] in R. destruct T as [T|T]; rewrite T in R |- *;
        [change (sqltype_eqb TString (TFixedString n)) with false in R|change (sqltype_eqb (TArray (TNum U8)) (TFixedString n)) with false in R];
        cbv iota in R; match type of R with match ?o with _ => _ end = _ => destruct o as [x|]; [|discriminate] end; eauto. }
    exists x. split; [eapply octets_fixed, E1|]. split; [exact I|]. unfold as_fixed in E2. destruct (lenN x <=? n)%N; [|discriminate].
    injection E2 as <-. rewrite resize_pad. reflexivity. }
  apply F2_map in Q as [_ Q]. rewrite E. cbn [rbind]. eexists. split; [reflexivity|]. rewrite Q.
  rewrite <- (map_map (resize (N.to_nat n)) VString). apply recv_fixed; [exact H0|exact HN| |].
  - apply Forall_map, Forall_forall. intros x _. apply resize_length.
  - assert (lenN bs = lenN (sub ws a b)) as LB by (rewrite Q; unfold lenN; rewrite map_length; reflexivity).
    unfold lenN in *. rewrite map_length. rewrite sub_length in LB by lia. nia.
Qed.

Lemma say_string c vs ws : holds c vs -> ctype c = TArray (TNum U8) ->
  Forall2 (fun v w => conv (ctype c) TString v = Some w) vs ws -> Forall short_text ws ->
  (lenN vs * 80 <= isize_max)%N -> conveys (CStringAdapter c) TString ws.
Proof.
  intros H T F HS B. pose proof (F2_length _ _ _ F) as L. split; [cbn [clen]; rewrite (proj1 H); congruence|]. intros a b Hab _.
  cbn [save]. rewrite (rows_holds c vs) by (congruence || assumption || lia). cbn [rbind].
  destruct (F2_step _ (fun x w => True /\ w = VString x) string_cell _ _ (F2_sub _ _ _ a b F)) as (bs & E & Q).
  { intros v w R. cbn [converted] in R. rewrite T in R. change (sqltype_eqb (TArray (TNum U8)) TString) with false in R. cbv iota in R.
    destruct (octets _ v) as [x|] eqn:E1; [|discriminate]. injection R as <-.
    exists x. split; [eapply octets_fixed, E1|]. split; [exact I|reflexivity]. }
  apply F2_map in Q as [_ Q]. rewrite E. cbn [rbind]. assert (lenN bs = lenN (sub ws a b)) as LB by (rewrite Q; unfold lenN; rewrite map_length; reflexivity).
  destruct (recv_string tz_known tz bs) as (parts & E1 & R).
  - apply (sub_Forall _ _ a b) in HS. rewrite Q in HS. rewrite Forall_map in HS. exact HS.
  - unfold lenN in *. rewrite sub_length in LB by lia. fold bytes in *. nia.
  - rewrite E1. cbn [rbind]. eexists. split; [reflexivity|]. rewrite Q. exact R.
Qed.

(** Cells with null marks. *)
Lemma null_rows {X} (cell : option value -> res bytes) (e : X -> bytes) (g : X -> value) (OK : X -> Prop) t (Q : option value -> value -> Prop) os ws :
  Forall2 Q os ws -> (forall o w, Q o w -> exists x, cell o = Ok (e x) /\ OK x /\ w = put_null t (null_mark o) (g x)) ->
  exists xs, mapM cell os = Ok (map e xs) /\ Forall OK xs /\ length xs = length os /\
    ws = zip_with (put_null t) (map null_mark os) (map g xs).
Proof.
  intros H E. induction H as [|o w os ws H _ IH]; [exists []; repeat split; constructor|].
  destruct (E o w H) as (x & E1 & E2 & E3), IH as (xs & F1 & F2 & F3 & F4). exists (x :: xs). cbn [mapM map]. rewrite E1, F1.
  cbn [rbind]. split; [reflexivity|]. split; [constructor; assumption|]. split; [cbn; congruence|]. cbn. congruence.
Qed.
Lemma zip_all {A B C} (f : A -> B -> C) l k : length l = length k -> lenN (zip_with f l k) = lenN l.
Proof. intros H. unfold lenN. rewrite zip_length by exact H. reflexivity. Qed.

(** [opts]: the optional contents of the cells that the adapter shows. *)
Lemma say_null c c' (F : value -> res value) {X} cell (e : X -> bytes) (g : X -> value) (OK : X -> Prop) t vs ws (Q : option value -> value -> Prop) (R : value -> value -> Prop) :
  holds c vs -> nameable tz_known (TNullable t) -> Forall2 R vs ws ->
  clen c' = clen c -> (lenN vs <= isize_max)%N ->
  (forall a b, save c' a b = do os <- extract (fun i => do v <- at_ c i; F v) a b; do xs <- mapM cell os; Ok (map null_mark os ++ concat xs)) ->
  (forall v w, R v w -> exists u o, F v = Ok u /\ unwrap_option u = Ok o /\ Q o w) ->
  (forall o w, Q o w -> exists x, cell o = Ok (e x) /\ OK x /\ w = put_null t (null_mark o) (g x)) ->
  (forall xs, Forall OK xs -> (lenN xs <= lenN vs)%N -> received t (map g xs) (concat (map e xs))) ->
  conveys c' (TNullable t) ws.
Proof.
  intros H NM HF HC B HS HQ HX HR. pose proof (F2_length _ _ _ HF) as L. split; [rewrite HC, (proj1 H); congruence|]. intros a b Hab _.
  rewrite HS. unfold extract. destruct (Nat.ltb_spec b a) as [W|_]; [lia|].
  rewrite (rows_then c vs F) by (assumption || lia).
  destruct (F2_step _ (fun u w => exists o, unwrap_option u = Ok o /\ Q o w) F _ _ (F2_sub _ _ _ a b HF)) as (us & E1 & Q1).
  { intros v w HR'. destruct (HQ v w HR') as (u & o & R1 & R2). eauto. }
  destruct (F2_step _ Q unwrap_option _ _ Q1) as (os & E2 & Q2); [intros u w HR'; exact HR'|].
  destruct (null_rows cell e g OK t Q os _ Q2 HX) as (xs & E3 & A & LX & EW).
  rewrite E1. cbn [rbind]. rewrite E2. cbn [rbind]. unfold bytes in E3 |- *.
  rewrite E3.
  cbn [rbind]. eexists. split; [reflexivity|]. rewrite EW.
  pose proof (F2_length _ _ _ Q2) as LO. rewrite sub_length in LO by lia.
  apply recv_nullable; [exact NM|rewrite !map_length; congruence| |].
  - unfold lenN in *. rewrite map_length. lia.
  - apply HR; [exact A|]. unfold lenN. lia.
Qed.

Lemma decimal_shown p s nb d w : as_decimal p s d = Some w -> nameable tz_known (TDecimal p s) -> from_precision p = Some nb ->
  exists d', set_scale d s = Ok d' /\ w = VDecimal (mk_decimal (d_underlying d') nb p s) /\ scalar_ok (nb_scalar nb) (d_underlying d') = true /\
    internal nb (mk_decimal (d_underlying d') nb p s) = d_underlying d'.
Proof.
  intros H NM P. unfold as_decimal in H.
  assert ((if (p <=? 9)%N then N32 else N64) = nb) as EN.
  { cbn [nameable] in NM. unfold from_precision in P.
    destruct (N.leb_spec p 9); repeat match goal with H : (if ?b then _ else _) = _ |- _ => destruct b eqn:?; try discriminate end;
      try (injection P as <-); try reflexivity; lia. }
  rewrite EN in H. set (m := (d_underlying d * 10 ^ Z.of_N s / 10 ^ Z.of_N (d_scale d))%Z) in *.
  destruct ((m * 10 ^ Z.of_N (d_scale d) =? d_underlying d * 10 ^ Z.of_N s)%Z) eqn:Q1; [|discriminate H].
  destruct (N.leb_spec (d_scale d) 18) as [Q4|_]; [|rewrite andb_false_r in H; discriminate].
  set (bound := (if (p <=? 9)%N then 2 ^ 31 else 2 ^ 63)%Z) in *.
  destruct (- bound <=? m)%Z eqn:Q2; [|discriminate H]. destruct (m <? bound)%Z eqn:Q3; [|discriminate H]. cbn [andb] in H. injection H as <-.
  apply Z.eqb_eq in Q1.
  assert (scalar_ok (nb_scalar nb) m = true /\ (- 2 ^ 63 <= m < 2 ^ 63)%Z) as [SO B].
  { rewrite <- EN. unfold bound in *. destruct (p <=? 9)%N.
    - split; [cbn [nb_scalar scalar_ok]; change (2 ^ (8 * Z.of_nat (width I32) - 1))%Z with (2 ^ 31)%Z; rewrite Q2, Q3; reflexivity|]. change (2 ^ 31)%Z with 2147483648%Z in *. change (2 ^ 63)%Z with 9223372036854775808%Z. lia.
    - split; [cbn [nb_scalar scalar_ok]; change (2 ^ (8 * Z.of_nat (width I64) - 1))%Z with (2 ^ 63)%Z; rewrite Q2, Q3; reflexivity|]. lia. }
  assert (exists d', set_scale d s = Ok d' /\ d_underlying d' = m) as (d' & E1 & E2).
  { unfold set_scale. cbn [nameable] in NM. assert (0 < 10 ^ Z.of_N s)%Z as P1 by (apply Z.pow_pos_nonneg; lia).
    assert (0 < 10 ^ Z.of_N (d_scale d))%Z as P2 by (apply Z.pow_pos_nonneg; lia).
    destruct (N.compare_spec s (d_scale d)) as [C|C|C].
    - exists d. split; [reflexivity|]. rewrite C in Q1. nia.
    - assert (10 ^ Z.of_N (d_scale d) = 10 ^ Z.of_N s * 10 ^ Z.of_N (d_scale d - s))%Z as E by (rewrite <- Z.pow_add_r by lia; f_equal; lia).
      assert (0 < 10 ^ Z.of_N (d_scale d - s))%Z as P3 by (apply Z.pow_pos_nonneg; lia).
      unfold factors10. destruct (N.leb_spec (d_scale d - s) 18); [|lia].
      cbn [rbind]. eexists. split; [reflexivity|]. cbn [d_underlying].
      assert (d_underlying d = m * 10 ^ Z.of_N (d_scale d - s))%Z as -> by nia. apply Z.quot_mul. lia.
    - assert (10 ^ Z.of_N s = 10 ^ Z.of_N (d_scale d) * 10 ^ Z.of_N (s - d_scale d))%Z as E by (rewrite <- Z.pow_add_r by lia; f_equal; lia).
      unfold factors10. destruct (N.leb_spec (s - d_scale d) 18); [|lia].
      cbn [rbind]. assert (m = d_underlying d * 10 ^ Z.of_N (s - d_scale d))%Z as EM by nia.
      unfold i64_mul. rewrite <- EM. assert (i64_ok m = true) as -> by (apply i64_ok_iff; exact B). cbn [rbind]. eexists. split; [reflexivity|]. reflexivity. }
  exists d'. rewrite E2. split; [exact E1|]. split; [reflexivity|]. split; [exact SO|].
  unfold internal. destruct nb; [|reflexivity]. cbn [d_underlying]. unfold as_i32. apply to_signed_unsigned; [lia|]. apply andb_true_iff in SO. change (2 ^ (8 * Z.of_nat (width I32) - 1))%Z with (2 ^ (8 * Z.of_nat 4 - 1))%Z in SO. destruct SO as [SO1 SO2]. apply Z.leb_le in SO1. apply Z.ltb_lt in SO2. split; assumption.
Qed.

Definition shown (src dst : sqltype) (v w : value) : Prop := conv src dst v = Some w /\ proper v.

Lemma say_decimal c p s nb p' s' vs ws : holds c vs -> ctype c = TDecimal p' s' -> TDecimal p' s' <> TDecimal p s -> from_precision p = Some nb ->
  Forall2 (shown (ctype c) (TDecimal p s)) vs ws -> nameable tz_known (TDecimal p s) -> (lenN vs * 80 <= isize_max)%N ->
  conveys (CDecimalAdapter c p s nb) (TDecimal p s) ws.
Proof.
  intros H T NE HP F NM B. pose proof (F2_length _ _ _ F) as L. split; [cbn [clen]; rewrite (proj1 H); congruence|]. intros a b Hab _.
  cbn [save]. set (G := fun v : value => match v with
      | VDecimal d => do d' <- set_scale d s; Ok (VDecimal (mk_decimal (d_underlying d') nb p s))
      | _ => Panic PExplicit
      end).
  change (at_ (CDecimalAdapter c p s nb)) with (fun i => do v <- at_ c i; G v). rewrite (rows_then c vs) by (assumption || lia).
  destruct (F2_step _ (fun u w => exists z, u = VDecimal (mk_decimal z nb p s) /\ w = u /\ scalar_ok (nb_scalar nb) z = true /\
      internal nb (mk_decimal z nb p s) = z) G _ _ (F2_sub _ _ _ a b F)) as (us & E & Q).
  { intros v w [R _]. cbn [converted] in R. rewrite T in R. destruct (sqltype_eqb (TDecimal p' s') (TDecimal p s)) eqn:QE; [apply eqb_sqltype in QE; contradiction|].
    destruct v; try discriminate R. destruct (decimal_shown _ _ _ _ _ R NM HP) as (d' & E1 & -> & E3 & E4).
    eexists. split; [unfold G; rewrite E1; reflexivity|]. exists (d_underlying d'). repeat split; assumption. }
  destruct (F2_step _ (fun x w => exists z, x = marshal (nb_scalar nb) z /\ w = VDecimal (mk_decimal z nb p s) /\ scalar_ok (nb_scalar nb) z = true)
    (decimal_cell nb) _ _ Q) as (xs & E1 & Q1).
  { intros u w (z & -> & -> & S1 & S2). cbn [decimal_cell]. rewrite S2. eexists. split; [reflexivity|]. exists z. auto. }
  rewrite E. cbn [rbind]. rewrite E1. cbn [rbind]. eexists. split; [reflexivity|].
  assert (exists zs, xs = map (marshal (nb_scalar nb)) zs /\ sub ws a b = map (fun z => VDecimal (mk_decimal z nb p s)) zs /\
    Forall (fun z => scalar_ok (nb_scalar nb) z = true) zs) as (zs & -> & EW & A).
  { clear -Q1. induction Q1 as [|x w xs ws' (z & -> & -> & S) _ (zs & -> & -> & A)]; [exists []; auto|].
    exists (z :: zs). repeat split. constructor; assumption. }
  rewrite EW. apply recv_decimal; [exact NM|exact HP|exact A|].
  assert (lenN zs = lenN (sub ws a b)) as LB by (rewrite EW; unfold lenN; rewrite map_length; reflexivity).
  unfold lenN in *. rewrite sub_length in LB by lia. nia.
Qed.

Lemma say_ndecimal c p s nb p' s' vs ws : holds c vs -> ctype c = TNullable (TDecimal p' s') -> TDecimal p' s' <> TDecimal p s -> from_precision p = Some nb ->
  Forall2 (shown (ctype c) (TNullable (TDecimal p s))) vs ws -> nameable tz_known (TNullable (TDecimal p s)) -> (lenN vs * 80 <= isize_max)%N ->
  conveys (CNullDecimalAdapter c p s nb) (TNullable (TDecimal p s)) ws.
Proof.
  intros H T NE HP F NM B.
  apply (say_null c (CNullDecimalAdapter c p s nb) (fun v => do o <- unwrap_option v;
      match o with
      | None => Ok (VNull (TNullable (TDecimal p s)))
      | Some (VDecimal d) =>
          do d' <- set_scale d s; Ok (VSome (VDecimal (mk_decimal (d_underlying d') nb p s)))
      | Some _ => Panic PUnwrap
      end) (decimal_opt_cell nb) (marshal (nb_scalar nb)) (fun z => VDecimal (mk_decimal z nb p s)) (fun z => scalar_ok (nb_scalar nb) z = true) (TDecimal p s) vs ws
      (fun o w => o = None /\ w = VNull (TDecimal p s) \/ exists z, o = Some (VDecimal (mk_decimal z nb p s)) /\
         w = VSome (VDecimal (mk_decimal z nb p s)) /\ scalar_ok (nb_scalar nb) z = true /\ internal nb (mk_decimal z nb p s) = z)
      (shown (ctype c) (TNullable (TDecimal p s)))); auto.
  - lia.
  - intros v w [R _]. rewrite T in R. destruct v; try (cbn in R; destruct (sqltype_eq_dec _ _); discriminate R).
    all: cbn [converted] in R; destruct (sqltype_eqb (TNullable (TDecimal p' s')) (TNullable (TDecimal p s))) eqn:QE;
      [apply eqb_sqltype in QE; congruence|]; try discriminate R.
    + injection R as <-. cbn [unwrap_option rbind]. eexists _, None. split; [reflexivity|]. auto.
    + destruct (sqltype_eqb (TDecimal p' s') (TDecimal p s)) eqn:QE1; [apply eqb_sqltype in QE1; congruence|]. destruct v; try discriminate R.
      destruct (as_decimal p s d) eqn:AD; [|discriminate R]. injection R as <-.
      destruct (decimal_shown _ _ _ _ _ AD (proj1 NM) HP) as (d' & E1 & -> & E3 & E4).
      cbn [unwrap_option rbind]. rewrite E1. cbn [rbind]. eexists _, (Some _). split; [reflexivity|]. split; [reflexivity|]. right. exists (d_underlying d'). repeat split; assumption.
  - intros o w [[-> ->]|(z & -> & -> & S1 & S2)].
    + exists 0%Z. split; [reflexivity|]. split; [destruct nb; reflexivity|reflexivity].
    + exists z. cbn [decimal_opt_cell]. rewrite S2. auto.
  - intros xs A LX. apply recv_decimal; [exact (proj1 NM)|exact HP|exact A|]. nia.
Qed.

Lemma say_enum8 c o n vs ws : holds c vs -> ctype c = TEnum8 o -> o <> n ->
  Forall2 (shown (ctype c) (TEnum8 n)) vs ws -> nameable tz_known (TEnum8 n) -> (lenN vs * 80 <= isize_max)%N ->
  conveys (CEnum8Adapter c n) (TEnum8 n) ws.
Proof.
  intros H T NE F NM B. pose proof (F2_length _ _ _ F) as L. split; [cbn [clen]; rewrite (proj1 H); congruence|]. intros a b Hab _.
  cbn [save]. set (G := fun v : value => match v with VEnum8 vals z => Ok (VEnum8 vals z) | _ => Panic PExplicit end).
  change (at_ (CEnum8Adapter c n)) with (fun i => do v <- at_ c i; G v). rewrite (rows_then c vs) by (assumption || lia).
  destruct (F2_step _ (fun u w => exists k z, u = VEnum8 k z /\ w = VEnum8 n z /\ scalar_ok I8 z = true) G _ _ (F2_sub _ _ _ a b F)) as (us & E & Q).
  { intros v w [R P]. cbn [converted] in R. rewrite T in R. destruct (sqltype_eqb (TEnum8 o) (TEnum8 n)) eqn:QE; [apply eqb_sqltype in QE; congruence|].
    destruct v; try discriminate R. destruct (same_label vals n z); [|discriminate R]. injection R as <-.
    eexists. split; [reflexivity|]. eauto. }
  destruct (F2_step _ (fun x w => exists z, x = marshal I8 z /\ w = VEnum8 n z /\ scalar_ok I8 z = true)
    (enum_cell I8) _ _ Q) as (xs & E1 & Q1).
  { intros u w (k & z & -> & -> & S1). cbn [enum_cell]. eexists. split; [reflexivity|]. exists z. auto. }
  rewrite E. cbn [rbind]. rewrite E1. cbn [rbind]. eexists. split; [reflexivity|].
  assert (exists zs, xs = map (marshal I8) zs /\ sub ws a b = map (VEnum8 n) zs /\ Forall (fun z => scalar_ok I8 z = true) zs) as (zs & -> & EW & A).
  { clear -Q1. induction Q1 as [|x w xs ws' (z & -> & -> & S) _ (zs & -> & -> & A)]; [exists []; auto|].
    exists (z :: zs). repeat split. constructor; assumption. }
  rewrite EW. apply recv_enum8; [exact NM|exact A|].
  assert (lenN zs = lenN (sub ws a b)) as LB by (rewrite EW; unfold lenN; rewrite map_length; reflexivity).
  unfold lenN in *. rewrite sub_length in LB by lia. nia.
Qed.

Lemma say_nenum8 c o n vs ws : holds c vs -> ctype c = TNullable (TEnum8 o) -> o <> n ->
  Forall2 (shown (ctype c) (TNullable (TEnum8 n))) vs ws -> nameable tz_known (TNullable (TEnum8 n)) -> (lenN vs * 80 <= isize_max)%N ->
  conveys (CNullEnum8Adapter c n) (TNullable (TEnum8 n)) ws.
Proof.
  intros H T NE F NM B.
  apply (say_null c (CNullEnum8Adapter c n) (fun v => do o <- unwrap_option v;
      match o with
      | None => Ok (VNull (TNullable (TEnum8 n)))
      | Some (VEnum8 _ z) => Ok (VSome (VEnum8 n z))
      | Some _ => Panic PUnwrap
      end) (enum_opt_cell I8) (marshal I8) (VEnum8 n) (fun z => scalar_ok I8 z = true) (TEnum8 n) vs ws
      (fun o w => o = None /\ w = VNull (TEnum8 n) \/ exists z, o = Some (VEnum8 n z) /\ w = VSome (VEnum8 n z) /\ scalar_ok I8 z = true)
      (shown (ctype c) (TNullable (TEnum8 n)))); auto.
  - lia.
  - intros v w [R P]. rewrite T in R. destruct v; try (cbn in R; destruct (sqltype_eq_dec _ _); discriminate R).
    all: cbn [converted] in R; destruct (sqltype_eqb (TNullable (TEnum8 o)) (TNullable (TEnum8 n))) eqn:QE;
      [apply eqb_sqltype in QE; congruence|]; try discriminate R.
    + injection R as <-. cbn [unwrap_option rbind]. eexists _, None. split; [reflexivity|]. auto.
    + destruct (sqltype_eqb (TEnum8 o) (TEnum8 n)) eqn:QE1; [apply eqb_sqltype in QE1; congruence|]. destruct v; try discriminate R.
      destruct (same_label vals n z); [|discriminate R]. injection R as <-.
      cbn [unwrap_option rbind]. eexists _, (Some _). split; [reflexivity|]. split; [reflexivity|]. right. eauto.
  - intros x w [[-> ->]|(z & -> & -> & S1)].
    + exists 0%Z. repeat split.
    + exists z. auto.
  - intros xs A LX. apply recv_enum8; [exact (proj1 NM)|exact A|]. nia.
Qed.
Lemma say_enum16 c o n vs ws : holds c vs -> ctype c = TEnum16 o -> o <> n ->
  Forall2 (shown (ctype c) (TEnum16 n)) vs ws -> nameable tz_known (TEnum16 n) -> (lenN vs * 80 <= isize_max)%N ->
  conveys (CEnum16Adapter c n) (TEnum16 n) ws.
Proof.
  intros H T NE F NM B. pose proof (F2_length _ _ _ F) as L. split; [cbn [clen]; rewrite (proj1 H); congruence|]. intros a b Hab _.
  cbn [save]. set (G := fun v : value => match v with VEnum16 vals z => Ok (VEnum16 vals z) | _ => Panic PExplicit end).
  change (at_ (CEnum16Adapter c n)) with (fun i => do v <- at_ c i; G v). rewrite (rows_then c vs) by (assumption || lia).
  destruct (F2_step _ (fun u w => exists k z, u = VEnum16 k z /\ w = VEnum16 n z /\ scalar_ok I16 z = true) G _ _ (F2_sub _ _ _ a b F)) as (us & E & Q).
  { intros v w [R P]. cbn [converted] in R. rewrite T in R. destruct (sqltype_eqb (TEnum16 o) (TEnum16 n)) eqn:QE; [apply eqb_sqltype in QE; congruence|].
    destruct v; try discriminate R. destruct (same_label vals n z); [|discriminate R]. injection R as <-.
    eexists. split; [reflexivity|]. eauto. }
  destruct (F2_step _ (fun x w => exists z, x = marshal I16 z /\ w = VEnum16 n z /\ scalar_ok I16 z = true)
    (enum_cell I16) _ _ Q) as (xs & E1 & Q1).
  { intros u w (k & z & -> & -> & S1). cbn [enum_cell]. eexists. split; [reflexivity|]. exists z. auto. }
  rewrite E. cbn [rbind]. rewrite E1. cbn [rbind]. eexists. split; [reflexivity|].
  assert (exists zs, xs = map (marshal I16) zs /\ sub ws a b = map (VEnum16 n) zs /\ Forall (fun z => scalar_ok I16 z = true) zs) as (zs & -> & EW & A).
  { clear -Q1. induction Q1 as [|x w xs ws' (z & -> & -> & S) _ (zs & -> & -> & A)]; [exists []; auto|].
    exists (z :: zs). repeat split. constructor; assumption. }
  rewrite EW. apply recv_enum16; [exact NM|exact A|].
  assert (lenN zs = lenN (sub ws a b)) as LB by (rewrite EW; unfold lenN; rewrite map_length; reflexivity).
  unfold lenN in *. rewrite sub_length in LB by lia. nia.
Qed.

Lemma say_nenum16 c o n vs ws : holds c vs -> ctype c = TNullable (TEnum16 o) -> o <> n ->
  Forall2 (shown (ctype c) (TNullable (TEnum16 n))) vs ws -> nameable tz_known (TNullable (TEnum16 n)) -> (lenN vs * 80 <= isize_max)%N ->
  conveys (CNullEnum16Adapter c n) (TNullable (TEnum16 n)) ws.
Proof.
  intros H T NE F NM B.
  apply (say_null c (CNullEnum16Adapter c n) (fun v => do o <- unwrap_option v;
      match o with
      | None => Ok (VNull (TNullable (TEnum16 n)))
      | Some (VEnum16 _ z) => Ok (VSome (VEnum16 n z))
      | Some _ => Panic PUnwrap
      end) (enum_opt_cell I16) (marshal I16) (VEnum16 n) (fun z => scalar_ok I16 z = true) (TEnum16 n) vs ws
      (fun o w => o = None /\ w = VNull (TEnum16 n) \/ exists z, o = Some (VEnum16 n z) /\ w = VSome (VEnum16 n z) /\ scalar_ok I16 z = true)
      (shown (ctype c) (TNullable (TEnum16 n)))); auto.
  - lia.
  - intros v w [R P]. rewrite T in R. destruct v; try (cbn in R; destruct (sqltype_eq_dec _ _); discriminate R).
    all: cbn [converted] in R; destruct (sqltype_eqb (TNullable (TEnum16 o)) (TNullable (TEnum16 n))) eqn:QE;
      [apply eqb_sqltype in QE; congruence|]; try discriminate R.
    + injection R as <-. cbn [unwrap_option rbind]. eexists _, None. split; [reflexivity|]. auto.
    + destruct (sqltype_eqb (TEnum16 o) (TEnum16 n)) eqn:QE1; [apply eqb_sqltype in QE1; congruence|]. destruct v; try discriminate R.
      destruct (same_label vals n z); [|discriminate R]. injection R as <-.
      cbn [unwrap_option rbind]. eexists _, (Some _). split; [reflexivity|]. split; [reflexivity|]. right. eauto.
  - intros x w [[-> ->]|(z & -> & -> & S1)].
    + exists 0%Z. repeat split.
    + exists z. auto.
  - intros xs A LX. apply recv_enum16; [exact (proj1 NM)|exact A|]. nia.
Qed.

Lemma say_nfixed c n vs ws : holds c vs -> ctype c = TNullable TString ->
  Forall2 (shown (ctype c) (TNullable (TFixedString n))) vs ws -> nameable tz_known (TNullable (TFixedString n)) -> n <> 0%N ->
  (lenN vs * (n + 80) <= isize_max)%N -> conveys (CNullFixedAdapter c n) (TNullable (TFixedString n)) ws.
Proof.
  intros H T F NM N0 B.
  apply (say_null c (CNullFixedAdapter c n) (fun v => Ok v) (fixed_opt_cell (N.to_nat n)) (fun b : bytes => b) VString
      (fun b => length b = N.to_nat n) (TFixedString n) vs ws
      (fun o w => o = None /\ w = VNull (TFixedString n) \/ exists b, o = Some (VString b) /\ w = VSome (VString (resize (N.to_nat n) b)))
      (shown (ctype c) (TNullable (TFixedString n)))); auto.
  - nia.
  - intros a b. cbn [save]. unfold extract. destruct (b <? a); [reflexivity|]. unfold rows.
    rewrite (mapM_ext (fun i => do v <- at_ c i; Ok v) (at_ c)); [reflexivity|]. intros i _. destruct (at_ c i); reflexivity.
  - intros v w [R P]. rewrite T in R. destruct v; try discriminate R.
    + injection R as <-. eexists _, None. split; [reflexivity|]. auto.
    + destruct (conv_some _ _ _ _ R) as (y & R1 & ->). cbn [converted] in R1. change (sqltype_eqb TString (TFixedString n)) with false in R1. cbv iota in R1.
      destruct v as [|x| | | | | | | | | | | | | |]; try discriminate R1. cbn [octets] in R1. unfold as_fixed in R1. destruct (lenN x <=? n)%N; [|discriminate R1]. injection R1 as <-.
      eexists _, (Some _). split; [reflexivity|]. split; [reflexivity|]. right. exists x. rewrite resize_pad. auto.
  - intros o w [[-> ->]|(b & -> & ->)].
    + exists (resize (N.to_nat n) []). rewrite resize_length. auto.
    + exists (resize (N.to_nat n) b). rewrite resize_length. auto.
  - intros xs A LX. rewrite map_id. apply recv_fixed; [exact N0|exact (proj1 NM)|exact A|]. nia.
Qed.

(** ** Putting the cases together *)
Lemma carry_conveys c t vs ws c' : carries c t (length vs) c' -> holds c vs -> Forall2 (fun v w => conv (ctype c) t v = Some w) vs ws ->
  clen c' = Ok (length vs) -> conveys c' t ws.
Proof.
  intros H [HL HA] F LC. pose proof (F2_length _ _ _ F) as L. split; [congruence|]. intros a b Hab Hf.
  destruct (H a b ltac:(lia) Hf) as (bs & d & E & T & DL & DA & R). exists bs. split; [exact E|]. exists d. split; [exact T|]. split.
  - split; [rewrite sub_length by lia; exact DL|]. intros i w Hi. destruct (nth_sub _ _ _ _ _ Hi) as [Hi' Li].
    assert (exists v, nth_error vs (a + i) = Some v /\ conv (ctype c) t v = Some w) as (v & E1 & E2).
    { clear -F Hi'. revert Hi'. generalize (a + i) as k. induction F as [|x y vs ws H F IH]; intros [|k] Hk; try discriminate Hk.
      - injection Hk as <-. cbn. eauto.
      - apply IH, Hk. }
    eapply DA; eauto.
  - intros fuel r FF. rewrite sub_all by lia. apply R, FF.
Qed.

Lemma sound_conveys c ws : sound c -> nameable tz_known (ctype c) -> holds c ws -> Forall (fun w => zoned tz w = w) ws -> conveys c (ctype c) ws.
Proof.
  intros S NM H Z. eapply carry_conveys; [apply same_carry; [exact S|exact NM|exact (proj1 H)]|exact H| |exact (proj1 H)].
  clear -Z. induction Z as [|w ws E _ IH]; constructor; [|exact IH]. rewrite conv_same, E. reflexivity.
Qed.

Lemma data_len c : forall t c', data_cast c t = Some c' -> clen c' = clen c.
Proof.
  induction c; intros t c' H; cbn [data_cast] in H; try discriminate; destruct t; try discriminate H;
    try (injection H as <-; reflexivity).
  - destruct (data_cast c t) eqn:E; [|discriminate]. injection H as <-. cbn [clen]. rewrite (IHc _ _ E). reflexivity.
  - destruct (data_cast c t) eqn:E; [|discriminate]. injection H as <-. reflexivity.
  - destruct (data_cast c1 t1), (data_cast c2 t2); try discriminate. injection H as <-. reflexivity.
  - destruct (data_cast c t) eqn:E; [|discriminate]. injection H as <-. apply (IHc _ _ E).
Qed.

Lemma ip_conveys k bs : nameable tz_known (ip_type k) -> Forall (fun o => length o = ip_size k) bs -> (lenN bs * 80 <= isize_max)%N ->
  conveys (CIp k (concat bs)) (ip_type k) (map (ip_value k) bs).
Proof.
  intros NM F B. apply (sound_conveys (CIp k (concat bs))); [|exact NM|apply holds_ip, F|].
  - cbn [sound]. rewrite (concat_length _ _ F). split; [apply Nat.mod_mul; destruct k; discriminate|].
    unfold lenN in *. rewrite (concat_length _ _ F). destruct k; cbn [ip_size]; lia.
  - apply Forall_map, Forall_forall. intros x _. destruct k; reflexivity.
Qed.

Lemma say_ipv4 c vs ws bs : ctype c = TString -> mapM (cell_ip parse_ipv4) vs = Ok bs -> Forall2 (shown (ctype c) TIpv4) vs ws ->
  (lenN vs * 80 <= isize_max)%N -> conveys (CIp IpV4 (concat (map (@rev N) bs))) TIpv4 ws.
Proof.
  intros T E F B. destruct (F2_step _ (fun o w => length o = 4 /\ w = VIpv4 (rev o)) (cell_ip parse_ipv4) _ _ F) as (os & E1 & Q).
  - intros v w [R _]. rewrite T in R. cbn [converted] in R. change (sqltype_eqb TString TIpv4) with false in R. cbv iota in R.
    destruct v as [|x| | | | | | | | | | | | | |]; try discriminate R. unfold cell_ip, cell_text. cbn [rbind].
    destruct (parse_ipv4 x) as [o|]; [|discriminate R]. exists o. split; [reflexivity|].
    destruct (Nat.eqb_spec (length o) 4); [|discriminate R]. injection R as <-. auto.
  - pose proof (eq_trans (eq_sym E) E1) as X. injection X as <-. pose proof (F2_length _ _ _ Q) as L1. pose proof (F2_length _ _ _ F) as L2.
    apply F2_map in Q as [A ->]. rewrite <- (map_map (@rev N) VIpv4). apply (ip_conveys IpV4); [exact I| |].
    + apply Forall_map. eapply Forall_impl; [|exact A]. intros o Ho. cbn beta. rewrite rev_length. exact Ho.
    + unfold lenN in *. rewrite map_length. rewrite map_length in L2. lia.
Qed.
Lemma say_ipv6 c vs ws bs : ctype c = TString -> mapM (cell_ip parse_ipv6) vs = Ok bs -> Forall2 (shown (ctype c) TIpv6) vs ws ->
  (lenN vs * 80 <= isize_max)%N -> conveys (CIp IpV6 (concat bs)) TIpv6 ws.
Proof.
  intros T E F B. destruct (F2_step _ (fun o w => length o = 16 /\ w = VIpv6 o) (cell_ip parse_ipv6) _ _ F) as (os & E1 & Q).
  - intros v w [R _]. rewrite T in R. cbn [converted] in R. change (sqltype_eqb TString TIpv6) with false in R. cbv iota in R.
    destruct v as [|x| | | | | | | | | | | | | |]; try discriminate R. unfold cell_ip, cell_text. cbn [rbind].
    destruct (parse_ipv6 x) as [o|]; [|discriminate R]. exists o. split; [reflexivity|].
    destruct (Nat.eqb_spec (length o) 16); [|discriminate R]. injection R as <-. auto.
  - pose proof (eq_trans (eq_sym E) E1) as X. injection X as <-. pose proof (F2_length _ _ _ Q) as L1. pose proof (F2_length _ _ _ F) as L2.
    apply F2_map in Q as [A ->]. apply (ip_conveys IpV6); [exact I|exact A|].
    unfold lenN in *. rewrite map_length in L2. lia.
Qed.

Lemma say_agg f c' t ws : nameable tz_known (TAgg f t) -> conveys c' t ws -> conveys (CAgg f c') (TAgg f t) ws.
Proof.
  intros NM [HL H]. split; [exact HL|]. intros a b Hab Hf. destruct (H a b Hab Hf) as (bs & E & d & T & [DL DA] & R).
  exists bs. split; [exact E|]. exists (CAgg f d). split; [cbn; congruence|]. split; [split; [exact DL|exact DA]|].
  intros fuel r F. load_step. rewrite run_bind, R by (eapply enough_agg, F). reflexivity.
Qed.

Lemma say_low c t z i0 vs ws c' : from_type t z = Ok i0 -> dictionary_source t = true -> is_datetime t = false ->
  no_empty_rows t -> nameable tz_known (TLowCardinality t) -> ctype c <> TLowCardinality t ->
  Forall2 (shown (ctype c) (TLowCardinality t)) vs ws -> (lenN vs * 80 <= isize_max)%N ->
  push_each push (CLow i0 X8 [] None) vs = Ok c' -> fits c' -> conveys c' (TLowCardinality t) ws.
Proof.
  intros H D DT NE NM NT F B E FT.
  assert (from_type (TLowCardinality t) z = Ok (CLow i0 X8 [] None)) as H' by (cbn [from_type]; rewrite H; reflexivity).
  destruct (from_type_wf _ _ _ H' NE) as (W & L & LR).
  assert (Forall2 (fun v w => reads_as (CLow i0 X8 [] None) v = Some w /\ weight v = 1%N /\ zoned tz w = w) vs ws) as FR.
  { eapply F2_impl; [|exact F]. intros v w [R P]. cbn [converted] in R.
    destruct (sqltype_eqb (ctype c) (TLowCardinality t)) eqn:QE; [apply eqb_sqltype in QE; contradiction|]. clear QE.
    destruct t; try discriminate D; try discriminate DT; destruct v; try discriminate R; cbn [from_type] in H; injection H as <-; cbn [reads_as low_key].
    - destruct (scalar_eq_dec s s0) as [<-|]; [|discriminate R]. injection R as <-.
      destruct s; try discriminate D; repeat split.
    - injection R as <-. repeat split.
    - unfold as_fixed in R. destruct (lenN b <=? n)%N; [|discriminate R]. injection R as <-. repeat split.
    - destruct (days <? 65536)%N; [|discriminate R]. injection R as <-. repeat split. }
  assert (mapO (reads_as (CLow i0 X8 [] None)) vs = Some ws) as RD.
  { apply mapO_Forall2. eapply F2_impl; [|exact FR]. intros v w X; apply X. }
  assert (weights vs = lenN vs) as WV.
  { clear -FR. induction FR as [|v w vs ws (_ & X & _) _ IH]; [reflexivity|]. cbn [weights fold_right]. fold (weights vs). rewrite X, IH. unfold lenN. cbn [length]. lia. }
  destruct (push_all _ vs ws W RD) as (c1 & E1 & S).
  { rewrite LR, WV. pose proof isize_lt. lia. }
  rewrite E in E1. injection E1 as <-.
  assert (ranges c') as RG.
  { eapply each_push_ranges; [exact E|eapply from_type_ranges; [exact H'|]|].
    - cbn [no_datetime]. destruct t; try exact I; discriminate.
    - clear -F. induction F as [|v w vs ws [_ P] _ IH]; constructor; assumption. }
  pose proof (sound_parts c' (st_wf _ _ _ _ S) RG FT) as SD.
  pose proof (step_holds _ _ _ _ [] S (holds_empty _ L)) as HH. cbn [app] in HH.
  assert (ctype c' = TLowCardinality t) as CT.
  { rewrite (st_type _ _ _ _ S). cbn [ctype]. f_equal. destruct (from_type_plain _ _ _ H D) as [X|[X _]]; congruence. }
  rewrite <- CT. apply sound_conveys; [exact SD|rewrite CT; exact NM|exact HH|].
  clear -FR. induction FR as [|v w vs ws (_ & _ & X) _ IH]; constructor; assumption.
Qed.

(** A dictionary of times is written as one of seconds. *)
Definition second_of (x : Z * N * bytes) : N := as_u32 (fst (fst x)).
Lemma push_times z vs : forall l ix idx m c, (m = None -> idx = []) ->
  Forall (fun v => exists s zz, v = VDateTime s zz /\ (s < 2 ^ 32)%N) vs ->
  push_each push (CLow (CChrono l z) ix idx m) vs = Ok c ->
  exists l' ix' idx' m', c = CLow (CChrono l' z) ix' idx' m' /\ length l' <= length l + length vs /\
    push_each push (CLow (CDateTime (map second_of l) z) ix idx m) vs = Ok (CLow (CDateTime (map second_of l') z) ix' idx' m').
Proof.
  induction vs as [|v vs IH]; intros l ix idx m c M F E; cbn [push_each] in *.
  - injection E as <-. exists l, ix, idx, m. split; [reflexivity|]. split; [cbn; lia|reflexivity].
  - inversion F as [|? ? (s & zz & -> & Hs) F']; subst. cbn [length].
    unfold push at 1 in E. unfold push at 1. cbn [push_as] in E |- *.
    assert (match m with Some m0 => Ok m0 | None => value_map_loop (at_ (CChrono l z)) idx [] end =
            match m with Some m0 => Ok m0 | None => value_map_loop (at_ (CDateTime (map second_of l) z)) idx [] end) as EM.
    { destruct m; [reflexivity|]. rewrite (M eq_refl). reflexivity. }
    rewrite EM in E.
    destruct (match m with Some m0 => Ok m0 | None => value_map_loop (at_ (CDateTime (map second_of l) z)) idx [] end) as [m0| |]; try discriminate E.
    cbn [rbind] in *. destruct (vmap_get m0 (VDateTime s zz)) as [[j|]| |]; try discriminate E; cbn [rbind] in *.
    + destruct (ix_push ix idx j) as [xi| |]; try discriminate E. cbn [rbind] in *.
      eapply IH in E as (l' & ix' & idx' & m' & C & L & Q); [|intro X; discriminate X|exact F']. exists l', ix', idx', m'.
      split; [exact C|]. split; [lia|exact Q].
    + cbn [clen value_datetime rbind] in *. rewrite map_length.
      destruct (vmap_insert m0 (VDateTime s zz) (N.of_nat (length l))) as [m1| |]; try discriminate E. cbn [rbind] in *.
      destruct (ix_push ix idx (N.of_nat (length l))) as [xi| |]; try discriminate E. cbn [rbind] in *.
      eapply IH in E as (l' & ix' & idx' & m' & C & L & Q); [|intro X; discriminate X|exact F']. exists l', ix', idx', m'.
      split; [exact C|]. split; [rewrite app_length in L; cbn [length] in L; lia|]. rewrite map_app in Q. exact Q.
Qed.
Lemma push_seconds z vs : forall l ix idx m c, (m = None -> idx = []) ->
  Forall (fun v => exists s zz, v = VDateTime s zz /\ (s < 2 ^ 32)%N) vs ->
  push_each push (CLow (CDateTime (map second_of l) z) ix idx m) vs = Ok c ->
  exists l' ix' idx' m', push_each push (CLow (CChrono l z) ix idx m) vs = Ok (CLow (CChrono l' z) ix' idx' m').
Proof.
  induction vs as [|v vs IH]; intros l ix idx m c M F E; cbn [push_each] in *.
  - exists l, ix, idx, m. reflexivity.
  - inversion F as [|? ? (s & zz & -> & Hs) F']; subst.
    unfold push at 1 in E. unfold push at 1. cbn [push_as] in E |- *.
    assert (match m with Some m0 => Ok m0 | None => value_map_loop (at_ (CChrono l z)) idx [] end =
            match m with Some m0 => Ok m0 | None => value_map_loop (at_ (CDateTime (map second_of l) z)) idx [] end) as EM.
    { destruct m; [reflexivity|]. rewrite (M eq_refl). reflexivity. }
    rewrite EM.
    destruct (match m with Some m0 => Ok m0 | None => value_map_loop (at_ (CDateTime (map second_of l) z)) idx [] end) as [m0| |]; try discriminate E.
    cbn [rbind] in *. destruct (vmap_get m0 (VDateTime s zz)) as [[j|]| |]; try discriminate E; cbn [rbind] in *.
    + destruct (ix_push ix idx j) as [xi| |]; try discriminate E. cbn [rbind] in *.
      eapply IH in E; [exact E|intro X; discriminate X|exact F'].
    + cbn [clen value_datetime rbind] in *. rewrite map_length in E.
      destruct (vmap_insert m0 (VDateTime s zz) (N.of_nat (length l))) as [m1| |]; try discriminate E. cbn [rbind] in *.
      destruct (ix_push ix idx (N.of_nat (length l))) as [xi| |]; try discriminate E. cbn [rbind] in *.
      eapply (IH (l ++ [(Z.of_N s, 0%N, zz)])); [|exact F'|rewrite map_app]; [|exact E]. intro X; discriminate X.
Qed.
Lemma save_times l z ix idx m a b : save (CLow (CChronoAdapter (CChrono l z) (TDateTime DateTime32)) ix idx m) a b =
  save (CLow (CDateTime (map second_of l) z) ix idx m) a b.
Proof.
  cbn [save clen]. rewrite map_length. cbn [rbind ctype]. rewrite eqb_sqltype_refl, (cut_ok l 0), (cut_ok (map second_of l) 0) by (rewrite ?map_length; lia).
  cbn [rbind]. unfold sub. cbn [skipn]. rewrite Nat.sub_0_r.
  assert (firstn (length l) (map second_of l) = map second_of l) as -> by (rewrite <- (map_length second_of l); apply firstn_all).
  rewrite firstn_all.
  rewrite (mapM_all _ (fun _ => True) (fun x => marshal U32 (Z.of_N (second_of x))) l) by (try (apply Forall_forall; auto); intros [[s n] zz] _; reflexivity).
  cbn [rbind]. rewrite (image_map U32 (fun x => Z.of_N (second_of x))), <- (map_map second_of Z.of_N). reflexivity.
Qed.
Lemma say_low_times c z vs ws c1 : ctype c <> TLowCardinality (TDateTime DateTime32) ->
  Forall2 (shown (ctype c) (TLowCardinality (TDateTime DateTime32))) vs ws -> (lenN vs * 80 <= isize_max)%N ->
  push_each push (CLow (CChrono [] z) X8 [] None) vs = Ok c1 ->
  exists i ix idx m, c1 = CLow i ix idx m /\
    forall i', data_cast i (TDateTime DateTime32) = Some i' -> fits (CLow i' ix idx m) ->
    conveys (CLow i' ix idx m) (TLowCardinality (TDateTime DateTime32)) ws.
Proof.
  intros NT F B E.
  assert (Forall2 (fun v w => (exists s zz, v = VDateTime s zz /\ (s < 2 ^ 32)%N /\ w = VDateTime s tz)) vs ws) as FR.
  { eapply F2_impl; [|exact F]. intros v w [R P]. cbn [converted] in R.
    destruct (sqltype_eqb (ctype c) (TLowCardinality (TDateTime DateTime32))) eqn:QE; [apply eqb_sqltype in QE; contradiction|]. clear QE.
    destruct v; try discriminate R. destruct (N.ltb_spec secs (2 ^ 32)); [|discriminate R]. injection R as <-. eauto. }
  assert (Forall (fun v => exists s zz, v = VDateTime s zz /\ (s < 2 ^ 32)%N) vs) as FV.
  { clear -FR. induction FR as [|v w vs ws (s & zz & -> & H & _) _ IH]; constructor; eauto. }
  destruct (push_times z vs [] X8 [] None c1 (fun _ => eq_refl) FV E) as (l & ix & idx & m & -> & L & E2).
  exists (CChrono l z), ix, idx, m. split; [reflexivity|]. intros i' DC FT. cbn in DC. injection DC as <-.
  cbn [map] in E2. set (c2 := CLow (CDateTime (map second_of l) z) ix idx m) in *.
  assert (wf (CLow (CDateTime [] z) X8 [] None)) as W.
  { split; [exact I|]. exists 0. split; [reflexivity|]. split; [apply Forall_nil|]. split; [apply N.le_0_l|]. split; [apply N.le_0_l|apply Forall_nil]. }
  set (ws2 := map (fun v => match v with VDateTime s _ => VDateTime s z | _ => v end) vs).
  assert (mapO (reads_as (CLow (CDateTime [] z) X8 [] None)) vs = Some ws2) as RD.
  { apply mapO_Forall2. clear -FV. unfold ws2. induction FV as [|v vs (s & zz & -> & H) _ IH]; constructor; [|exact IH].
    cbn [reads_as low_key]. rewrite (proj2 (N.ltb_lt _ _) H). reflexivity. }
  assert (weights vs = lenN vs) as WV.
  { clear -FV. induction FV as [|v vs (s & zz & -> & H) _ IH]; [reflexivity|]. cbn [weights fold_right weight]. fold (weights vs). rewrite IH. unfold lenN. cbn [length]. lia. }
  destruct (push_all _ vs ws2 W RD) as (c3 & E3 & S).
  { cbn [low_rows]. rewrite WV. pose proof isize_lt. unfold lenN in *. cbn [length]. lia. }
  rewrite E2 in E3. injection E3 as <-.
  assert (fits c2) as F2.
  { unfold c2. cbn [fits] in FT |- *. split; [|apply FT]. unfold lenN in *. rewrite map_length. cbn [length] in L. lia. }
  assert (ranges c2) as RG.
  { eapply each_push_ranges; [exact E2|cbn; constructor|]. clear -FV. eapply Forall_impl; [|exact FV]. intros v (s & zz & -> & _). exact I. }
  pose proof (sound_parts c2 (st_wf _ _ _ _ S) RG F2) as SD.
  assert (holds (CLow (CDateTime [] z) X8 [] None) []) as H0 by (split; [reflexivity|intros [|i] v X; discriminate X]).
  pose proof (step_holds _ _ _ _ [] S H0) as HH. cbn [app] in HH.
  assert (conveys c2 (ctype c2) ws) as CV.
  { eapply carry_conveys; [apply same_carry; [exact SD|exact I|exact (proj1 HH)]|exact HH| |exact (proj1 HH)].
    unfold ws2. clear -FR. induction FR as [|v w vs ws (s & zz & -> & H & ->) _ IH]; constructor; [|exact IH]. rewrite conv_same. reflexivity. }
  destruct CV as [CL CV]. split; [exact CL|]. intros a b Hab Hf. rewrite save_times. fold c2. apply CV; [exact Hab|]. right. reflexivity.
Qed.

Theorem cast_conveys c dst c' : casted parse_ipv4 parse_ipv6 c dst c' -> forall vs ws,
  built c -> holds c vs -> Forall2 (shown (ctype c) dst) vs ws ->
  nameable tz_known dst -> table_type dst -> no_empty_rows dst -> (ctype c = dst \/ covered dst) -> fits c' ->
  (lenN vs * row_size dst <= isize_max)%N -> Forall short_text ws -> whole_times c \/ seconds_only dst -> conveys c' dst ws.
Proof.
  induction 1 as [c|c dst c' NE0 NG DC|c n T|c n T|c T|c n T|c p s p' s' nb T NE0 HP|c p s p' s' nb T NE0 HP|c o n T NE0|c o n T NE0|c o n T NE0|c o n T NE0
    |c n vs bs T HL HM HP|c n vs bs T HL HM HP|c f t i NE0 HC IH|c t n z i0 vs i ix idx m i' NE0 D HL HT HM HP HI];
    intros us ws HB HH F NM TT NE CV FT B ST WT.
  all: match goal with |- conveys _ ?t _ => assert (Forall2 (fun v w => conv (ctype c) t v = Some w) us ws) as F'
        by (eapply F2_impl; [|exact F]; intros v w X; apply X) end.
  - apply (carry_conveys c _ us); [|exact HH|exact F'|exact (proj1 HH)].
    apply same_carry; [apply built_plain; [exact HB|apply table_plain, TT]|exact NM|exact (proj1 HH)].
  - destruct CV as [CV|CV]; [contradiction|].
    apply (carry_conveys c _ us); [|exact HH|exact F'|rewrite (data_len _ _ _ DC); exact (proj1 HH)].
    eapply data_carry; [exact HB|exact WT|exact DC|exact TT|exact CV|exact NM|exact (proj1 HH)].
  - apply (say_fixed (ctype c) c n us ws); auto.
  - apply (say_fixed (ctype c) (CStringAdapter c) n us ws); auto.
  - eapply say_string; eauto.
  - eapply say_nfixed; eauto.
  - eapply say_decimal; eauto.
  - eapply say_ndecimal; eauto.
  - eapply say_enum8; eauto.
  - eapply say_enum16; eauto.
  - eapply say_nenum8; eauto.
  - eapply say_nenum16; eauto.
  - destruct HH as [L HA]. rewrite L in HL. injection HL as <-. pose proof (rows_holds c us 0 (length us) (conj L HA) ltac:(lia)) as X.
    unfold rows in X. rewrite Nat.sub_0_r, HM in X. unfold sub in X. cbn [skipn] in X. rewrite Nat.sub_0_r, firstn_all in X. injection X as <-.
    eapply say_ipv4; eauto.
  - destruct HH as [L HA]. rewrite L in HL. injection HL as <-. pose proof (rows_holds c us 0 (length us) (conj L HA) ltac:(lia)) as X.
    unfold rows in X. rewrite Nat.sub_0_r, HM in X. unfold sub in X. cbn [skipn] in X. rewrite Nat.sub_0_r, firstn_all in X. injection X as <-.
    eapply say_ipv6; eauto.
  - destruct CV as [CV|CV]; [contradiction|]. apply say_agg; [exact NM|].
    assert (forall g s, ctype c <> TAgg g s) as NA.
    { intros g s T. destruct NM as [_ NM]. inversion HC; subst; try (rewrite T in *; discriminate);
        try (rewrite T in NM; contradiction NM); try contradiction NM.
      match goal with DC : data_cast c t = Some i |- _ => destruct c; try discriminate T; cbn [data_cast] in DC; destruct t; try discriminate DC; contradiction NM end. }
    apply (IH us); auto.
    + eapply F2_impl; [|exact F]. intros v w [R P]. split; [|exact P]. cbn [converted] in R.
      destruct (sqltype_eqb (ctype c) (TAgg f t)) eqn:QE; [apply eqb_sqltype in QE; contradiction|].
      destruct (ctype c) eqn:T; try exact R. exfalso. eapply NA. reflexivity.
    + apply NM.
  - destruct CV as [CV|CV]; [contradiction|]. destruct HH as [L HA]. rewrite L in HL. injection HL as <-.
    pose proof (rows_holds c us 0 (length us) (conj L HA) ltac:(lia)) as X.
    unfold rows in X. rewrite Nat.sub_0_r, HM in X. unfold sub in X. cbn [skipn] in X. rewrite Nat.sub_0_r, firstn_all in X. injection X as <-.
    destruct TT as [TD TT]. destruct (is_datetime t) eqn:DT.
    + destruct t as [| | | |d| | | | | | | | | | |]; try discriminate DT. destruct d; [|contradiction CV|contradiction TT].
      cbn [from_type] in HT. injection HT as <-.
      destruct (say_low_times c _ vs ws _ NE0 F B HP) as (i2 & ix2 & idx2 & m2 & Q & G). injection Q as <- <- <- <-.
      destruct HI as [[-> [HI|HI]]|[_ HI]]; [discriminate HI| |exact (G i' HI FT)].
      exfalso. assert (Forall (fun v => exists s zz, v = VDateTime s zz /\ (s < 2 ^ 32)%N) vs) as FV.
      { clear -F NE0. eapply F2_left; [exact F|]. intros v w [R _]. cbn [converted] in R.
        destruct (sqltype_eqb (ctype c) (TLowCardinality (TDateTime DateTime32))) eqn:QE; [apply eqb_sqltype in QE; contradiction|].
        destruct v; try discriminate R. destruct (N.ltb_spec secs (2 ^ 32)); [|discriminate R]. eauto. }
      destruct (push_times _ _ _ _ _ _ _ (fun _ => eq_refl) FV HP) as (l & ? & ? & ? & Q & _).
      injection Q as -> _ _ _. discriminate HI.
    + destruct HI as [[-> _]|[HI _]]; [|congruence]. eapply say_low; eauto.
Qed.
End Main.
