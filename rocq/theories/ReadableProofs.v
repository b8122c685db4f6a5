From Verif Require Import Base Bytes Reader Wire Types Text TypeNames Decimal DateTime Values Columns Block.
From Verif Require Import SpecColumns SpecReadable ReaderProofs WireProofs PushProofs LoadTypeProofs LoadPanicProofs BlockProofs ReceivedProofs.
Open Scope nat_scope.

Definition reads_all (rows : nat) (c : col) : Prop := forall i, i < rows -> exists v, at_ c i = Ok v /\ belongs (ctype c) v.
Definition loaded_as (size : N) (c : col) : Prop :=
  (no_dictionary_inside c -> forall m, clen c = Ok m -> m = N.to_nat size) /\
  (in_order size c -> reads_all (N.to_nat size) c).

Lemma in_order_any c : no_dictionary_inside c -> forall m n, in_order m c -> in_order n c.
Proof. induction c; cbn [no_dictionary_inside in_order]; intros D m' n' H; try tauto; try (eapply IHc; eassumption). Qed.

Lemma mapM_seq (c : col) rows : reads_all rows c -> forall k a, a + k <= rows ->
  exists vs, mapM (at_ c) (seq a k) = Ok vs /\ Forall (belongs (ctype c)) vs.
Proof.
  intros R. induction k as [|k IH]; intros a L; cbn [seq mapM].
  - eexists. split; [reflexivity|constructor].
  - destruct (R a ltac:(lia)) as (v & -> & B). cbn [rbind]. destruct (IH (S a) ltac:(lia)) as (vs & -> & F).
    cbn [rbind]. eexists. split; [reflexivity|]. constructor; assumption.
Qed.

Lemma key_hashable t v : key_type t -> belongs t v -> value_ref_hashable v = true.
Proof.
  revert v. induction t; cbn [key_type belongs]; intros v K B; try contradiction; auto.
  - destruct v; try contradiction. destruct B as [-> _]. destruct s; try discriminate K; reflexivity.
  - destruct v; try contradiction. reflexivity.
  - destruct v; try contradiction. reflexivity.
Qed.
Lemma hashable_eq a b : value_ref_hashable a = true -> value_ref_hashable b = true -> exists e, vref_eq a b = Ok e.
Proof.
  destruct a as [s x|x| | | | | | | | | | | | | | ]; try discriminate; intros _ H;
    (destruct b as [t y|y| | | | | | | | | | | | | | ]; try discriminate H); try destruct s; cbn [vref_eq]; eauto.
Qed.

Lemma put_ok (P Q : value -> Prop) : (forall v, P v -> value_ref_hashable v = true) ->
  forall m k v, P k -> Q v -> Forall (fun kv => P (fst kv) /\ Q (snd kv)) m ->
  exists m', vref_put m k v = Ok m' /\ Forall (fun kv => P (fst kv) /\ Q (snd kv)) m'.
Proof.
  intros H. induction m as [|[k' v'] m IH]; intros k v Hk Hv F; cbn [vref_put].
  - eexists. split; [reflexivity|]. constructor; [cbn; auto|constructor].
  - inversion F as [|? ? [F1 F2] F3]; subst. cbn [fst snd] in *. destruct (hashable_eq k' k (H _ F1) (H _ Hk)) as (e & ->). cbn [rbind].
    destruct e.
    + eexists. split; [reflexivity|]. constructor; [cbn; auto|exact F3].
    + destruct (IH k v Hk Hv F3) as (m' & -> & Fm). cbn [rbind]. eexists. split; [reflexivity|]. constructor; [cbn; auto|exact Fm].
Qed.

Lemma pairs_ok (P Q : value -> Prop) f g : (forall v, P v -> value_ref_hashable v = true) ->
  forall rows, (forall i, i < rows -> exists v, f i = Ok v /\ P v) -> (forall i, i < rows -> exists v, g i = Ok v /\ Q v) ->
  forall k a m, a + k <= rows -> Forall (fun kv => P (fst kv) /\ Q (snd kv)) m ->
  exists m', (fix loop (js : list nat) (m : list (value * value)) : res (list (value * value)) :=
     match js with
     | [] => Ok m
     | j :: js' => do k <- f j; do v <- g j; do m' <- vref_insert m k v; loop js' m'
     end) (seq a k) m = Ok m' /\ Forall (fun kv => P (fst kv) /\ Q (snd kv)) m'.
Proof.
  intros H rows Rf Rg. induction k as [|k IH]; intros a m L F; cbn [seq].
  - eexists. split; [reflexivity|exact F].
  - destruct (Rf a ltac:(lia)) as (x & -> & Px). destruct (Rg a ltac:(lia)) as (y & -> & Qy). cbn [rbind].
    unfold vref_insert. rewrite (H x Px). destruct (put_ok P Q H m x y Px Qy F) as (m1 & -> & F1). cbn [rbind].
    apply IH; [lia|exact F1].
Qed.

Lemma bounds_ok offs i : climbs 0 offs -> i < length offs -> exists a b, row_bounds offs i = Ok (a, b) /\ a <= b <= N.to_nat (last offs 0%N).
Proof.
  intros C L. assert (exists a b, row_bounds offs i = Ok (a, b)) as (a & b & E).
  { unfold row_bounds. assert (exists x, match i with O => Ok 0%N | S j => index offs j end = Ok x /\ (i = 0 -> x = 0%N)) as (x & Ex & _).
    { destruct i; [eauto|]. destruct (index_lt offs i ltac:(lia)) as (x & E & _). exists x. split; [exact E|discriminate]. }
    rewrite Ex. cbn [rbind]. destruct (index_lt offs i L) as (y & Ey & _). rewrite Ey. cbn [rbind].
    destruct (N.ltb_spec y x) as [Lt|]; [|eauto]. exfalso.
    assert (x <= y)%N; [|lia]. clear Lt. revert x y Ex Ey. clear L. revert C. generalize 0%N as a.
    revert i. induction offs as [|o offs IH]; intros i a C x y Ex Ey; [unfold index in Ey; destruct i; discriminate Ey|].
    destruct C as [C1 C2]. destruct i as [|i].
    - injection Ex as <-. unfold index in Ey. cbn in Ey. injection Ey as <-. exact C1.
    - apply (IH i o C2 x y); [|exact Ey]. destruct i; [unfold index in Ex; cbn in Ex; injection Ex as <-; reflexivity|exact Ex]. }
  exists a, b. split; [exact E|]. exact (row_bounds_le offs i a b C E).
Qed.

Lemma cut_ok (buf : bytes) k n i : length buf = k * n -> i < k -> exists b, cut buf (i * n) (i * n + n) = Ok b /\ length b = n.
Proof.
  intros L I. unfold cut, slice. assert (i * n + n <= length buf) by nia.
  rewrite (proj2 (Nat.leb_le _ _)) by lia. rewrite (proj2 (Nat.leb_le _ _)) by lia. cbn [andb or_panic].
  eexists. split; [reflexivity|]. rewrite firstn_length, skipn_length. lia.
Qed.

Lemma vec_reads {A} (l : list A) size (c : col) (f : A -> value) (P : A -> Prop) : length l = N.to_nat size -> Forall P l ->
  (forall i, at_ c i = do x <- index l i; Ok (f x)) -> (forall x, P x -> belongs (ctype c) (f x)) -> reads_all (N.to_nat size) c.
Proof.
  intros L F E B i I. rewrite E. destruct (index_lt l i ltac:(lia)) as (x & -> & In). cbn [rbind]. eexists. split; [reflexivity|].
  apply B. rewrite Forall_forall in F. apply F, In.
Qed.
Lemma all_true {A} (l : list A) : Forall (fun _ => True) l.
Proof. apply Forall_forall. auto. Qed.

Lemma load_reads known tz : forall fuel name size s c r, run (load_data known fuel name size tz) s = Ok (c, r) -> bytes_ok s -> loaded_as size c.
Proof.
  induction fuel as [|fuel IH]; intros name size s c r H B; [discriminate H|].
  cbn [load_data] in H. unfold lift in H. destruct (classify name) as [o|e|p]; try discriminate H. cbn [pbind] in H.
  destruct o as [k|]; [|discriminate H].
  destruct k; unfold loaded_as.
  - (* numbers *) apply bind_inv in H as (l & r1 & H0 & H). apply vec_inv in H0 as (V1 & V2 & V3 & _); [|exact B]. cbn [run] in H. injection H as <- <-.
    cbn [no_dictionary_inside clen in_order]. split; [intros _ m E; injection E as <-; exact V1|]. intros O.
    apply (vec_reads l size _ (VNum s0) (fun z => scalar_ok s0 z = true) V1); [|reflexivity|cbn; auto].
    destruct (scalar_eq_dec s0 SBool) as [->|NB]; [|apply V3, NB]. eapply Forall_impl; [|apply O; reflexivity]. intros z [->| ->]; reflexivity.
  - (* strings *) apply bind_inv in H as (l & r1 & H0 & H). apply strings_inv in H0. cbn [run] in H. injection H as <- <-.
    split; [intros _ m E; injection E as <-; exact H0|]. intros _. apply (vec_reads l size _ VString (fun _ => True) H0); [apply all_true|reflexivity|cbn; auto].
  - (* dates *) apply bind_inv in H as (l & r1 & H0 & H). apply vec_inv in H0 as (V1 & V2 & V3 & _); [|exact B]. cbn [run] in H. injection H as <- <-.
    split; [intros _ m E; injection E as <-; rewrite map_length; exact V1|]. intros _.
    eapply (vec_reads _ size _ VDate _ ltac:(rewrite map_length; exact V1) (to_N_range U16 l eq_refl ltac:(discriminate) (V3 ltac:(discriminate)))); [reflexivity|cbn; auto].
  - (* addresses *) apply mul_inv in H. apply alloc_inv in H as [_ H]. apply get_inv_all in H as (l & r1 & H & L & _); [|exact B]. cbn [run] in H. injection H as <- <-.
    assert (ip_size k <> 0) as Z by (destruct k; discriminate). rewrite N2Nat.inj_mul, Nat2N.id in L. split.
    + cbn [clen]. intros _ m E. injection E as <-. rewrite L. apply Nat.div_mul, Z.
    + intros _ i I. cbn [at_ ctype]. destruct (cut_ok l _ _ i L I) as (b & E & Lb).
      replace ((i + 1) * ip_size k) with (i * ip_size k + ip_size k) by lia. rewrite E. cbn [rbind]. eexists. split; [reflexivity|].
      destruct k; cbn in *; unfold lenN; rewrite Lb; reflexivity.
  - (* nullable *) apply alloc_inv in H as [_ H]. apply get_inv_all in H as (l & r1 & H & L & _ & B1); [|exact B].
    apply bind_inv in H as (i & r2 & H0 & H). cbn [run] in H. injection H as <- <-. destruct (IH _ _ _ _ _ H0 B1) as (Q & R).
    cbn [no_dictionary_inside clen in_order]. split.
    + intros D m E. destruct (clen i) as [m'| |] eqn:Ei; try discriminate E. cbn [rbind] in E. destruct (Nat.eqb_spec (length l) m'); [|discriminate E]. injection E as <-. lia.
    + intros O j J. cbn [at_ ctype]. destruct (index_lt l j ltac:(lia)) as (x & -> & _). cbn [rbind]. destruct (x =? 1)%N.
      * eexists. split; reflexivity.
      * destruct (R O j J) as (v & -> & Bv). cbn [rbind]. eexists. split; [reflexivity|exact Bv].
  - (* fixed strings *) apply mul_inv in H. apply alloc_inv in H as [_ H]. apply bind_inv in H as (l & r1 & H0 & H). apply repeat_get in H0. cbn [run] in H. injection H as <- <-.
    split.
    + cbn [clen]. intros _ m E. destruct (N.eqb_spec n 0); [discriminate E|]. injection E as <-. rewrite H0. apply Nat.div_mul. lia.
    + intros _ i I. cbn [at_ ctype]. destruct (cut_ok (concat l) (N.to_nat size) (N.to_nat n) i H0 I) as (b & -> & Lb). cbn [rbind].
      eexists. split; [reflexivity|]. cbn [belongs]. unfold lenN. lia.
  - (* arrays *) apply bind_inv in H as ([offs m] & r1 & H0 & H). apply bind_inv in H as (i & r2 & H1 & H). cbn [run] in H. injection H as <- <-.
    unfold read_offsets in H0. apply bind_inv in H0 as (l & r3 & H2 & H0). apply vec_inv in H2 as (V1 & V2 & V3 & B1); [|exact B]. cbn [run] in H0. injection H0 as <- <- <-.
    cbn [fst snd] in *. destruct (IH _ _ _ _ _ H1 B1) as (Q & R).
    cbn [no_dictionary_inside clen in_order]. split.
    + intros _ m E. injection E as <-. rewrite map_length. exact V1.
    + intros [C O] j J. cbn [at_ ctype]. destruct (bounds_ok _ j C ltac:(rewrite map_length; lia)) as (a & b & -> & Le). cbn [rbind fst snd].
      destruct (mapM_seq i _ (R O) (b - a) a ltac:(lia)) as (vs & -> & F). cbn [rbind]. eexists. split; [reflexivity|]. cbn [belongs]. auto.
  - (* maps *) apply bind_inv in H as ([offs m] & r1 & H0 & H). apply bind_inv in H as (ks & r2 & H1 & H). apply bind_inv in H as (vs & r4 & H3 & H). cbn [run] in H. injection H as <- <-.
    unfold read_offsets in H0. apply bind_inv in H0 as (l & r3 & H2 & H0). apply vec_inv in H2 as (V1 & V2 & V3 & B1); [|exact B]. cbn [run] in H0. injection H0 as <- <- <-.
    cbn [fst snd] in *. pose proof (run_rest _ _ _ _ H1 B1) as B2.
    destruct (IH _ _ _ _ _ H1 B1) as (Q & R). destruct (IH _ _ _ _ _ H3 B2) as (Q' & R').
    cbn [no_dictionary_inside clen in_order]. split.
    + intros _ m E. injection E as <-. rewrite map_length. exact V1.
    + intros (C & K & O & O') j J. cbn [at_ ctype]. destruct (bounds_ok _ j C ltac:(rewrite map_length; lia)) as (a & b & -> & Le). cbn [rbind fst snd].
      destruct (pairs_ok (belongs (ctype ks)) (belongs (ctype vs)) (at_ ks) (at_ vs) (fun v => key_hashable _ v K) _ (R O) (R' O') (b - a) a [] ltac:(lia) ltac:(constructor)) as (m & E & F).
      rewrite E. cbn [rbind]. eexists. split; [reflexivity|]. cbn [belongs]. auto.
  - (* decimals *) apply bind_inv in H as (l & r1 & H0 & H). apply vec_inv in H0 as (V1 & V2 & V3 & _); [|exact B]. cbn [run] in H. injection H as <- <-.
    split; [intros _ m E; injection E as <-; exact V1|]. intros _.
    apply (vec_reads l size _ (fun z => VDecimal (mk_decimal z nb p s0)) _ V1 (V3 ltac:(destruct nb; discriminate))); [reflexivity|].
    intros z Hz. cbn [ctype belongs d_precision d_scale d_underlying]. split; [reflexivity|]. split; [reflexivity|].
    destruct nb; [|exact Hz]. unfold scalar_ok in *. cbn in *. lia.
  - apply bind_inv in H as (l & r1 & H0 & H). apply vec_inv in H0 as (V1 & V2 & V3 & _); [|exact B]. cbn [run] in H. injection H as <- <-.
    split; [intros _ m E; injection E as <-; exact V1|]. intros _.
    apply (vec_reads l size _ (VEnum8 vals) _ V1 (V3 ltac:(discriminate))); [reflexivity|cbn; auto].
  - apply bind_inv in H as (l & r1 & H0 & H). apply vec_inv in H0 as (V1 & V2 & V3 & _); [|exact B]. cbn [run] in H. injection H as <- <-.
    split; [intros _ m E; injection E as <-; exact V1|]. intros _.
    apply (vec_reads l size _ (VEnum16 vals) _ V1 (V3 ltac:(discriminate))); [reflexivity|cbn; auto].
  - (* times *) apply bind_inv in H as (z & r0 & Hz & H). pose proof (run_rest _ _ _ _ Hz B) as B0. apply bind_inv in H as (l & r1 & H0 & H). apply vec_inv in H0 as (V1 & V2 & V3 & _); [|exact B0]. cbn [run] in H. injection H as <- <-.
    split; [intros _ m E; injection E as <-; rewrite map_length; exact V1|]. intros _.
    eapply (vec_reads _ size _ (fun t => VDateTime t z) _ ltac:(rewrite map_length; exact V1) (to_N_range U32 l eq_refl ltac:(discriminate) (V3 ltac:(discriminate)))); [reflexivity|cbn; auto].
  - apply bind_inv in H as (z & r0 & Hz & H). pose proof (run_rest _ _ _ _ Hz B) as B0. apply bind_inv in H as (l & r1 & H0 & H). apply vec_inv in H0 as (V1 & V2 & V3 & _); [|exact B0]. cbn [run] in H. injection H as <- <-.
    split; [intros _ m E; injection E as <-; exact V1|]. intros _.
    apply (vec_reads l size _ (fun t => VDateTime64 t p z) _ V1 (V3 ltac:(discriminate))); [reflexivity|cbn; auto].
  - apply bind_inv in H as (i & r2 & H0 & H). cbn [run] in H. injection H as <- <-.
    destruct (IH _ _ _ _ _ H0 B) as (Q & R). cbn [no_dictionary_inside clen in_order]. split; [exact Q|].
    intros O j J. cbn [at_ ctype]. destruct (R O j J) as (v & -> & Bv). eexists. split; [reflexivity|exact Bv].
  - (* dictionaries *) assert (exists i ix idx n s1 r1, c = CLow i ix idx None /\ run (load_data known fuel inner n tz) s1 = Ok (i, r1) /\ bytes_ok s1)
      as (i & ix & idx & n & s1 & r1 & -> & H1 & B1).
    { unfold load_low in H. destruct (N.eqb_spec size 0) as [->|NZ].
      - apply bind_inv in H as (i & r1 & H0 & H). apply bind_inv in H as (l & r2 & H1 & H). cbn [run] in H. injection H as <- <-.
        do 6 eexists. split; [reflexivity|]. split; [exact H0|exact B].
      - apply bind_inv in H as (v & ra & Ha & H). apply run_rest in Ha; [|exact B]. destruct (negb _); [discriminate|].
        apply bind_inv in H as (fl & rb & Hb & H). apply run_rest in Hb; [|exact Ha]. destruct (ix_of_flags fl) as [ix|]; [|discriminate].
        destruct (negb _); [discriminate|]. destruct (_ =? 0)%N; [discriminate|].
        apply bind_inv in H as (cnt & rc & Hc & H). apply run_rest in Hc; [|exact Hb].
        apply bind_inv in H as (i & rd & Hd & H). apply bind_inv in H as (ks & re & He & H).
        apply bind_inv in H as (l & rf & Hf & H). destruct (fl =? _)%N; [|discriminate]. cbn [run] in H. injection H as <- <-.
        do 6 eexists. split; [reflexivity|]. split; [exact Hd|exact Hc]. }
    destruct (IH _ _ _ _ _ H1 B1) as (Q & R). cbn [no_dictionary_inside in_order]. split; [intros []|].
    intros (O1 & D & m & Em & O2 & F) j J. cbn [at_ ctype]. unfold lenN in O1.
    destruct (index_lt idx j ltac:(lia)) as (x & -> & In). cbn [rbind].
    pose proof (Q D m Em) as ->. rewrite Forall_forall in F. rewrite N2Nat.id in O2.
    destruct (R O2 (N.to_nat x) (F x In)) as (v & -> & Bv). eexists. split; [reflexivity|exact Bv].
Qed.

Lemma columns_all known tz rows (Q : col -> Prop) :
  (forall name s c r, run (load_column known name rows tz) s = Ok (c, r) -> bytes_ok s -> Q c) ->
  forall n b s b' r,
  run (pfold n (fun b => let! c := read_column known rows tz in lift (append_column b c)) b) s = Ok (b', r) -> bytes_ok s ->
  Forall (fun x => Q (snd x)) (b_cols b) -> Forall (fun x => Q (snd x)) (b_cols b').
Proof.
  intros HQ. induction n as [|n IH]; intros b s b' r H B F; cbn [pfold] in H.
  - injection H as <- _. exact F.
  - apply bind_inv in H as (b1 & s1 & H0 & H). pose proof (run_rest _ _ _ _ H0 B) as B1. apply (IH _ _ _ _ H B1).
    apply bind_inv in H0 as (x & s2 & H1 & H2). unfold lift in H2. destruct (append_column b x) as [b2|e|q] eqn:A; try discriminate H2. injection H2 as <- <-.
    assert (b_cols b2 = b_cols b ++ [x]) as A2.
    { unfold append_column in A. destruct (clen (snd x)); try discriminate A. cbn [rbind] in A. destruct (b_cols b) as [|y ys] eqn:Eb.
      - injection A as <-. auto.
      - destruct (row_count b) as [m|e|q]; try discriminate A. cbn [rbind] in A. destruct (_ =? _); [|discriminate A]. injection A as <-. auto. }
    unfold read_column in H1. apply bind_inv in H1 as (name & s3 & H3 & H1). apply bind_inv in H1 as (ty & s4 & H4 & H1). apply bind_inv in H1 as (c & s5 & H5 & H1).
    cbn [run] in H1. injection H1 as <- <-. pose proof (run_rest _ _ _ _ H3 B) as B3. pose proof (run_rest _ _ _ _ H4 B3) as B4.
    rewrite A2. apply Forall_app. split; [exact F|]. constructor; [|constructor]. exact (HQ _ _ _ _ H5 B4).
Qed.

Lemma block_all known tz (Q : N -> col -> Prop) :
  (forall name rows s c r, run (load_column known name rows tz) s = Ok (c, r) -> bytes_ok s -> Q rows c) ->
  forall s b r, run (raw_load known tz) s = Ok (b, r) -> bytes_ok s ->
  exists rows s', run (let! _ := read_info in let! _ := read_uvarint in read_uvarint) s = Ok (rows, s') /\
    Forall (fun x => Q rows (snd x)) (b_cols b).
Proof.
  intros HQ s b r. unfold raw_load. intros H B. apply bind_inv in H as (i & s1 & H1 & H). apply bind_inv in H as (nc & s2 & H2 & H). apply bind_inv in H as (rows & s3 & H3 & H).
  pose proof (run_rest _ _ _ _ H1 B) as B1. pose proof (run_rest _ _ _ _ H2 B1) as B2. pose proof (run_rest _ _ _ _ H3 B2) as B3.
  exists rows, s3. split; [rewrite run_bind, H1, run_bind, H2; exact H3|].
  rewrite pfoldN_nat in H. eapply columns_all; [|exact H|exact B3|constructor]. intros. eapply HQ; eassumption.
Qed.

Lemma self_contained_order c : self_contained (ctype c) -> forall rows, in_order rows c.
Proof.
  induction c; cbn [ctype self_contained in_order]; intros S rows; try contradiction; auto.
Qed.
