(** Columns that were received can be appended to. *)
From Verif Require Import Base Bytes Utf8 Reader Wire Types Text TypeNames Decimal DateTime Values Columns Block.
From Verif Require Import SpecWire SpecColumns SpecBlock SpecReceived Utf8Proofs ReaderProofs WireProofs PushProofs SendProofs RangeProofs LoadTypeProofs LoadPanicProofs BlockProofs BlockOpsProofs ToSqlProofs.
Open Scope nat_scope.

Lemma run_rest {A} (m : P A) : forall s a r, run m s = Ok (a, r) -> bytes_ok s -> bytes_ok r.
Proof.
  induction m as [a0|e|p|n k IH]; intros s a r H B; cbn [run] in H; try discriminate.
  - injection H as _ <-. exact B.
  - destruct (n <=? lenN s)%N; [|discriminate]. apply IH in H; [exact H|].
    unfold bytes_ok in *. rewrite <- (firstn_skipn (N.to_nat n) s) in B. apply Forall_app in B. apply B.
Qed.

Lemma get_inv_all {A} n (k : bytes -> P A) s a r : run (Get n k) s = Ok (a, r) -> bytes_ok s ->
  exists l s', run (k l) s' = Ok (a, r) /\ length l = N.to_nat n /\ bytes_ok l /\ bytes_ok s'.
Proof.
  cbn [run]. destruct (N.leb_spec n (lenN s)) as [L|]; [|discriminate]. intros H B.
  unfold bytes_ok in *. rewrite <- (firstn_skipn (N.to_nat n) s) in B. apply Forall_app in B.
  exists (firstn (N.to_nat n) s), (skipn (N.to_nat n) s). split; [exact H|]. split; [|exact B].
  rewrite firstn_length. unfold lenN in L. lia.
Qed.

Lemma chunks_all w n : forall l, length l = n * w -> bytes_ok l ->
  Forall (fun c => length c = w /\ bytes_ok c) (chunks w n l).
Proof.
  induction n as [|n IH]; intros l L B; cbn [chunks]; constructor.
  - split; [rewrite firstn_length; lia|]. unfold bytes_ok in *. rewrite <- (firstn_skipn w l) in B. apply Forall_app in B. apply B.
  - apply IH; [rewrite skipn_length; lia|]. unfold bytes_ok in *. rewrite <- (firstn_skipn w l) in B. apply Forall_app in B. apply B.
Qed.

Lemma alloc_inv {A} n (f : unit -> P A) s a r : run (pbind (alloc n) f) s = Ok (a, r) -> (n <= isize_max)%N /\ run (f tt) s = Ok (a, r).
Proof. unfold alloc. destruct (N.leb_spec n isize_max); cbn [pbind run]; [auto|discriminate]. Qed.

Lemma vec_inv t size s l r : run (read_vec t size) s = Ok (l, r) -> bytes_ok s ->
  length l = N.to_nat size /\ (size * N.of_nat (width t) <= isize_max)%N /\
  (t <> SBool -> Forall (fun z => scalar_ok t z = true) l) /\ bytes_ok r.
Proof.
  unfold read_vec. intros H B. apply alloc_inv in H as [Q H].
  apply get_inv_all in H as (x & s' & H & L & Bx & Br); [|exact B]. cbn [run] in H. injection H as <- <-.
  rewrite map_length, LoadPanicProofs.chunks_len. split; [reflexivity|]. split; [exact Q|]. split; [|exact Br].
  intros NB. apply Forall_map. eapply Forall_impl; [|apply chunks_all; [|exact Bx]].
  - intros c [L1 L2]. unfold raw_scalar. destruct t; try congruence; apply unmarshal_ok; assumption.
  - rewrite L, N2Nat.inj_mul, Nat2N.id. reflexivity.
Qed.

Lemma index_lt {A} (l : list A) i : i < length l -> exists x, index l i = Ok x /\ In x l.
Proof.
  intros H. unfold index. destruct (nth_error l i) as [x|] eqn:E.
  - exists x. split; [reflexivity|]. apply nth_error_In in E. exact E.
  - apply nth_error_None in E. lia.
Qed.

Lemma pad_same b : pad_or_cut (length b) b = b.
Proof. unfold pad_or_cut. rewrite firstn_app, Nat.sub_diag, firstn_all, firstn_O, app_nil_r. reflexivity. Qed.

Lemma keyed_reads i n j : wf i -> ranges i -> keyed i -> clen i = Ok n -> j < n ->
  exists w, at_ i j = Ok w /\ low_key i w = true /\ reads_as i w = Some w.
Proof.
  intros W R K L J. destruct i; try contradiction; cbn [wf ranges keyed clen at_ low_key reads_as] in *.
  - injection L as <-. destruct (index_lt zs j J) as (x & -> & _). cbn [rbind]. eexists. split; [reflexivity|].
    rewrite K. destruct (scalar_eq_dec s s); [|congruence]. auto.
  - injection L as <-. destruct (index_lt l j J) as (x & -> & _). cbn [rbind]. eexists. split; [reflexivity|]. auto.
  - destruct W as [W M]. destruct (N.eqb_spec n0 0); [congruence|]. injection L as <-.
    pose proof (Nat.div_mod_eq (length buf) (N.to_nat n0)) as D. rewrite M in D.
    assert (j * N.to_nat n0 + N.to_nat n0 <= length buf) as Q by nia.
    unfold cut, slice. rewrite (proj2 (Nat.leb_le _ _)) by lia. rewrite (proj2 (Nat.leb_le _ _)) by lia. cbn [andb or_panic rbind].
    eexists. split; [reflexivity|]. split; [reflexivity|]. do 2 f_equal.
    match goal with |- pad_or_cut _ ?b = ?b => assert (N.to_nat n0 = length b) as E end.
    { rewrite firstn_length, skipn_length. lia. }
    rewrite E at 1. apply pad_same.
  - injection L as <-. destruct (index_lt l j J) as (x & -> & I). cbn [rbind]. eexists. split; [reflexivity|]. split; [reflexivity|].
    rewrite Forall_forall in R. specialize (R x I). rewrite (proj2 (N.ltb_lt x 65536)) by exact R. reflexivity.
  - injection L as <-. destruct (index_lt l j J) as (x & -> & I). cbn [rbind]. eexists. split; [reflexivity|]. split; [reflexivity|].
    rewrite Forall_forall in R. specialize (R x I). rewrite (proj2 (N.ltb_lt _ _)) by exact R. reflexivity.
Qed.

Lemma keyed_type i : keyed i -> no_time64 (ctype i).
Proof. destruct i; try contradiction; cbn; auto. Qed.

Definition fine (size : N) (c : col) : Prop :=
  orderly size c -> wf c /\ clen c = Ok (N.to_nat size) /\ (low_rows c <= isize_max)%N /\ (no_time64 (ctype c) -> ranges c).

Lemma to_N_range t l : is_signed t = false -> t <> SBool -> Forall (fun z => scalar_ok t z = true) l ->
  Forall (fun d => d < 2 ^ N.of_nat (8 * width t))%N (map Z.to_N l).
Proof.
  intros U NB F. apply Forall_map. eapply Forall_impl; [|exact F]. intros z Hz. cbn beta in *.
  destruct t; try discriminate U; try congruence; unfold scalar_ok in Hz; cbn in *; lia.
Qed.

Ltac fstep H := apply bind_inv in H as (? & ? & ? & H).
Lemma mul_inv {A} a b (f : N -> P A) s x r : run (pbind (mul_usize a b) f) s = Ok (x, r) -> run (f (a * b)%N) s = Ok (x, r).
Proof. unfold mul_usize. destruct (a * b <? 2 ^ 64)%N; [auto|discriminate]. Qed.

Lemma strings_inv size s l r : run (read_strings size) s = Ok (l, r) -> length l = N.to_nat size.
Proof.
  unfold read_strings. intros H. apply alloc_inv in H as [_ H]. rewrite prepeatN_nat in H.
  revert s l r H. generalize (N.to_nat size) as k. induction k as [|k IH]; intros s l r H; cbn [prepeat] in H.
  - injection H as <- _. reflexivity.
  - fstep H. fstep H. cbn [run] in H. injection H as <- _. cbn [length]. f_equal. eapply IH; eassumption.
Qed.

Lemma load_fine known tz : forall fuel name size s c r, run (load_data known fuel name size tz) s = Ok (c, r) -> bytes_ok s -> fine size c.
Proof.
  induction fuel as [|fuel IH]; intros name size s c r H B; [discriminate H|].
  cbn [load_data] in H. unfold lift in H. destruct (classify name) as [o|e|p]; try discriminate H. cbn [pbind] in H.
  destruct o as [k|]; [|discriminate H].
  destruct k; unfold fine; intros O.
  - (* numbers *) apply bind_inv in H as (l & r1 & H0 & H). apply vec_inv in H0 as (V1 & V2 & V3 & _); [|exact B]. cbn [run] in H. injection H as <- <-.
    cbn [wf clen low_rows ctype no_time64 ranges orderly] in *. rewrite V1. split; [exact I|]. split; [reflexivity|]. split; [lia|]. intros _.
    destruct (scalar_eq_dec s0 SBool) as [->|NB]; [apply O; reflexivity|apply V3, NB].
  - (* strings *) apply bind_inv in H as (l & r1 & H0 & H). apply strings_inv in H0. cbn [run] in H. injection H as <- <-.
    cbn [wf clen low_rows ctype no_time64 ranges]. rewrite H0. split; [exact I|]. split; [reflexivity|]. split; [lia|auto].
  - (* dates *) apply bind_inv in H as (l & r1 & H0 & H). apply vec_inv in H0 as (V1 & V2 & V3 & _); [|exact B]. cbn [run] in H. injection H as <- <-.
    cbn [wf clen low_rows ctype no_time64 ranges]. rewrite map_length, V1. split; [exact I|]. split; [reflexivity|]. split; [lia|]. intros _.
    exact (to_N_range U16 l eq_refl ltac:(discriminate) (V3 ltac:(discriminate))).
  - (* addresses *) apply mul_inv in H. apply alloc_inv in H as [_ H]. apply get_inv_all in H as (l & r1 & H & L & _); [|exact B]. cbn [run] in H. injection H as <- <-.
    cbn [wf clen low_rows ctype no_time64 ranges]. rewrite L, N2Nat.inj_mul, Nat2N.id.
    assert (ip_size k <> 0) as Z by (destruct k; discriminate). rewrite Nat.mod_mul, Nat.div_mul by exact Z. split; [reflexivity|]. split; [reflexivity|]. split; [lia|auto].
  - (* nullable *) apply alloc_inv in H as [_ H]. apply get_inv_all in H as (l & r1 & H & L & _ & B1); [|exact B].
    apply bind_inv in H as (i & r2 & H0 & H). cbn [run] in H. injection H as <- <-. cbn [orderly] in O.
    destruct (IH _ _ _ _ _ H0 B1 O) as (W & Q & LR & R). cbn [wf clen low_rows ctype no_time64 ranges]. rewrite L, Q. cbn [rbind]. rewrite Nat.eqb_refl. auto.
  - (* fixed strings *) apply mul_inv in H. apply alloc_inv in H as [_ H]. apply bind_inv in H as (l & r1 & H0 & H). apply repeat_get in H0. cbn [run] in H. injection H as <- <-.
    cbn [orderly] in O. cbn [wf clen low_rows ctype no_time64 ranges]. destruct (N.eqb_spec n 0); [contradiction|]. rewrite H0.
    rewrite Nat.mod_mul, Nat.div_mul by lia. split; [auto|]. split; [reflexivity|]. split; [lia|auto].
  - (* arrays *) apply bind_inv in H as ([offs m] & r1 & H0 & H). apply bind_inv in H as (i & r2 & H1 & H). cbn [run] in H. injection H as <- <-.
    unfold read_offsets in H0. apply bind_inv in H0 as (l & r3 & H2 & H0). apply vec_inv in H2 as (V1 & V2 & V3 & B1); [|exact B]. cbn [run] in H0. injection H0 as <- <- <-.
    cbn [fst snd orderly] in *. destruct O as [O1 O2]. destruct (IH _ _ _ _ _ H1 B1 O2) as (W & Q & LR & R).
    cbn [wf clen low_rows ctype no_time64 ranges]. rewrite map_length, V1. auto.
  - (* maps *) apply bind_inv in H as ([offs m] & r1 & H0 & H). apply bind_inv in H as (ks & r2 & H1 & H). apply bind_inv in H as (vs & r4 & H3 & H). cbn [run] in H. injection H as <- <-.
    unfold read_offsets in H0. apply bind_inv in H0 as (l & r3 & H2 & H0). apply vec_inv in H2 as (V1 & V2 & V3 & B1); [|exact B]. cbn [run] in H0. injection H0 as <- <- <-.
    cbn [fst snd orderly] in *. destruct O as (O1 & O2 & O3). pose proof (run_rest _ _ _ _ H1 B1) as B2.
    destruct (IH _ _ _ _ _ H1 B1 O2) as (W & Q & LR & R). destruct (IH _ _ _ _ _ H3 B2 O3) as (W' & Q' & LR' & R').
    cbn [wf clen low_rows ctype no_time64 ranges]. rewrite map_length, V1. split; [auto|]. split; [reflexivity|]. split; [lia|]. intros [N1 N2]. auto.
  - (* decimals *) apply bind_inv in H as (l & r1 & H0 & H). apply vec_inv in H0 as (V1 & V2 & V3 & _); [|exact B]. cbn [run] in H. injection H as <- <-.
    cbn [wf clen low_rows ctype no_time64 ranges orderly] in *. rewrite V1. split; [exact I|]. split; [reflexivity|]. split; [lia|]. intros _.
    split; [exact O|]. apply V3. destruct nb; discriminate.
  - apply bind_inv in H as (l & r1 & H0 & H). apply vec_inv in H0 as (V1 & V2 & V3 & _); [|exact B]. cbn [run] in H. injection H as <- <-.
    cbn [wf clen low_rows ctype no_time64 ranges orderly] in *. rewrite V1. split; [exact I|]. split; [reflexivity|]. split; [lia|]. intros _. apply V3. discriminate.
  - apply bind_inv in H as (l & r1 & H0 & H). apply vec_inv in H0 as (V1 & V2 & V3 & _); [|exact B]. cbn [run] in H. injection H as <- <-.
    cbn [wf clen low_rows ctype no_time64 ranges orderly] in *. rewrite V1. split; [exact I|]. split; [reflexivity|]. split; [lia|]. intros _. apply V3. discriminate.
  - (* times *) apply bind_inv in H as (z & r0 & Hz & H). pose proof (run_rest _ _ _ _ Hz B) as B0. apply bind_inv in H as (l & r1 & H0 & H). apply vec_inv in H0 as (V1 & V2 & V3 & _); [|exact B0]. cbn [run] in H. injection H as <- <-.
    cbn [wf clen low_rows ctype no_time64 ranges]. rewrite map_length, V1. split; [exact I|]. split; [reflexivity|]. split; [lia|]. intros _.
    exact (to_N_range U32 l eq_refl ltac:(discriminate) (V3 ltac:(discriminate))).
  - apply bind_inv in H as (z & r0 & Hz & H). pose proof (run_rest _ _ _ _ Hz B) as B0. apply bind_inv in H as (l & r1 & H0 & H). apply vec_inv in H0 as (V1 & V2 & V3 & _); [|exact B0]. cbn [run] in H. injection H as <- <-.
    cbn [wf clen low_rows ctype no_time64 ranges]. rewrite V1. split; [exact I|]. split; [reflexivity|]. split; [lia|]. intros [].
  - apply bind_inv in H as (i & r2 & H0 & H). cbn [run] in H. injection H as <- <-. cbn [orderly] in O.
    destruct (IH _ _ _ _ _ H0 B O) as (W & Q & LR & R). cbn [wf clen low_rows ctype no_time64 ranges]. auto.
  - (* dictionaries *) assert (exists i ix idx n s1 r1 r2 s2 l, c = CLow i ix idx None /\ run (load_data known fuel inner n tz) s1 = Ok (i, r1) /\ bytes_ok s1 /\
      run (read_vec (ix_scalar ix) (lenN idx)) s2 = Ok (l, r2) /\ bytes_ok s2) as (i & ix & idx & n & s1 & r1 & r2 & s2 & l & -> & H1 & B1 & H2 & B2).
    { unfold load_low in H. destruct (N.eqb_spec size 0) as [->|NZ].
      - apply bind_inv in H as (i & r1 & H0 & H). apply bind_inv in H as (l & r2 & H1 & H). cbn [run] in H. injection H as <- <-.
        pose proof (run_rest _ _ _ _ H0 B) as B1. pose proof (vec_inv _ _ _ _ _ H1 B1) as (V1 & _).
        do 9 eexists. split; [reflexivity|]. split; [exact H0|]. split; [exact B|]. split; [|exact B1].
        replace (lenN (map Z.to_N l)) with 0%N; [exact H1|]. unfold lenN. rewrite map_length, V1. reflexivity.
      - apply bind_inv in H as (v & ra & Ha & H). apply run_rest in Ha; [|exact B]. destruct (negb _); [discriminate|].
        apply bind_inv in H as (fl & rb & Hb & H). apply run_rest in Hb; [|exact Ha]. destruct (ix_of_flags fl) as [ix|]; [|discriminate].
        destruct (negb _); [discriminate|]. destruct (_ =? 0)%N; [discriminate|].
        apply bind_inv in H as (cnt & rc & Hc & H). apply run_rest in Hc; [|exact Hb].
        apply bind_inv in H as (i & rd & Hd & H). pose proof (run_rest _ _ _ _ Hd Hc) as Bd.
        apply bind_inv in H as (ks & re & He & H). apply run_rest in He; [|exact Bd].
        apply bind_inv in H as (l & rf & Hf & H). destruct (fl =? _)%N; [|discriminate]. cbn [run] in H. injection H as <- <-.
        pose proof (vec_inv _ _ _ _ _ Hf He) as (V1 & _).
        do 9 eexists. split; [reflexivity|]. split; [exact Hd|]. split; [exact Hc|]. split; [|exact He].
        replace (lenN (map Z.to_N l)) with ks; [exact Hf|]. unfold lenN. rewrite map_length, V1. lia. }
    cbn [orderly] in O. destruct O as (O1 & O2 & n' & O3 & O4 & O5 & O6 & O7).
    assert (orderly n i) as O8. { destruct i; try contradiction O2; exact O4. }
    destruct (IH _ _ _ _ _ H1 B1 O8) as (W & Q & LR & R).
    apply vec_inv in H2 as (_ & V2 & _); [|exact B2].
    cbn [wf clen low_rows ctype no_time64 ranges]. split; [|split; [f_equal; unfold lenN in O1; lia|split; [|exact R]]].
    + split; [exact W|]. exists n'. split; [exact O3|]. split; [exact O5|]. split; [lia|]. split; [exact O7|].
      eapply Forall_impl; [|exact O5]. intros j J. exact (keyed_reads i n' (N.to_nat j) W (R (keyed_type i O2)) O2 O3 J).
    + assert (1 <= width (ix_scalar ix)) by (destruct ix; cbn; lia). nia.
Qed.

(** ** Blocks *)
Lemma bytes_eqb_refl k : bytes_eqb k k = true.
Proof. unfold bytes_eqb. destruct (bytes_eq_dec k k); congruence. Qed.
Lemma bytes_eqb_neq a b : a <> b -> bytes_eqb a b = false.
Proof. unfold bytes_eqb. destruct (bytes_eq_dec a b); congruence. Qed.

Lemma given_same k v fs : given k ((k, v) :: fs) = v :: given k fs.
Proof. unfold given. cbn [filter fst]. rewrite bytes_eqb_refl. reflexivity. Qed.
Lemma given_other k k' v fs : k <> k' -> given k' ((k, v) :: fs) = given k' fs.
Proof. intros H. unfold given. cbn [filter fst]. rewrite bytes_eqb_neq by exact H. reflexivity. Qed.

Definition takes (fs : list (bytes * value)) (x : bytes * col) : Prop :=
  wf (snd x) /\ (exists ws, mapO (reads_as (snd x)) (given (fst x) fs) = Some ws) /\
  (low_rows (snd x) + weights (given (fst x) fs) < 2 ^ 64)%N.

Lemma mapO_ext {A B} (f g : A -> option B) l : (forall x, f x = g x) -> mapO f l = mapO g l.
Proof. intros E. induction l as [|x l IH]; cbn [mapO]; [reflexivity|]. rewrite E, IH. reflexivity. Qed.

Lemma Forall2_split {A B} (R : A -> B -> Prop) l1 x l2 l' : Forall2 R (l1 ++ x :: l2) l' ->
  exists k1 y k2, l' = k1 ++ y :: k2 /\ Forall2 R l1 k1 /\ R x y /\ Forall2 R l2 k2.
Proof.
  intros H. apply Forall2_app_inv_l in H as (k1 & k & H1 & H2 & ->). inversion_clear H2.
  do 3 eexists. split; [reflexivity|]. auto.
Qed.

Lemma Forall2_imp {A B} (R Q : A -> B -> Prop) l l' : (forall x y, In x l -> R x y -> Q x y) -> Forall2 R l l' -> Forall2 Q l l'.
Proof. intros H F. induction F; constructor; [apply H; [left; reflexivity|assumption]|]. apply IHF. intros. apply H; [right|]; assumption. Qed.

Lemma push_fields fs : forall info cs, NoDup (map fst cs) -> Forall (fun f => In (fst f) (map fst cs)) fs -> Forall (takes fs) cs ->
  exists cs', push_row fs (mk_block info cs) = Ok (mk_block info cs') /\
    Forall2 (fun x x' => fst x' = fst x /\ push_each push (snd x) (given (fst x) fs) = Ok (snd x')) cs cs'.
Proof.
  induction fs as [|[k v] fs IH]; intros info cs ND F T.
  - exists cs. split; [reflexivity|]. clear. induction cs; constructor; [split; reflexivity|assumption].
  - apply Forall_cons_iff in F as [K F]. cbn [fst] in K. apply in_map_iff in K as ([k' c] & E & I). cbn [fst] in E. subst k'.
    apply in_split in I as (pre & post & ->). rewrite map_app in ND. cbn [map fst] in ND.
    pose proof (NoDup_remove_2 _ _ _ ND) as NK. rewrite in_app_iff in NK.
    apply Forall_app in T as [T1 T]. apply Forall_cons_iff in T as [T2 T3]. destruct T2 as (W & (ws & R) & L). cbn [fst snd] in *.
    rewrite given_same in R, L. cbn [mapO] in R. destruct (reads_as c v) as [w|] eqn:Rw; [|discriminate R].
    destruct (mapO (reads_as c) (given k fs)) as [ws'|] eqn:Rs; [|discriminate R]. cbn [weights fold_right] in L. fold (weights (given k fs)) in L.
    destruct (push_step c c v w (similar_refl c) W Rw ltac:(lia)) as (c1 & P & S). change (push_as c c v) with (push c v) in P.
    assert (forall x, In x (pre ++ post) -> fst x <> k) as OT.
    { intros x I E. apply NK. rewrite <- E, <- in_app_iff, <- map_app. apply in_map, I. }
    assert (forall x, In x (pre ++ post) -> takes ((k, v) :: fs) x -> takes fs x) as TT.
    { intros x I (X1 & X2 & X3). rewrite given_other in X2, X3 by (intros E; apply (OT x I); symmetry; exact E). split; auto. }
    destruct (IH info (pre ++ (k, c1) :: post)) as (cs' & E & G).
    + rewrite map_app. exact ND.
    + rewrite map_app in *. exact F.
    + apply Forall_app. split; [|constructor].
      * rewrite Forall_forall in *. intros x I. apply TT; [apply in_or_app; auto|]. apply T1, I.
      * split; [exact (st_wf _ _ _ _ S)|]. cbn [fst snd]. split.
        { exists ws'. rewrite <- Rs. apply mapO_ext. exact (st_reads _ _ _ _ S). }
        pose proof (st_rows _ _ _ _ S). lia.
      * rewrite Forall_forall in *. intros x I. apply TT; [apply in_or_app; auto|]. apply T3, I.
    + exists cs'. split.
      * cbn [push_row]. unfold put_param. cbn [b_cols b_info].
        rewrite ToSqlProofs.find_name_at by tauto. cbn [Nat.add]. rewrite (ToSqlProofs.push_at_ok _ _ _ _ _ _ P). cbn [rbind]. exact E.
      * apply Forall2_split in G as (k1 & y & k2 & -> & G1 & G2 & G3). apply Forall2_app; [|constructor].
        -- eapply Forall2_imp; [|exact G1]. intros x x' I [X1 X2]. rewrite given_other; [auto|]. intros E'. apply (OT x); [apply in_or_app; auto|auto].
        -- cbn [fst snd] in *. split; [apply G2|]. rewrite given_same. cbn [push_each]. rewrite P. cbn [rbind]. apply G2.
        -- eapply Forall2_imp; [|exact G3]. intros x x' I [X1 X2]. rewrite given_other; [auto|]. intros E'. apply (OT x); [apply in_or_app; auto|auto].
Qed.

Lemma push_rows_concat rows : forall b, push_rows rows b = push_row (concat rows) b.
Proof.
  assert (forall a c b, push_row (a ++ c) b = rbind (push_row a b) (push_row c)) as A.
  { induction a as [|[k v] a IH]; intros c b; [reflexivity|]. cbn [app push_row]. destruct (put_param k v b); cbn [rbind]; [apply IH|reflexivity|reflexivity]. }
  induction rows as [|row rows IH]; intros b; [reflexivity|]. cbn [push_rows concat]. rewrite A.
  destruct (push_row row b); cbn [rbind]; [apply IH|reflexivity|reflexivity].
Qed.

(** ** Received blocks *)
Lemma string_inv s a r : run read_string s = Ok (a, r) -> is_utf8 a /\ (lenN a <= isize_max)%N /\ length r < length s.
Proof.
  unfold read_string. intros H. apply bind_inv in H as (n & r1 & H0 & H). apply varint_shorter in H0.
  apply alloc_inv in H as [L H]. cbn [run] in H. destruct (N.leb_spec n (lenN r1)) as [Q|]; [|discriminate].
  destruct (utf8_valid _) eqn:U; [|discriminate]. cbn [run] in H. injection H as <- <-. split; [apply utf8_valid_spec, U|].
  unfold lenN in *. rewrite firstn_length, skipn_length. lia.
Qed.

Definition bucket_ok (i : binfo) : Prop := (- 2 ^ 31 <= bi_bucket i < 2 ^ 31)%Z.
Lemma info_inv s i r : (lenN s < 2 ^ 64)%N -> bytes_ok s -> run read_info s = Ok (i, r) -> bucket_ok i.
Proof.
  intros L B. unfold read_info. revert i r.
  apply (ploop_inv info_step (fun i s => bucket_ok i /\ bytes_ok s) (fun o => forall i r, o = Ok (i, r) -> bucket_ok i)); [|split; [unfold bucket_ok; cbn; lia|exact B]|exact L].
  clear. intros i inp [K B]. unfold info_step. rewrite run_bind.
  destruct (run read_uvarint inp) as [[tag r]|e|q] eqn:E; [|discriminate|discriminate].
  pose proof (run_rest _ _ _ _ E B) as B1. apply varint_shorter in E. destruct (_ =? _)%N; [|destruct (_ =? _)%N].
  - rewrite run_bind. destruct (run (read_scalar SBool) r) as [[z t]|e|q] eqn:F; [|discriminate|discriminate].
    pose proof (run_rest _ _ _ _ F B1). apply run_shorter in F. cbn [run]. split; [auto|lia].
  - rewrite run_bind. destruct (run (read_scalar I32) r) as [[z t]|e|q] eqn:F; [|discriminate|discriminate].
    pose proof (run_rest _ _ _ _ F B1). pose proof (run_shorter _ _ _ _ F). unfold read_scalar in F. apply get_inv_all in F as (l & s' & F & L & Bl & _); [|exact B1].
    cbn [run] in F. injection F as <- _. cbn [run]. split; [|lia]. split; [|assumption].
    pose proof (unmarshal_ok I32 l) as U. rewrite Nat2N.id in L. specialize (U L Bl). unfold bucket_ok. cbn [bi_bucket].
    unfold scalar_ok in U. cbv beta iota zeta in U. change (2 ^ (8 * Z.of_nat (width I32) - 1))%Z with (2 ^ 31)%Z in U. apply andb_prop in U as [U1 U2]. apply Z.leb_le in U1. apply Z.ltb_lt in U2. auto.
  - destruct (_ =? _)%N; [|discriminate]. cbn [run]. intros i' r' H. injection H as <- <-. exact K.
Qed.

Lemma columns_inv known tz rows n : forall b s b' r, 
  run (pfold n (fun b => let! c := read_column known rows tz in lift (append_column b c)) b) s = Ok (b', r) -> bytes_ok s ->
  b_info b' = b_info b /\ length (b_cols b') + length r <= length (b_cols b) + length s /\
  exists new, b_cols b' = b_cols b ++ new /\ Forall (fun x => is_utf8 (fst x) /\ (lenN (fst x) <= isize_max)%N /\ fine rows (snd x)) new.
Proof.
  induction n as [|n IH]; intros b s b' r H B; cbn [pfold] in H.
  - injection H as <- <-. split; [reflexivity|]. split; [lia|]. exists []. rewrite app_nil_r. auto.
  - apply bind_inv in H as (b1 & s1 & H0 & H). pose proof (run_rest _ _ _ _ H0 B) as B1.
    destruct (IH _ _ _ _ H B1) as (E1 & E2 & new & E3 & E4).
    apply bind_inv in H0 as (x & s2 & H1 & H2). unfold lift in H2. destruct (append_column b x) as [b2|e|q] eqn:A; try discriminate H2. injection H2 as <- <-.
    assert (b_info b2 = b_info b /\ b_cols b2 = b_cols b ++ [x]) as [A1 A2].
    { unfold append_column in A. destruct (clen (snd x)); try discriminate A. cbn [rbind] in A. destruct (b_cols b) as [|y ys] eqn:Eb.
      - injection A as <-. auto.
      - destruct (row_count b) as [m|e|q]; try discriminate A. cbn [rbind] in A. destruct (_ =? _); [|discriminate A]. injection A as <-. auto. }
    unfold read_column in H1. apply bind_inv in H1 as (name & s3 & H3 & H1). apply bind_inv in H1 as (ty & s4 & H4 & H1). apply bind_inv in H1 as (c & s5 & H5 & H1).
    cbn [run] in H1. injection H1 as <- <-. pose proof (run_rest _ _ _ _ H3 B) as B3. pose proof (run_rest _ _ _ _ H4 B3) as B4.
    apply string_inv in H3 as (U & UL & L3). apply string_inv in H4 as (_ & _ & L4). pose proof (run_shorter _ _ _ _ H5) as L5.
    apply load_fine in H5; [|exact B4].
    split; [congruence|]. split; [rewrite A2, app_length in E2; cbn [length] in E2; lia|].
    exists ((name, c) :: new). split; [rewrite E3, A2, <- app_assoc; reflexivity|]. constructor; auto.
Qed.

(** The rows a block announces. *)
Lemma block_inv known tz s b r : run (raw_load known tz) s = Ok (b, r) -> bytes_ok s -> (lenN s < 2 ^ 64)%N ->
  bucket_ok (b_info b) /\ (lenN (b_cols b) < 2 ^ 64)%N /\
  exists rows s', run (let! _ := read_info in let! _ := read_uvarint in read_uvarint) s = Ok (rows, s') /\
    Forall (fun x => is_utf8 (fst x) /\ (lenN (fst x) <= isize_max)%N /\ fine rows (snd x)) (b_cols b).
Proof.
  unfold raw_load. intros H B L. apply bind_inv in H as (i & s1 & H1 & H). apply bind_inv in H as (nc & s2 & H2 & H). apply bind_inv in H as (rows & s3 & H3 & H).
  pose proof (run_rest _ _ _ _ H1 B) as B1. pose proof (run_rest _ _ _ _ H2 B1) as B2. pose proof (run_rest _ _ _ _ H3 B2) as B3.
  rewrite pfoldN_nat in H. apply columns_inv in H as (E1 & E2 & new & E3 & E4); [|exact B3]. cbn [b_info b_cols app length] in *.
  pose proof (run_shorter _ _ _ _ H1). pose proof (run_shorter _ _ _ _ H2). pose proof (run_shorter _ _ _ _ H3).
  split; [rewrite E1; eapply info_inv; eassumption|]. split; [unfold lenN in *; lia|].
  exists rows, s3. split; [rewrite run_bind, H1, run_bind, H2; exact H3|]. rewrite E3. exact E4.
Qed.
