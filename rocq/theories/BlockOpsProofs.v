(** Building, comparing and looking into blocks. *)
From Coq Require Import Permutation.
From Verif Require Import Base Bytes Reader Wire Types Decimal DateTime Values TypeNames Columns Casts Block.
From Verif Require Import SpecColumns SpecTypes SpecBlock PushProofs PropTime.
Open Scope nat_scope.

(** Comparison. *)
Lemma sqltype_eqb_refl t : sqltype_eqb t t = true.
Proof. unfold sqltype_eqb. destruct (sqltype_eq_dec t t); congruence. Qed.
Lemma bytes_eqb_refl b : bytes_eqb b b = true.
Proof. unfold bytes_eqb. destruct (bytes_eq_dec b b); congruence. Qed.
Lemma enum_refl (l : list (bytes * Z)) : (if enum_vals_eq_dec l l then true else false) = true.
Proof. destruct (enum_vals_eq_dec l l); congruence. Qed.

Lemma scalar_eqb_refl s z : not_nan s z -> s <> SBool /\ scalar_eqb s z z = true.
Proof.
  intros H. split; [intros ->; exact H|].
  destruct s; cbn [scalar_eqb not_nan] in *; try apply Z.eqb_refl; unfold float_eqb, float_parts.
  - destruct (Z.ltb_spec (255 * 2 ^ 23) (z mod 2 ^ 31)); [lia|]. cbn [orb].
    destruct (_ && _); [reflexivity|apply Z.eqb_refl].
  - destruct (Z.ltb_spec (2047 * 2 ^ 52) (z mod 2 ^ 63)); [lia|]. cbn [orb].
    destruct (_ && _); [reflexivity|apply Z.eqb_refl].
Qed.

Lemma same_key_refl k : map_key k = true -> same_key k k = true.
Proof.
  destruct k; try discriminate; cbn.
  - destruct (scalar_eq_dec s s); [|congruence]. intros _. apply Z.eqb_refl.
  - intros _. apply bytes_eqb_refl.
Qed.

Lemma distinct_keys_in ks : distinct_keys ks = true -> forall k, In k ks -> map_key k = true.
Proof.
  induction ks as [|k ks IH]; intros H x []; cbn [distinct_keys] in H;
    apply andb_prop in H as [H H2]; apply andb_prop in H as [H1 _]; subst; auto.
Qed.

Definition map_get (kx vx : value) : list (value * value) -> res bool :=
  fix get (ys : list (value * value)) : res bool :=
    match ys with
    | [] => Ok false
    | (ky, vy) :: ys' => do e <- vref_eq kx ky; if e then vref_eq vx vy else get ys'
    end.

Lemma map_get_self kx vx ys : vref_eq vx vx = Ok true -> distinct_keys (map fst ys) = true ->
  In (kx, vx) ys -> map_get kx vx ys = Ok true.
Proof.
  intros V. induction ys as [|[k v] ys IH]; intros D []; cbn [map_get]; cbn [map fst distinct_keys] in D;
    apply andb_prop in D as [D D2]; apply andb_prop in D as [D1 D3].
  - injection H as -> ->. rewrite same_key_eq, same_key_refl by assumption. cbn [rbind]. exact V.
  - assert (In kx (map fst ys)) as K by (apply (in_map fst) in H; exact H).
    rewrite same_key_eq by eauto using distinct_keys_in.
    assert (same_key kx k = false) as ->.
    { rewrite same_key_sym. apply Bool.negb_true_iff in D3. destruct (same_key k kx) eqn:E; [|reflexivity].
      rewrite <- D3. symmetry. apply existsb_exists. eauto. }
    cbn [rbind]. apply IH; assumption.
Qed.

Lemma vref_refl : forall v, comparable v -> vref_eq v v = Ok true.
Proof.
  fix IH 1. intros v H. destruct v; cbn [comparable] in H; try contradiction H.
  - destruct (scalar_eqb_refl s z H) as [H1 H2].
    destruct s; try congruence; cbn [vref_eq]; (destruct (scalar_eq_dec _ _) as [_|C]; [|congruence]); rewrite H2; reflexivity.
  - cbn [vref_eq]. rewrite bytes_eqb_refl. reflexivity.
  - cbn [vref_eq]. rewrite N.eqb_refl. reflexivity.
  - cbn [vref_eq]. rewrite N.eqb_refl. reflexivity.
  - cbn [vref_eq]. destruct H as [Hp [H0 H1]].
    destruct (c42_datetime64_partial ticks precision Hp) as (s & n & E & _).
    + split; unfold tick_nanos; lia.
    + left. destruct (Z.neg_nonneg_cases ticks) as [C|C]; [|exact C].
      assert (0 < 10 ^ (9 - Z.of_N precision))%Z by (apply Z.pow_pos_nonneg; lia). nia.
    + rewrite E. cbn [rbind fst snd]. rewrite Z.eqb_refl, N.eqb_refl. reflexivity.
  - cbn [vref_eq]. rewrite sqltype_eqb_refl. reflexivity.
  - cbn [vref_eq]. apply IH, H.
  - cbn [vref_eq]. rewrite sqltype_eqb_refl, Nat.eqb_refl. clear t.
    revert vs H. fix IHl 1. intros [|x vs] H; [reflexivity|]. cbn [fold_right] in H.
    unfold res_and at 1. rewrite (IH x (proj1 H)). cbn [rbind]. apply IHl, H.
  - cbn [vref_eq]. unfold decimal_eq. rewrite N.compare_refl, Z.eqb_refl. reflexivity.
  - cbn [vref_eq]. rewrite enum_refl, Z.eqb_refl. reflexivity.
  - cbn [vref_eq]. rewrite enum_refl, Z.eqb_refl. reflexivity.
  - cbn [vref_eq]. rewrite !sqltype_eqb_refl, Nat.eqb_refl. cbn [negb orb]. destruct H as [D H]. clear k v.
    assert (forall xs, incl xs kvs -> fold_right (fun kv P => comparable (snd kv) /\ P) True xs ->
      (fix all (xs : list (value * value)) : res bool :=
           match xs with
           | [] => Ok true
           | (kx, vx) :: xs' => res_and (map_get kx vx kvs) (all xs')
           end) xs = Ok true) as G; [|exact (G kvs (incl_refl _) H)].
    fix IHl 1. intros [|[k x] xs] Hin Hc; [reflexivity|]. cbn [fold_right snd] in Hc.
    unfold res_and at 1. rewrite (map_get_self k x kvs (IH x (proj1 Hc)) D (Hin _ (or_introl eq_refl))).
    cbn [rbind]. apply IHl; [|apply Hc]. intros y Hy. apply Hin. right. exact Hy.
Qed.

Lemma all_cells_refl f js : (forall j, In j js -> exists v, f j = Ok v /\ comparable v) -> all_cells f f js = Ok true.
Proof.
  induction js as [|j js IH]; intros H; [reflexivity|]. cbn [all_cells].
  destruct (H j (or_introl eq_refl)) as (v & E & C). rewrite E. cbn [rbind]. rewrite vref_refl by exact C.
  cbn [rbind]. apply IH. intros i Hi. apply H. right. exact Hi.
Qed.

Lemma column_refl c n : clen c = Ok n -> (forall i, i < n -> exists v, at_ c i = Ok v /\ comparable v) ->
  column_eq c c = Ok true.
Proof.
  intros Hn H. unfold column_eq. rewrite Hn. cbn [rbind]. rewrite Nat.eqb_refl, sqltype_eqb_refl. cbn [negb].
  apply all_cells_refl. intros j Hj. apply H. apply in_seq in Hj. lia.
Qed.

(** Lengths after appending. *)
Lemma whole_default t : whole (value_default t).
Proof. induction t as [s| |n| |[|p z|]| | | |t IH|t IH|t IH|p sc|vals|vals|f t IH|k IHk v IHv]; cbn; auto. Qed.

Ltac step_in H := match type of H with
  | context [rbind ?e _] => destruct e eqn:?; try discriminate H; cbn [rbind] in H
  end.
Lemma resize_length n (l : bytes) : length (resize n l) = n.
Proof. unfold resize. rewrite app_length, firstn_length, repeat_length. lia. Qed.

Lemma div_succ a k : k <> 0 -> (a + k) / k = S (a / k).
Proof. intros H. rewrite <- (Nat.mul_1_l k) at 1. rewrite Nat.div_add by exact H. lia. Qed.

Lemma push_len shape : forall c v c' n, push_as shape c v = Ok c' -> whole v -> clen c = Ok n -> clen c' = Ok (S n).
Proof.
  induction shape; intros c v c' m H W L; destruct c; cbn [push_as] in H; try discriminate H; cbn [clen] in L;
    try (step_in H; injection H as <-; injection L as <-; cbn [clen]; rewrite app_length; cbn [length]; f_equal; lia);
    try (step_in H; repeat match type of H with context [let '(_, _) := ?p in _] => destruct p end; repeat step_in H;
         injection H as <-; injection L as <-; cbn [clen]; rewrite app_length; cbn [length]; f_equal; lia);
    try (destruct v; try discriminate H; injection H as <-; injection L as <-; cbn [clen]; rewrite app_length; cbn [length]; f_equal; lia);
    try (destruct v; try discriminate H; step_in H; injection H as <-; injection L as <-; cbn [clen];
         rewrite app_length; cbn [length]; f_equal; lia);
    try (destruct v; discriminate H).
  all: try (step_in H; injection H as <-; cbn [clen]; destruct (N.eqb_spec n 0) as [|Hz]; [discriminate L|];
            injection L as <-; rewrite resize_length; f_equal;
            rewrite <- (Nat.mul_1_l (N.to_nat n)) at 1; rewrite Nat.div_add by lia; lia).
  all: try (step_in H; injection H as <-; cbn [clen]; destruct (N.eqb_spec n0 0) as [|Hz]; [discriminate L|];
            injection L as <-; rewrite resize_length; f_equal;
            rewrite <- (Nat.mul_1_l (N.to_nat n0)) at 1; rewrite Nat.div_add by lia; lia).
  all: try (match type of H with match ?k with IpV4 => _ | _ => _ end = _ => destruct k end; destruct v; try discriminate H;
            injection H as <-; injection L as <-; cbn [whole] in W; cbn [clen ip_size]; rewrite app_length, W; f_equal;
            apply div_succ; discriminate).
  - step_in L. destruct (length nulls0 =? a) eqn:E; [|discriminate L]. injection L as <-. apply Nat.eqb_eq in E.
    assert (forall i (x : N), clen i = Ok (S a) -> clen (CNullable i (nulls0 ++ [x])) = Ok (S a)) as G.
    { intros i x Hi. cbn [clen]. rewrite Hi. cbn [rbind]. rewrite app_length, E. cbn [length].
      rewrite Nat.add_1_r, Nat.eqb_refl. reflexivity. }
    destruct v; step_in H; injection H as <-; apply G; (eapply IHshape; [eassumption| |eassumption]);
      first [exact W|apply whole_default|exact I].
  - step_in H. injection H as <-. cbn [clen]. eapply IHshape; eassumption.
  - injection L as <-. step_in H. step_in H.
    assert (forall j xi, ix_push ix0 idx0 j = Ok xi -> length (snd xi) = S (length idx0)) as G.
    { intros j xi E. unfold ix_push in E. step_in E. injection E as <-. cbn [snd]. rewrite app_length. cbn [length]. lia. }
    destruct a0 as [j|]; repeat step_in H; injection H as <-; cbn [clen]; f_equal; eapply G; eassumption.
Qed.

(** Every column has as many rows as its name has occurred. *)
Definition named (k : bytes) (fs : list (bytes * value)) : nat := count_occ bytes_eq_dec (map fst fs) k.
Definition counted (fs : list (bytes * value)) (b : block) : Prop :=
  NoDup (map fst (b_cols b)) /\
  (forall k, In k (map fst fs) <-> In k (map fst (b_cols b))) /\
  Forall (fun x => clen (snd x) = Ok (named (fst x) fs)) (b_cols b).
Definition field_fine (f : bytes * value) : Prop := whole (snd f) /\ no_empty_rows (type_of_value (snd f)).

Lemma find_name_some s (cs : list column) : forall i j, find_name s cs i = Some j ->
  exists k, j = i + k /\ exists c, nth_error cs k = Some (s, c) /\ forall m, m < k -> option_map fst (nth_error cs m) <> Some s.
Proof.
  induction cs as [|[n c] cs IH]; intros i j H; [discriminate H|]. cbn [find_name] in H.
  unfold bytes_eqb in H. destruct (bytes_eq_dec n s) as [->|N].
  - injection H as <-. exists 0. split; [lia|]. exists c. split; [reflexivity|]. intros m Hm. lia.
  - destruct (IH _ _ H) as (k & -> & d & E & F). exists (S k). split; [lia|]. exists d. split; [exact E|].
    intros [|m] Hm; cbn; [congruence|]. apply F. lia.
Qed.
Lemma find_name_none s (cs : list column) : forall i, find_name s cs i = None <-> ~ In s (map fst cs).
Proof.
  induction cs as [|[n c] cs IH]; intros i; cbn [find_name map fst In]; [tauto|].
  unfold bytes_eqb. destruct (bytes_eq_dec n s) as [->|N]; [split; [discriminate|tauto]|]. rewrite IH. tauto.
Qed.

Lemma push_at_split cs i v cs' : push_at cs i v = Ok cs' ->
  exists l n c c' r, cs = l ++ (n, c) :: r /\ length l = i /\ push c v = Ok c' /\ cs' = l ++ (n, c') :: r.
Proof.
  revert i cs'. induction cs as [|[n c] cs IH]; intros i cs' H; [discriminate H|]. destruct i as [|i]; cbn [push_at] in H.
  - step_in H. injection H as <-. exists [], n, c, a, cs. auto.
  - step_in H. injection H as <-. destruct (IH _ _ Heqr) as (l & m & d & d' & r & -> & <- & P & ->).
    exists ((n, c) :: l), m, d, d', r. auto.
Qed.

Lemma named_snoc k fs f : named k (fs ++ [f]) = named k fs + if bytes_eq_dec (fst f) k then 1 else 0.
Proof.
  unfold named. rewrite map_app, count_occ_app. cbn [map count_occ]. destruct (bytes_eq_dec (fst f) k); reflexivity.
Qed.

Lemma bump fs k v l n c c' (r : list column) : NoDup (map fst (l ++ (n, c) :: r)) ->
  Forall (fun x => clen (snd x) = Ok (named (fst x) fs)) (l ++ (n, c) :: r) ->
  n = k -> push c v = Ok c' -> whole v ->
  Forall (fun x => clen (snd x) = Ok (named (fst x) (fs ++ [(k, v)]))) (l ++ (n, c') :: r).
Proof.
  intros ND L -> P W. rewrite map_app in ND. cbn [map fst] in ND.
  apply NoDup_remove_2 in ND. rewrite Forall_app in L. destruct L as [L1 L2]. inversion_clear L2 as [|? ? L3 L4].
  assert (forall x, In x (l ++ r) -> fst x <> k) as Hne.
  { intros x Hx E. apply ND. rewrite <- map_app, <- E. apply in_map, Hx. }
  apply Forall_app. split; [|constructor].
  - rewrite Forall_forall in *. intros x Hx. rewrite named_snoc, (L1 x Hx). cbn [fst].
    destruct (bytes_eq_dec k (fst x)) as [E|_]; [|f_equal; lia].
    exfalso. apply (Hne x); [apply in_or_app; auto|auto].
  - cbn [fst snd]. rewrite named_snoc. cbn [fst]. destruct (bytes_eq_dec k k); [|congruence].
    cbn [fst snd] in L3. rewrite (push_len _ _ _ _ _ P W L3). f_equal. lia.
  - rewrite Forall_forall in *. intros x Hx. rewrite named_snoc, (L4 x Hx). cbn [fst].
    destruct (bytes_eq_dec k (fst x)) as [E|_]; [|f_equal; lia].
    exfalso. apply (Hne x); [apply in_or_app; auto|auto].
Qed.

Lemma put_counted fs k v b b' : counted fs b -> field_fine (k, v) -> put_param k v b = Ok b' ->
  counted (fs ++ [(k, v)]) b'.
Proof.
  intros C [W NE] H. unfold put_param in H. cbn [snd] in W, NE. destruct C as (ND & KS & L).
  destruct (find_name k (b_cols b) 0) as [i|] eqn:F.
  - step_in H. injection H as <-. destruct (find_name_some _ _ _ _ F) as (j & -> & c0 & E0 & _). cbn [Nat.add] in *.
    destruct (push_at_split _ _ _ _ Heqr) as (l & n & c & c' & r & E & Hl & P & ->).
    rewrite E, nth_error_app2, Hl, Nat.sub_diag in E0 by lia. injection E0 as -> <-.
    unfold counted. cbn [b_cols]. rewrite E in ND, KS, L.
    assert (map fst (l ++ (k, c') :: r) = map fst (l ++ (k, c) :: r)) as M by (rewrite !map_app; reflexivity).
    rewrite M. split; [exact ND|]. split.
    + intros x. rewrite map_app, in_app_iff, KS. cbn [map fst In]. split; [|tauto].
      intros [Hx|[<-|[]]]; [exact Hx|]. rewrite map_app. apply in_or_app. right. left. reflexivity.
    + eapply bump; [exact ND|exact L|reflexivity|exact P|exact W].
  - step_in H. destruct (a <=? 1); [|discriminate H]. step_in H. step_in H. injection H as <-.
    apply find_name_none in F.
    destruct (push_at_split _ _ _ _ Heqr1) as (l & n & c & c' & r & E & Hl & P & ->).
    assert (l = b_cols b /\ n = k /\ c = a0 /\ r = []) as (-> & -> & -> & ->).
    { clear -E Hl. revert l Hl E. generalize (b_cols b). induction l as [|x xs IH]; intros [|y l] Hl E; cbn in *; try lia.
      - injection E as <- <- <-. auto.
      - injection E as -> E. destruct (IH l ltac:(lia) E) as (-> & A). auto. }
    destruct (from_type_wf _ _ _ Heqr0 NE) as (_ & L0 & _).
    assert (named k fs = 0) as Z.
    { unfold named. apply count_occ_not_In. rewrite KS. exact F. }
    unfold counted. cbn [b_cols]. rewrite map_app. cbn [map fst]. split; [|split].
    + apply (Permutation_NoDup (Permutation_cons_append _ k)). constructor; assumption.
    + intros x. rewrite map_app, !in_app_iff, KS. tauto.
    + eapply bump; [| |reflexivity|exact P|exact W].
      * rewrite map_app. apply (Permutation_NoDup (Permutation_cons_append _ k)). constructor; assumption.
      * apply Forall_app. split; [exact L|]. constructor; [|constructor]. cbn [fst snd]. rewrite L0, Z. reflexivity.
Qed.

Lemma row_counted row : forall fs b b', counted fs b -> Forall field_fine row -> push_row row b = Ok b' ->
  counted (fs ++ row) b'.
Proof.
  induction row as [|[k v] row IH]; intros fs b b' C F H; cbn [push_row] in H.
  - injection H as <-. rewrite app_nil_r. exact C.
  - step_in H. inversion_clear F as [|? ? F1 F2]. rewrite (app_assoc fs [(k, v)] row : fs ++ (k, v) :: row = _).
    eapply IH; [|exact F2|exact H]. eapply put_counted; eassumption.
Qed.
