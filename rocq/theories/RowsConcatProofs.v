(** A concatenation of blocks has their rows. *)
From Verif Require Import Base Bytes Types Values Columns Block FromSql Packets Client SpecClient Rows SpecRows.
From Verif Require Import TypeNames PushProofs ConcatProofs PropConcat RowsProofs.
Open Scope list_scope. Open Scope nat_scope.

Lemma mapM_nth {A B} (f : A -> res B) l : forall k, mapM f l = Ok k ->
  forall i x, nth_error l i = Some x -> exists y, nth_error k i = Some y /\ f x = Ok y.
Proof.
  induction l as [|a l IH]; intros k H i x Hx; [destruct i; discriminate Hx|].
  cbn [mapM] in H. destruct (f a) as [y| |] eqn:E; try discriminate H. cbn [rbind] in H.
  destruct (mapM f l) as [ys| |]; try discriminate H. cbn [rbind] in H. injection H as <-.
  destruct i as [|i]; [injection Hx as <-; exists y; auto|]. exact (IH ys eq_refl i x Hx).
Qed.
Lemma mapM_some {A B} (f : A -> res B) l : (forall x, In x l -> exists y, f x = Ok y) -> exists k, mapM f l = Ok k.
Proof.
  induction l as [|a l IH]; intros H; [exists []; reflexivity|].
  destruct (H a (or_introl eq_refl)) as [y E]. destruct IH as [ys Es]; [intros x Hx; apply H; right; exact Hx|].
  exists (y :: ys). cbn [mapM]. rewrite E. cbn [rbind]. rewrite Es. reflexivity.
Qed.

Lemma shaped_nth heads n b i nm t : shaped heads n b -> nth_error heads i = Some (nm, t) ->
  exists c, nth_error (b_cols b) i = Some (nm, c) /\ ctype c = t /\ clen c = Ok n.
Proof.
  intros [<- F] H. rewrite nth_error_map in H. destruct (nth_error (b_cols b) i) as [[k c]|] eqn:E; [|discriminate H].
  injection H as <- <-. exists c. repeat split. rewrite Forall_forall in F. exact (F _ (nth_error_In _ _ E)).
Qed.
Lemma shaped_len heads n b : shaped heads n b -> length (b_cols b) = length heads.
Proof. intros [<- _]. rewrite map_length. reflexivity. Qed.
Lemma shaped_names heads n b : shaped heads n b -> map fst (b_cols b) = map fst heads.
Proof. intros [<- _]. rewrite map_map. reflexivity. Qed.
Lemma shaped_count heads n b : heads <> [] -> shaped heads n b -> row_count b = Ok n.
Proof.
  intros H [<- F]. unfold row_count. destruct (b_cols b) as [|[k c] cs]; [contradiction H; reflexivity|].
  apply Forall_cons_iff in F. exact (proj1 F).
Qed.

(** Column [i] of each block. *)
Lemma nth_column_some heads ns bs i nm t : Forall2 (shaped heads) ns bs -> nth_error heads i = Some (nm, t) ->
  exists xs, nth_column bs i = Ok xs /\ length xs = length bs /\ Forall (fun x => fst x = nm /\ ctype (snd x) = t) xs /\
    mapM clen (map snd xs) = Ok ns /\
    forall k b, nth_error bs k = Some b -> exists x, nth_error xs k = Some x /\ nth_error (b_cols b) i = Some x.
Proof.
  intros F H. induction F as [|n b ns bs S F (xs & X1 & X2 & X3 & X4 & X5)].
  - exists []. repeat split; auto. intros [|k] b E; discriminate E.
  - destruct (shaped_nth _ _ _ _ _ _ S H) as (c & C1 & C2 & C3).
    exists ((nm, c) :: xs). split; [|split; [|split; [|split]]].
    + unfold nth_column in *. cbn [mapM]. unfold index at 1. rewrite C1. cbn [or_panic rbind]. rewrite X1. reflexivity.
    + cbn [length]. congruence.
    + constructor; auto.
    + cbn [map snd mapM]. rewrite C3. cbn [rbind]. rewrite X4. reflexivity.
    + intros [|k] b' E; [injection E as <-; exists (nm, c); auto|]. exact (X5 k b' E).
Qed.

(** A block with the rows of other blocks, in their order. *)
Definition joined (heads : list (bytes * sqltype)) (ns : list nat) (bs : list block) (B : block) : Prop :=
  shaped heads (start_of ns (length ns)) B /\
  forall k b n j, nth_error bs k = Some b -> nth_error ns k = Some n -> j < n ->
    forall i x y, nth_error (b_cols B) i = Some x -> nth_error (b_cols b) i = Some y ->
      at_ (snd x) (start_of ns k + j) = at_ (snd y) j.

Lemma concat_joined heads ns bs : bs <> [] -> Forall2 (shaped heads) ns bs -> exists B, block_concat bs = Ok B /\ joined heads ns bs B.
Proof.
  intros NE F. destruct bs as [|b0 bs]; [congruence|]. inversion F as [|n0 ? ns' ? S0 F']; subst.
  unfold block_concat.
  assert (forallb (fun b => length (b_cols b0) =? length (b_cols b)) (b0 :: bs) = true) as ->.
  { apply forallb_forall. intros b Hb. apply Nat.eqb_eq. rewrite (shaped_len _ _ _ S0).
    assert (exists n, shaped heads n b) as [n Sn].
    { clear - F Hb. revert F Hb. generalize (b0 :: bs) (n0 :: ns'). intros l ms F Hb. induction F as [|n x ms l S _ IH]; [contradiction Hb|]. destruct Hb as [->|Hb]; eauto. }
    symmetry. exact (shaped_len _ _ _ Sn). }
  match goal with |- context [mapM ?g (seq 0 (length (b_cols b0)))] => set (f := g) end.
  assert (forall i nm t, nth_error heads i = Some (nm, t) -> exists c, f i = Ok (nm, c) /\ ctype c = t /\
    clen c = Ok (start_of (n0 :: ns') (length (n0 :: ns'))) /\
    forall k b n j, nth_error (b0 :: bs) k = Some b -> nth_error (n0 :: ns') k = Some n -> j < n ->
      forall y, nth_error (b_cols b) i = Some y -> at_ c (start_of (n0 :: ns') k + j) = at_ (snd y) j) as G.
  { intros i nm t H. destruct (nth_column_some _ _ _ _ _ _ F H) as (xs & X1 & X2 & X3 & X4 & X5).
    unfold f. rewrite X1. cbn [rbind]. destruct xs as [|[m c0] xs]; [discriminate X2|].
    pose proof X3 as Y. apply Forall_cons_iff in Y. destruct Y as [[Y1 Y2] Y]. cbn [fst snd] in Y1, Y2. subst m.
    destruct (c21_concat (map snd ((nm, c0) :: xs)) (n0 :: ns') c0 (map snd xs) eq_refl X4) as (c & C1 & C2 & C3 & C4 & _).
    { apply Forall_map. eapply Forall_impl; [|exact X3]. intros x [_ Hx]. congruence. }
    match goal with |- context [concat_cols ?l] => replace (concat_cols l) with (Ok c) by (symmetry; exact C1) end.
    cbn [rbind]. exists c. split; [reflexivity|]. split; [congruence|]. split; [exact C3|].
    intros k b n j Hb Hn Hj y Hy. destruct (X5 k b Hb) as (x & Hx & Hx'). rewrite Hy in Hx'. injection Hx' as <-.
    apply (C4 k (snd y) n j); auto. apply map_nth_error, Hx. }
  rewrite (shaped_len _ _ _ S0).
  destruct (mapM_some f (seq 0 (length heads))) as [cs E].
  { intros i Hi. apply in_seq in Hi. destruct (nth_error heads i) as [[nm t]|] eqn:H; [|apply nth_error_None in H; lia].
    destruct (G i nm t H) as (c & -> & _). eauto. }
  rewrite E. cbn [rbind]. exists (mk_block (b_info b0) cs). split; [reflexivity|].
  assert (length cs = length heads) as L by (apply mapM_length in E; rewrite seq_length in E; exact E).
  assert (forall i nm t, nth_error heads i = Some (nm, t) -> exists c, nth_error cs i = Some (nm, c) /\ f i = Ok (nm, c)) as N.
  { intros i nm t H. assert (i < length heads) as Hi by (apply nth_error_Some; congruence).
    destruct (mapM_nth f _ _ E i i) as (y & Y1 & Y2).
    { rewrite nth_error_nth' with (d := 0) by (rewrite seq_length; exact Hi). rewrite seq_nth by exact Hi. reflexivity. }
    destruct (G i nm t H) as (c & C & _). rewrite C in Y2. injection Y2 as <-. eauto. }
  split; [split|].
  - cbn [b_cols]. apply nth_ext with (d := ([], TString)) (d' := ([], TString)); [rewrite map_length; exact L|].
    intros i Hi. rewrite map_length in Hi. assert (i < length heads) as Hi' by (rewrite <- L; exact Hi).
    destruct (nth_error heads i) as [[nm t]|] eqn:H; [|apply nth_error_None in H; lia].
    rewrite (nth_error_nth heads i _ H). destruct (N i nm t H) as (c & C1 & C2).
    destruct (G i nm t H) as (c' & C3 & C4 & _). rewrite C2 in C3. injection C3 as <-.
    apply nth_error_nth. etransitivity; [exact (map_nth_error head i cs C1)|]. unfold head. cbn [fst snd]. congruence.
  - cbn [b_cols]. apply Forall_forall. intros x Hx. apply In_nth_error in Hx. destruct Hx as [i Hi].
    destruct (nth_error heads i) as [[nm t]|] eqn:H.
    + destruct (N i nm t H) as (c & C1 & C2). pose proof (eq_trans (eq_sym C1) Hi) as Q. injection Q as <-.
      destruct (G i nm t H) as (c' & C3 & _ & C4 & _). rewrite C2 in C3. injection C3 as <-. exact C4.
    + apply nth_error_None in H. assert (i < length cs) as Q; [|exfalso; rewrite L in Q; lia]. apply nth_error_Some. intros Q. discriminate (eq_trans (eq_sym Q) Hi).
  - intros k b n j Hb Hn Hj i x y Hx Hy. cbn [b_cols] in Hx.
    destruct (nth_error heads i) as [[nm t]|] eqn:H.
    + destruct (N i nm t H) as (c & C1 & C2). pose proof (eq_trans (eq_sym C1) Hx) as Q. injection Q as <-.
      destruct (G i nm t H) as (c' & C3 & _ & _ & C4). rewrite C2 in C3. injection C3 as <-. exact (C4 k b n j Hb Hn Hj y Hy).
    + apply nth_error_None in H. assert (i < length cs) as Q; [|exfalso; rewrite L in Q; lia]. apply nth_error_Some. intros Q. discriminate (eq_trans (eq_sym Q) Hx).
Qed.

Lemma find_name_same s xs : forall ys i, map fst xs = map fst ys -> find_name s xs i = find_name s ys i.
Proof.
  induction xs as [|[k c] xs IH]; intros [|[k' c'] ys] i H; try discriminate H; [reflexivity|].
  injection H as -> H. cbn [find_name]. destruct (bytes_eqb _ _); [reflexivity|]. apply IH, H.
Qed.

Lemma joined_row heads ns bs B k b n j : joined heads ns bs B -> nth_error bs k = Some b -> nth_error ns k = Some n ->
  shaped heads n b -> j < n -> same_row (mk_row (start_of ns k + j) B) (mk_row j b).
Proof.
  intros [SB J] Hb Hn Sb Hj. split.
  - unfold row_len. cbn [w_block]. rewrite (shaped_len _ _ _ SB), (shaped_len _ _ _ Sb). reflexivity.
  - intros x. unfold row_name, row_type, row_get, get, get_cell. cbn [w_block w_index].
    assert (get_index x B = get_index x b) as EI.
    { destruct x as [i|s]; [reflexivity|]. cbn [get_index].
      rewrite (find_name_same s (b_cols B) (b_cols b)); [reflexivity|]. rewrite (shaped_names _ _ _ SB), (shaped_names _ _ _ Sb). reflexivity. }
    unfold get_column. rewrite EI. destruct (get_index x b) as [i|e|p]; cbn [rbind]; auto.
    unfold index. destruct (nth_error heads i) as [[nm t]|] eqn:H.
    + destruct (shaped_nth _ _ _ _ _ _ SB H) as (c & C1 & C2 & C3). destruct (shaped_nth _ _ _ _ _ _ Sb H) as (c' & C1' & C2' & C3').
      rewrite C1, C1'. cbn [or_panic rbind fst snd]. split; [reflexivity|]. split; [congruence|].
      intros r. pose proof (J k b n j Hb Hn Hj i _ _ C1 C1') as Q. cbn [snd] in Q. rewrite Q. reflexivity.
    + assert (forall b' m, shaped heads m b' -> nth_error (b_cols b') i = None) as NN.
      { intros b' m S. apply nth_error_None. rewrite (shaped_len _ _ _ S). apply nth_error_None, H. }
      rewrite (NN _ _ SB), (NN _ _ Sb). cbn [or_panic rbind]. auto.
Qed.

Lemma seq_app' a n m : seq a (n + m) = seq a n ++ seq (a + n) m.
Proof. apply seq_app. Qed.

Lemma pair_up (P : nat -> row -> Prop) ns bs : Forall2 (fun n b => count b = n) ns bs -> forall off,
  (forall k b n j, nth_error bs k = Some b -> nth_error ns k = Some n -> j < n -> P (off + (start_of ns k + j)) (mk_row j b)) ->
  Forall2 P (seq off (start_of ns (length ns))) (flat_map (fun b => rows_upto b (count b)) bs).
Proof.
  induction 1 as [|n b ns bs C F IH]; intros off H; [constructor|].
  cbn [length start_of flat_map]. rewrite seq_app. apply Forall2_app.
  - rewrite C. unfold rows_upto. specialize (H 0 b n). cbn [start_of nth_error] in H.
    assert (forall d i, i + d = n -> Forall2 P (seq (off + i) d) (map (fun j => mk_row j b) (seq i d))) as G.
    { induction d as [|d IHd]; intros i Hi; constructor.
      - apply (H i); auto; lia.
      - specialize (IHd (S i) ltac:(lia)). rewrite Nat.add_succ_r in IHd. exact IHd. }
    specialize (G n 0 eq_refl). rewrite Nat.add_0_r in G. exact G.
  - apply IH. intros k b' n' j Hb Hn Hj. specialize (H (S k) b' n' j Hb Hn Hj). cbn [start_of] in H.
    replace (off + n + (start_of ns k + j)) with (off + (n + start_of ns k + j)) by lia. exact H.
Qed.

Lemma F2_map_l {A B C} (f : A -> B) (R : B -> C -> Prop) l k : Forall2 (fun a c => R (f a) c) l k -> Forall2 R (map f l) k.
Proof. induction 1; constructor; auto. Qed.

(** The rows of the concatenation are the rows of the blocks. *)
Lemma joined_rows heads ns bs B : heads <> [] -> Forall2 (shaped heads) ns bs -> joined heads ns bs B ->
  iterates (block_rows B) (rows_upto B (start_of ns (length ns))) /\
  Forall2 same_row (rows_upto B (start_of ns (length ns))) (flat_map (fun b => rows_upto b (count b)) bs).
Proof.
  intros NE F J. split.
  - apply (iterates_from B (start_of ns (length ns))); [exact (shaped_count _ _ _ NE (proj1 J))|reflexivity].
  - unfold rows_upto at 1. apply F2_map_l. apply (pair_up (fun i r => same_row (mk_row i B) r)).
    + clear J. induction F as [|n b ns bs S F IH]; constructor; [|exact IH]. unfold count. rewrite (shaped_count _ _ _ NE S). reflexivity.
    + intros k b n j Hb Hn Hj. cbn [Nat.add]. eapply joined_row; eauto.
      clear - F Hb Hn. revert k Hb Hn. induction F as [|m b' ns bs S _ IH]; intros [|k] Hb Hn; try discriminate.
      * injection Hb as <-. injection Hn as <-. exact S.
      * exact (IH k Hb Hn).
Qed.
