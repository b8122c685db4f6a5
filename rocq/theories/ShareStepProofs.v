(** Proofs about the steps of programs on blocks that share storage (Sharing.v). *)
From Verif Require Import Base Bytes Types Values Columns Block Sharing SpecColumns SpecSharing PushProofs SharingProofs CastSendProofs CastMainProofs ShareBlockProofs.
Open Scope nat_scope.

Lemma put_param_at key v b k n c : find_name key (b_cols b) 0 = Some k -> nth_error (b_cols b) k = Some (n, c) ->
  put_param key v b = do c' <- push c v; Ok (put_back b k n c').
Proof.
  intros F H. unfold put_param. rewrite F, (push_at_eq _ _ v _ _ H). destruct (push c v); reflexivity.
Qed.
Lemma put_param_forget key v b k n c : find_name key (b_cols b) 0 = Some k -> nth_error (b_cols b) k = Some (n, c) ->
  put_param key v (mk_block (b_info b) (set_nth (b_cols b) k (n, forget c))) = do c' <- push (forget c) v; Ok (put_back b k n c').
Proof.
  intros F H. assert (L : k < length (b_cols b)) by (apply nth_error_Some; congruence).
  rewrite (put_param_at key v _ k n (forget c)).
  - destruct (push (forget c) v); cbn [rbind]; try reflexivity. unfold put_back. cbn [b_info b_cols]. rewrite set_nth_twice by exact L. reflexivity.
  - etransitivity; [exact (find_name_set key (b_cols b) k n c (forget c) 0 H)|exact F].
  - cbn [b_cols]. apply set_nth_here. exact L.
Qed.
Lemma puts_at key v b k n c c' : find_name key (b_cols b) 0 = Some k -> nth_error (b_cols b) k = Some (n, c) ->
  push c v = Ok c' \/ push (forget c) v = Ok c' -> puts key v b (Ok (put_back b k n c')).
Proof.
  intros F H [P|P].
  - left. rewrite (put_param_at key v b k n c F H), P. reflexivity.
  - right. exists k, n, c. split; [exact F|]. split; [exact H|]. rewrite (put_param_forget key v b k n c F H), P. reflexivity.
Qed.

(** A column that is added to a block. *)
Lemma build_tree h c h' a : built h c h' a -> sound h -> forall b, b < length h ->
  (content h' b = content h b /\ under h' b = under h b) /\ apart (under h' a) (under h' b).
Proof.
  intros (W & X & L & _ & F & _) W0 b Lb. split; [split; [apply extends_content|apply extends_under]; assumption|].
  intros y Hy H. apply F in Hy. apply under_le in H; [lia|exact W].
Qed.
Lemma good_below m st i hb z : good m st -> nth_error (m_blocks m) i = Some (Some hb) -> In z (trees (m_heap m) hb) -> z < length (m_heap m).
Proof.
  intros G Hi Hz. unfold trees in Hz. apply in_flat_map in Hz. destruct Hz as (r & Hr & Hz).
  apply under_le in Hz; [|apply (g_sound _ _ G)]. pose proof (g_in _ _ G _ _ _ Hi Hr). lia.
Qed.
Lemma nth_error_last {A} (l : list A) x : nth_error (l ++ [x]) (length l) = Some x.
Proof. rewrite nth_error_app2, Nat.sub_diag by lia. reflexivity. Qed.
Lemma drop_last {A} (l : list A) x : drop_nth (l ++ [x]) (length l) = l.
Proof.
  unfold drop_nth. rewrite firstn_app, Nat.sub_diag, firstn_all. cbn [firstn]. rewrite app_nil_r.
  rewrite skipn_all2 by (rewrite app_length; cbn; lia). apply app_nil_r.
Qed.
Lemma drop_set {A} (l : list A) i x : i < length l -> drop_nth (set_nth l i x) i = drop_nth l i.
Proof.
  intros H. unfold drop_nth, set_nth. rewrite firstn_app, firstn_firstn, firstn_length.
  replace (i - Nat.min i (length l)) with 0 by lia. cbn [firstn]. rewrite app_nil_r. rewrite Nat.min_id. f_equal.
  rewrite skipn_app, firstn_length. rewrite skipn_all2 by (rewrite firstn_length; lia). cbn [app].
  replace (S i - Nat.min i (length l)) with 1 by lia. reflexivity.
Qed.

Lemma add_built m st vs i hb b key c h1 a : good m st -> shows m vs -> nth_error (m_blocks m) i = Some (Some hb) ->
  block_at (m_heap m) hb = Ok b -> built (m_heap m) c h1 a ->
  let hb' := mk_hblock (hb_info hb) (hb_cols hb ++ [(key, a)]) in
  let b' := mk_block (b_info b) (b_cols b ++ [(key, c)]) in
  let m1 := mk_memory h1 (set_nth (m_blocks m) i (Some hb')) in
  good m1 st /\ shows m1 (set_nth vs i (Some b')) /\ block_at h1 hb' = Ok b' /\
  (forall y, In y (under h1 a) -> strong h1 (a :: others (m_blocks m1) i (length (hb_cols hb))) y = 1).
Proof.
  intros G S Hi Hb B hb' b' m1. pose proof B as (W1 & X & L & C & F & D).
  assert (Li : i < length (m_blocks m)) by (apply nth_error_Some; congruence).
  assert (K : forall j c0, nth_error (m_blocks m) j = Some (Some c0) -> keeps (m_heap m) h1 c0)
    by (intros j c0 Hj; exact (extends_keeps m st j c0 h1 G Hj W1 X)).
  assert (T : trees h1 hb' = trees (m_heap m) hb ++ under h1 a).
  { unfold trees, hb'. cbn [hb_cols]. rewrite map_app, flat_map_app'. cbn [map snd flat_map]. rewrite app_nil_r. f_equal.
    apply (keeps_trees _ _ _ (K i hb Hi)). }
  assert (Bb : block_at h1 hb' = Ok b').
  { apply block_at_eq. pose proof (keeps_block _ _ _ (K i hb Hi)) as E. rewrite Hb in E. apply block_at_eq in E.
    destruct E as (E1 & E2). split; [exact E1|]. apply F2_app; [exact E2|]. constructor; [|constructor]. split; [reflexivity|exact C]. }
  split; [|split; [|split; [exact Bb|]]].
  - subst m1. rewrite <- (ids_set_same st i) by (apply (g_live _ _ G _ _ Hi)).
    eapply good_set; [exact G|exact W1|exact Hi|intros j c0 _; apply K| |apply (g_live _ _ G _ _ Hi)|apply (g_ids _ _ G)| |].
    + intros z Hz. unfold hb' in Hz. cbn [hb_cols] in Hz. rewrite map_app in Hz. apply in_app_or in Hz. destruct Hz as [Hz|[<-|[]]].
      * pose proof (g_in _ _ G _ _ _ Hi Hz). pose proof (extends_length _ _ X). lia.
      * apply L.
    + intros N. rewrite T. apply NoDup_app_intro; [apply (g_nodup _ _ G _ _ Hi N)|exact D|]. intros y Hy H. apply F in H.
      apply (good_below m st i hb y G Hi) in Hy. lia.
    + intros j c0 N Hj A z Hz H. rewrite T in Hz. apply in_app_or in Hz. destruct Hz as [Hz|Hz].
      * exact (g_apart _ _ G i j hb c0 (fun e => N (eq_sym e)) Hi Hj A z Hz H).
      * apply F in Hz. apply (good_below m st j c0 z G Hj) in H. lia.
  - apply shows_set; [exact S|exact Li|intros j c0 _; apply K|exact Bb].
  - assert (O : forall r, In r (others (m_blocks m1) i (length (hb_cols hb))) -> r < length (m_heap m)).
    { intros r Hr. unfold others, m1 in Hr. cbn [m_blocks] in Hr. rewrite drop_set, set_nth_here in Hr by exact Li. apply in_app_or in Hr.
      destruct Hr as [Hr|Hr].
      - apply in_flat_map in Hr. destruct Hr as ([b0|] & Hb0 & Hr); [|destruct Hr]. apply drop_nth_in in Hb0.
        destruct Hb0 as (j & _ & Hj). exact (g_in _ _ G _ _ _ Hj Hr).
      - unfold hb' in Hr. cbn [cells hb_cols] in Hr. rewrite map_app in Hr. cbn [map snd] in Hr.
        pose proof (drop_last (map snd (hb_cols hb)) a) as E. rewrite map_length in E.
        assert (Hr' : In r (map snd (hb_cols hb))) by (rewrite <- E; exact Hr). exact (g_in _ _ G _ _ _ Hi Hr'). }
    intros y Hy. rewrite <- (app_nil_r (others (m_blocks m1) i (length (hb_cols hb)))). apply strong_alone; [exact W1| | |exact Hy].
    + cbn [flat_map]. rewrite app_nil_r. exact D.
    + intros r z Hr Hz H. apply F in Hz. apply O in Hr. apply under_le in H; [|exact W1]. lia.
Qed.

(** Putting a field. *)
Lemma put_field_spec m st vs i key v hb b : good m st -> shows m vs -> nth_error (m_blocks m) i = Some (Some hb) ->
  block_at (m_heap m) hb = Ok b ->
  match put_field m i key v with
  | Ok m' => exists b', puts key v b (Ok b') /\ shows m' (set_nth vs i (Some b')) /\ good m' st
  | Err e => puts key v b (Err e)
  | Panic p => puts key v b (Panic p) \/ (p = PUnwrap /\ exists k n c, find_name key (b_cols b) 0 = Some k /\
                 nth_error (b_cols b) k = Some (n, c) /\ plain (ctype c) = false)
  end.
Proof.
  intros G S Hi Hb. unfold put_field, var. rewrite Hi. cbn [rbind]. rewrite Hb. cbn [rbind].
  destruct (find_name key (b_cols b) 0) as [k|] eqn:Ef.
  - destruct (find_name_at_nth _ _ _ _ Ef) as (c & _ & Hk). rewrite Nat.sub_0_r in Hk.
    pose proof (put_at_spec m st vs i hb b k v key c G S Hi Hb Hk) as T.
    pose proof (put_param_at key v b k key c Ef Hk) as P1. pose proof (put_param_forget key v b k key c Ef Hk) as P2.
    destruct (put_at m i hb k v) as [m'|e|p].
    + destruct T as (c' & P & Sh & Gd). exists (put_back b k key c'). split; [|auto]. eapply puts_at; eauto.
    + destruct T as [P|P]; [left; rewrite P1, P; reflexivity|right]. exists k, key, c. rewrite P2, P. auto.
    + destruct T as [P|[P|P]]; [left; left; rewrite P1, P; reflexivity| |].
      * left. right. exists k, key, c. rewrite P2, P. auto.
      * right. destruct P as (-> & P). split; [reflexivity|]. exists k, key, c. auto.
  - unfold puts, put_param. rewrite Ef. destruct (row_count b) as [r|e|p]; cbn [rbind]; [|left; reflexivity|left; left; reflexivity].
    destruct (r <=? 1); [|left; reflexivity].
    destruct (from_type (type_of_value v) (extract_timezone v)) as [c|e|p]; cbn [rbind]; [|left; reflexivity|left; left; reflexivity].
    pose proof (build_spec c (m_heap m) (g_sound _ _ G)) as B. destruct (build c (m_heap m)) as [h1 a].
    destruct (add_built m st vs i hb b key c h1 a G S Hi Hb B) as (G1 & S1 & B1 & A1).
    assert (Li : i < length (m_blocks m)) by (apply nth_error_Some; congruence).
    assert (Ll : length (hb_cols hb) = length (b_cols b)).
    { apply block_at_eq in Hb. destruct Hb as (_ & HF). exact (F2_length _ _ _ HF). }
    set (hb' := mk_hblock (hb_info hb) (hb_cols hb ++ [(key, a)])) in *.
    set (b1 := mk_block (b_info b) (b_cols b ++ [(key, c)])) in *.
    set (m1 := mk_memory h1 (set_nth (m_blocks m) i (Some hb'))) in *.
    assert (Hi1 : nth_error (m_blocks m1) i = Some (Some hb')) by (apply set_nth_here; exact Li).
    assert (Hk : nth_error (b_cols b1) (length (b_cols b)) = Some (key, c)) by (apply nth_error_last).
    assert (Hx : nth_error (hb_cols hb') (length (hb_cols hb)) = Some (key, a)) by (apply (nth_error_last (hb_cols hb))).
    rewrite Ll in Hx, A1 |- *.
    pose proof (put_at_exact m1 st _ i hb' b1 _ v key c a G1 S1 Hi1 B1 Hk Hx A1) as T.
    pose proof (push_at_eq (b_cols b ++ [(key, c)]) (length (b_cols b)) v key c Hk) as E.
    destruct (put_at m1 i hb' (length (b_cols b)) v) as [m'|e|p]; unfold column in *; rewrite E.
    + destruct T as (c' & P & Sh & Gd). rewrite P. cbn [rbind]. eexists. split; [left; reflexivity|]. split; [|exact Gd].
      rewrite set_nth_twice in Sh by (rewrite (shows_length _ _ S); exact Li). exact Sh.
    + rewrite T. left. reflexivity.
    + rewrite T. left. left. reflexivity.
Qed.

(** Variables. *)
Lemma var_shows m vs i : shows m vs ->
  match var (m_blocks m) i with
  | Ok hb => nth_error (m_blocks m) i = Some (Some hb) /\ exists b, nth_error vs i = Some (Some b) /\ var vs i = Ok b /\ block_at (m_heap m) hb = Ok b
  | Err e => False
  | Panic p => p = PUndefined /\ var vs i = Panic PUndefined /\ (forall b, nth_error vs i <> Some (Some b))
  end.
Proof.
  intros S. unfold var. destruct (nth_error (m_blocks m) i) as [[hb|]|] eqn:E.
  - split; [reflexivity|]. destruct (shows_nth _ _ _ _ S E) as (b & Hb & B). exists b. rewrite Hb. auto.
  - split; [reflexivity|]. rewrite shows_eq in S. apply (f_equal (fun l => nth_error l i)) in S. cbn beta in S.
    rewrite (nth_error_map (show1 (m_heap m))), (nth_error_map show2), E in S. cbn in S.
    destruct (nth_error vs i) as [[b|]|]; cbn in S; try discriminate. split; [reflexivity|congruence].
  - split; [reflexivity|]. assert (N : nth_error vs i = None).
    { apply nth_error_None. rewrite (shows_length _ _ S). apply nth_error_None. exact E. }
    rewrite N. split; [reflexivity|congruence].
Qed.
Lemma var_nth {A} (bs : list (option A)) i b : var bs i = Ok b -> nth_error bs i = Some (Some b).
Proof. unfold var. destruct (nth_error bs i) as [[x|]|]; congruence. Qed.

(** New storages over old ones, or new altogether. *)
Lemma build_columns_spec cs : forall h, sound h -> let '(h', r) := build_columns cs h in
  sound h' /\ extends h h' /\ Forall2 (is_at h') r cs /\ (forall x, In x r -> length h <= snd x < length h') /\
  (forall y, In y (flat_map (under h') (map snd r)) -> length h <= y) /\ NoDup (flat_map (under h') (map snd r)).
Proof.
  induction cs as [|[n c] cs IH]; intros h W; cbn [build_columns].
  - split; [exact W|]. split; [apply extends_refl|]. split; [constructor|]. split; [intros x []|]. split; [intros y []|constructor].
  - pose proof (build_spec c h W) as B. destruct (build c h) as [h1 a]. pose proof B as (W1 & X1 & L1 & C1 & F1 & D1).
    pose proof (IH h1 W1) as Q. destruct (build_columns cs h1) as [h2 r]. destruct Q as (W2 & X2 & H2 & L2 & F2 & D2).
    destruct (built_later h c h1 a h2 B X2 W2) as (C1' & U1). pose proof (extends_length _ _ X1). pose proof (extends_length _ _ X2).
    split; [exact W2|]. split; [eapply extends_trans; eassumption|]. split; [constructor; [split; [reflexivity|exact C1']|exact H2]|].
    split; [intros x [<-|Hx]; [cbn [snd]; lia|apply L2 in Hx; lia]|]. cbn [map snd flat_map]. rewrite U1. split.
    + intros y Hy. apply in_app_or in Hy. destruct Hy as [Hy|Hy]; [apply F1, Hy|apply F2 in Hy; lia].
    + apply NoDup_app_intro; [exact D1|exact D2|]. intros y Hy H'. apply F2 in H'. apply under_le in Hy; [lia|exact W1].
Qed.

Fixpoint news (rows : list (bytes * node)) (h : heap) : heap * list hcolumn :=
  match rows with
  | [] => (h, [])
  | (n, x) :: rows' => let '(h1, y) := new_cell h x in let '(h2, r) := news rows' h1 in (h2, (n, y) :: r)
  end.
Lemma slices_news cs a b : forall h, slices cs a b h = news (map (fun x => (fst x, NView (snd x) (WChunk a b))) cs) h.
Proof. induction cs as [|[n x] cs IH]; intros h; [reflexivity|]. cbn [slices map news fst snd new_cell]. rewrite IH. reflexivity. Qed.
Lemma concats_news rows : forall h, concats rows h = news (map (fun x => (fst x, NConcat (fst (snd x)) (snd (snd x)))) rows) h.
Proof. induction rows as [|[n [x xs]] rows IH]; intros h; [reflexivity|]. cbn [concats map news fst snd new_cell]. rewrite IH. reflexivity. Qed.
Lemma read_node_ext f g n : (forall k, In k (kids n) -> f k = g k) -> read_node f n = read_node g n.
Proof.
  intros H. destruct n; cbn [read_node kids] in *; try reflexivity; try (rewrite (H i) by (left; reflexivity); reflexivity).
  - rewrite (H k), (H v) by (cbn; auto). reflexivity.
  - rewrite (H i) by (left; reflexivity). rewrite (mapM_ext f g is); [reflexivity|]. intros x Hx. apply H. right. exact Hx.
Qed.
Lemma news_spec rows : forall h, sound h -> (forall x k, In x rows -> In k (kids (snd x)) -> k < length h) ->
  let '(h', r) := news rows h in
  sound h' /\ extends h h' /\ (forall x, In x r -> snd x < length h') /\
  (forall vs, Forall2 (fun x y => fst x = fst y /\ read_node (content h) (snd x) = Ok (snd y)) rows vs -> Forall2 (is_at h') r vs) /\
  (forall y, In y (flat_map (under h') (map snd r)) -> length h <= y \/ In y (flat_map (fun x => flat_map (under h) (kids (snd x))) rows)).
Proof.
  induction rows as [|[n x] rows IH]; intros h W L; cbn [news new_cell].
  - split; [exact W|]. split; [apply extends_refl|]. split; [intros x []|]. split; [intros vs H; inversion H; constructor|intros y []].
  - destruct (new_cell_spec h x W) as (W1 & X1 & C1 & U1).
    { intros k Hk. exact (L _ k (or_introl eq_refl) Hk). }
    assert (L1 : forall z k, In z rows -> In k (kids (snd z)) -> k < length (h ++ [x])).
    { intros z k Hz Hk. rewrite app_length. pose proof (L z k (or_intror Hz) Hk). lia. }
    pose proof (IH _ W1 L1) as Q. destruct (news rows (h ++ [x])) as [h2 r]. destruct Q as (W2 & X2 & L2 & V2 & F2).
    pose proof (extends_length _ _ X1). pose proof (extends_length _ _ X2) as Q2. rewrite app_length in Q2. cbn [length] in Q2.
    assert (Ly : length h < length (h ++ [x])) by (rewrite app_length; cbn [length]; lia).
    pose proof (extends_content _ _ W1 W2 X2 _ Ly) as C2. pose proof (extends_under _ _ W1 W2 X2 _ Ly) as U2.
    split; [exact W2|]. split; [eapply extends_trans; eassumption|].
    split; [intros z [<-|Hz]; [cbn [snd]; lia|apply L2, Hz]|]. split.
    + intros vs H'. inversion H' as [|? [n' c] ? vs' (E1 & E2) HF]; subst. cbn [fst snd] in E1, E2. subst n'. constructor.
      * split; [reflexivity|]. cbn [snd]. rewrite C2, C1. exact E2.
      * apply V2. eapply F2_in_impl; [|exact HF]. intros z w Hz (P1 & P2). split; [exact P1|].
        rewrite <- P2. apply read_node_ext. intros k Hk. apply (extends_content h _ W W1 X1). exact (L z k (or_intror Hz) Hk).
    + intros y Hy. cbn [map snd flat_map] in Hy |- *. apply in_app_or in Hy. destruct Hy as [Hy|Hy].
      * rewrite U2, U1 in Hy. destruct Hy as [<-|Hy]; [left; lia|].
        right. apply in_or_app. left. exact Hy.
      * apply F2 in Hy. destruct Hy as [Hy|Hy]; [left; rewrite app_length in Hy; lia|]. right. apply in_or_app. right.
        apply in_flat_map in Hy. destruct Hy as (z & Hz & Hy). apply in_flat_map. exists z. split; [exact Hz|].
        apply in_flat_map in Hy. destruct Hy as (k & Hk & Hy). apply in_flat_map. exists k. split; [exact Hk|].
        rewrite (extends_under h _ W W1 X1) in Hy; [exact Hy|]. exact (L z k (or_intror Hz) Hk).
Qed.

(** Steps. *)
Lemma good_keeps m st i b : good m st -> nth_error (m_blocks m) i = Some (Some b) -> keeps (m_heap m) (m_heap m) b.
Proof. intros G H. exact (extends_keeps m st i b _ G H (g_sound _ _ G) (extends_refl _)). Qed.
Lemma apart_self {A} (l k : list A) : apart (l ++ k) l -> l = [].
Proof. destruct l as [|x l]; [reflexivity|]. intros H. destruct (H x); left; reflexivity. Qed.
Lemma NoDup_twice {A} (l : list A) : NoDup (l ++ l) -> l = [].
Proof. destruct l as [|x l]; [reflexivity|]. intros H. inversion H as [|? ? N _]. destruct N. apply in_or_app. right. left. reflexivity. Qed.
Lemma good_drop m st i hb : good m st -> nth_error (m_blocks m) i = Some (Some hb) ->
  good (mk_memory (m_heap m) (set_nth (m_blocks m) i None)) (set_nth st i None).
Proof.
  intros G Hi. pose proof (g_len _ _ G) as Len.
  assert (Li : i < length (m_blocks m)) by (apply nth_error_Some; congruence).
  assert (Old : forall j b, nth_error (set_nth (m_blocks m) i None) j = Some (Some b) -> j <> i /\ nth_error (m_blocks m) j = Some (Some b)).
  { intros j b H. destruct (Nat.eq_dec j i) as [->|N]; [rewrite set_nth_here in H by exact Li; discriminate|].
    rewrite set_nth_other in H by auto. auto. }
  assert (Ids : forall j, ids_of (set_nth st i None) j = if j =? i then [] else ids_of st j).
  { intros j. unfold ids_of. destruct (Nat.eqb_spec j i) as [->|N]; [rewrite set_nth_here by lia; reflexivity|].
    rewrite set_nth_other by lia. reflexivity. }
  assert (Ids' : forall j, j <> i -> ids_of (set_nth st i None) j = ids_of st j).
  { intros j N. rewrite Ids. destruct (Nat.eqb_spec j i); [contradiction|reflexivity]. }
  constructor; cbn [m_heap m_blocks].
  - apply (g_sound _ _ G).
  - intros j b a H Ha. destruct (Old j b H) as (_ & H'). exact (g_in _ _ G _ _ _ H' Ha).
  - rewrite !set_nth_length by lia. exact Len.
  - intros j b H. destruct (Old j b H) as (N & H'). rewrite (Ids' j N). exact (g_live _ _ G _ _ H').
  - intros j x Hx. rewrite set_nth_length by lia. rewrite Ids in Hx. destruct (j =? i); [destruct Hx|exact (g_ids _ _ G _ _ Hx)].
  - intros j b H D. destruct (Old j b H) as (N & H'). rewrite (Ids' j N) in D. exact (g_nodup _ _ G _ _ H' D).
  - intros j k b c N Hb Hc A. destruct (Old j b Hb) as (Nb & Hb'). destruct (Old k c Hc) as (Nc & Hc').
    rewrite (Ids' j Nb), (Ids' k Nc) in A. exact (g_apart _ _ G j k b c N Hb' Hc' A).
Qed.

Lemma slice_columns_form cs a e : forall acc b, slice_columns cs a e acc = Ok b ->
  b = mk_block (b_info acc) (b_cols acc ++ map (fun x => (fst x, CChunk (snd x) a e)) cs).
Proof.
  induction cs as [|[n c] cs IH]; intros acc b H; cbn [slice_columns map] in H |- *.
  - injection H as <-. rewrite app_nil_r. destruct acc; reflexivity.
  - inv_do H. rename E into Hx. apply IH in H. subst b. unfold append_column in *. destruct (clen (snd (n, CChunk c a e))) as [z|z|z]; cbn [rbind] in *; try discriminate.
    destruct (b_cols acc) as [|y ys] eqn:Ea.
    + injection Hx as <-. reflexivity.
    + destruct (row_count acc) as [w|w|w]; cbn [rbind] in Hx; try discriminate. destruct (w =? z); [|discriminate].
      injection Hx as <-. cbn [b_info b_cols fst snd]. f_equal. exact (eq_sym (app_assoc (y :: ys) _ _)).
Qed.

Lemma mapM_Ok_nth {A B} (f : A -> res B) l k : mapM f l = Ok k -> forall i x, nth_error l i = Some x -> exists y, nth_error k i = Some y /\ f x = Ok y.
Proof. intros H i x Hx. apply mapM_ok_F2 in H. destruct (F2_nth' _ _ _ H i x Hx) as (y & Hy & E). eauto. Qed.
Lemma index_nth {A} (l : list A) k : index l k = match nth_error l k with Some x => Ok x | None => Panic PIndex end.
Proof. unfold index. destruct (nth_error l k); reflexivity. Qed.

(** The columns at one position of several blocks. *)
Lemma column_row_spec h hbs vbs k vc : Forall2 (fun hb b => block_at h hb = Ok b) hbs vbs -> hbs <> [] ->
  (do xs <- nth_column vbs k; do c <- concat_cols (map snd xs); Ok (match xs with (n, _) :: _ => n | [] => [] end, c)) = Ok vc ->
  exists n a l, column_row hbs k = Ok (n, (a, l)) /\ fst vc = n /\ read_node (content h) (NConcat a l) = Ok (snd vc) /\
    (forall y, In y (a :: l) -> exists hb, In hb hbs /\ In y (map snd (hb_cols hb))).
Proof.
  intros F N H. inv_do H. inv_do H. injection H as <-. rename E into E1, E0 into E2. unfold nth_column in E1.
  assert (Q : exists xs, mapM (fun b => index (hb_cols b) k) hbs = Ok xs /\ Forall2 (is_at h) xs x /\
    (forall y, In y (map snd xs) -> exists hb, In hb hbs /\ In y (map snd (hb_cols hb)))).
  { clear N E2. revert x E1. induction F as [|hb b hbs vbs Hb F IH]; intros x E1; cbn [mapM] in E1 |- *.
    - injection E1 as <-. exists []. split; [reflexivity|]. split; [constructor|]. intros y [].
    - inv_do E1. inv_do E1. injection E1 as <-. rewrite index_nth in E. destruct (nth_error (b_cols b) k) as [z|] eqn:Ez; [|discriminate].
      injection E as <-. apply block_at_eq in Hb. destruct Hb as (_ & HF). destruct (F2_nth _ _ _ HF k z Ez) as (w & Hw & R).
      destruct (IH _ E0) as (xs & Q1 & Q2 & Q3). exists (w :: xs). rewrite index_nth, Hw. cbn [rbind]. rewrite Q1. cbn [rbind].
      split; [reflexivity|]. split; [constructor; assumption|]. cbn [map]. intros y [<-|Hy].
      + exists hb. split; [left; reflexivity|]. apply in_map. eapply nth_error_In, Hw.
      + destruct (Q3 y Hy) as (hb' & I1 & I2). exists hb'. split; [right; exact I1|exact I2]. }
  destruct Q as (xs & Q1 & Q2 & Q3). unfold column_row. rewrite Q1. cbn [rbind].
  destruct Q2 as [|[n a] [n' c] xs x (R1 & R2) Q2]; [discriminate E2|]. cbn [fst snd] in R1, R2. subst n'.
  exists n, a, (map snd xs). split; [reflexivity|]. cbn [fst snd map] in E2 |- *. split; [reflexivity|]. split.
  - cbn [read_node]. rewrite R2. cbn [rbind]. unfold concat_cols in E2. destruct (forallb _ _); [|discriminate]. inv_do E2. injection E2 as <-.
    rewrite (mapM_F2 (content h) (map snd xs) (map snd x)); [reflexivity|]. clear - Q2. induction Q2 as [|p q ? ? (_ & H) _ IH]; constructor; auto.
  - intros y Hy. apply (Q3 y). exact Hy.
Qed.
Lemma concat_rows_spec h hbs vbs : Forall2 (fun hb b => block_at h hb = Ok b) hbs vbs -> hbs <> [] -> forall ks cs,
  mapM (fun k => do xs <- nth_column vbs k; do c <- concat_cols (map snd xs); Ok (match xs with (n, _) :: _ => n | [] => [] end, c)) ks = Ok cs ->
  exists rows, mapM (column_row hbs) ks = Ok rows /\
    Forall2 (fun x y => fst x = fst y /\ read_node (content h) (snd x) = Ok (snd y)) (map (fun x => (fst x, NConcat (fst (snd x)) (snd (snd x)))) rows) cs /\
    (forall r y, In r rows -> In y (fst (snd r) :: snd (snd r)) -> exists hb, In hb hbs /\ In y (map snd (hb_cols hb))).
Proof.
  intros F N. induction ks as [|k ks IH]; intros cs H; cbn [mapM] in H |- *.
  - injection H as <-. exists []. split; [reflexivity|]. split; [constructor|]. intros r y [].
  - apply bind_ok in H. destruct H as (vc & Hc & H). inv_do H. injection H as <-. destruct (IH _ E) as (rows & R1 & R2 & R3).
    destruct (column_row_spec h hbs vbs k vc F N Hc) as (n & a & l & Q1 & Q2 & Q3 & Q4). exists ((n, (a, l)) :: rows).
    rewrite Q1. cbn [rbind]. rewrite R1. cbn [rbind]. split; [reflexivity|]. split.
    + cbn [map fst snd]. constructor; [|exact R2]. cbn [fst snd]. split; [symmetry; exact Q2|exact Q3].
    + intros r y [<-|Hr] Hy; [exact (Q4 y Hy)|exact (R3 r y Hr Hy)].
Qed.

Lemma vars_shows m vs : shows m vs -> forall is,
  match mapM (var (m_blocks m)) is with
  | Ok hbs => Forall2 (fun i hb => nth_error (m_blocks m) i = Some (Some hb)) is hbs /\
      exists bs, mapM (var vs) is = Ok bs /\ Forall2 (fun hb b => block_at (m_heap m) hb = Ok b) hbs bs
  | Err e => False
  | Panic p => mapM (var vs) is = Panic p
  end.
Proof.
  intros S. induction is as [|i is IH]; cbn [mapM].
  - split; [constructor|]. exists []. split; [reflexivity|constructor].
  - pose proof (var_shows m vs i S) as V. destruct (var (m_blocks m) i) as [hb|e|p]; cbn [rbind]; [|contradiction|].
    + destruct V as (Hi & b & _ & Vb & B). rewrite Vb. cbn [rbind]. destruct (mapM (var (m_blocks m)) is) as [hbs|e|p]; cbn [rbind]; [|contradiction|].
      * destruct IH as (I1 & bs & I2 & I3). split; [constructor; assumption|]. exists (b :: bs). rewrite I2. cbn [rbind]. split; [reflexivity|constructor; assumption].
      * rewrite IH. reflexivity.
    + destruct V as (-> & -> & _). reflexivity.
Qed.
Lemma F2_len2 {A B} (R : A -> B -> Prop) l k : Forall2 R l k -> length l = length k.
Proof. induction 1; cbn; congruence. Qed.

Lemma step_eq vs o r r' : step_of vs o r' -> r = r' -> step_of vs o r.
Proof. intros H ->. exact H. Qed.

Lemma perform_spec m st vs o : good m st -> shows m vs ->
  match perform m o with
  | Ok m' => exists vs', step_of vs o (Ok vs') /\ shows m' vs' /\ good m' (origin_step st o)
  | Err e => step_of vs o (Err e)
  | Panic p => step_of vs o (Panic p) \/ (p = PUnwrap /\ stuck vs o)
  end.
Proof.
  intros G S. pose proof (g_sound _ _ G) as W. destruct o as [b|i|i|i key v|i x j name|i a e|is]; cbn [perform origin_step].
  - pose proof (build_columns_spec (b_cols b) (m_heap m) W) as B. destruct (build_columns (b_cols b) (m_heap m)) as [h' cs].
    destruct B as (W' & X & F & L & T & D).
    assert (K : forall j c0, nth_error (m_blocks m) j = Some (Some c0) -> keeps (m_heap m) h' c0)
      by (intros j c0 Hj; exact (extends_keeps m st j c0 h' G Hj W' X)).
    exists (vs ++ [Some b]). split; [constructor|]. split.
    + apply shows_append; [exact S|exact K|]. apply block_at_eq. split; [reflexivity|exact F].
    + apply good_append; [exact G|exact W'|exact K| |congruence| | |].
      * intros z Hz. cbn [hb_cols] in Hz. apply in_map_iff in Hz. destruct Hz as (w & <- & Hw). apply L, Hw.
      * intros z [<-|[]]. lia.
      * intros _. exact D.
      * intros k c0 Hk _ z Hz H. apply T in Hz. rewrite (keeps_trees _ _ _ (K k c0 Hk)) in H. apply (good_below m st k c0 z G Hk) in H. lia.
  - pose proof (var_shows m vs i S) as V. destruct (var (m_blocks m) i) as [hb|e|p]; cbn [rbind]; [|contradiction|].
    + destruct V as (Hi & b & Hb & Vb & B). exists (vs ++ [Some b]). split; [eapply step_eq; [apply step_clone|rewrite Vb; reflexivity]|].
      assert (K : forall j c0, nth_error (m_blocks m) j = Some (Some c0) -> keeps (m_heap m) (m_heap m) c0)
        by (intros j c0 Hj; exact (good_keeps m st j c0 G Hj)).
      split; [apply shows_append; [exact S|exact K|exact B]|].
      apply good_append; [exact G|exact W|exact K| |apply (g_live _ _ G _ _ Hi)| | |].
      * intros z Hz. exact (g_in _ _ G _ _ _ Hi Hz).
      * intros z Hz. apply (g_ids _ _ G) in Hz. lia.
      * apply (g_nodup _ _ G _ _ Hi).
      * intros j c0 Hj A. destruct (Nat.eq_dec i j) as [<-|N]; [|exact (g_apart _ _ G i j hb c0 N Hi Hj A)].
        exfalso. apply (g_live _ _ G _ _ Hi). apply (apart_self _ []). rewrite app_nil_r. exact A.
    + destruct V as (-> & V & _). left. eapply step_eq; [apply step_clone|rewrite V; reflexivity].
  - pose proof (var_shows m vs i S) as V. destruct (var (m_blocks m) i) as [hb|e|p]; cbn [rbind]; [|contradiction|].
    + destruct V as (Hi & b & Hb & Vb & B). exists (set_nth vs i None). split; [eapply step_eq; [apply step_drop|rewrite Vb; reflexivity]|].
      split; [apply shows_drop, S|exact (good_drop m st i hb G Hi)].
    + destruct V as (-> & V & _). left. eapply step_eq; [apply step_drop|rewrite V; reflexivity].
  - pose proof (var_shows m vs i S) as V. destruct (var (m_blocks m) i) as [hb|e|p] eqn:Ev; [|contradiction|].
    + destruct V as (Hi & b & Hb & Vb & B). pose proof (put_field_spec m st vs i key v hb b G S Hi B) as T.
      destruct (put_field m i key v) as [m'|e|p].
      * destruct T as (b' & P & Sh & Gd). exists (set_nth vs i (Some b')). split; [|auto]. eapply step_eq; [eapply step_put; eassumption|reflexivity].
      * eapply step_eq; [eapply step_put; eassumption|reflexivity].
      * destruct T as [T|(-> & k & n & c & T1 & T2 & T3)]; [left; eapply step_eq; [eapply step_put; eassumption|reflexivity]|].
        right. split; [reflexivity|]. exists i, key, v, b, k, n, c. auto.
    + destruct V as (-> & _ & V). unfold put_field. rewrite Ev. cbn [rbind]. left. apply step_put_none. exact V.
  - pose proof (var_shows m vs i S) as V. destruct (var (m_blocks m) i) as [hb|e|p] eqn:Ev; cbn [rbind]; [|contradiction|].
    2: { destruct V as (-> & V & _). left. eapply step_eq; [apply step_take|rewrite V; reflexivity]. }
    destruct V as (Hi & b & Hb & Vb & B). rewrite B. cbn [rbind].
    pose proof (step_take vs i x j name) as ST. rewrite Vb in ST. cbn [rbind] in ST. unfold get_column in ST.
    destruct (get_index x b) as [k|e|p]; cbn [rbind] in ST |- *; [|exact ST|left; exact ST].
    unfold index in ST |- *. pose proof B as B'. apply block_at_eq in B'. destruct B' as (_ & HF).
    destruct (nth_error (hb_cols hb) k) as [[n a]|] eqn:Ek; cbn [or_panic rbind].
    2: { assert (nth_error (b_cols b) k = None) as Eb by (apply nth_error_None; rewrite <- (F2_len2 _ _ _ HF); apply nth_error_None; exact Ek).
         rewrite Eb in ST. cbn [or_panic rbind] in ST. left. exact ST. }
    destruct (F2_nth' _ _ _ HF k (n, a) Ek) as ([n' c] & Hc & En & Ca). cbn [fst snd] in En, Ca. subst n'. rewrite Hc in ST. cbn [or_panic rbind] in ST.
    pose proof (var_shows m vs j S) as V. destruct (var (m_blocks m) j) as [hd|e|p] eqn:Ev'; cbn [rbind]; [|contradiction|].
    2: { destruct V as (-> & V & _). rewrite V in ST. left. exact ST. }
    destruct V as (Hj & d & Hd & Vd & Bd). rewrite Bd, Vd in *. cbn [rbind snd] in ST |- *. rewrite Ca. cbn [rbind].
    destruct (append_column d (name, c)) as [d'|e|p] eqn:Ea; cbn [rbind] in ST |- *; [|exact ST|left; exact ST].
    exists (set_nth vs j (Some d')). split; [exact ST|].
    assert (Ed : d' = mk_block (b_info d) (b_cols d ++ [(name, c)])).
    { unfold append_column in Ea. destruct (clen (snd (name, c))) as [z|z|z]; cbn [rbind] in Ea; try discriminate.
      destruct (b_cols d) as [|y ys]; [injection Ea as <-; reflexivity|].
      destruct (row_count d) as [w|w|w]; cbn [rbind] in Ea; try discriminate. destruct (w =? z); [|discriminate]. injection Ea as <-. reflexivity. }
    subst d'. assert (Ia : In a (map snd (hb_cols hb))) by (apply (in_map snd) with (x := (n, a)); eapply nth_error_In, Ek).
    assert (T : trees (m_heap m) (mk_hblock (hb_info hd) (hb_cols hd ++ [(name, a)])) = trees (m_heap m) hd ++ under (m_heap m) a).
    { unfold trees. cbn [hb_cols]. rewrite map_app, flat_map_app'. cbn [map snd flat_map]. rewrite app_nil_r. reflexivity. }
    assert (Ua : forall z, In z (under (m_heap m) a) -> In z (trees (m_heap m) hb)).
    { intros z Hz. apply in_flat_map. exists a. auto. }
    assert (Lj : j < length (m_blocks m)) by (apply nth_error_Some; congruence).
    split.
    + apply shows_set; [exact S|exact Lj|intros q c0 _ Hq; exact (good_keeps m st q c0 G Hq)|]. apply block_at_eq.
      apply block_at_eq in Bd. destruct Bd as (Bd1 & Bd2). split; [exact Bd1|]. cbn [b_cols hb_cols]. apply F2_app; [exact Bd2|].
      constructor; [|constructor]. split; [reflexivity|exact Ca].
    + eapply good_set; [exact G|exact W|exact Hj|intros q c0 _ Hq; exact (good_keeps m st q c0 G Hq)| | | | |].
      * intros z Hz. cbn [hb_cols] in Hz. rewrite map_app in Hz. apply in_app_or in Hz. destruct Hz as [Hz|[<-|[]]]; [exact (g_in _ _ G _ _ _ Hj Hz)|].
        exact (g_in _ _ G _ _ _ Hi Ia).
      * intros H. apply app_eq_nil in H. exact (g_live _ _ G _ _ Hj (proj1 H)).
      * intros z Hz. apply in_app_or in Hz. destruct Hz as [Hz|Hz]; exact (g_ids _ _ G _ _ Hz).
      * intros N. rewrite T. destruct (Nat.eq_dec i j) as [<-|Nij]; [exfalso; exact (g_live _ _ G _ _ Hi (NoDup_twice _ N))|].
        apply NoDup_app_elim in N. destruct N as (N1 & N2 & N3). apply NoDup_app_intro; [exact (g_nodup _ _ G _ _ Hj N1)| |].
        -- exact (flat_part (under (m_heap m)) _ a (g_nodup _ _ G _ _ Hi N2) Ia).
        -- intros z Hz H. apply Ua in H. exact (g_apart _ _ G j i hd hb (fun q => Nij (eq_sym q)) Hj Hi N3 z Hz H).
      * intros q c0 N Hq A z Hz H. rewrite T in Hz. apply in_app_or in Hz. destruct Hz as [Hz|Hz].
        -- refine (g_apart _ _ G j q hd c0 (fun e => N (eq_sym e)) Hj Hq _ z Hz H). intros y Hy. apply A. apply in_or_app. left. exact Hy.
        -- apply Ua in Hz. assert (A' : apart (ids_of st i) (ids_of st q)) by (intros y Hy; apply A; apply in_or_app; right; exact Hy).
           destruct (Nat.eq_dec i q) as [<-|Niq]; [|exact (g_apart _ _ G i q hb c0 Niq Hi Hq A' z Hz H)].
           apply (g_live _ _ G _ _ Hi). apply (apart_self _ []). rewrite app_nil_r. exact A'.
  - pose proof (var_shows m vs i S) as V. destruct (var (m_blocks m) i) as [hb|e0|p] eqn:Ev; cbn [rbind]; [|contradiction|].
    2: { destruct V as (-> & V & _). left. eapply step_eq; [apply step_slice|rewrite V; reflexivity]. }
    destruct V as (Hi & b & Hb & Vb & B). rewrite B. cbn [rbind].
    pose proof (step_slice vs i a e) as ST. rewrite Vb in ST. cbn [rbind] in ST.
    destruct (slice_columns (b_cols b) a e block_default) as [b'|e0|p] eqn:Es; cbn [rbind] in ST |- *; [|exact ST|left; exact ST].
    apply slice_columns_form in Es. cbn [block_default b_cols b_info app] in Es. apply block_at_eq in B. destruct B as (B1 & B2).
    rewrite slices_news.
    pose proof (news_spec (map (fun x => (fst x, NView (snd x) (WChunk a e))) (hb_cols hb)) (m_heap m) W) as Q.
    assert (Kd : forall x k, In x (map (fun x => (fst x, NView (snd x) (WChunk a e))) (hb_cols hb)) -> In k (kids (snd x)) -> In k (map snd (hb_cols hb))).
    { intros x k Hx Hk. apply in_map_iff in Hx. destruct Hx as (y & <- & Hy). cbn [snd kids] in Hk. destruct Hk as [<-|[]]. apply in_map, Hy. }
    specialize (Q (fun x k Hx Hk => g_in _ _ G _ _ _ Hi (Kd x k Hx Hk))).
    destruct (news _ (m_heap m)) as [h' cs]. destruct Q as (W' & X & L & F & T).
    assert (K : forall j c0, nth_error (m_blocks m) j = Some (Some c0) -> keeps (m_heap m) h' c0)
      by (intros j c0 Hj; exact (extends_keeps m st j c0 h' G Hj W' X)).
    exists (vs ++ [Some b']). split; [exact ST|]. split.
    + apply shows_append; [exact S|exact K|]. apply block_at_eq. subst b'. split; [reflexivity|]. cbn [hb_cols b_cols]. apply F.
      clear - B2. induction B2 as [|[n x] [n' c] l k (H1 & H2) _ IH]; cbn [map]; constructor; [|exact IH].
      cbn [fst snd] in *. subst. split; [reflexivity|]. cbn [read_node]. rewrite H2. reflexivity.
    + apply good_append; [exact G|exact W'|exact K| | | | |].
      * intros z Hz. cbn [hb_cols] in Hz. apply in_map_iff in Hz. destruct Hz as (w & <- & Hw). apply L, Hw.
      * intros H. apply app_eq_nil in H. exact (g_live _ _ G _ _ Hi (proj1 H)).
      * intros z Hz. enough (z < length st) by lia. apply in_app_or in Hz. destruct Hz as [Hz|Hz]; exact (g_ids _ _ G _ _ Hz).
      * intros N. exfalso. exact (g_live _ _ G _ _ Hi (NoDup_twice _ N)).
      * intros k c0 Hk A z Hz H. rewrite (keeps_trees _ _ _ (K k c0 Hk)) in H. apply T in Hz. destruct Hz as [Hz|Hz].
        -- apply (good_below m st k c0 z G Hk) in H. lia.
        -- assert (Hz' : In z (trees (m_heap m) hb)).
           { apply in_flat_map in Hz. destruct Hz as (x & Hx & Hz). apply in_flat_map in Hz. destruct Hz as (y & Hy & Hz).
             apply in_flat_map. exists y. split; [exact (Kd x y Hx Hy)|exact Hz]. }
           assert (A' : apart (ids_of st i) (ids_of st k)) by (intros y Hy; apply A; apply in_or_app; left; exact Hy).
           destruct (Nat.eq_dec i k) as [<-|Nik]; [|exact (g_apart _ _ G i k hb c0 Nik Hi Hk A' z Hz' H)].
           apply (g_live _ _ G _ _ Hi). apply (apart_self _ []). rewrite app_nil_r. exact A'.
  - pose proof (vars_shows m vs S is) as V. pose proof (step_concat vs is) as ST.
    destruct (mapM (var (m_blocks m)) is) as [hbs|e|p]; cbn [rbind]; [|contradiction|left; rewrite V in ST; exact ST].
    destruct V as (Vi & bs & Vb & B). rewrite Vb in ST. cbn [rbind] in ST. rewrite (mapM_F2 _ _ bs B). cbn [rbind].
    destruct (block_concat bs) as [b'|e|p] eqn:Ec; cbn [rbind] in ST |- *; [|exact ST|left; exact ST].
    destruct B as [|hb0 b0 hbs bs B0 B]; [discriminate Ec|]. cbn [block_concat] in Ec.
    destruct (forallb _ _); [|discriminate]. apply bind_ok in Ec. destruct Ec as (cs & Ec & Eb). injection Eb as <-.
    pose proof B0 as B0'. apply block_at_eq in B0'. destruct B0' as (I0 & F0).
    destruct (concat_rows_spec (m_heap m) (hb0 :: hbs) (b0 :: bs) (Forall2_cons _ _ B0 B) ltac:(discriminate) _ _ Ec) as (rows & R1 & R2 & R3).
    rewrite (F2_len2 _ _ _ F0), R1. cbn [rbind]. rewrite concats_news.
    pose proof (news_spec (map (fun x => (fst x, NConcat (fst (snd x)) (snd (snd x)))) rows) (m_heap m) W) as Q.
    assert (Kd : forall x k, In x (map (fun x => (fst x, NConcat (fst (snd x)) (snd (snd x)))) rows) -> In k (kids (snd x)) ->
      exists i hb, In i is /\ nth_error (m_blocks m) i = Some (Some hb) /\ In k (map snd (hb_cols hb))).
    { intros x k Hx Hk. apply in_map_iff in Hx. destruct Hx as (y & <- & Hy). cbn [snd kids] in Hk. destruct (R3 y k Hy Hk) as (hb & Ih & Ik).
      apply In_nth_error in Ih. destruct Ih as (q & Hq). destruct (F2_nth _ _ _ Vi q hb Hq) as (i & Hiq & Hi).
      exists i, hb. split; [eapply nth_error_In, Hiq|auto]. }
    assert (Kl : forall x k, In x (map (fun x => (fst x, NConcat (fst (snd x)) (snd (snd x)))) rows) -> In k (kids (snd x)) -> k < length (m_heap m)).
    { intros x k Hx Hk. destruct (Kd x k Hx Hk) as (i & hb & _ & Hi & Ik). exact (g_in _ _ G _ _ _ Hi Ik). }
    specialize (Q Kl). destruct (news _ (m_heap m)) as [h' hcs]. destruct Q as (W' & X & L & F & T).
    assert (K : forall j c0, nth_error (m_blocks m) j = Some (Some c0) -> keeps (m_heap m) h' c0)
      by (intros j c0 Hj; exact (extends_keeps m st j c0 h' G Hj W' X)).
    assert (Lv : forall i, In i is -> ids_of st i <> []).
    { intros i Hin. apply In_nth_error in Hin. destruct Hin as (q & Hq). destruct (F2_nth' _ _ _ Vi q i Hq) as (hb & _ & Hi). exact (g_live _ _ G _ _ Hi). }
    assert (Ne : flat_map (ids_of st) is <> []).
    { destruct is as [|i is']; [inversion Vi|]. cbn [flat_map]. intros H. apply app_eq_nil in H. exact (Lv i (or_introl eq_refl) (proj1 H)). }
    eexists. split; [exact ST|]. split.
    + apply shows_append; [exact S|exact K|]. apply block_at_eq. split; [exact I0|]. cbn [hb_cols b_cols]. apply F. exact R2.
    + apply good_append; [exact G|exact W'|exact K| | | | |].
      * intros z Hz. cbn [hb_cols] in Hz. apply in_map_iff in Hz. destruct Hz as (w & <- & Hw). apply L, Hw.
      * intros H. apply app_eq_nil in H. exact (Ne (proj1 H)).
      * intros z Hz. enough (z < length st) by lia. apply in_app_or in Hz. destruct Hz as [Hz|Hz]; apply in_flat_map in Hz; destruct Hz as (q & _ & Hz); exact (g_ids _ _ G _ _ Hz).
      * intros N. exfalso. exact (Ne (NoDup_twice _ N)).
      * intros k c0 Hk A z Hz H. rewrite (keeps_trees _ _ _ (K k c0 Hk)) in H. apply T in Hz. destruct Hz as [Hz|Hz].
        -- apply (good_below m st k c0 z G Hk) in H. lia.
        -- apply in_flat_map in Hz. destruct Hz as (x & Hx & Hz). apply in_flat_map in Hz. destruct Hz as (y & Hy & Hz).
           destruct (Kd x y Hx Hy) as (i & hb & Ii & Hi & Iy).
           assert (Hz' : In z (trees (m_heap m) hb)) by (apply in_flat_map; exists y; auto).
           assert (A' : apart (ids_of st i) (ids_of st k)).
           { intros w Hw. apply A. apply in_or_app. left. apply in_flat_map. exists i. auto. }
           destruct (Nat.eq_dec i k) as [<-|Nik]; [|exact (g_apart _ _ G i k hb c0 Nik Hi Hk A' z Hz' H)].
           apply (g_live _ _ G _ _ Hi). apply (apart_self _ []). rewrite app_nil_r. exact A'.
Qed.
