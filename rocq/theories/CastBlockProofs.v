(** Inserting a converted block, piece by piece. *)
From Verif Require Import Base Bytes Utf8 Reader Wire Types Text TypeNames Decimal DateTime Values Columns Casts Block.
From Verif Require Import SpecWire SpecColumns SpecTypes SpecCasts SpecBlock ReaderProofs Utf8Proofs WireProofs PushProofs TypeNamesProofs LoadTypeProofs SendProofs RangeProofs BlockProofs.
From Verif Require Import CastProofs CastSendProofs CastMainProofs.
Open Scope nat_scope.

Section Insert.
Variable tz_known : bytes -> bool.
Variable tz : bytes.

(** A column that is written and read as [y]. *)
Definition passes (n : nat) (x y : column) : Prop :=
  clen (snd y) = Ok n /\
  exists bs, write_column x = Ok bs /\ forall r, run (read_column tz_known (N.of_nat n) tz) (bs ++ r) = Ok (y, r).

Lemma columns_pass n xs ys : Forall2 (passes n) xs ys ->
  exists parts, mapM write_column xs = Ok parts /\
    forall info done r, Forall (fun x => clen (snd x) = Ok n) done ->
      run (pfold (length xs) (fun b => let! c := read_column tz_known (N.of_nat n) tz in lift (append_column b c))
            (mk_block info done)) (concat parts ++ r) = Ok (mk_block info (done ++ ys), r).
Proof.
  induction 1 as [|x y xs ys (L & bs & E & R) Hxs (parts & E' & R')].
  - exists []. split; [reflexivity|]. intros info done r _. cbn. rewrite app_nil_r. reflexivity.
  - exists (bs :: parts). cbn [mapM]. rewrite E, E'. split; [reflexivity|]. intros info done r Hd.
    cbn [length pfold concat]. rewrite <- app_assoc, run_bind, run_bind, R.
    assert (append_column (mk_block info done) y = Ok (mk_block info (done ++ [y]))) as A.
    { unfold append_column, row_count. destruct y as [yn yc]. cbn [snd b_cols b_info] in L |- *. rewrite L. cbn [rbind].
      destruct done as [|[n0 c0] done]; [reflexivity|]. inversion Hd as [|? ? H0 _]. cbn [snd] in H0. rewrite H0.
      cbn [rbind]. rewrite Nat.eqb_refl. reflexivity. }
    rewrite A. cbn [lift run]. rewrite R'.
    + rewrite <- app_assoc. reflexivity.
    + apply Forall_app. split; [exact Hd|]. constructor; [exact L|constructor].
Qed.

Lemma block_passes n b ys : (- 2 ^ 31 <= bi_bucket (b_info b) < 2 ^ 31)%Z -> (N.of_nat n < 2 ^ 64)%N -> (lenN (b_cols b) < 2 ^ 64)%N ->
  row_count b = Ok n -> Forall2 (passes n) (b_cols b) ys ->
  exists bs, write_block b = Ok bs /\ forall r, run (raw_load tz_known tz) (bs ++ r) = Ok (mk_block (b_info b) ys, r).
Proof.
  intros HB HN HC RC F. destruct (run_write_info _ HB) as (i & Ei & Ri).
  destruct (enc_uvarint_ok _ HC) as (nc & Ec & _ & _ & _ & _ & Rc & _).
  destruct (enc_uvarint_ok _ HN) as (nr & Er & _ & _ & _ & _ & Rr & _).
  destruct (columns_pass n _ _ F) as (parts & E & R).
  unfold write_block. rewrite Ei, Ec, RC. cbn [rbind]. rewrite Er, E. cbn [rbind].
  exists (i ++ nc ++ nr ++ concat parts). split; [reflexivity|].
  intros r. unfold raw_load. rewrite <- !app_assoc.
  rewrite run_bind, Ri, run_bind, Rc, run_bind, Rr, pfoldN_nat.
  unfold lenN. rewrite Nat2N.id. rewrite R by constructor. reflexivity.
Qed.

Lemma chunk_passes n c' t ws a k : is_utf8 n -> (lenN n <= isize_max)%N -> is_utf8 (type_name t) -> (lenN (type_name t) <= isize_max)%N ->
  ctype c' = t -> conveys tz_known tz c' t ws -> a + k <= length ws -> a = 0 \/ flat c' = true ->
  exists y, passes k (n, CChunk c' a (a + k)) y /\ fst y = n /\ ctype (snd y) = t /\ holds (snd y) (sub ws a (a + k)).
Proof.
  intros U L TU TL T [_ H] B F. destruct (H a (a + k) ltac:(lia) F) as (d & E3 & y & Ty & Hy & R3).
  destruct (enc_string_read _ L) as (e1 & E1 & R1). destruct (enc_string_read _ TL) as (e2 & E2 & R2).
  exists (n, y). split; [|auto]. split; [cbn [snd]; rewrite (proj1 Hy), sub_length by lia; f_equal; lia|].
  exists (e1 ++ e2 ++ d). split.
  - unfold write_column. cbn [fst snd ctype clen]. rewrite E1, T, E2. cbn [rbind]. replace (a + k - a) with k by lia.
    cbn [save]. rewrite Nat.add_0_r, Nat.min_id, E3. reflexivity.
  - intros r. unfold read_column. rewrite <- !app_assoc.
    rewrite run_bind. destruct (R1 (e2 ++ d ++ r)) as (_ & _ & ->).
    rewrite (proj2 (utf8_valid_spec _) U). rewrite run_bind. destruct (R2 (d ++ r)) as (_ & _ & ->).
    rewrite (proj2 (utf8_valid_spec _) TU). rewrite run_bind. unfold load_column.
    rewrite sub_all in R3 by lia. replace (a + k - a) with k in R3 by lia.
    rewrite R3 by (unfold enough; lia). reflexivity.
Qed.

(** The pieces of a block. *)
Definition cut_block (b : block) (ak : nat * nat) : block :=
  mk_block info_default (map (fun x => (fst x, CChunk (snd x) (fst ak) (fst ak + snd ak))) (b_cols b)).
Lemma chunk_shape n m b : 0 < n -> 0 < m -> row_count b = Ok m ->
  forall fuel pos, m - pos < fuel -> chunk_all fuel n b pos = Ok (map (cut_block b) (pieces fuel n pos m)).
Proof.
  intros Hn Hm RC. induction fuel as [|fuel IH]; intros pos Hf; [lia|]. cbn [chunk_all pieces].
  unfold chunk_next. rewrite RC. cbn [rbind]. destruct (Nat.eqb_spec m 0); [lia|]. cbn [andb].
  destruct (Nat.leb_spec m pos).
  - reflexivity.
  - rewrite slice_columns_ok by constructor. cbn [rbind app b_cols b_info block_default].
    set (k := Nat.min n (m - pos)). rewrite IH by lia. reflexivity.
Qed.
Lemma pieces_all {A} (l : list A) n m : 0 < n -> length l = m -> forall fuel pos, m - pos < fuel ->
  concat (map (fun ak => sub l (fst ak) (fst ak + snd ak)) (pieces fuel n pos m)) = skipn pos l.
Proof.
  intros Hn L. induction fuel as [|fuel IH]; intros pos Hf; [lia|]. cbn [pieces]. destruct (Nat.leb_spec m pos).
  - symmetry. apply skipn_all2. lia.
  - cbn [map concat fst snd]. rewrite IH by lia. unfold sub. set (k := Nat.min n (m - pos)). replace (pos + k - pos) with k by lia.
    rewrite <- (firstn_skipn k (skipn pos l)) at 2. f_equal. rewrite skipn_add. f_equal.
Qed.

Variable parse_ipv4 parse_ipv6 : bytes -> option bytes.

Lemma convertible_conveys c vs t ws c' : convertible tz_known tz parse_ipv4 parse_ipv6 c vs t ws ->
  cast_col parse_ipv4 parse_ipv6 c t = Ok c' -> fits c' -> ctype c' = t /\ conveys tz_known tz c' t ws.
Proof.
  intros (HB & HH & HP & HM & NM & TT & NE & CV & B & ST & WT) E FT. pose proof (cast_inv _ _ _ _ _ E) as C. split.
  - apply (casted_type _ _ _ _ _ C), TT.
  - eapply cast_conveys; try eassumption. apply mapO_Forall2 in HM. clear -HM HP.
    induction HM as [|v w vs ws H _ IH]; [constructor|]. inversion HP; subst. constructor; [split; assumption|auto].
Qed.

Lemma choose {A B} (P : A -> B -> Prop) l : Forall (fun x => exists y, P x y) l -> exists l', Forall2 P l l'.
Proof.
  induction 1 as [|x l (y & H) _ (l' & F)]; [exists []; constructor|]. exists (y :: l'). constructor; assumption.
Qed.
Definition good (x : plan) (c : column) : Prop :=
  fst c = fst (pl_column x) /\ ctype (snd c) = pl_type x /\ conveys tz_known tz (snd c) (pl_type x) (pl_wanted x).
Definition arrives (a k : nat) (x : plan) (y : column) : Prop :=
  fst y = fst (pl_column x) /\ ctype (snd y) = pl_type x /\ holds (snd y) (sub (pl_wanted x) a (a + k)).
Lemma cut_arrives m a k plans cs : Forall2 good plans cs -> Forall (insertable tz_known tz parse_ipv4 parse_ipv6 m) plans ->
  Forall (fun x => length (pl_wanted x) = m) plans -> a + k <= m -> (a = 0 \/ Forall (fun x => flat (snd x) = true) cs) ->
  exists ys, Forall2 (passes k) (map (fun x => (fst x, CChunk (snd x) a (a + k))) cs) ys /\ Forall2 (arrives a k) plans ys.
Proof.
  induction 1 as [|x [n c] plans cs (G1 & G2 & G3) F IH]; intros HI HL B FL; [exists []; split; constructor|].
  inversion HI as [|? ? (U & L & TU & TL & _) HI']; subst. inversion HL as [|? ? HL1 HL']; subst. cbn [fst snd] in *.
  destruct IH as (ys & Y1 & Y2); auto. { destruct FL as [FL|FL]; [auto|]. inversion FL; auto. }
  rewrite <- G1 in U, L. destruct (chunk_passes _ _ _ _ a k U L TU TL G2 G3) as (y & P1 & P2 & P3 & P4); auto.
  { destruct FL as [FL|FL]; [auto|]. inversion FL; auto. }
  exists (y :: ys). cbn [map fst snd]. split; constructor; auto. split; [congruence|]. auto.
Qed.

Lemma insert_pieces size m b header plans b' :
  b_cols b = map pl_column plans -> map (fun h => ctype (snd h)) (b_cols header) = map pl_type plans ->
  Forall (insertable tz_known tz parse_ipv4 parse_ipv6 m) plans -> plans <> [] -> 0 < m -> 0 < size ->
  (N.of_nat m < 2 ^ 64)%N -> (lenN plans < 2 ^ 64)%N ->
  block_cast parse_ipv4 parse_ipv6 b header = Ok b' -> Forall (fun x => fits (snd x)) (b_cols b') ->
  (m <= size \/ Forall (fun x => flat (snd x) = true) (b_cols b')) ->
  exists ps qs, block_chunks size b' = Ok ps /\
    Forall2 (fun p q => exists bs, write_block p = Ok bs /\ forall r, run (raw_load tz_known tz) (bs ++ r) = Ok (q, r)) ps qs /\
    Forall (fun q => length (b_cols q) = length plans /\ exists n, Forall (fun y => clen (snd y) = Ok n) (b_cols q)) qs /\
    forall j x, nth_error plans j = Some x -> exists parts, concat parts = pl_wanted x /\
      Forall2 (fun q part => exists d, nth_error (b_cols q) j = Some (fst (pl_column x), d) /\ ctype d = pl_type x /\ holds d part) qs parts.
Proof.
  intros EB EH HI NE Hm Hs BM BP EC FT FL. unfold block_cast in EC.
  destruct (negb _); [discriminate|]. inv_do EC. injection EC as <-. cbn [b_cols] in *. rename x into cs. rename E into EC'. rename EC' into EC.
  rewrite EB in EC. clear EB.
  assert (Forall2 good plans cs) as FC.
  { clear NE BP FL. revert plans EH HI cs EC FT. generalize (b_cols header) as hs. induction hs as [|[hn h] hs IH]; intros [|x plans] EH HI cs EC FT; try discriminate EH.
    - cbn in EC. injection EC as <-. constructor.
    - cbn [map snd] in EH. injection EH as E1 E2. cbn [map cast_columns] in EC. destruct (pl_column x) as [n c] eqn:EX. inv_do EC. inv_do EC. injection EC as <-.
      inversion HI as [|? ? H1 H2]; subst. inversion FT as [|? ? H3 H4]; subst. constructor; [|eapply IH; eassumption].
      destruct H1 as (_ & _ & _ & _ & H1 & _). rewrite EX in *. cbn [fst snd] in *. rewrite E1 in E.
      destruct (convertible_conveys _ _ _ _ _ H1 E H3). split; [rewrite EX; reflexivity|auto]. }
  assert (Forall (fun x => length (pl_wanted x) = m) plans) as LW.
  { eapply Forall_impl; [|exact HI]. intros x (_ & _ & _ & _ & (_ & _ & _ & HM & _) & L). rewrite <- L. eapply eq_sym, F2_length, mapO_Forall2, HM. }
  assert (row_count (mk_block (b_info b) cs) = Ok m) as RC.
  { unfold row_count. cbn [b_cols]. destruct FC as [|x [n c] plans cs (_ & _ & [L _]) FC]; [congruence|]. cbn [snd] in L. rewrite L. f_equal. inversion LW; assumption. }
  assert (Forall (fun ak => exists q, (exists bs, write_block (cut_block (mk_block (b_info b) cs) ak) = Ok bs /\ forall r, run (raw_load tz_known tz) (bs ++ r) = Ok (q, r)) /\
      Forall2 (arrives (fst ak) (snd ak)) plans (b_cols q) /\ fst ak + snd ak <= m) (pieces (m + 2) size 0 m)) as HF.
  { apply Forall_forall. intros [a k] Hin. apply In_nth_error in Hin. destruct Hin as (i & Hi).
    destruct (pieces_spec size m Hs (m + 2) 0 ltac:(lia)) as [PS _]. destruct (PS _ _ _ Hi) as (A1 & A2 & A3). clear PS. cbn [fst snd].
    assert (a + k <= m) as AK by lia.
    assert (a = 0 \/ Forall (fun x => flat (snd x) = true) cs) as AF.
    { destruct FL as [FL|FL]; [left|right; exact FL]. destruct i; [lia|]. nia. }
    destruct (cut_arrives m a k plans cs FC HI LW AK AF) as (ys & Y1 & Y2).
    destruct (block_passes k (cut_block (mk_block (b_info b) cs) (a, k)) ys) as (bs & W1 & W2).
    - cbn. lia.
    - lia.
    - unfold lenN. cbn [cut_block b_cols]. rewrite map_length. pose proof (F2_length _ _ _ FC) as LF. unfold lenN in BP. unfold column in *. rewrite LF in BP. exact BP.
    - unfold row_count. cbn [cut_block b_cols]. destruct FC as [|? [] ? ? ? ?]; [congruence|]. cbn [map fst snd clen]. f_equal. lia.
    - exact Y1.
    - eexists. split; [exists bs; split; [exact W1|exact W2]|]. split; [exact Y2|exact AK]. }
  apply choose in HF. destruct HF as (qs & HF).
  exists (map (cut_block (mk_block (b_info b) cs)) (pieces (m + 2) size 0 m)), qs. split; [|split; [|split]].
  - unfold block_chunks. rewrite RC. cbn [rbind]. apply (chunk_shape size m _ Hs Hm RC). lia.
  - clear -HF. induction HF as [|ak q l qs (H & _) _ IH]; cbn [map]; constructor; auto.
  - clear -HF LW. induction HF as [|[a k] q l qs (_ & H & AK) _ IH]; constructor; auto. cbn [fst snd] in *.
    split; [symmetry; eapply F2_length, H|]. exists k.
    clear -H AK LW. induction H as [|x y xs ys (_ & _ & H & _) _ IH]; constructor; inversion LW; subst; auto.
    rewrite H, sub_length by lia. f_equal. lia.
  - intros j x Hj. exists (map (fun ak => sub (pl_wanted x) (fst ak) (fst ak + snd ak)) (pieces (m + 2) size 0 m)). split.
    + rewrite (pieces_all (pl_wanted x) size m Hs); [reflexivity| |lia]. eapply Forall_forall in LW; [exact LW|]. eapply nth_error_In, Hj.
    + clear -HF Hj. induction HF as [|[a k] q l qs (_ & H & _) _ IH]; cbn [map fst snd] in *; constructor; auto.
      clear -H Hj. revert j Hj. induction H as [|x0 [yn y] xs ys (H1 & H2 & H3) _ IH]; intros [|j] Hj; try discriminate Hj; cbn [nth_error] in *.
      * injection Hj as ->. cbn [fst snd] in *. subst yn. exists y. auto.
      * eauto.
Qed.
End Insert.
