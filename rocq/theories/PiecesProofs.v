(** The pieces of a split insert. *)
From Coq Require Import Lia.
From Verif Require Import Base Bytes Reader Wire Types Text TypeNames Decimal DateTime Values Columns Block.
From Verif Require Import SpecWire SpecColumns SpecTypes SpecBlock SpecPieces Utf8Proofs ReaderProofs WireProofs PushProofs TypeNamesProofs LoadTypeProofs SendProofs
  BlockOpsProofs FromSqlProofs BlockProofs EqualityProofs.
Open Scope list_scope.
Open Scope nat_scope.

(** ** Maps *)
Lemma hashable_key k : value_ref_hashable k = map_key k.
Proof. destruct k; reflexivity. Qed.
Lemma distinct_cons k ks : distinct_keys (k :: ks) = true -> map_key k = true /\ ~ In k ks /\ distinct_keys ks = true.
Proof.
  intros H. pose proof (distinct_nodup _ H) as D. apply NoDup_cons_iff in D as [D _]. cbn [distinct_keys] in H.
  apply andb_prop in H as [H H2]. apply andb_prop in H as [H1 _]. auto.
Qed.
Lemma insert_entered m k v : distinct_keys (map fst m) = true ->
  vref_insert m k v = if map_key k then Ok (entered m k v) else Panic PUnimplemented.
Proof.
  intros D. unfold vref_insert. rewrite hashable_key. destruct (map_key k) eqn:K; [|reflexivity].
  induction m as [|[k' v'] m IH]; [reflexivity|]. cbn [map fst] in D. apply distinct_cons in D as (K' & _ & D).
  cbn [vref_put entered]. rewrite same_key_eq by assumption. cbn [rbind]. destruct (same_key k' k); [reflexivity|].
  rewrite IH by exact D. reflexivity.
Qed.
Lemma entered_distinct m k v : map_key k = true -> distinct_keys (map fst m) = true -> distinct_keys (map fst (entered m k v)) = true.
Proof.
  intros K D. pose proof (insert_entered m k v D) as E. rewrite K in E. unfold vref_insert in E. rewrite hashable_key, K in E.
  exact (proj1 (vref_put_keys k v K m _ D E)).
Qed.
Lemma entered_in m k v : map_key k = true -> In k (map fst (entered m k v)).
Proof.
  intros K. induction m as [|[k' v'] m IH]; cbn [entered]; [left; reflexivity|]. destruct (same_key k' k) eqn:E.
  - apply same_key_leibniz in E. subst. left. reflexivity.
  - right. exact IH.
Qed.
Lemma entered_keeps m k v x : In x (map fst m) -> In x (map fst (entered m k v)).
Proof.
  induction m as [|[k' v'] m IH]; intros H; [contradiction|]. cbn [entered]. destruct (same_key k' k); [exact H|].
  destruct H as [H|H]; [left; exact H|right; apply IH, H].
Qed.
Lemma entered_twice m k v v' : map_key k = true -> entered (entered m k v') k v = entered m k v.
Proof.
  intros K. induction m as [|[k0 v0] m IH]; cbn [entered].
  - rewrite same_key_refl by exact K. reflexivity.
  - destruct (same_key k0 k) eqn:E; cbn [entered]; rewrite E; [reflexivity|]. rewrite IH. reflexivity.
Qed.
Lemma entered_swap m k v k2 v2 : map_key k = true -> map_key k2 = true -> In k (map fst m) -> k <> k2 ->
  entered (entered m k2 v2) k v = entered (entered m k v) k2 v2.
Proof.
  intros K K2 Hin Hne. induction m as [|[k0 v0] m IH]; [contradiction|]. cbn [entered].
  destruct (same_key k0 k) eqn:E.
  - pose proof (same_key_leibniz _ _ E). subst k0. destruct (same_key k k2) eqn:E2; [apply same_key_leibniz in E2; congruence|].
    cbn [entered]. rewrite E, E2. reflexivity.
  - destruct (same_key k0 k2) eqn:E2; cbn [entered]; rewrite ?E, ?E2; [reflexivity|]. rewrite IH; [reflexivity|].
    destruct Hin as [<-|Hin]; [|exact Hin]. cbn [fst] in E. rewrite same_key_refl in E by exact K. discriminate E.
Qed.
Lemma merged_cons m k v r : merged m ((k, v) :: r) = merged (entered m k v) r.
Proof. reflexivity. Qed.
Lemma entered_after r k v : map_key k = true -> distinct_keys (map fst r) = true -> ~ In k (map fst r) -> forall n,
  In k (map fst n) -> entered (merged n r) k v = merged (entered n k v) r.
Proof.
  intros K. induction r as [|[k2 v2] r IH]; intros D Hk n Hn; [reflexivity|]. cbn [map fst] in D, Hk. apply distinct_cons in D as (K2 & _ & D).
  rewrite !merged_cons, IH; [|exact D|intros C; apply Hk; right; exact C|apply entered_keeps, Hn].
  rewrite entered_swap; [reflexivity|exact K|exact K2|exact Hn|]. intros ->. apply Hk. left. reflexivity.
Qed.
Lemma merged_entered k v : map_key k = true -> forall r m, distinct_keys (map fst r) = true ->
  merged m (entered r k v) = entered (merged m r) k v.
Proof.
  intros K. induction r as [|[k' v'] r IH]; intros m D; [reflexivity|]. cbn [map fst] in D. apply distinct_cons in D as (K' & Hk & D).
  cbn [entered]. destruct (same_key k' k) eqn:E.
  - apply same_key_leibniz in E. subst k'. rewrite !merged_cons, entered_after; auto using entered_in.
    rewrite entered_twice by exact K. reflexivity.
  - rewrite !merged_cons. apply IH, D.
Qed.
Lemma merged_distinct r : forall m, distinct_keys (map fst r) = true -> distinct_keys (map fst m) = true ->
  distinct_keys (map fst (merged m r)) = true.
Proof.
  induction r as [|[k v] r IH]; intros m D Dm; [exact Dm|]. cbn [map fst] in D. apply distinct_cons in D as (K & _ & D).
  rewrite merged_cons. apply IH; [exact D|]. apply entered_distinct; assumption.
Qed.
Lemma loop_merged f g js : forall m r, distinct_keys (map fst m) = true -> distinct_keys (map fst r) = true ->
  (do x <- map_loop f g js r; Ok (merged m x)) = map_loop f g js (merged m r).
Proof.
  induction js as [|j js IH]; intros m r Dm Dr; [reflexivity|]. cbn [map_loop].
  destruct (f j) as [k| |]; cbn [rbind]; try reflexivity. destruct (g j) as [v| |]; cbn [rbind]; try reflexivity.
  rewrite !insert_entered by (try apply merged_distinct; assumption). destruct (map_key k) eqn:K; [|reflexivity]. cbn [rbind].
  rewrite IH by (try apply entered_distinct; assumption). rewrite merged_entered by assumption. reflexivity.
Qed.
Lemma loop_distinct f g js : forall m m', distinct_keys (map fst m) = true -> map_loop f g js m = Ok m' -> distinct_keys (map fst m') = true.
Proof.
  induction js as [|j js IH]; intros m m' D E; cbn [map_loop] in E; [injection E as <-; exact D|].
  inv_do E. inv_do E. inv_do E. rewrite insert_entered in E2 by exact D. destruct (map_key x) eqn:K; [|discriminate E2].
  injection E2 as <-. eapply IH; [|exact E]. apply entered_distinct; assumption.
Qed.
Lemma loop_app f g l1 l2 : forall m, map_loop f g (l1 ++ l2) m = (do m' <- map_loop f g l1 m; map_loop f g l2 m').
Proof.
  induction l1 as [|j l1 IH]; intros m; [reflexivity|]. cbn [app map_loop].
  destruct (f j) as [k| |]; cbn [rbind]; try reflexivity. destruct (g j) as [v| |]; cbn [rbind]; try reflexivity.
  destruct (vref_insert m k v); cbn [rbind]; try reflexivity. apply IH.
Qed.
Lemma merged_nil r : distinct_keys (map fst r) = true -> merged [] r = r.
Proof.
  assert (forall r m, distinct_keys (map fst (m ++ r)) = true -> merged m r = m ++ r) as G; [|apply (G r [])].
  clear r. induction r as [|[k v] r IH]; intros m D; [rewrite app_nil_r; reflexivity|]. rewrite merged_cons.
  assert (entered m k v = m ++ [(k, v)]) as ->.
  { apply distinct_nodup in D. rewrite map_app in D. cbn [map fst] in D. apply NoDup_remove_2 in D.
    assert (~ In k (map fst m)) as N by (intros C; apply D, in_or_app; left; exact C). clear -N.
    induction m as [|[k' v'] m IH]; [reflexivity|]. cbn [entered app]. destruct (same_key k' k) eqn:E.
    - apply same_key_leibniz in E. subst. destruct N. left. reflexivity.
    - rewrite IH; [reflexivity|]. intros C. apply N. right. exact C. }
  rewrite IH; rewrite <- app_assoc; [reflexivity|]. exact D.
Qed.

(** ** Rows *)
Lemma mapM_two {A B} (f : A -> res B) l1 l2 : mapM f (l1 ++ l2) = do x <- mapM f l1; do y <- mapM f l2; Ok (x ++ y).
Proof.
  induction l1 as [|a l1 IH]; cbn [app mapM rbind].
  - destruct (mapM f l2); reflexivity.
  - destruct (f a); cbn [rbind]; try reflexivity. rewrite IH. destruct (mapM f l1); cbn [rbind]; try reflexivity.
    destruct (mapM f l2); reflexivity.
Qed.
Lemma mapM_ext_in {A B} (f g : A -> res B) l : (forall x, In x l -> f x = g x) -> mapM f l = mapM g l.
Proof.
  induction l as [|a l IH]; intros H; [reflexivity|]. cbn [mapM]. rewrite (H a) by (left; reflexivity).
  rewrite IH by (intros; apply H; right; assumption). reflexivity.
Qed.
Lemma mapM_rmap {A B C} (f : A -> res B) (h : B -> C) l : mapM (fun x => rmap h (f x)) l = rmap (map h) (mapM f l).
Proof.
  induction l as [|a l IH]; [reflexivity|]. cbn [mapM]. destruct (f a); cbn [rmap rbind]; try reflexivity. rewrite IH.
  destruct (mapM f l); reflexivity.
Qed.

Definition off (offs : list N) (i : nat) : nat := N.to_nat (nth i offs 0%N).
Definition start (offs : list N) (i : nat) : nat := match i with O => 0 | S j => off offs j end.
Lemma start_le offs i : climbs 0 offs -> i < length offs -> start offs i <= off offs i.
Proof.
  intros C Hi. destruct i as [|i]; cbn [start]; [lia|]. unfold off.
  assert (forall l a i, climbs a l -> S i < length l -> (nth i l 0 <= nth (S i) l 0)%N) as G.
  { clear. induction l as [|b l IH]; intros a i C H; [cbn in H; lia|]. destruct C as [C1 C2]. destruct i as [|i].
    - cbn [nth]. destruct l as [|x l]; [cbn in H; lia|]. cbn. apply C2.
    - cbn [nth]. apply (IH b i C2). cbn in H. lia. }
  specialize (G offs 0%N i C Hi). lia.
Qed.
Lemma bounds_ok offs i : climbs 0 offs -> i < length offs -> row_bounds offs i = Ok (start offs i, off offs i).
Proof.
  intros C Hi. pose proof (start_le offs i C Hi) as L. unfold row_bounds, index.
  rewrite (nth_error_nth' offs 0%N Hi). destruct i as [|i]; cbn [start] in *.
  - cbn [rbind or_panic]. destruct (N.ltb_spec (nth 0 offs 0%N) 0); [lia|]. reflexivity.
  - rewrite (nth_error_nth' offs 0%N (n := i)) by lia. cbn [rbind or_panic]. unfold off in *.
    destruct (N.ltb_spec (nth (S i) offs 0%N) (nth i offs 0%N)); [lia|]. reflexivity.
Qed.
Definition span (offs : list N) (i : nat) : list nat := seq (start offs i) (off offs i - start offs i).
Lemma rows_flat (f : nat -> res value) offs n : climbs 0 offs -> n <= length offs ->
  rmap (@concat value) (mapM (fun i => mapM f (span offs i)) (seq 0 n)) = mapM f (seq 0 (start offs n)).
Proof.
  intros C. induction n as [|n IH]; intros H; [reflexivity|]. rewrite seq_S, mapM_two. cbn [Nat.add mapM].
  pose proof (start_le offs n C ltac:(lia)) as L. change (start offs (S n)) with (off offs n).
  replace (off offs n) with (start offs n + (off offs n - start offs n)) by lia. rewrite seq_app, mapM_two. cbn [Nat.add].
  rewrite <- IH by lia. fold (span offs n).
  destruct (mapM (fun i => mapM f (span offs i)) (seq 0 n)) as [x| |]; cbn [rmap rbind]; try reflexivity.
  destruct (mapM f (span offs n)) as [y| |]; cbn [rmap rbind]; try reflexivity. rewrite concat_app. cbn [concat]. rewrite app_nil_r. reflexivity.
Qed.
Lemma maps_flat (f g : nat -> res value) offs n : climbs 0 offs -> n <= length offs ->
  rmap (fun ms => fold_left merged ms []) (mapM (fun i => map_loop f g (span offs i) []) (seq 0 n)) = map_loop f g (seq 0 (start offs n)) [].
Proof.
  intros C. induction n as [|n IH]; intros H; [reflexivity|]. rewrite seq_S, mapM_two. cbn [Nat.add mapM].
  pose proof (start_le offs n C ltac:(lia)) as L. change (start offs (S n)) with (off offs n).
  replace (off offs n) with (start offs n + (off offs n - start offs n)) by lia. rewrite seq_app, loop_app. cbn [Nat.add].
  rewrite <- IH by lia. fold (span offs n).
  assert (forall ms, mapM (fun i => map_loop f g (span offs i) []) (seq 0 n) = Ok ms -> distinct_keys (map fst (fold_left merged ms [])) = true) as D.
  { intros ms E. assert (rmap (fun ms => fold_left merged ms []) (mapM (fun i => map_loop f g (span offs i) []) (seq 0 n)) = Ok (fold_left merged ms []))
      as E' by (rewrite E; reflexivity). rewrite IH in E' by lia. exact (loop_distinct f g _ [] _ eq_refl E'). }
  destruct (mapM (fun i => map_loop f g (span offs i) []) (seq 0 n)) as [ms| |]; cbn [rmap rbind]; try reflexivity.
  pose proof (loop_merged f g (span offs n) (fold_left merged ms []) [] (D ms eq_refl) eq_refl) as LM.
  change (merged (fold_left merged ms []) []) with (fold_left merged ms []) in LM. rewrite <- LM.
  destruct (map_loop f g (span offs n) []) as [y| |]; cbn [rmap rbind]; try reflexivity. rewrite fold_left_app. reflexivity.
Qed.

Lemma joined_arrays c offs a : climbs 0 offs -> a < length offs ->
  (do vs <- mapM (at_ (CArray c offs)) (seq 0 (S a)); Ok (joined vs)) =
  (do vs <- mapM (at_ c) (seq 0 (off offs a)); Ok (VArray (ctype c) vs)).
Proof.
  intros C H. change (off offs a) with (start offs (S a)). rewrite <- (rows_flat (at_ c) offs (S a) C H).
  rewrite (mapM_ext_in (at_ (CArray c offs)) (fun i => rmap (VArray (ctype c)) (mapM (at_ c) (span offs i)))).
  - rewrite mapM_rmap. cbn [seq mapM]. destruct (mapM (at_ c) (span offs 0)) as [x| |]; cbn [rbind rmap]; try reflexivity.
    destruct (mapM (fun i => mapM (at_ c) (span offs i)) (seq 1 a)) as [y| |]; cbn [rbind rmap map joined]; try reflexivity.
    do 2 f_equal. cbn [elements concat]. f_equal. rewrite map_map. cbn [elements]. rewrite map_id. reflexivity.
  - intros i Hi. apply in_seq in Hi. cbn [at_]. rewrite bounds_ok by (exact C || lia). cbn [rbind fst snd]. fold (span offs i).
    destruct (mapM (at_ c) (span offs i)); reflexivity.
Qed.
Lemma at_map ks vs offs i : climbs 0 offs -> i < length offs ->
  at_ (CMap ks vs offs) i = rmap (VMap (ctype ks) (ctype vs)) (map_loop (at_ ks) (at_ vs) (span offs i) []).
Proof.
  intros C Hi. cbn [at_]. rewrite bounds_ok by (exact C || lia). cbn [rbind fst snd].
  fold (map_loop (at_ ks) (at_ vs)). fold (span offs i). destruct (map_loop (at_ ks) (at_ vs) (span offs i) []); reflexivity.
Qed.
Lemma joined_maps ks vs offs a : climbs 0 offs -> a < length offs ->
  (do xs <- mapM (at_ (CMap ks vs offs)) (seq 0 (S a)); Ok (joined xs)) =
  (do m <- map_loop (at_ ks) (at_ vs) (seq 0 (off offs a)) []; Ok (VMap (ctype ks) (ctype vs) m)).
Proof.
  intros C H. change (off offs a) with (start offs (S a)). rewrite <- (maps_flat (at_ ks) (at_ vs) offs (S a) C H).
  rewrite (mapM_ext_in (at_ (CMap ks vs offs)) (fun i => rmap (VMap (ctype ks) (ctype vs)) (map_loop (at_ ks) (at_ vs) (span offs i) []))).
  - rewrite mapM_rmap. cbn [seq mapM]. destruct (map_loop (at_ ks) (at_ vs) (span offs 0) []) as [x| |]; cbn [rbind rmap]; try reflexivity.
    destruct (mapM (fun i => map_loop (at_ ks) (at_ vs) (span offs i) []) (seq 1 a)) as [y| |]; cbn [rbind rmap map joined]; try reflexivity.
    do 2 f_equal. cbn [entries fold_left]. rewrite map_map. cbn [entries]. rewrite map_id. reflexivity.
  - intros i Hi. apply in_seq in Hi. apply at_map; [exact C|lia].
Qed.
Lemma climbs_skipn offs n : climbs 0 offs -> climbs 0 (skipn n offs).
Proof.
  revert n. assert (forall l b, climbs b l -> climbs 0 l) as W by (intros [|x l] b C; [exact I|destruct C; split; [lia|assumption]]).
  induction offs as [|b offs IH]; intros [|n] H; try exact H. cbn [skipn]. apply IH. eapply W, H.
Qed.
Lemma climbs_sub offs a b : climbs 0 offs -> climbs 0 (sub offs a b).
Proof. intros C. apply climbs_firstn, climbs_skipn, C. Qed.
Lemma nth_sub (offs : list N) a b i : i < b - a -> nth i (sub offs a b) 0%N = nth (a + i) offs 0%N.
Proof.
  intros H. unfold sub. pose proof (nth_error_firstn (skipn a offs) (b - a) i H) as E. rewrite nth_error_skipn in E.
  destruct (nth_error offs (a + i)) as [x|] eqn:F.
  - rewrite (nth_error_nth _ _ 0%N E), (nth_error_nth _ _ 0%N F). reflexivity.
  - rewrite !nth_overflow; [reflexivity| |]; apply nth_error_None; assumption.
Qed.
Lemma last_nth (l : list N) : last l 0%N = nth (length l - 1) l 0%N.
Proof.
  induction l as [|x l IH]; [reflexivity|]. destruct l as [|y l]; [reflexivity|].
  change (last (x :: y :: l) 0%N) with (last (y :: l) 0%N). rewrite IH.
  replace (length (x :: y :: l) - 1) with (S (length (y :: l) - 1)) by (cbn; lia). reflexivity.
Qed.
Lemma last_sub offs a b : climbs 0 offs -> a <= b -> b <= length offs -> (last (sub offs a b) 0 <= last offs 0)%N.
Proof.
  intros C H Hb. destruct (Nat.eq_dec a b) as [->|N].
  - unfold sub. rewrite Nat.sub_diag. cbn. lia.
  - rewrite (last_nth (sub offs a b)), sub_length by lia. rewrite nth_sub by lia. replace (a + (b - a - 1)) with (b - 1) by lia.
    apply (climbs_nth offs 0%N (b - 1) _ C). apply nth_error_nth'. lia.
Qed.
Lemma off_last offs i : climbs 0 offs -> i < length offs -> off offs i <= N.to_nat (last offs 0%N).
Proof. intros C H. unfold off. pose proof (climbs_nth offs 0%N i _ C (nth_error_nth' offs 0%N H)). lia. Qed.

(** ** Columns *)
Section Send.
Variable tz_known : bytes -> bool.
Variable tz : bytes.
Ltac load_step :=
  match goal with F : enough ?fuel ?t |- context [load_data _ ?fuel] =>
    let f := fresh "f" in assert (exists f, fuel = S f) as [f ->] by (unfold enough in F; destruct fuel; [lia|eauto]);
    cbn [load_data]; rewrite (classify_name tz_known) by assumption; cbn [ctype] in *; cbn [lift pbind kind_of] end.
Lemma flat_heaped c : flat c = true -> heaped c = false.
Proof. induction c; cbn [flat heaped]; intros H; try reflexivity; try discriminate H. apply IHc, H. Qed.

Lemma send_piece c : sound c -> nameable tz_known (ctype c) -> flat c = true \/ heaped c = true ->
  exists n, clen c = Ok n /\ forall a b, a <= b <= n ->
    exists bs c', save c a b = Ok bs /\ arrives tz c c' a (b - a) /\
      forall fuel r, enough fuel (ctype c) ->
        run (load_data tz_known fuel (type_name (ctype c)) (N.of_nat (b - a)) tz) (bs ++ r) = Ok (c', r).
Proof.
  intros Hs Hn [F|F].
  { destruct (send_column tz_known tz c Hs Hn) as (n & L & S1). exists n. split; [exact L|]. intros a b Hab.
    destruct (S1 a b Hab (or_intror F)) as (bs & c' & E & [(D1 & D2 & D3) _] & R). exists bs, c'. split; [exact E|]. split; [|exact R].
    split; [exact D1|]. split; [exact D2|]. rewrite (flat_heaped c F). split; intros; [apply D3; lia|]. rewrite (D3 0) by lia.
    rewrite Nat.add_0_r. reflexivity. }
  revert Hs Hn F. induction c; cbn [heaped]; intros H N F; try discriminate F; clear IHc1 IHc2 || idtac.
  - clear IHc F. cbn [sound] in H. destruct H as (H & HL & C & B & B8). cbn [ctype nameable] in N.
    destruct (send_column tz_known tz c H N) as (n & Hn & S1). rewrite HL in Hn. injection Hn as <-.
    exists (length offs). split; [reflexivity|]. intros a b Hab.
    cbn [save]. unfold save_offsets. rewrite mapM_index by lia. cbn [rbind fst snd]. fold (sub offs a b). set (o := sub offs a b).
    assert (length o = b - a) as Lo by (apply sub_length; lia).
    pose proof (last_sub offs a b C ltac:(lia) ltac:(lia)) as LE. fold o in LE.
    pose proof (climbs_sub offs a b C) as Co. fold o in Co.
    destruct (S1 0 (N.to_nat (last o 0%N)) ltac:(lia) (or_introl eq_refl)) as (bs & c' & E & ((D1 & D2 & D3) & _) & R).
    rewrite E. cbn [rbind]. exists (concat (map put_u64 o) ++ bs), (CArray c' o). split; [reflexivity|]. split.
    + split; [cbn; congruence|]. split; [cbn; congruence|]. split.
      * intros i Hi. cbn [at_]. rewrite !bounds_ok by (assumption || lia). cbn [rbind fst snd].
        destruct i as [|i]; [lia|]. replace (a + S i) with (S (a + i)) by lia. cbn [start].
        assert (off o i = off offs (a + i)) as -> by (unfold off, o; rewrite nth_sub by lia; reflexivity).
        assert (off o (S i) = off offs (S (a + i))) as E1 by (unfold off, o; rewrite nth_sub by lia; f_equal; f_equal; lia).
        pose proof (off_last o (S i) Co ltac:(lia)) as LL. rewrite E1 in *.
        rewrite (mapM_zoned tz (at_ c)).
        -- destruct (mapM (at_ c) _); cbn; try reflexivity. rewrite D1. reflexivity.
        -- intros j Hj. apply in_seq in Hj. apply D3. lia.
      * intros Hp. cbn [heaped]. rewrite joined_arrays by (assumption || lia). cbn [at_]. rewrite bounds_ok by (assumption || lia).
        cbn [rbind fst snd start]. rewrite Nat.sub_0_r.
        assert (off o 0 = off offs a) as E1 by (unfold off, o; rewrite nth_sub by lia; rewrite Nat.add_0_r; reflexivity).
        pose proof (off_last o 0 Co ltac:(lia)) as LL. rewrite E1 in *.
        rewrite (mapM_zoned tz (at_ c)).
        -- destruct (mapM (at_ c) _); cbn; try reflexivity. rewrite D1. reflexivity.
        -- intros j Hj. apply in_seq in Hj. apply D3. lia.
    + intros fuel r F. assert (nameable tz_known (TArray (ctype c))) as N' by exact N. load_step.
      rewrite <- app_assoc, run_bind, read_offsets_ok.
      * cbn [snd fst]. rewrite run_bind.
        replace (last o 0%N) with (N.of_nat (N.to_nat (last o 0%N) - 0)) at 1 by lia.
        rewrite R by (apply enough_array, F). reflexivity.
      * exact Co.
      * lia.
      * unfold lenN in *. lia.
      * unfold lenN. lia.
  - clear F. cbn [sound] in H. destruct H as (H1 & H2 & HL1 & HL2 & C & B & B8). cbn [ctype nameable] in N. destruct N as (N1 & NU & N2).
    destruct (send_column tz_known tz c1 H1 N1) as (n1 & Hn1 & S1). rewrite HL1 in Hn1. injection Hn1 as <-.
    destruct (send_column tz_known tz c2 H2 N2) as (n2 & Hn2 & S2). rewrite HL2 in Hn2. injection Hn2 as <-.
    exists (length offs). split; [reflexivity|]. intros a b Hab.
    cbn [save]. unfold save_offsets. rewrite mapM_index by lia. cbn [rbind fst snd]. fold (sub offs a b). set (o := sub offs a b).
    assert (length o = b - a) as Lo by (apply sub_length; lia).
    pose proof (last_sub offs a b C ltac:(lia) ltac:(lia)) as LE. fold o in LE.
    pose proof (climbs_sub offs a b C) as Co. fold o in Co.
    destruct (S1 0 (N.to_nat (last o 0%N)) ltac:(lia) (or_introl eq_refl)) as (bs1 & k' & E1 & ((D1 & D2 & D3) & _) & R1).
    destruct (S2 0 (N.to_nat (last o 0%N)) ltac:(lia) (or_introl eq_refl)) as (bs2 & v' & E2 & ((F1 & F2 & F3) & _) & R2).
    rewrite E1, E2. cbn [rbind]. exists (concat (map put_u64 o) ++ bs1 ++ bs2), (CMap k' v' o). split; [reflexivity|].
    assert (forall js, (forall j, In j js -> j < N.to_nat (last o 0%N)) ->
      map_loop (at_ k') (at_ v') js [] = rmap (map (zoned2 tz)) (map_loop (at_ c1) (at_ c2) js [])) as Z.
    { intros js Hj. refine (zoned_loop tz (at_ c1) (at_ c2) (at_ k') (at_ v') js _ _ [] _); [| |constructor].
      - intros j J. apply (D3 j). specialize (Hj j J). lia.
      - intros j J. apply (F3 j). specialize (Hj j J). lia. }
    split.
    + split; [cbn; congruence|]. split; [cbn; congruence|]. split.
      * intros i Hi. rewrite !at_map by (assumption || lia).
        destruct i as [|i]; [lia|]. replace (a + S i) with (S (a + i)) by lia. unfold span. cbn [start].
        assert (off o i = off offs (a + i)) as -> by (unfold off, o; rewrite nth_sub by lia; reflexivity).
        assert (off o (S i) = off offs (S (a + i))) as Eo by (unfold off, o; rewrite nth_sub by lia; f_equal; f_equal; lia).
        pose proof (off_last o (S i) Co ltac:(lia)) as LL. rewrite Eo in *.
        rewrite Z by (intros j Hj; apply in_seq in Hj; lia).
        destruct (map_loop (at_ c1) (at_ c2) _ []); cbn [rmap rbind zoned]; try reflexivity. rewrite D1, F1. reflexivity.
      * intros Hp. cbn [heaped]. rewrite joined_maps by (assumption || lia). rewrite at_map by (assumption || lia).
        unfold span. cbn [start]. rewrite Nat.sub_0_r.
        assert (off o 0 = off offs a) as Eo by (unfold off, o; rewrite nth_sub by lia; rewrite Nat.add_0_r; reflexivity).
        pose proof (off_last o 0 Co ltac:(lia)) as LL. rewrite Eo in *.
        rewrite Z by (intros j Hj; apply in_seq in Hj; lia).
        destruct (map_loop (at_ c1) (at_ c2) _ []); cbn [rmap rbind zoned]; try reflexivity. rewrite D1, F1. reflexivity.
    + intros fuel r F. assert (nameable tz_known (TMap (ctype c1) (ctype c2))) as N' by (cbn; auto). load_step.
      cbn [ctype] in F. apply enough_map in F. destruct F as [Fk Fv].
      rewrite <- app_assoc, run_bind, read_offsets_ok.
      * cbn [snd fst]. rewrite <- app_assoc. rewrite run_bind.
        replace (last o 0%N) with (N.of_nat (N.to_nat (last o 0%N) - 0)) by lia.
        rewrite R1 by exact Fk. rewrite run_bind, R2 by exact Fv. reflexivity.
      * exact Co.
      * lia.
      * unfold lenN in *. lia.
      * unfold lenN. lia.
  - cbn [ctype nameable] in N. destruct N as [N NO]. cbn [sound] in H. destruct (IHc H N F) as (n & Hn & S1).
    exists n. split; [exact Hn|]. intros a b Hab. destruct (S1 a b Hab) as (bs & c' & E & (D1 & D2 & D3 & D4) & R).
    exists bs, (CAgg f c'). split; [exact E|]. split.
    + split; [cbn; congruence|]. split; [exact D2|]. split; [exact D3|exact D4].
    + intros fuel r F'. assert (nameable tz_known (TAgg f (ctype c))) as N' by (split; assumption). load_step.
      rewrite run_bind, R; [reflexivity|]. eapply enough_agg. exact F'.
Qed.

(** ** Blocks *)
Lemma run_write_piece n x a k : column_ok tz_known n x -> flat (snd x) = true \/ heaped (snd x) = true -> a + k <= n ->
  exists bs c', write_column (fst x, CChunk (snd x) a (a + k)) = Ok bs /\ arrives tz (snd x) c' a k /\
    forall r, run (read_column tz_known (N.of_nat k) tz) (bs ++ r) = Ok ((fst x, c'), r).
Proof.
  intros (U & L & S & Hn & N & TU & TL) Hf H.
  destruct (enc_string_read _ L) as (e1 & E1 & R1). destruct (enc_string_read _ TL) as (e2 & E2 & R2).
  destruct (send_piece (snd x) S N Hf) as (n' & Hn' & Snd). rewrite Hn in Hn'. injection Hn' as <-.
  destruct (Snd a (a + k) ltac:(lia)) as (d & c' & E3 & D & R3). replace (a + k - a) with k in * by lia.
  unfold write_column. cbn [fst snd ctype clen]. rewrite E1, E2. cbn [rbind save]. replace (a + k - a) with k by lia.
  rewrite Nat.add_0_r, Nat.min_id, E3. cbn [rbind].
  exists (e1 ++ e2 ++ d), c'. split; [reflexivity|].
  split; [exact D|]. intros r. unfold read_column. rewrite <- !app_assoc.
  rewrite run_bind. destruct (R1 (e2 ++ d ++ r)) as (_ & _ & ->).
  rewrite (proj2 (utf8_valid_spec _) U). rewrite run_bind. destruct (R2 (d ++ r)) as (_ & _ & ->).
  rewrite (proj2 (utf8_valid_spec _) TU). rewrite run_bind. unfold load_column.
  rewrite R3 by (unfold enough; lia). reflexivity.
Qed.

Definition carried (x : column) : Prop := flat (snd x) = true \/ heaped (snd x) = true.
Definition cut_column (a k : nat) (x : column) : column := (fst x, CChunk (snd x) a (a + k)).
Lemma run_write_pieces n a k (xs : list column) : Forall (column_ok tz_known n) xs -> Forall carried xs -> a + k <= n ->
  exists parts ys, mapM write_column (map (cut_column a k) xs) = Ok parts /\
    Forall2 (fun x x' => fst x' = fst x /\ arrives tz (snd x) (snd x') a k) xs ys /\
    forall info done r, Forall (fun x => clen (snd x) = Ok k) done ->
      run (pfold (length xs) (fun b => let! c := read_column tz_known (N.of_nat k) tz in lift (append_column b c))
            (mk_block info done)) (concat parts ++ r) = Ok (mk_block info (done ++ ys), r).
Proof.
  intros HF HC H. induction HF as [|x xs Hx Hxs IH].
  - exists [], []. split; [reflexivity|]. split; [constructor|]. intros info done r _. cbn. rewrite app_nil_r. reflexivity.
  - apply Forall_inv in HC as HC1. apply Forall_inv_tail in HC.
    destruct (run_write_piece n x a k Hx HC1 H) as (bs & c' & E & D & R). destruct (IH HC) as (parts & ys & E' & F & R').
    exists (bs :: parts), ((fst x, c') :: ys). cbn [map mapM]. unfold cut_column at 1. rewrite E, E'. split; [reflexivity|].
    split; [constructor; [split; [reflexivity|exact D]|exact F]|]. intros info done r Hd.
    cbn [length pfold concat]. rewrite <- app_assoc, run_bind, run_bind, R.
    assert (append_column (mk_block info done) (fst x, c') = Ok (mk_block info (done ++ [(fst x, c')]))) as A.
    { unfold append_column, row_count. cbn [snd b_cols b_info]. rewrite (proj1 (proj2 D)). cbn [rbind].
      destruct done as [|[n0 c0] done]; [reflexivity|]. inversion Hd as [|? ? H0 _]. cbn [snd] in H0. rewrite H0.
      cbn [rbind]. rewrite Nat.eqb_refl. reflexivity. }
    rewrite A. cbn [lift run]. rewrite R'.
    + rewrite <- app_assoc. reflexivity.
    + apply Forall_app. split; [exact Hd|]. constructor; [exact (proj1 (proj2 D))|constructor].
Qed.

Lemma write_cut n b a k : block_ok tz_known n b -> Forall carried (b_cols b) -> b_cols b <> [] -> a + k <= n ->
  exists bs q, write_block (mk_block info_default (map (cut_column a k) (b_cols b))) = Ok bs /\ block_arrives tz b q a k /\
    b_info q = info_default /\
    forall r, run (raw_load tz_known tz) (bs ++ r) = Ok (q, r).
Proof.
  intros (HB & HN & HC & HF) Hc Hne H.
  assert (- 2 ^ 31 <= bi_bucket info_default < 2 ^ 31)%Z as HD by (cbn; lia).
  destruct (run_write_info _ HD) as (i & Ei & Ri).
  assert (lenN (map (cut_column a k) (b_cols b)) < 2 ^ 64)%N as HC' by (unfold lenN in *; rewrite map_length; exact HC).
  assert (N.of_nat k < 2 ^ 64)%N as HN' by lia.
  destruct (enc_uvarint_ok _ HC') as (nc & Ec & _ & _ & _ & _ & Rc & _).
  destruct (enc_uvarint_ok _ HN') as (nr & Er & _ & _ & _ & _ & Rr & _).
  destruct (run_write_pieces n a k _ HF Hc H) as (parts & ys & E & F & R).
  assert (row_count (mk_block info_default (map (cut_column a k) (b_cols b))) = Ok k) as RC.
  { unfold row_count. cbn [b_cols]. destruct (b_cols b) as [|[n0 c0] cs]; [congruence|]. cbn. f_equal. lia. }
  unfold write_block. cbn [b_info b_cols]. rewrite Ei, Ec, RC. cbn [rbind]. rewrite Er, E. cbn [rbind].
  exists (i ++ nc ++ nr ++ concat parts), (mk_block info_default ys). split; [reflexivity|].
  split; [exact F|]. split; [reflexivity|].
  intros r. unfold raw_load. rewrite <- !app_assoc.
  rewrite run_bind, Ri, run_bind, Rc, run_bind, Rr, pfoldN_nat.
  unfold lenN. rewrite map_length, Nat2N.id. rewrite R by constructor. reflexivity.
Qed.
End Send.

Lemma chunk_cuts n m b : 0 < n -> 0 < m -> rectangular m b -> b_cols b <> [] ->
  forall fuel pos, m - pos < fuel ->
  chunk_all fuel n b pos = Ok (map (fun ak => mk_block info_default (map (cut_column (fst ak) (snd ak)) (b_cols b))) (pieces fuel n pos m)).
Proof.
  intros Hn Hm Hr Hne. assert (row_count b = Ok m) as RC.
  { unfold row_count. unfold rectangular in Hr. destruct (b_cols b) as [|[x c] cs]; [congruence|].
    inversion Hr as [|? ? H0 _]. exact H0. }
  induction fuel as [|fuel IH]; intros pos Hf; [lia|]. cbn [chunk_all pieces].
  unfold chunk_next. rewrite RC. cbn [rbind]. destruct (Nat.eqb_spec m 0); [lia|]. cbn [andb].
  destruct (Nat.leb_spec m pos).
  - reflexivity.
  - rewrite slice_columns_ok by constructor. cbn [rbind app b_cols b_info block_default].
    set (k := Nat.min n (m - pos)). rewrite (IH (pos + k)) by lia. reflexivity.
Qed.
