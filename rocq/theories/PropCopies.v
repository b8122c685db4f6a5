(** C116: what is copied between cells and owned values. *)
From Coq Require Import Lia String.
From Verif Require Import Base Bytes Text Types Values Columns FromSql ToSql Copies SpecColumns SpecEquality SpecCopies
  BlockOpsProofs PushProofs FromSqlProofs EqualityProofs PiecesProofs.
Open Scope string_scope.
Open Scope list_scope.

Definition copy_list (f : value -> res value) : list value -> res (list value) :=
  fix loop (vs : list value) : res (list value) :=
    match vs with
    | [] => Ok []
    | x :: vs' => do y <- f x; do r <- loop vs'; Ok (y :: r)
    end.
Definition copy_map (f : value -> res value) (ins : list (value * value) -> value -> value -> res (list (value * value))) :
  list (value * value) -> list (value * value) -> res (list (value * value)) :=
  fix loop (kvs m : list (value * value)) : res (list (value * value)) :=
    match kvs with
    | [] => Ok m
    | (a, b) :: kvs' => do a' <- f a; do b' <- f b; do m' <- ins m a' b'; loop kvs' m'
    end.

Lemma unrepeated_list vs : fold_right (fun x P => unrepeated x /\ P) True vs -> forall x, In x vs -> unrepeated x.
Proof. induction vs as [|y vs IH]; intros H x []; destruct H as [H1 H2]; subst; auto. Qed.
Lemma unrepeated_map kvs : fold_right (fun kv P => unrepeated (fst kv) /\ unrepeated (snd kv) /\ P) True kvs ->
  forall kv, In kv kvs -> unrepeated (fst kv) /\ unrepeated (snd kv).
Proof. induction kvs as [|y vs IH]; intros H x []; destruct H as (H1 & H2 & H3); subst; auto. Qed.

Lemma owned_key a b : map_key a = true -> map_key b = true -> value_eq a b = Ok (same_key a b).
Proof.
  destruct a; try discriminate; destruct b; try discriminate; cbn [map_key same_key]; intros Ha Hb; try reflexivity.
  cbn [value_eq]. destruct (scalar_eq_dec s s0) as [<-|]; [|reflexivity]. destruct s; try discriminate Ha; reflexivity.
Qed.
Lemma put_last (eqv : value -> value -> res bool) (put : list (value * value) -> value -> value -> res (list (value * value))) :
  (forall k v, put [] k v = Ok [(k, v)]) ->
  (forall k' v' m k v, put ((k', v') :: m) k v =
     do e <- eqv k' k; if e then Ok ((k', v) :: m) else do r <- put m k v; Ok ((k', v') :: r)) ->
  (forall a b, map_key a = true -> map_key b = true -> eqv a b = Ok (same_key a b)) ->
  forall m k v, (forall x, In x (map fst m) -> map_key x = true) -> map_key k = true -> ~ In k (map fst m) ->
  put m k v = Ok (m ++ [(k, v)]).
Proof.
  intros P0 P1 E m k v M K N. induction m as [|[k' v'] m IH]; [apply P0|]. rewrite P1, E; [|apply M; left; reflexivity|exact K].
  cbn [rbind]. destruct (same_key k' k) eqn:S; [apply same_key_leibniz in S; subst; destruct N; left; reflexivity|].
  rewrite IH; [reflexivity| |]; [intros x Hx; apply M; right; exact Hx|intros Hx; apply N; right; exact Hx].
Qed.
Lemma vref_last m k v : (forall x, In x (map fst m) -> map_key x = true) -> map_key k = true -> ~ In k (map fst m) ->
  vref_insert m k v = Ok (m ++ [(k, v)]).
Proof.
  intros M K N. unfold vref_insert. rewrite hashable_key, K.
  apply (put_last vref_eq vref_put); auto using same_key_eq.
Qed.
Lemma value_last m k v : (forall x, In x (map fst m) -> map_key x = true) -> map_key k = true -> ~ In k (map fst m) ->
  value_insert m k v = Ok (m ++ [(k, v)]).
Proof.
  intros M K N. unfold value_insert. replace (value_hashable k) with true by (destruct k; try discriminate K; [destruct s; try discriminate K|]; reflexivity).
  apply (put_last value_eq value_put); auto using owned_key.
Qed.

(** Borrowing an owned value copies it, or panics: exactly if there is a chrono time in it, or a map
    with other keys than text and whole numbers. *)
Theorem c116_borrow_partial : forall v, unrepeated v -> to_ref v = if borrowable v then Ok v else Panic PUnimplemented.
Proof.
  induction v as [v IH] using value_deep. intros U. destruct v; try reflexivity.
  - cbn [to_ref borrowable]. rewrite (IH v eq_refl U). destruct (borrowable v); reflexivity.
  - change (to_ref (VArray t vs)) with (do ws <- copy_list to_ref vs; Ok (VArray t ws)). cbn [borrowable].
    pose proof (unrepeated_list _ U) as Ul. cbn [child] in IH. clear U.
    assert (copy_list to_ref vs = if forallb borrowable vs then Ok vs else Panic PUnimplemented) as ->
      by (induction vs as [|x vs IHl]; [reflexivity|]; cbn [copy_list forallb];
          rewrite (IH x (or_introl eq_refl) (Ul x (or_introl eq_refl))); destruct (borrowable x); [|reflexivity]; cbn [rbind andb];
          fold (copy_list to_ref vs); rewrite IHl; [|intros; apply IH; auto; right; assumption|intros; apply Ul; right; assumption];
          destruct (forallb borrowable vs); reflexivity).
    destruct (forallb borrowable vs); reflexivity.
  - change (to_ref (VMap k v kvs)) with (do m <- copy_map to_ref vref_insert kvs []; Ok (VMap k v m)). cbn [borrowable].
    destruct U as [D U]. pose proof (unrepeated_map _ U) as Ul. clear U.
    assert (G : forall todo done, NoDup (map fst (done ++ todo)) -> (forall x, In x (map fst done) -> map_key x = true) ->
      (forall kv, In kv todo -> In kv kvs) ->
      copy_map to_ref vref_insert todo done =
      if forallb (fun kv => map_key (fst kv) && borrowable (snd kv)) todo then Ok (done ++ todo) else Panic PUnimplemented).
    { induction todo as [|[a b] todo IHt]; intros done D' M Sub; [cbn; rewrite app_nil_r; reflexivity|].
      cbn [copy_map forallb fst snd]. assert (I0 : In (a, b) kvs) by (apply Sub; left; reflexivity).
      destruct (Ul _ I0) as [Ua Ub]. cbn [fst snd] in Ua, Ub.
      rewrite (IH a), (IH b); [|exists (a, b); auto|assumption|exists (a, b); auto|assumption].
      destruct (borrowable a) eqn:Ba; cbn [rbind].
      2: { destruct (map_key a) eqn:Ka; [destruct a; discriminate|reflexivity]. }
      destruct (borrowable b) eqn:Bb; cbn [rbind]; [|rewrite Bool.andb_false_r; reflexivity]. rewrite Bool.andb_true_r.
      destruct (map_key a) eqn:Ka; cbn [andb].
      - assert (N : ~ In a (map fst done)).
        { rewrite map_app in D'. cbn [map fst] in D'. apply NoDup_remove_2 in D'. intros F. apply D', in_or_app. left. exact F. }
        rewrite vref_last by assumption. cbn [rbind]. fold (copy_map to_ref vref_insert).
        rewrite IHt.
        + rewrite <- app_assoc. reflexivity.
        + rewrite <- app_assoc. exact D'.
        + rewrite map_app. intros x Hx. apply in_app_or in Hx as [Hx|[<-|[]]]; [apply M, Hx|exact Ka].
        + intros kv Hk. apply Sub. right. exact Hk.
      - unfold vref_insert. rewrite hashable_key, Ka. reflexivity. }
    rewrite (G kvs [] D); [|intros x []|auto]. destruct (forallb _ kvs); reflexivity.
Qed.

(** Copying a cell into an owned value: nothing is lost, and nothing panics. *)
Theorem c116_own : forall v, unrepeated v -> borrowable v = true -> to_owned v = Ok v.
Proof.
  induction v as [v IH] using value_deep. intros U B. destruct v; try reflexivity; try discriminate B.
  - cbn [to_owned]. rewrite (IH v eq_refl U B). reflexivity.
  - change (to_owned (VArray t vs)) with (do ws <- copy_list to_owned vs; Ok (VArray t ws)). cbn [borrowable] in B.
    pose proof (unrepeated_list _ U) as Ul. cbn [child] in IH. clear U. rewrite forallb_forall in B.
    assert (copy_list to_owned vs = Ok vs) as ->; [|reflexivity].
    induction vs as [|x vs IHl]; [reflexivity|]. cbn [copy_list].
    rewrite (IH x (or_introl eq_refl) (Ul x (or_introl eq_refl)) (B x (or_introl eq_refl))). cbn [rbind].
    fold (copy_list to_owned vs). rewrite IHl; [reflexivity|intros; apply IH; auto; right; assumption|intros; apply B; right; assumption|intros; apply Ul; right; assumption].
  - change (to_owned (VMap k v kvs)) with (do m <- copy_map to_owned value_insert kvs []; Ok (VMap k v m)). cbn [borrowable] in B.
    destruct U as [D U]. pose proof (unrepeated_map _ U) as Ul. clear U. rewrite forallb_forall in B.
    assert (G : forall todo done, NoDup (map fst (done ++ todo)) -> (forall x, In x (map fst done) -> map_key x = true) ->
      (forall kv, In kv todo -> In kv kvs) -> copy_map to_owned value_insert todo done = Ok (done ++ todo)).
    { induction todo as [|[a b] todo IHt]; intros done D' M Sub; [cbn; rewrite app_nil_r; reflexivity|].
      cbn [copy_map]. assert (I0 : In (a, b) kvs) by (apply Sub; left; reflexivity).
      destruct (Ul _ I0) as [Ua Ub]. pose proof (B _ I0) as Bk. apply andb_prop in Bk as [Ka Bb]. cbn [fst snd] in Ua, Ub, Ka, Bb.
      assert (Ba : borrowable a = true) by (destruct a; try discriminate Ka; reflexivity).
      rewrite (IH a), (IH b); try assumption; [|exists (a, b); auto|exists (a, b); auto]. cbn [rbind].
      assert (N : ~ In a (map fst done)).
      { rewrite map_app in D'. cbn [map fst] in D'. apply NoDup_remove_2 in D'. intros F. apply D', in_or_app. left. exact F. }
      rewrite value_last by assumption. cbn [rbind]. fold (copy_map to_owned value_insert). rewrite IHt.
      + rewrite <- app_assoc. reflexivity.
      + rewrite <- app_assoc. exact D'.
      + rewrite map_app. intros x Hx. apply in_app_or in Hx as [Hx|[<-|[]]]; [apply M, Hx|exact Ka].
      + intros kv Hk. apply Sub. right. exact Hk. }
    rewrite (G kvs [] D); [reflexivity|intros x []|auto].
Qed.

(** All cells of all columns are such. *)
Definition clean (v : value) : Prop := unrepeated v /\ borrowable v = true.
Lemma clean_list t vs : (forall x, In x vs -> clean x) -> clean (VArray t vs).
Proof.
  intros H. unfold clean. cbn [unrepeated borrowable]. induction vs as [|x vs IH]; [split; [exact I|reflexivity]|].
  destruct (H x (or_introl eq_refl)) as [A B]. destruct IH as [A' B']; [intros y Hy; apply H; right; exact Hy|].
  cbn [fold_right forallb]. rewrite B. auto.
Qed.
Lemma clean_map k t kvs : distinct_keys (map fst kvs) = true -> (forall kv, In kv kvs -> clean (snd kv)) -> clean (VMap k t kvs).
Proof.
  intros D H. unfold clean. cbn [unrepeated borrowable]. pose proof (distinct_keys_in _ D) as K. apply distinct_nodup in D.
  cut (fold_right (fun kv P => unrepeated (fst kv) /\ unrepeated (snd kv) /\ P) True kvs /\
       forallb (fun kv => map_key (fst kv) && borrowable (snd kv)) kvs = true); [tauto|]. clear D.
  induction kvs as [|[a b] kvs IH]; [split; [exact I|reflexivity]|].
  destruct (H _ (or_introl eq_refl)) as [A B]. destruct IH as [A' B'];
    [intros y Hy; apply H; right; exact Hy|intros y Hy; apply K; right; exact Hy|].
  pose proof (K a (or_introl eq_refl)) as Ka. cbn [fold_right forallb fst snd] in *. rewrite Ka, B.
  repeat split; auto. destruct a; try discriminate Ka; exact I.
Qed.
Lemma clean_mapM (f : nat -> res value) js vs : (forall j v, f j = Ok v -> clean v) -> mapM f js = Ok vs -> forall x, In x vs -> clean x.
Proof.
  intros Hf. revert vs. induction js as [|j js IH]; intros vs E; cbn [mapM] in E.
  - injection E as <-. intros x [].
  - inv_do E. inv_do E. injection E as <-. intros y [<-|Hy]; [eapply Hf; eassumption|eapply IH; eassumption].
Qed.
Lemma clean_loop (f g : nat -> res value) : (forall j v, g j = Ok v -> clean v) -> forall js m m',
  distinct_keys (map fst m) = true -> (forall kv, In kv m -> clean (snd kv)) -> map_loop f g js m = Ok m' ->
  distinct_keys (map fst m') = true /\ (forall kv, In kv m' -> clean (snd kv)).
Proof.
  intros Hg. induction js as [|j js IH]; intros m m' D F E; cbn [map_loop] in E.
  - injection E as <-. auto.
  - inv_do E. inv_do E. inv_do E. unfold vref_insert in E2.
    destruct (value_ref_hashable x) eqn:Hh; [|discriminate E2].
    destruct (vref_put_keys x x0 (hashable_map_key _ Hh) _ _ D E2) as (A & B & C).
    apply (IH x1 m' A); [|exact E]. intros kv Hkv.
    destruct (C kv Hkv) as [H|[->|[H ->]]]; [apply F, H|eapply Hg; eassumption|eapply Hg; eassumption].
Qed.
Ltac leaf := split; [exact I|reflexivity].
Lemma at_clean : forall c i v, at_ c i = Ok v -> clean v.
Proof.
  fix IH 1. intros c i v H. destruct c; cbn [at_] in H;
    try (inv_do H; injection H as <-; leaf); try (eapply IH; eassumption).
  - inv_do H. destruct x as [[x1 x2] x3]. injection H as <-. leaf.
  - inv_do H. injection H as <-. destruct k; leaf.
  - inv_do H. destruct (x =? 1)%N; [injection H as <-; leaf|]. inv_do H. injection H as <-. change (clean x0). eapply IH; eassumption.
  - inv_do H. inv_do H. injection H as <-. apply clean_list. eapply clean_mapM; [|eassumption]. intros; eapply IH; eassumption.
  - inv_do H. inv_do H. injection H as <-.
    destruct (clean_loop (at_ c1) (at_ c2) (fun j w => IH c2 j w) (seq (fst x) (snd x - fst x)) [] x0 eq_refl (fun _ F => match F with end) E0) as [D F].
    apply clean_map; assumption.
  - inv_do H. eapply IH; eassumption.
  - destruct (_ <=? _)%nat; [discriminate H|]. eapply IH; eassumption.
  - inv_do H. inv_do H. inv_do H. inv_do H. destruct (_ <? _)%nat; [discriminate H|]. destruct x1 as [|k]; [eapply IH; eassumption|].
    clear E E0 E1 E2. revert cs k H. fix IHl 1. intros [|d cs] [|k] H; try discriminate H; [eapply IH; eassumption|eapply IHl; eassumption].
  - inv_do H. destruct x; try discriminate H. inv_do H. injection H as <-. leaf.
  - inv_do H. inv_do H. destruct x0 as [w|]; [destruct w; try discriminate H; inv_do H|]; injection H as <-; leaf.
  - inv_do H. destruct x; try discriminate H. injection H as <-. leaf.
  - inv_do H. destruct x; try discriminate H. injection H as <-. leaf.
  - inv_do H. inv_do H. destruct x0 as [w|]; [destruct w; try discriminate H|]; injection H as <-; leaf.
  - inv_do H. inv_do H. destruct x0 as [w|]; [destruct w; try discriminate H|]; injection H as <-; leaf.
  - discriminate H.
Qed.
Theorem c116_cells : forall c i v, at_ c i = Ok v -> to_owned v = Ok v /\ to_ref v = Ok v.
Proof.
  intros c i v H. destruct (at_clean c i v H) as [U B]. split; [apply c116_own; assumption|].
  rewrite c116_borrow_partial, B by assumption. reflexivity.
Qed.

(** What has been borrowed is got back. *)
Theorem c116_back : forall v r, unrepeated v -> to_ref v = Ok r -> to_owned r = Ok v.
Proof.
  intros v r U H. rewrite c116_borrow_partial in H by exact U. destruct (borrowable v) eqn:B; [|discriminate H].
  injection H as <-. apply c116_own; assumption.
Qed.

(** Not every owned value can be borrowed: a map from dates cannot, nor can a time. *)
Theorem c116_borrow_refuted :
  (forall d z, exists v, has_value (HMap HDate (HNum U8)) (XMap [(XDate d, XNum U8 z)]) = Ok v /\ unrepeated v /\ to_ref v = Panic PUnimplemented) /\
  (forall s n tz, exists v, has_value HTime (XTime s n tz) = Ok v /\ unrepeated v /\ to_ref v = Panic PUnimplemented).
Proof.
  split.
  - intros d z. eexists. split; [reflexivity|]. split; [|reflexivity]. repeat split. constructor; [intros []|constructor].
  - intros. eexists. split; [reflexivity|]. split; reflexivity.
Qed.

Example c116_case :
  let v := VArray (TMap TString (TNullable (TNum U8)))
    [VMap TString (TNullable (TNum U8)) [(VString (str "a"), VNull (TNum U8)); (VString (str "b"), VSome (VNum U8 1))]; VMap TString (TNullable (TNum U8)) []] in
  unrepeated v /\ borrowable v = true /\ to_ref v = Ok v /\ to_owned v = Ok v /\
  to_owned (VMap TDate (TNum U8) [(VDate 1, VNum U8 1)]) = Ok (VMap TDate (TNum U8) [(VDate 1, VNum U8 1)]) /\
  to_ref (VSome (VMap TDate (TNum U8) [(VDate 1, VNum U8 1)])) = Panic PUnimplemented /\
  to_ref (VMap TDate (TNum U8) []) = Ok (VMap TDate (TNum U8) []).
Proof.
  repeat split. constructor; [intros [F|[]]; discriminate F|]. constructor; [intros []|constructor].
  constructor.
Qed.

Print Assumptions c116_borrow_partial.
Print Assumptions c116_own.
Print Assumptions c116_cells.
Print Assumptions c116_back.
Print Assumptions c116_borrow_refuted.
