(** More about typed iteration: when it starts, skipping, and concatenated columns. *)
From Verif Require Import Base Bytes Types TypeNames Decimal DateTime Values Columns SpecColumns
  ConcatProofs PropConcat FromSql SpecFromSql Iter SpecIter PushProofs FromSqlProofs IterProofs.

Section Zones.
Variable offset : bytes -> Z -> Z.

(** * Skipping *)

Lemma fused r : forall it it', next offset r it = Ok (None, it') -> next offset r it' = Ok (None, it').
Proof.
  induction r; intros it it' H; cbn [next] in H |- *.
  - destruct it; inversion H; subst; reflexivity.
  - unfold text_next in H |- *. destruct it as [src i n]. cbn [ti_src ti_index ti_size] in *. destruct src.
    + destruct (Nat.eqb_spec i n).
      * inversion H; subst. cbn [ti_src ti_index ti_size]. rewrite Nat.eqb_refl. reflexivity.
      * destruct (nth_error l i); discriminate H.
    + destruct (Nat.leb_spec n i) as [L|L].
      * inversion H; subst. cbn [ti_src ti_index ti_size].
        destruct (Nat.leb_spec n i); [reflexivity|lia].
      * destruct (Base.slice _ _ _); discriminate H.
    + destruct (Nat.leb_spec n i) as [L|L].
      * inversion H; subst. cbn [ti_src ti_index ti_size].
        destruct (Nat.leb_spec n i); [reflexivity|lia].
      * inv_do H. inv_do H. discriminate H.
  - unfold dec_next in *. destruct (de_rest it) eqn:E; inversion H; subst. rewrite E. reflexivity.
  - unfold date_next in *. destruct (da_index it =? da_len it)%nat eqn:E.
    + inversion H; subst. rewrite E. reflexivity.
    + inv_do H. inv_do H. discriminate H.
  - unfold date_next in *. destruct (da_index it =? da_len it)%nat eqn:E.
    + inversion H; subst. rewrite E. reflexivity.
    + inv_do H. inv_do H. discriminate H.
  - unfold date_next in *. destruct (da_index it =? da_len it)%nat eqn:E.
    + inversion H; subst. rewrite E. reflexivity.
    + inv_do H. inv_do H. discriminate H.
  - unfold addr_next in *. destruct it; [inversion H; subst; reflexivity|inv_do H; discriminate H].
  - unfold addr_next in *. destruct it; [inversion H; subst; reflexivity|inv_do H; discriminate H].
  - unfold addr_next in *. destruct it; [inversion H; subst; reflexivity|inv_do H; discriminate H].
  - destruct it as [i nulls]. cbn [fst snd] in *. destruct nulls as [|f nulls].
    + inversion H; subst. reflexivity.
    + inv_do H. destruct x as [o i']. cbn [fst snd] in *. destruct o; [discriminate H|].
      inversion H; subst. cbn [fst snd]. rewrite (IHr _ _ E). reflexivity.
  - destruct it as [i ro]. cbn [fst snd] in *. destruct (ro_index ro =? ro_size ro)%nat eqn:E.
    + inversion H; subst. cbn [fst snd]. rewrite E. reflexivity.
    + inv_do H. inv_do H. discriminate H.
  - destruct it as [i ro]. cbn [fst snd] in *. destruct (ro_index ro =? ro_size ro)%nat eqn:E.
    + inversion H; subst. cbn [fst snd]. rewrite E. reflexivity.
    + inv_do H. inv_do H. discriminate H.
Qed.

Lemma nexts_none r n it : next offset r it = Ok (None, it) -> nexts (next offset r) n it = Ok (None, it).
Proof. intro H. induction n; cbn [nexts]; [exact H|]. rewrite H. cbn [rbind snd]. exact IHn. Qed.

Lemma nexts_default r n : forall it, nexts (next offset r) n it = nth_default (next offset r) n it.
Proof.
  induction n; intro it; cbn [nexts nth_default]; [reflexivity|].
  destruct (next offset r it) as [[o it']| |] eqn:E; try reflexivity. cbn [rbind fst snd]. destruct o.
  - apply IHn.
  - apply nexts_none. apply (fused r it it' E).
Qed.

(** Iterators with a position have not passed the end. *)
Definition inside (r : itype) : istate r -> Prop :=
  match r with
  | IBytes => fun t => (ti_index t <= ti_size t)%nat
  | IDateTime | INaive | IDate => fun d => (da_index d <= da_len d)%nat
  | _ => fun _ => True
  end.

Lemma start_inside want c ct d : start_dates want c ct = Ok d -> (da_index d <= da_len d)%nat.
Proof.
  intro H. unfold start_dates in H.
  assert (G : forall b : bool, (if b then do x <- get_dates c; Ok (mk_date None (fst x) 0 (stamps_len (fst x)) (snd x))
                       else Err EInvalidType) = Ok d -> (da_index d <= da_len d)%nat).
  { intros b X. destruct b; [|discriminate X]. inv_do X. inversion X; subst. cbn. lia. }
  destruct ct; try (apply (G _ H)).
  destruct (want ct); [|discriminate H]. inv_do H. inv_do H. inversion H; subst. cbn. lia.
Qed.

Lemma iter_inside r c it : iter r c = Ok it -> inside r it.
Proof.
  unfold iter. destruct r; intro H; try exact I; try (apply (start_inside _ _ _ _ H)).
  cbn [inside]. cbn [iter_with_props] in H.
  destruct (ctype c) as [| | | | | | | | | |t| | | | |]; try discriminate H; try destruct t; try discriminate H;
    inv_do H; try destruct x; try discriminate H; inversion H; subst; cbn; lia.
Qed.

Lemma text_inside t o t' : (ti_index t <= ti_size t)%nat -> text_next t = Ok (o, t') -> (ti_index t' <= ti_size t')%nat.
Proof.
  destruct t as [src i n]. cbn [ti_index ti_size]. intros L H. unfold text_next in H. cbn [ti_src ti_index ti_size] in H.
  destruct src.
  - destruct (Nat.eqb_spec i n); [inversion H; subst; cbn; lia|]. inv_do H. inversion H; subst. cbn. lia.
  - destruct (Nat.leb_spec n i); [inversion H; subst; cbn; lia|]. inv_do H. inversion H; subst. cbn. lia.
  - destruct (Nat.leb_spec n i); [inversion H; subst; cbn; lia|]. inv_do H. inv_do H. inversion H; subst. cbn. lia.
Qed.
Lemma date_inside f d o d' : (da_index d <= da_len d)%nat -> date_next f d = Ok (o, d') -> (da_index d' <= da_len d')%nat.
Proof.
  destruct d as [low da i n tz]. unfold date_next. cbn [da_index da_len da_low da_data da_tz]. intros L H.
  destruct (Nat.eqb_spec i n); [inversion H; subst; cbn; lia|]. inv_do H. inv_do H. inversion H; subst. cbn. lia.
Qed.
Lemma date_nth_inside f n d o d' : (da_index d <= da_len d)%nat -> date_nth f n d = Ok (o, d') -> (da_index d' <= da_len d')%nat.
Proof.
  unfold date_nth. intros L H. destruct (Nat.leb_spec (da_len d - da_index d) n).
  - inversion H; subst. cbn. lia.
  - apply date_inside in H; [exact H|]. cbn. lia.
Qed.

Lemma reached_inside r it : reached offset r it -> inside r it.
Proof.
  induction 1 as [c it H|it o it' R IH H|n it o it' R IH H].
  - apply (iter_inside r c it H).
  - destruct r; try exact I; cbn [inside next] in *.
    + apply (text_inside _ _ _ IH H).
    + apply (date_inside _ _ _ _ IH H).
    + apply (date_inside _ _ _ _ IH H).
    + apply (date_inside _ _ _ _ IH H).
  - destruct r; try exact I; cbn [inside nth] in *.
    + destruct (Nat.leb_spec (ti_size it - ti_index it) n).
      * inversion H; subst. cbn. lia.
      * apply text_inside in H; [exact H|]. cbn. lia.
    + apply (date_nth_inside _ _ _ _ _ IH H).
    + apply (date_nth_inside _ _ _ _ _ IH H).
    + apply (date_nth_inside _ _ _ _ _ IH H).
Qed.

Lemma num_nth s n : forall l y, nth_default (next offset (INum s)) n l = Ok y -> nth offset (INum s) n l = Ok y.
Proof.
  induction n; intros l y H; cbn [nth_default] in H.
  - destruct l; exact H.
  - destruct l as [|z l].
    + cbn in H. inversion H; subst. reflexivity.
    + cbn [next rbind fst snd] in H. apply IHn in H. exact H.
Qed.

Lemma text_nth n : forall t y, (ti_index t <= ti_size t)%nat ->
  nth_default text_next n t = Ok y -> nth offset IBytes n t = Ok y.
Proof.
  induction n; intros t y L H; cbn [nth_default] in H; cbn [nth].
  - destruct t as [src i m]. cbn [ti_index ti_size ti_src] in *.
    destruct (Nat.leb_spec (m - i) 0).
    + assert (i = m) by lia. subst i. unfold text_next in H. cbn [ti_src ti_index ti_size] in H.
      destruct src; try rewrite Nat.eqb_refl in H; try rewrite Nat.leb_refl in H; exact H.
    + rewrite Nat.add_0_r. exact H.
  - destruct (text_next t) as [[o t']| |] eqn:E; try discriminate H. cbn [rbind fst snd] in H.
    assert (L' := text_inside _ _ _ L E). destruct t as [src i m]. cbn [ti_index ti_size ti_src] in *.
    destruct o as [x|].
    + assert (t' = mk_text src (S i) m /\ (i < m)%nat) as [-> Li].
      { unfold text_next in E. cbn [ti_src ti_index ti_size] in E. destruct src.
        - destruct (Nat.eqb_spec i m); [discriminate E|]. inv_do E. inversion E; subst. split; [reflexivity|lia].
        - destruct (Nat.leb_spec m i); [discriminate E|]. inv_do E. inversion E; subst. split; [reflexivity|lia].
        - destruct (Nat.leb_spec m i); [discriminate E|]. inv_do E. inv_do E. inversion E; subst. split; [reflexivity|lia]. }
      specialize (IHn _ _ L' H). cbn [nth ti_index ti_size ti_src] in IHn.
      destruct (Nat.leb_spec (m - S i) n) as [A|A]; destruct (Nat.leb_spec (m - i) (S n)) as [B|B]; try lia.
      * exact IHn.
      * replace (i + S n)%nat with (S i + n)%nat by lia. exact IHn.
    + inversion H; subst y. unfold text_next in E. cbn [ti_src ti_index ti_size] in E.
      assert (i = m /\ t' = mk_text src i m) as [-> ->].
      { destruct src.
        - destruct (Nat.eqb_spec i m); [inversion E; auto|inv_do E; discriminate E].
        - destruct (Nat.leb_spec m i); [inversion E; split; [lia|reflexivity]|inv_do E; discriminate E].
        - destruct (Nat.leb_spec m i); [inversion E; split; [lia|reflexivity]|inv_do E; inv_do E; discriminate E]. }
      rewrite Nat.sub_diag. reflexivity.
Qed.

Lemma dates_nth f n : (forall low d i j m tz k, f (mk_date low d i m tz) k = f (mk_date low d j m tz) k) ->
  forall t y, (da_index t <= da_len t)%nat ->
  nth_default (date_next f) n t = Ok y -> date_nth f n t = Ok y.
Proof.
  intro Ext. induction n; intros t y L H; cbn [nth_default] in H.
  - destruct t as [low d i m tz]. cbn [da_index da_len] in L. unfold date_nth. cbn [da_index da_len da_low da_data da_tz].
    destruct (Nat.leb_spec (m - i) 0).
    + assert (i = m) by lia. subst i. unfold date_next in H. cbn [da_index da_len] in H.
      rewrite Nat.eqb_refl in H. exact H.
    + rewrite Nat.add_0_r. exact H.
  - destruct (date_next f t) as [[o t']| |] eqn:E; try discriminate H. cbn [rbind fst snd] in H.
    assert (L' := date_inside _ _ _ _ L E). destruct t as [low d i m tz].
    unfold date_next in E. cbn [da_index da_len da_low da_data da_tz] in *.
    destruct (Nat.eqb_spec i m) as [->|Ne].
    + inversion E; subst. cbn in H. inversion H; subst. unfold date_nth. cbn [da_index da_len da_low da_data da_tz].
      rewrite Nat.sub_diag. reflexivity.
    + inv_do E. inv_do E. inversion E; subst o t'. specialize (IHn _ _ L' H).
      unfold date_nth in IHn |- *. cbn [da_index da_len da_low da_data da_tz] in IHn |- *.
      destruct (Nat.leb_spec (m - S i) n) as [A|A]; destruct (Nat.leb_spec (m - i) (S n)) as [B|B]; try lia.
      * exact IHn.
      * replace (i + S n)%nat with (S i + n)%nat by lia. exact IHn.
Qed.

Lemma addrs_nth k f n : (0 < k)%nat -> forall b y,
  nth_default (addr_next k f) n b = Ok y -> addr_nth k f n b = Ok y.
Proof.
  intro Hk. induction n; intros b y H; cbn [nth_default] in H; unfold addr_nth.
  - destruct (Nat.leb_spec (length b / k) 0) as [L|L].
    + assert (length b < k)%nat by (apply Nat.div_small_iff; [lia|]; set (q := (length b / k)%nat) in *; lia). unfold addr_next in H.
      destruct b as [|x b]; [exact H|].
      unfold Base.slice in H. cbn [Nat.leb andb] in H.
      destruct (Nat.leb_spec k (length (x :: b))); [lia|discriminate H].
    + exact H.
  - destruct (addr_next k f b) as [[o b']| |] eqn:E; try discriminate H. cbn [rbind fst snd] in H.
    unfold addr_next in E. destruct b as [|x b].
    + inversion E; subst. inversion H; subst. cbn [length]. rewrite Nat.div_0_l by lia. reflexivity.
    + inv_do E. inversion E; subst o b'. specialize (IHn _ _ H). unfold addr_nth in IHn.
      assert (k <= length (x :: b))%nat as Lk.
      { unfold Base.slice in E0. cbn [Nat.leb andb] in E0.
        destruct (Nat.leb_spec k (length (x :: b))); [assumption|discriminate E0]. }
      assert (D : (length (x :: b) / k = S (length (skipn k (x :: b)) / k))%nat).
      { rewrite skipn_length. replace (length (x :: b)) with ((length (x :: b) - k) + 1 * k)%nat at 1 by lia.
        rewrite Nat.div_add by lia. lia. }
      rewrite D. set (q := (length (skipn k (x :: b)) / k)%nat) in *.
      destruct (Nat.leb_spec q n) as [A|A]; destruct (Nat.leb_spec (S q) (S n)) as [B|B]; try lia.
      * exact IHn.
      * rewrite skipn_more in IHn. replace (S n * k)%nat with (k + n * k)%nat by lia. exact IHn.
Qed.

Lemma decs_nth n : forall d y, nth_default dec_next n d = Ok y -> nth offset IDecimal n d = Ok y.
Proof.
  induction n; intros d y H; cbn [nth_default] in H; cbn [nth].
  - destruct d as [l p s nb]. cbn [de_rest de_prec de_scale de_nb]. destruct l; exact H.
  - destruct d as [l p s nb]. cbn [de_rest de_prec de_scale de_nb]. destruct l as [|z l].
    + cbn in H. inversion H; subst. reflexivity.
    + cbn [dec_next de_rest rbind fst snd de_prec de_scale de_nb] in H. apply IHn in H. cbn [nth de_rest de_prec de_scale de_nb] in H.
      cbn [length Nat.leb skipn]. exact H.
Qed.

Theorem nth_nexts r n it y : reached offset r it ->
  nexts (next offset r) n it = Ok y -> nth offset r n it = Ok y.
Proof.
  intros R H. apply reached_inside in R. rewrite nexts_default in H.
  destruct r.
  - apply num_nth. exact H.
  - apply text_nth; assumption.
  - apply decs_nth; exact H.
  - apply dates_nth; try assumption. intros; reflexivity.
  - apply dates_nth; try assumption. intros; reflexivity.
  - apply dates_nth; try assumption. intros; reflexivity.
  - apply (addrs_nth 4); [lia|exact H].
  - apply (addrs_nth 16); [lia|exact H].
  - apply (addrs_nth 16); [lia|exact H].
  - exact H.
  - exact H.
  - exact H.
Qed.

End Zones.

(** * Starting *)

Definition mapped (C : col) (j L : nat) (t : sqltype) : Prop :=
  mapless t \/ regular t /\ (map_level (ctype C) = j + L)%nat /\ (map_level t <= L)%nat.
Lemma chain_mapped C j L t : chain t -> (map_level (ctype C) = j + L)%nat -> (level t <= L)%nat -> mapped C j L t.
Proof.
  intros H E Le. unfold mapped. destruct t; cbn [chain] in H; auto.
Qed.
Lemma mapped_null C j L t : mapped C j L (TNullable t) -> mapped C j L t.
Proof. intros [M|(M & E & Le)]; [left; exact M|]. apply chain_mapped; assumption. Qed.
Lemma mapped_array C j L t : mapped C j L (TArray t) -> mapped C j L t.
Proof. intros [M|(M & E & Le)]; [left; exact M|]. apply chain_mapped; assumption. Qed.
Lemma plain_mapless t : plain_key t -> mapless t.
Proof. intros [->|[s ->]]; exact I. Qed.

(** Columns that are a piece of another one, or several, lend nothing below level 255. *)
Lemma stuck C j L : forall r t p, typed r ->
  (forall slots m, get_internal C slots 0 0 = Err EUnsupported /\
                   get_internal C slots 0 (1 + 2 * N.of_nat (j + m)) = Err EUnsupported) ->
  get_low C = Err EUnsupported -> get_dates C = Err EUnsupported ->
  mapped C j L t ->
  (p = 0%N \/ exists m, p = (1 + 2 * N.of_nat (j + m))%N) ->
  exists e, iter_with_props r C t p = Err e.
Proof.
  induction r as [s| | | | | | | | |r IHr|r IHr|r1 IHr1 r2 IHr2]; intros ty p Ty G Gl Gd M Hp;
    assert (Gp : forall slots, get_internal C slots 0 p = Err EUnsupported)
      by (intro slots; destruct Hp as [->|[m ->]]; [apply (G slots O)|apply (G slots m)]);
    assert (G0 : forall slots, get_internal C slots 0 0 = Err EUnsupported) by (intro slots; apply (G slots O));
    try contradiction; cbn [iter_with_props].
  - destruct (check_type ty (TNum s)); [rewrite Gp; cbn [rbind]|]; eauto.
  - destruct ty; eauto; try (rewrite Gp; cbn [rbind]; eauto; fail); try (rewrite G0; cbn [rbind]; eauto; fail).
    destruct ty; eauto; rewrite Gl; cbn [rbind]; eauto.
  - destruct ty; eauto. rewrite G0. cbn [rbind]; eauto.
  - unfold start_dates. destruct ty; cbn [is_datetime]; eauto; try (rewrite Gd; cbn [rbind]; eauto; fail).
    destruct (is_datetime _); [rewrite Gl; cbn [rbind]|]; eauto.
  - unfold start_dates. destruct ty; cbn [is_datetime]; eauto; try (rewrite Gd; cbn [rbind]; eauto; fail).
    destruct (is_datetime _); [rewrite Gl; cbn [rbind]|]; eauto.
  - unfold start_dates. destruct ty; cbn [is_date]; eauto; try (rewrite Gd; cbn [rbind]; eauto; fail).
    destruct (is_date _); [rewrite Gl; cbn [rbind]|]; eauto.
  - destruct ty; eauto.
    destruct (IHr ty 0%N Ty G Gl Gd (mapped_null _ _ _ _ M) (or_introl eq_refl)) as [e E].
    rewrite E. cbn [rbind]; eauto.
  - destruct ty; eauto.
    destruct (IHr ty p Ty G Gl Gd (mapped_array _ _ _ _ M) Hp) as [e E].
    rewrite E. cbn [rbind]; eauto.
  - destruct ty; eauto. destruct M as [[]|((Kp & Ch) & M1 & M2)]. cbn [map_level] in M2 |- *.
    destruct (Nat.ltb_spec (map_level (ctype C)) (1 + level ty2)); [lia|].
    destruct Ty as [T1 T2]. rewrite key_props.
    destruct (IHr1 ty1 (1 + 2 * N.of_nat (map_level (ctype C) - (1 + level ty2)))%N T1 G Gl Gd) as [e E].
    + left. apply plain_mapless. exact Kp.
    + right. exists (L - (1 + level ty2))%nat. f_equal. f_equal. f_equal. lia.
    + rewrite E. cbn [rbind]; eauto.
Qed.

Lemma part_mapped C c j : part C c j -> exists L, mapped C j L (ctype c).
Proof.
  intros [_ _ M]. destruct M as [M|[(M & E)|(-> & -> & M)]].
  - exists O. left. exact M.
  - exists (level (ctype c)). apply chain_mapped; auto.
  - exists (map_level (ctype c)). right. split; [exact M|]. split; [reflexivity|lia].
Qed.

(** What only a whole column has. *)
Definition alone (C c : col) : Prop :=
  C = c \/ (get_low C = Err EUnsupported /\ get_dates C = Err EUnsupported).
Lemma alone_below C c i : alone C c -> get_low c = Err EUnsupported -> get_dates c = Err EUnsupported -> alone C i.
Proof. intros [->|W] L D; right; auto. Qed.

Lemma stuck_part C c j r : part C c j -> alone C c -> typed r ->
  (match c with CChunk _ _ _ | CConcat _ _ => True | _ => False end) ->
  exists e, iter_with_props r C (ctype c) 0 = Err e.
Proof.
  intros P A Ty Hc. destruct (part_mapped C c j P) as [L M].
  apply (stuck C j L r (ctype c) 0%N Ty); auto.
  - intros slots m. rewrite (pt_values _ _ _ P) by lia. rewrite (pt_keys _ _ _ P).
    destruct c; try contradiction; split; reflexivity.
  - destruct A as [->|[A _]]; [|exact A]. destruct c; try contradiction; reflexivity.
  - destruct A as [->|[_ A]]; [|exact A]. destruct c; try contradiction; reflexivity.
Qed.

Lemma num_answer s : forall c, stored c -> number s (ctype c) ->
  (exists w, get_internal c 2 0 0 = Ok w) \/ exists e, get_internal c 2 0 0 = Err e.
Proof.
  induction c; intros St Hn; cbn [ctype] in Hn; cbn [stored] in St; try (inversion Hn; fail); cbn [get_internal]; eauto; try contradiction.
  - left. cbn. eauto.
  - left. cbn. eauto.
  - inversion Hn; subst. auto.
  - right. cbn. eauto.
Qed.

Theorem iter_answers : forall r C c j, typed r -> part C c j -> alone C c -> tidy c -> stored c ->
  (exists it, iter_with_props r C (ctype c) 0 = Ok it) /\ walks r (ctype c) \/
  exists e, iter_with_props r C (ctype c) 0 = Err e.
Proof.
  induction r as [s| | | | | | | | |r IHr|r IHr|r1 IHr1 r2 IHr2]; intros C c j Ty P A T St;
    try contradiction;
    assert (G : forall slots, get_internal C slots 0 0 = get_internal c slots 0 0)
      by (intro slots; apply (pt_values _ _ _ P); lia);
    destruct (match c with CChunk _ _ _ | CConcat _ _ => true | _ => false end) eqn:Hc;
    try (right; apply (stuck_part C c j _ P A Ty); destruct c; try discriminate Hc; exact I).
  - cbn [iter_with_props]. destruct (check_type (ctype c) (TNum s)) eqn:Ch; [|eauto].
    apply number_check in Ch. rewrite G. destruct (num_answer s c St Ch) as [[w W]|[e W]].
    + destruct (num_access s c w Ch W) as (zs & -> & _). rewrite W. cbn [rbind].
      destruct (scalar_eq_dec s s); [|congruence]. left. split; [eauto|]. constructor; exact Ch.
    + rewrite W. cbn [rbind]. eauto.
  - cbn [iter_with_props].
    destruct c; cbn [ctype stored] in *; try discriminate Hc; try contradiction; eauto.
    + rewrite G. cbn. left. split; [eauto|]. constructor. left; reflexivity.
    + rewrite G. cbn. destruct T as [T1 T2]. apply N.eqb_neq in T1. rewrite T1. cbn.
      left. split; [eauto|]. constructor. right; eauto.
    + destruct k; cbn; eauto.
    + destruct A as [->|[A _]].
      * cbn [get_low]. destruct (ctype c) eqn:Et; eauto.
        -- destruct (has_accessor c); cbn [rbind]; eauto. left. split; [eauto|]. apply WkLowText. left; reflexivity.
        -- destruct (has_accessor c); cbn [rbind]; eauto. left. split; [eauto|]. apply WkLowText. right; eauto.
      * rewrite A. destruct (ctype c); cbn [rbind]; eauto.
  - cbn [iter_with_props].
    destruct c; cbn [ctype stored] in *; try discriminate Hc; try contradiction; eauto.
    + destruct k; cbn; eauto.
    + rewrite G. cbn. left. split; [eauto|]. constructor.
  - cbn [iter_with_props]. unfold start_dates.
    destruct c; cbn [ctype stored is_datetime] in *; try discriminate Hc; try contradiction; eauto;
      try (destruct A as [->|[_ A]]; [cbn; first [solve [eauto]|solve [left; split; [eauto|constructor]]]|rewrite A; cbn; eauto]; fail).
    + destruct k; cbn; eauto.
    + destruct (is_datetime (ctype c)) eqn:Et; eauto. destruct A as [->|[A _]]; [|rewrite A; cbn; eauto].
      cbn [get_low get_dates]. destruct (ctype c) eqn:Ec; try discriminate Et.
      destruct c; cbn [ctype] in Ec; try discriminate Ec; cbn; eauto;
        try (destruct k; discriminate Ec).
      left. split; [eauto|]. constructor.
  - cbn [iter_with_props]. unfold start_dates.
    destruct c; cbn [ctype stored is_datetime] in *; try discriminate Hc; try contradiction; eauto;
      try (destruct A as [->|[_ A]]; [cbn; first [solve [eauto]|solve [left; split; [eauto|constructor]]]|rewrite A; cbn; eauto]; fail).
    + destruct k; cbn; eauto.
    + destruct (is_datetime (ctype c)) eqn:Et; eauto. destruct A as [->|[A _]]; [|rewrite A; cbn; eauto].
      cbn [get_low get_dates]. destruct (ctype c) eqn:Ec; try discriminate Et.
      destruct c; cbn [ctype] in Ec; try discriminate Ec; cbn; eauto;
        try (destruct k; discriminate Ec).
      left. split; [eauto|]. constructor.
  - cbn [iter_with_props]. unfold start_dates.
    destruct c; cbn [ctype stored is_date] in *; try discriminate Hc; try contradiction; eauto;
      try (destruct A as [->|[_ A]]; [cbn; first [solve [eauto]|solve [left; split; [eauto|constructor]]]|rewrite A; cbn; eauto]; fail).
    + destruct k; cbn; eauto.
    + destruct (is_date (ctype c)) eqn:Et; eauto. destruct A as [->|[A _]]; [|rewrite A; cbn; eauto].
      cbn [get_low get_dates]. destruct (ctype c) eqn:Ec; try discriminate Et.
      destruct c; cbn [ctype] in Ec; try discriminate Ec; cbn; eauto;
        try (destruct k; discriminate Ec).
      left. split; [eauto|]. constructor.
  - destruct c; cbn [ctype stored iter_with_props] in *; try discriminate Hc; try contradiction; eauto.
    + destruct k; cbn; eauto.
    + destruct T as (Ti & Ln & F).
      destruct (IHr C c j Ty (part_null (fun _ _ => 0%Z) _ _ _ _ P) (alone_below _ _ _ A eq_refl eq_refl) Ti St) as [[[it E] W]|[e E]];
        rewrite E; cbn [rbind]; eauto.
      change (TNullable (ctype c)) with (ctype (CNullable c nulls)).
      rewrite (pt_values _ _ _ P) by lia. cbn [get_internal]. rewrite Nat.eqb_refl. cbn [Nat.ltb Nat.leb clen].
      rewrite Ln. cbn [rbind]. rewrite Nat.eqb_refl. cbn [rbind]. left. split; [eauto|]. constructor. exact W.
  - destruct c; cbn [ctype stored iter_with_props] in *; try discriminate Hc; try contradiction; eauto.
    + destruct k; cbn; eauto.
    + destruct T as (Ti & Ln & F).
      destruct (IHr C c j Ty (part_array (fun _ _ => 0%Z) _ _ _ _ P) (alone_below _ _ _ A eq_refl eq_refl) Ti St) as [[[it E] W]|[e E]];
        rewrite E; cbn [rbind]; eauto.
      change (TArray (ctype c)) with (ctype (CArray c offs)).
      rewrite (pt_values _ _ _ P) by lia. cbn [get_internal]. rewrite Nat.eqb_refl. cbn [need Nat.leb rbind].
      left. split; [eauto|]. constructor. exact W.
  - destruct c; cbn [ctype stored iter_with_props] in *; try discriminate Hc; try contradiction; eauto.
    + destruct k; cbn; eauto.
    + destruct (part_key (fun _ _ => 0%Z) _ _ _ _ _ P) as (Lt & Kp & Gk). rewrite Lt.
      destruct T as (Tk & Tv & Lk & Lv & Cl). destruct St as [Sk Sv]. destruct Ty as [T1 T2].
      set (p := N.lor _ _) in *.
      assert (K : (exists it, iter_with_props r1 C (ctype c1) p = Ok it) /\ walks r1 (ctype c1) \/
                  exists e, iter_with_props r1 C (ctype c1) p = Err e).
      { destruct Kp as [Ks|[s Ks]].
        - destruct r1; try contradiction; cbn [iter_with_props]; rewrite Ks; eauto;
            try (right; cbn; eauto; fail).
          rewrite Gk. destruct c1; cbn [ctype] in Ks; try discriminate Ks; try contradiction; try (destruct k; discriminate Ks);
            [left|right; cbn; eauto|right; cbn; eauto].
          split; [cbn; eexists; reflexivity|]. constructor. left; reflexivity.
        - destruct r1 as [s'| | | | | | | | | | |]; try contradiction; cbn [iter_with_props]; rewrite Ks; eauto;
            try (right; cbn; eauto; fail).
          destruct (check_type (TNum s) (TNum s')) eqn:Ch; eauto. apply number_check in Ch.
          rewrite Gk. rewrite <- Ks in Ch. destruct (num_answer s' c1 Sk Ch) as [[w W]|[e W]].
          + destruct (num_access s' c1 w Ch W) as (zs & -> & _). rewrite W. cbn [rbind].
            destruct (scalar_eq_dec s' s'); [|congruence]. left. split; [eauto|]. constructor. rewrite <- Ks. exact Ch.
          + rewrite W. cbn [rbind]. eauto. }
      destruct K as [[[ki K] Wk]|[e K]]; rewrite K; cbn [rbind]; eauto.
      destruct (IHr2 C c2 (S j) T2 (part_value (fun _ _ => 0%Z) _ _ _ _ _ P) (alone_below _ _ _ A eq_refl eq_refl) Tv Sv) as [[[vi E] W]|[e E]];
        rewrite E; cbn [rbind]; eauto.
      change (TMap (ctype c1) (ctype c2)) with (ctype (CMap c1 c2 offs)).
      rewrite (pt_values _ _ _ P) by lia. cbn [get_internal N.eqb]. rewrite Nat.eqb_refl. cbn [need Nat.leb rbind].
      left. split; [eauto|]. constructor; assumption.
Qed.

Lemma num_lent s : forall c d, lends d c -> number s (ctype c) -> exists w, get_internal c 2 0 0 = Ok w.
Proof.
  induction c; intros d Le Hn; cbn [ctype] in Hn; cbn [lends] in Le; try (inversion Hn; fail); try contradiction; cbn [get_internal].
  - cbn. eauto.
  - cbn. eauto.
  - inversion Hn; subst. eauto.
Qed.

Theorem iter_starts : forall r C c j d, walks r (ctype c) -> part C c j -> tidy c ->
  lends d c -> (d = false -> C = c) -> exists it, iter_with_props r C (ctype c) 0 = Ok it.
Proof.
  induction r as [s| | | | | | | | |r IHr|r IHr|r1 IHr1 r2 IHr2]; intros C c j d W P T Le A;
    assert (G : forall slots, get_internal C slots 0 0 = get_internal c slots 0 0)
      by (intro slots; apply (pt_values _ _ _ P); lia).
  - cbn [iter_with_props]. inversion W; subst. match goal with Q : number s _ |- _ => rename Q into Ch end.
    rewrite (proj2 (number_check s _) Ch). rewrite G. destruct (num_lent s c d Le Ch) as [w Gw].
    destruct (num_access s c w Ch Gw) as (zs & -> & _). rewrite Gw. cbn [rbind].
    destruct (scalar_eq_dec s s); [eauto|congruence].
  - cbn [iter_with_props].
    destruct c; cbn [ctype lends] in *; try contradiction;
      try (inversion W; subst; match goal with Q : texty _ |- _ => destruct Q as [Q|[? Q]]; discriminate Q end; fail).
    + rewrite G. cbn. eexists; reflexivity.
    + rewrite G. cbn. destruct T as [T1 T2]. apply N.eqb_neq in T1. rewrite T1. cbn. eexists; reflexivity.
    + destruct k; inversion W; subst; match goal with Q : texty _ |- _ => destruct Q as [Q|[? Q]]; discriminate Q end.
    + destruct Le as [-> Ha]. rewrite (A eq_refl). cbn [get_low]. rewrite Ha.
      inversion W; subst; match goal with Q : texty _ |- _ => rename Q into Tx end;
        destruct Tx as [Tx|[? Tx]]; try discriminate Tx; rewrite Tx; cbn; eexists; reflexivity.
  - cbn [iter_with_props].
    destruct c; cbn [ctype lends] in *; try contradiction; try (inversion W; fail).
    + destruct k; inversion W.
    + rewrite G. cbn. eexists; reflexivity.
  - cbn [iter_with_props]. unfold start_dates.
    destruct c; cbn [ctype lends is_datetime] in *; try contradiction; try (inversion W; fail);
      try (rewrite (A Le); cbn; eexists; reflexivity).
    + destruct k; inversion W.
    + destruct Le as [-> Ha]. rewrite (A eq_refl). cbn [get_low get_dates]. rewrite Ha.
      inversion W; subst. match goal with Q : _ = ctype c |- _ => rename Q into Eq end. symmetry in Eq.
      try rewrite Eq. cbn [is_datetime rbind].
      destruct c; cbn [ctype] in Eq; try discriminate Eq; cbn [has_accessor] in Ha; try discriminate Ha.
      cbn. eexists; reflexivity.
  - cbn [iter_with_props]. unfold start_dates.
    destruct c; cbn [ctype lends is_datetime] in *; try contradiction; try (inversion W; fail);
      try (rewrite (A Le); cbn; eexists; reflexivity).
    + destruct k; inversion W.
    + destruct Le as [-> Ha]. rewrite (A eq_refl). cbn [get_low get_dates]. rewrite Ha.
      inversion W; subst. match goal with Q : _ = ctype c |- _ => rename Q into Eq end. symmetry in Eq.
      try rewrite Eq. cbn [is_datetime rbind].
      destruct c; cbn [ctype] in Eq; try discriminate Eq; cbn [has_accessor] in Ha; try discriminate Ha.
      cbn. eexists; reflexivity.
  - cbn [iter_with_props]. unfold start_dates.
    destruct c; cbn [ctype lends is_date] in *; try contradiction; try (inversion W; fail);
      try (rewrite (A Le); cbn; eexists; reflexivity).
    + destruct k; inversion W.
    + destruct Le as [-> Ha]. rewrite (A eq_refl). cbn [get_low get_dates]. rewrite Ha.
      inversion W; subst. match goal with Q : _ = ctype c |- _ => rename Q into Eq end. symmetry in Eq.
      try rewrite Eq. cbn [is_date rbind].
      destruct c; cbn [ctype] in Eq; try discriminate Eq; cbn [has_accessor] in Ha; try discriminate Ha.
      cbn. eexists; reflexivity.
  - cbn [iter_with_props]. rewrite G.
    destruct c; cbn [ctype lends] in *; try contradiction; try (inversion W; fail). cbn. eexists; reflexivity.
  - cbn [iter_with_props]. rewrite G.
    destruct c; cbn [ctype lends] in *; try contradiction; try (inversion W; fail). cbn. eexists; reflexivity.
  - cbn [iter_with_props]. rewrite G.
    destruct c; cbn [ctype lends] in *; try contradiction; try (inversion W; fail). cbn. eexists; reflexivity.
  - destruct c; cbn [ctype lends iter_with_props] in *; try contradiction; try (inversion W; fail).
    + destruct k; inversion W.
    + destruct T as (Ti & Ln & F). inversion W; subst.
      destruct (IHr C c j true) as [it E]; auto using (part_null (fun _ _ => 0%Z) C c nulls j P); [discriminate|].
      rewrite E; cbn [rbind].
      change (TNullable (ctype c)) with (ctype (CNullable c nulls)).
      rewrite (pt_values _ _ _ P) by lia. cbn [get_internal]. rewrite Nat.eqb_refl. cbn [Nat.ltb Nat.leb clen].
      rewrite Ln. cbn [rbind]. rewrite Nat.eqb_refl. cbn [rbind]. eauto.
  - destruct c; cbn [ctype lends iter_with_props] in *; try contradiction; try (inversion W; fail).
    + destruct k; inversion W.
    + destruct T as (Ti & Ln & F). inversion W; subst.
      destruct (IHr C c j true) as [it E]; auto using (part_array (fun _ _ => 0%Z) C c offs j P); [discriminate|].
      rewrite E; cbn [rbind].
      change (TArray (ctype c)) with (ctype (CArray c offs)).
      rewrite (pt_values _ _ _ P) by lia. cbn [get_internal]. rewrite Nat.eqb_refl. cbn [need Nat.leb rbind]. eauto.
  - destruct c; cbn [ctype lends iter_with_props] in *; try contradiction; try (inversion W; fail).
    + destruct k; inversion W.
    + destruct (part_key (fun _ _ => 0%Z) _ _ _ _ _ P) as (Lt & Kp & Gk). rewrite Lt.
      destruct T as (Tk & Tv & Lk & Lv & Cl). destruct Le as [Lek Lev]. inversion W; subst.
      match goal with Q : walks r1 _ |- _ => rename Q into W1 end.
      match goal with Q : walks r2 _ |- _ => rename Q into W2 end.
      set (p := N.lor _ _) in *.
      assert (K : exists it, iter_with_props r1 C (ctype c1) p = Ok it).
      { destruct Kp as [Ks|[s Ks]]; rewrite Ks in W1; inversion W1; subst;
          try match goal with Q : number _ TString |- _ => inversion Q end;
          try match goal with Q : texty _ |- _ => destruct Q as [Q|[? Q]]; discriminate Q end.
        - cbn [iter_with_props]. rewrite Ks, Gk.
          destruct c1; cbn [ctype lends] in *; try discriminate Ks; try contradiction.
          + cbn. eexists; reflexivity.
          + destruct k; discriminate Ks.
        - match goal with Q : number ?a (TNum s) |- _ => rename Q into Ch; rename a into s' end.
          cbn [iter_with_props]. rewrite Ks, (proj2 (number_check s' _) Ch), Gk. rewrite <- Ks in Ch.
          destruct (num_lent s' c1 true Lek Ch) as [w Gw].
          destruct (num_access s' c1 w Ch Gw) as (zs & -> & _). rewrite Gw. cbn [rbind].
          destruct (scalar_eq_dec s' s'); [eauto|congruence]. }
      destruct K as [ki K]; rewrite K; cbn [rbind].
      destruct (IHr2 C c2 (S j) true) as [vi E]; auto using (part_value (fun _ _ => 0%Z) C c1 c2 offs j P); [discriminate|].
      rewrite E; cbn [rbind].
      change (TMap (ctype c1) (ctype c2)) with (ctype (CMap c1 c2 offs)).
      rewrite (pt_values _ _ _ P) by lia. cbn [get_internal N.eqb]. rewrite Nat.eqb_refl. cbn [need Nat.leb rbind]. eauto.
Qed.

(** * Columns of several pieces *)

Section Pieces.
Variable offset : bytes -> Z -> Z.
Variable r : itype.
Variable T : sqltype.

Definition gives (p : col) (xs : list rval) : Prop :=
  exists it, iter_with_props r p T 0 = Ok it /\ clen p = Ok (length xs) /\ yields (next offset r) it xs.

Lemma cnext_none f rest xss : Forall2 gives rest xss ->
  match concat xss with
  | [] => cnext_loop offset r (S f) (mk_citer r T rest None) = Ok (None, mk_citer r T [] None)
  | x :: tl => exists it' rest' xs' xss',
      cnext_loop offset r (S f) (mk_citer r T rest None) = Ok (Some x, mk_citer r T rest' (Some it')) /\
      yields (next offset r) it' xs' /\ Forall2 gives rest' xss' /\ tl = xs' ++ concat xss'
  end.
Proof.
  induction 1 as [|p xs rest xss (it & I & L & Y) H IH].
  - reflexivity.
  - cbn [concat]. destruct xs as [|x xs].
    + cbn [app]. cbn [cnext_loop ci_current ci_rest ci_type skip_empty] in IH |- *. rewrite L. cbn [rbind length Nat.ltb Nat.leb].
      exact IH.
    + cbn [app]. destruct Y as (it' & N & Y). exists it', rest, xs, xss. split; [|auto].
      cbn [cnext_loop ci_current ci_rest ci_type skip_empty]. rewrite L. cbn [rbind length Nat.ltb Nat.leb].
      rewrite I. cbn [rbind]. rewrite N. reflexivity.
Qed.

Lemma cnext_some f it xs rest xss : yields (next offset r) it xs -> Forall2 gives rest xss ->
  match xs ++ concat xss with
  | [] => cnext_loop offset r (S (S f)) (mk_citer r T rest (Some it)) = Ok (None, mk_citer r T [] None)
  | x :: tl => exists it' rest' xs' xss',
      cnext_loop offset r (S (S f)) (mk_citer r T rest (Some it)) = Ok (Some x, mk_citer r T rest' (Some it')) /\
      yields (next offset r) it' xs' /\ Forall2 gives rest' xss' /\ tl = xs' ++ concat xss'
  end.
Proof.
  intros Y H. destruct xs as [|x xs].
  - cbn [app]. destruct Y as (it' & N). pose proof (cnext_none f rest xss H) as G.
    assert (E : cnext_loop offset r (S (S f)) (mk_citer r T rest (Some it)) = cnext_loop offset r (S f) (mk_citer r T rest None)).
    { remember (S f) as g. cbn [cnext_loop ci_current ci_rest ci_type rbind]. rewrite N. reflexivity. }
    rewrite E. exact G.
  - cbn [app]. destruct Y as (it' & N & Y). exists it', rest, xs, xss. split; [|auto].
    remember (S f) as g. cbn [cnext_loop ci_current ci_rest ci_type rbind]. rewrite N. reflexivity.
Qed.

Lemma cnext_yields : forall ys it xs rest xss, yields (next offset r) it xs -> Forall2 gives rest xss ->
  ys = xs ++ concat xss -> yields (cnext offset r) (mk_citer r T rest (Some it)) ys.
Proof.
  induction ys as [|y ys IH]; intros it xs rest xss Y H E;
    pose proof (cnext_some (length rest) it xs rest xss Y H) as G; rewrite <- E in G; cbn [yields]; unfold cnext at 1.
  - eexists. exact G.
  - destruct G as (it' & rest' & xs' & xss' & C & Y' & F & E'). eexists. split; [exact C|].
    apply (IH it' xs' rest' xss' Y' F E').
Qed.

Lemma complex_yields rest xss : Forall2 gives rest xss ->
  yields (cnext offset r) (mk_citer r T rest None) (concat xss).
Proof.
  intro H. pose proof (cnext_none (S (length rest)) rest xss H) as G. destruct (concat xss) as [|y ys] eqn:E; cbn [yields]; unfold cnext at 1.
  - eexists. exact G.
  - destruct G as (it' & rest' & xs' & xss' & C & Y' & F & E'). eexists. split; [exact C|].
    apply (cnext_yields ys it' xs' rest' xss' Y' F E').
Qed.
End Pieces.

Lemma concat_nth {A} (xss : list (list A)) : forall k j xs x, nth_error xss k = Some xs -> nth_error xs j = Some x ->
  nth_error (concat xss) (start_of (map (@length A) xss) k + j) = Some x.
Proof.
  induction xss as [|ys xss IH]; intros k j xs x Hk Hj; [destruct k; discriminate Hk|].
  destruct k; cbn [map start_of concat].
  - cbn in Hk. inversion Hk; subst. rewrite nth_error_app1; [exact Hj|]. apply nth_error_Some. cbn. congruence.
  - cbn in Hk. rewrite nth_error_app2 by lia.
    replace (length ys + start_of (map (@length A) xss) k + j - length ys)%nat
      with (start_of (map (@length A) xss) k + j)%nat by lia.
    apply (IH k j xs x Hk Hj).
Qed.

Lemma concat_length_sum {A} (xss : list (list A)) :
  length (concat xss) = start_of (map (@length A) xss) (length (map (@length A) xss)).
Proof.
  induction xss as [|ys xss IH]; [reflexivity|]. cbn [concat map length start_of]. rewrite app_length, IH. reflexivity.
Qed.

Theorem complex_runs offset r c0 cs :
  Forall (fun p => ctype p = ctype c0 /\ exists it, iter r p = Ok it /\ runs offset r p it) (c0 :: cs) ->
  exists it xs, iter_complex r (CConcat c0 cs) = Ok it /\
    clen (CConcat c0 cs) = Ok (length xs) /\ yields (cnext offset r) it xs /\
    forall i v x, at_ (CConcat c0 cs) i = Ok v -> nth_error xs i = Some x -> item r v x.
Proof.
  intro H.
  assert (exists xss, Forall2 (fun p xs => gives offset r (ctype c0) p xs /\
            forall i v x, at_ p i = Ok v -> nth_error xs i = Some x -> item r v x) (c0 :: cs) xss) as (xss & F).
  { induction H as [|p l (Tp & it & I & R) H (xss & F)]; [exists []; constructor|].
    destruct (runs_yields _ _ _ _ R) as (xs & L & Y & A). exists (xs :: xss). constructor; [|exact F].
    split; [|exact A]. exists it. unfold iter in I. rewrite Tp in I. auto. }
  assert (Fg : Forall2 (gives offset r (ctype c0)) (c0 :: cs) xss).
  { clear H. induction F as [|p xs l xss [G _] F IH]; constructor; auto. }
  assert (Ln : mapM clen (c0 :: cs) = Ok (map (@length rval) xss)).
  { clear H F. induction Fg as [|p xs l xss (it & _ & L & _) F IH]; [reflexivity|].
    cbn [mapM map]. rewrite L. cbn [rbind]. rewrite IH. reflexivity. }
  assert (Ht : Forall (fun p => ctype p = ctype c0) (c0 :: cs)).
  { apply Forall_forall. intros p Hp. rewrite Forall_forall in H. apply (H p Hp). }
  destruct (c21_concat (c0 :: cs) _ c0 cs eq_refl Ln Ht) as (c & Hc & _ & Lc & Hat & Hix).
  assert (c = CConcat c0 cs) as ->.
  { unfold concat_cols in Hc. destruct (forallb _ cs); [|discriminate Hc]. rewrite Ln in Hc; inversion Hc; reflexivity. }
  exists (mk_citer r (ctype c0) (c0 :: cs) None), (concat xss). repeat split.
  - rewrite Lc. rewrite concat_length_sum. reflexivity.
  - apply complex_yields. exact Fg.
  - intros i v x Av Nx.
    assert (Li : (i < length (concat xss))%nat) by (apply nth_error_Some; congruence).
    rewrite concat_length_sum in Li. destruct (Hix i Li) as (k & n & j & Hk & Hj & ->).
    rewrite nth_error_map in Hk. destruct (nth_error xss k) as [xs|] eqn:Ek; [|discriminate Hk].
    cbn in Hk. inversion Hk; subst n.
    destruct (nth_error xs j) as [x'|] eqn:Ex; [|apply nth_error_None in Ex; lia].
    rewrite (concat_nth xss k j xs x' Ek Ex) in Nx. inversion Nx; subst x'.
    assert (exists p, nth_error (c0 :: cs) k = Some p /\
              forall i v x, at_ p i = Ok v -> nth_error xs i = Some x -> item r v x) as (p & Hp & Ip).
    { clear - F Ek. revert k Ek. induction F as [|p ys l yss [_ G] F IH]; intros k Ek; [destruct k; discriminate Ek|].
      destruct k; cbn in Ek |- *; [inversion Ek; subst; eauto|]. apply (IH k Ek). }
    rewrite (Hat k p (length xs) j Hp) in Av; [|rewrite nth_error_map, Ek; reflexivity|exact Hj].
    apply (Ip j v x Av Ex).
Qed.

Theorem skips offset r n : forall it xs, reached offset r it -> yields (next offset r) it xs ->
  exists it', nth offset r n it = Ok (nth_error xs n, it') /\ reached offset r it' /\
              yields (next offset r) it' (skipn (S n) xs).
Proof.
  assert (G : forall it xs, yields (next offset r) it xs ->
            exists it', nexts (next offset r) n it = Ok (nth_error xs n, it') /\ yields (next offset r) it' (skipn (S n) xs)).
  { induction n as [|m IH]; intros it xs Y; destruct xs as [|x xs]; cbn [yields] in Y.
    - destruct Y as [it' N]. exists it'. split; [exact N|]. exists it'. apply (fused offset r it it' N).
    - destruct Y as (it' & N & Y). exists it'. split; [exact N|exact Y].
    - destruct Y as [it' N]. cbn [nexts]. rewrite N. cbn [rbind snd]. exists it'.
      pose proof (fused offset r it it' N) as N'. split; [apply nexts_none; exact N'|]. exists it'. exact N'.
    - destruct Y as (it' & N & Y). cbn [nexts]. rewrite N. cbn [rbind snd]. apply (IH it' xs Y). }
  intros it xs R Y. destruct (G it xs Y) as (it' & N & Y'). exists it'.
  pose proof (nth_nexts offset r n it _ R N) as E. split; [exact E|]. split; [|exact Y'].
  apply (RcNth offset r n it _ it' R E).
Qed.

(** ** Rows that can be read are rows *)
Lemma index_in {A} (l : list A) i x : index l i = Ok x -> i < length l.
Proof. unfold index, or_panic. intros H. apply nth_error_Some. destruct (nth_error l i); [discriminate|discriminate H]. Qed.
Lemma cut_in {A} (l : list A) a b x : cut l a b = Ok x -> b <= length l.
Proof. unfold cut, slice. destruct (a <=? b); [|discriminate]. destruct (Nat.leb_spec b (length l)); [auto|discriminate]. Qed.
Lemma lends_in c : forall d i v, lends d c -> tidy c -> at_ c i = Ok v -> exists n, clen c = Ok n /\ i < n.
Proof.
  induction c; intros d i v L T H; cbn [lends] in L; try contradiction L; cbn [tidy] in T; cbn [at_] in H; cbn [clen].
  - eexists. split; [reflexivity|]. inv_do H. eapply index_in; eassumption.
  - eexists. split; [reflexivity|]. inv_do H. eapply index_in; eassumption.
  - destruct T as [T1 T2]. destruct (N.eqb_spec n 0); [contradiction|]. eexists. split; [reflexivity|].
    inv_do H. apply cut_in in E. assert (N.to_nat n <> 0) by lia.
    apply (Nat.div_le_lower_bound _ _ (S i)); lia.
  - eexists. split; [reflexivity|]. inv_do H. eapply index_in; eassumption.
  - eexists. split; [reflexivity|]. inv_do H. eapply index_in; eassumption.
  - eexists. split; [reflexivity|]. inv_do H. eapply index_in; eassumption.
  - eexists. split; [reflexivity|]. inv_do H. apply cut_in in E. assert (ip_size k <> 0) by (destruct k; discriminate).
    apply (Nat.div_le_lower_bound _ _ (S i)); lia.
  - destruct T as (_ & T & _). rewrite T. cbn [rbind]. rewrite Nat.eqb_refl. eexists. split; [reflexivity|].
    inv_do H. eapply index_in; eassumption.
  - eexists. split; [reflexivity|]. inv_do H. unfold row_bounds in E. inv_do E. inv_do E. eapply index_in; eassumption.
  - eexists. split; [reflexivity|]. inv_do H. unfold row_bounds in E. inv_do E. inv_do E. eapply index_in; eassumption.
  - eexists. split; [reflexivity|]. inv_do H. eapply index_in; eassumption.
  - eapply IHc; eassumption.
  - eexists. split; [reflexivity|]. inv_do H. eapply index_in; eassumption.
Qed.
