(** Proofs about reading cells as Rust values. *)
From Verif Require Import Base Bytes Utf8 Reader ReaderProofs Types TypeNames Decimal DateTime Values Columns Block SpecColumns
  SpecTypes TypeNamesProofs LoadTypeProofs PushProofs FromSql SpecFromSql.
Open Scope nat_scope.

(** Cells of a type. *)
Inductive cell : sqltype -> value -> Prop :=
| KNum s z : cell (TNum s) (VNum s z)
| KString b : cell TString (VString b)
| KFixed n b : cell (TFixedString n) (VString b)
| KDate d : cell TDate (VDate d)
| KDateTime t tz : cell (TDateTime DateTime32) (VDateTime t tz)
| KChrono t tz : cell (TDateTime DtChrono) (VDateTime t tz)
| KDateTime64 t p tz : (p <= 9)%N -> cell (TDateTime (DateTime64 p tz)) (VDateTime64 t p tz)
| KIpv4 b : length b = 4 -> cell TIpv4 (VIpv4 b)
| KIpv6 b : length b = 16 -> cell TIpv6 (VIpv6 b)
| KUuid b : length b = 16 -> cell TUuid (VUuid b)
| KNull t : cell (TNullable t) (VNull t)
| KSome t v : cell t v -> cell (TNullable t) (VSome v)
| KArray t vs : Forall (cell t) vs -> cell (TArray t) (VArray t vs)
| KMap k v kvs : distinct_keys (map fst kvs) = true ->
    Forall (fun kv => cell k (fst kv) /\ cell v (snd kv)) kvs -> cell (TMap k v) (VMap k v kvs)
| KDecimal p s d : cell (TDecimal p s) (VDecimal d)
| KEnum8 l z : cell (TEnum8 l) (VEnum8 l z)
| KEnum16 l z : cell (TEnum16 l) (VEnum16 l z)
| KAgg f t v : cell t v -> cell (TAgg f t) v
| KLow t v : cell t v -> cell (TLowCardinality t) v.

Lemma mapM_forall {A B} (P : B -> Prop) (f : A -> res B) l ys :
  (forall x y, In x l -> f x = Ok y -> P y) -> mapM f l = Ok ys -> Forall P ys.
Proof.
  revert ys. induction l as [|x l IH]; intros ys H E; cbn [mapM] in E.
  - injection E as <-. constructor.
  - inv_do E. inv_do E. injection E as <-. constructor.
    + apply (H x); [left; reflexivity|assumption].
    + apply IH; [|assumption]. intros z y Hz. apply H. right. exact Hz.
Qed.

Lemma hashable_map_key k : value_ref_hashable k = true -> map_key k = true.
Proof. destruct k; try discriminate; cbn; try reflexivity. destruct s; try discriminate; reflexivity. Qed.

(** Entering a key keeps the keys distinct. *)
Lemma vref_put_keys k v : map_key k = true -> forall m m',
  distinct_keys (map fst m) = true -> vref_put m k v = Ok m' ->
  distinct_keys (map fst m') = true /\
  (forall x, In x (map fst m') -> In x (map fst m) \/ x = k) /\
  (forall kv, In kv m' -> In kv m \/ kv = (k, v) \/ (In (fst kv) (map fst m) /\ snd kv = v)).
Proof.
  intros Hk. induction m as [|[k' v'] m IH]; intros m' D E; cbn [vref_put] in E.
  - injection E as <-. cbn. rewrite Hk. repeat split; intros ? [<-|[]]; auto.
  - cbn [map fst distinct_keys] in D. apply andb_true_iff in D. destruct D as [D D2].
    apply andb_true_iff in D. destruct D as [D0 D1].
    rewrite same_key_eq in E by assumption. cbn [rbind] in E.
    destruct (same_key k' k) eqn:S.
    + injection E as <-. cbn [map fst distinct_keys]. rewrite D0, D1, D2.
      split; [reflexivity|]. split; [intros x Hx; left; exact Hx|].
      intros kv [<-|H]; [right; right; split; [left; reflexivity|reflexivity]|left; right; exact H].
    + inv_do E. injection E as <-. destruct (IH _ D2 E0) as (A & B & C).
      cbn [map fst distinct_keys]. rewrite D0, A.
      split; [|split].
      * rewrite andb_true_r. cbn [andb]. apply negb_true_iff. apply negb_true_iff in D1.
        destruct (existsb (same_key k') (map fst x)) eqn:X; [|reflexivity].
        apply existsb_exists in X. destruct X as (y & Hy & Sy). destruct (B y Hy) as [Hin| ->].
        -- rewrite <- D1. symmetry. apply existsb_exists. exists y. auto.
        -- congruence.
      * intros y [<-|Hy]; [left; left; reflexivity|]. destruct (B y Hy); [left; right|right]; assumption.
      * intros kv [<-|H]; [left; left; reflexivity|].
        destruct (C kv H) as [?|[?|[? ?]]]; [left; right|right; left|right; right; split; [right|]]; assumption.
Qed.

Lemma map_loop_cells kt vt f g : forall js m m',
  (forall j k, f j = Ok k -> cell kt k) -> (forall j v, g j = Ok v -> cell vt v) ->
  distinct_keys (map fst m) = true -> Forall (fun kv => cell kt (fst kv) /\ cell vt (snd kv)) m ->
  map_loop f g js m = Ok m' ->
  distinct_keys (map fst m') = true /\ Forall (fun kv => cell kt (fst kv) /\ cell vt (snd kv)) m'.
Proof.
  intros js m m' Hf Hg. revert m. induction js as [|j js IH]; intros m D F E; cbn [map_loop] in E.
  - injection E as <-. auto.
  - inv_do E. inv_do E. inv_do E. unfold vref_insert in E2.
    destruct (value_ref_hashable x) eqn:Hh; [|discriminate E2].
    destruct (vref_put_keys x x0 (hashable_map_key _ Hh) _ _ D E2) as (A & B & C).
    apply (IH x1); [exact A| |exact E]. apply Forall_forall. intros kv Hkv. rewrite Forall_forall in F.
    destruct (C kv Hkv) as [H|[->|[H ->]]].
    + apply F, H.
    + cbn. split; [apply (Hf j)|apply (Hg j)]; assumption.
    + split; [|apply (Hg j); assumption]. apply in_map_iff in H. destruct H as (kv' & <- & H). apply F, H.
Qed.

Lemma cut_length {A} (l l' : list A) a b : cut l a b = Ok l' -> length l' = b - a.
Proof.
  unfold cut, slice. destruct (Nat.leb_spec a b); [|discriminate]. destruct (Nat.leb_spec b (length l)); [|discriminate].
  cbn. intros H'. injection H' as <-. rewrite firstn_length, skipn_length. lia.
Qed.

(** Every cell of a column is a cell of its type. *)
Fixpoint at_cell (c : col) {struct c} : formed c -> forall i v, at_ c i = Ok v -> cell (ctype c) v.
Proof.
  intros Hf i v H. destruct c; cbn [formed] in Hf; try contradiction; cbn [ctype];
    try (cbn [at_] in H; inv_do H; injection H as <-; constructor; fail).
  - cbn [at_] in H. inv_do H. injection H as <-. constructor. exact Hf.
  - cbn [at_] in H. inv_do H. destruct x as [[s n] z]. injection H as <-. constructor.
  - cbn [at_] in H. inv_do H. injection H as <-. apply cut_length in E.
    destruct k; cbn in E |- *; constructor; lia.
  - cbn [at_] in H. inv_do H. destruct (x =? 1)%N.
    + injection H as <-. constructor.
    + inv_do H. injection H as <-. constructor. apply (at_cell c Hf i x0 E0).
  - cbn [at_] in H. inv_do H. inv_do H. injection H as <-. constructor.
    apply (mapM_forall _ _ _ _ (fun j y _ => at_cell c Hf j y) E0).
  - rewrite at_map in H. inv_do H. inv_do H. injection H as <-. destruct Hf as [Hk Hv].
    destruct (map_loop_cells (ctype c1) (ctype c2) _ _ _ [] _ (at_cell c1 Hk) (at_cell c2 Hv) eq_refl (Forall_nil _) E0).
    constructor; assumption.
  - cbn [at_] in H. constructor. apply (at_cell c Hf i v H).
  - cbn [at_] in H. inv_do H. constructor. apply (at_cell c Hf _ v H).
  - cbn [at_] in H. destruct (_ <=? _); [discriminate H|]. apply (at_cell c Hf _ v H).
  - cbn [at_] in H. inv_do H. inv_do H. inv_do H. inv_do H. destruct Hf as [H0 Hcs].
    destruct (i <? x2); [discriminate H|]. destruct x1 as [|k'].
    + apply (at_cell c H0 _ v H).
    + clear E E0 E1 E2. revert cs k' Hcs H. fix G 1. intros [|c' cs] k' Hcs H; [discriminate H|].
      cbn [fold_right] in Hcs. destruct Hcs as [[Hc' Ht] Hcs]. destruct k' as [|k'].
      * rewrite <- Ht. apply (at_cell c' Hc' _ v H).
      * apply (G cs k' Hcs H).
Qed.

(** Types without their wrappers. *)
Fixpoint strip (t : sqltype) : sqltype :=
  match t with TAgg _ t' | TLowCardinality t' => strip t' | _ => t end.

Lemma cell_strip t : forall v, cell t v -> cell (strip t) v.
Proof. induction t; intros w H; try exact H; cbn [strip]; inversion H; subst; auto. Qed.
Lemma stands_wrapped r t : stands r (strip t) -> stands r t.
Proof. induction t; intros H; try exact H; cbn [strip] in H; [apply SLow|apply SAgg]; auto. Qed.
Lemma stands_strip r t : stands r t -> stands r (strip t).
Proof.
  induction t; intros H; try exact H; cbn [strip]; inversion H; subst; auto;
    match goal with T : texty _ |- _ => destruct T as [T|[n T]]; [discriminate T|discriminate T] end.
Qed.

Lemma to_datetime_exact t p x : (p <= 9)%N -> to_datetime t p = Ok x ->
  (snd x < 1000000000)%N /\ (fst x * 1000000000 + Z.of_N (snd x) = t * 10 ^ (9 - Z.of_N p))%Z.
Proof.
  intros Hp H. unfold to_datetime, to_datetime_opt in H.
  destruct (N.ltb_spec p 19); [|lia]. unfold pow_factor in H. destruct (N.leb_spec p 9); [|lia].
  cbn [rbind] in H. unfold i64_mul in H. set (m := (t * 10 ^ (9 - Z.of_N p))%Z) in *.
  destruct (i64_ok m); [|discriminate H]. cbn [rbind] in H.
  set (q := Z.quot m 1000000000) in *. pose proof (Z.quot_rem' m 1000000000) as Q. fold q in Q.
  assert (R : (Z.abs (m - q * 1000000000) < 1000000000)%Z)
    by (pose proof (Z.rem_bound_abs m 1000000000 ltac:(lia)); lia).
  unfold to_unsigned in H. change (8 * Z.of_nat 4)%Z with 32%Z in H.
  destruct (N.ltb_spec (Z.to_N ((m - q * 1000000000) mod 2 ^ 32)) 2000000000) as [L|]; [|discriminate H].
  injection H as <-. cbn [fst snd].
  assert (P : (2 ^ 32 = 4294967296)%Z) by reflexivity. rewrite P in *.
  set (n := (m - q * 1000000000)%Z) in *.
  assert (n mod 4294967296 = n)%Z.
  { destruct (Z_lt_le_dec n 0); [|apply Z.mod_small; lia].
    assert (n mod 4294967296 = n + 4294967296)%Z.
    { symmetry. apply (Z.mod_unique_pos _ _ (-1)); lia. }
    lia. }
  lia.
Qed.

Lemma to_datetime_there t p : (p <= 9)%N -> (0 <= t)%Z -> (t * 10 ^ (9 - Z.of_N p) < 2 ^ 63)%Z ->
  exists x, to_datetime t p = Ok x.
Proof.
  intros Hp Ht H. unfold to_datetime, to_datetime_opt.
  destruct (N.ltb_spec p 19); [|lia]. unfold pow_factor. destruct (N.leb_spec p 9); [|lia]. cbn [rbind].
  assert (0 < 10 ^ (9 - Z.of_N p))%Z by (apply Z.pow_pos_nonneg; lia).
  unfold i64_mul. set (m := (t * 10 ^ (9 - Z.of_N p))%Z) in *. assert (0 <= m)%Z by (unfold m; nia).
  unfold i64_ok. destruct (Z.leb_spec (- 2 ^ 63) m); [|lia]. destruct (Z.ltb_spec m (2 ^ 63)); [|lia]. cbn [andb rbind].
  rewrite Z.quot_div_nonneg by lia. set (n := (m - m / 1000000000 * 1000000000)%Z).
  assert (0 <= n < 1000000000)%Z by (unfold n; lia).
  unfold to_unsigned. change (8 * Z.of_nat 4)%Z with 32%Z. rewrite Z.mod_small by (change (2 ^ 32)%Z with 4294967296%Z; lia).
  destruct (N.ltb_spec (Z.to_N n) 2000000000); [|lia]. cbn. eauto.
Qed.

(** Keys of maps. *)
Lemma from_sql_key r k : map_key k = true -> (exists e, from_sql r k = Err e) \/
  exists x, from_sql r k = Ok x /\
    match k with VString b => x = XText b \/ x = XBytes b | VNum s z => x = XNum s z | _ => False end.
Proof.
  intros Hk. destruct k; try discriminate Hk;
    (destruct r; cbn [from_sql as_str as_bytes]; try (left; eexists; reflexivity)).
  - destruct (scalar_eq_dec s0 s) as [->|]; [right|left]; eauto.
  - destruct e; try (left; eexists; reflexivity). destruct s0; left; eexists; reflexivity.
  - destruct (utf8_valid b); [right|left]; eauto.
  - right. eauto.
  - destruct (utf8_valid b); [right|left]; eauto.
  - destruct e; try (left; eexists; reflexivity). destruct s; try (left; eexists; reflexivity). right. eauto.
Qed.

Lemma from_sql_key_eq r a b x y : map_key a = true -> map_key b = true ->
  from_sql r a = Ok x -> from_sql r b = Ok y -> key_eq x y = Ok (same_key a b).
Proof.
  intros Ha Hb Ex Ey.
  destruct a; try discriminate Ha; destruct b; try discriminate Hb;
    destruct r; cbn [from_sql as_str as_bytes] in Ex, Ey; try discriminate Ex; try discriminate Ey;
    repeat (match goal with
            | H : context [scalar_eq_dec ?a ?b] |- _ => destruct (scalar_eq_dec a b); [subst|discriminate H]
            | H : context [if utf8_valid ?b then _ else _] |- _ => destruct (utf8_valid b); [|discriminate H]
            | H : context [match ?e with EStr => _ | _ => _ end] |- _ => destruct e; try discriminate H
            | H : context [match ?e with U8 => _ | _ => _ end] |- _ => destruct e; try discriminate H
            end);
    try discriminate; injection Ex as <-; injection Ey as <-; reflexivity.
Qed.

Definition from_loop (rk rv : rtype) :=
  fix loop (kvs : list (value * value)) (m : list (rval * rval)) : res (list (rval * rval)) :=
    match kvs with
    | [] => Ok m
    | (k, x) :: kvs' =>
        do k' <- from_sql rk k; do x' <- from_sql rv x;
        do m' <- xmap_put m k' x'; loop kvs' m'
    end.
Lemma from_sql_map rk rv k v kvs :
  from_sql (RMap rk rv) (VMap k v kvs) = do m <- from_loop rk rv kvs []; Ok (XMap m).
Proof. reflexivity. Qed.

(** [m] was read from the entries [kvs] before. *)
Definition read_from rk (kvs : list (value * value)) (m : list (rval * rval)) : Prop :=
  Forall2 (fun kv x => from_sql rk (fst kv) = Ok (fst x)) kvs m.

Lemma xmap_put_new rk k k' x' : map_key k = true -> from_sql rk k = Ok k' -> forall kvs m,
  read_from rk kvs m -> (forall kv, In kv kvs -> map_key (fst kv) = true /\ same_key (fst kv) k = false) ->
  xmap_put m k' x' = Ok (m ++ [(k', x')]).
Proof.
  intros Hk E kvs m R. induction R as [|kv [a b] kvs m H R IH]; intros D; [reflexivity|].
  destruct (D kv (or_introl eq_refl)) as [D1 D2]. cbn [fst] in H. cbn [xmap_put].
  rewrite (from_sql_key_eq rk _ _ _ _ D1 Hk H E), D2. cbn [rbind].
  rewrite IH; [reflexivity|]. intros kv' Hkv. apply D. right. exact Hkv.
Qed.

(** Reading the entries one by one. *)
Lemma from_loop_step rk rv done k x kvs m : distinct_keys (map fst (done ++ (k, x) :: kvs)) = true ->
  read_from rk done m -> from_loop rk rv ((k, x) :: kvs) m =
    do k' <- from_sql rk k; do x' <- from_sql rv x; from_loop rk rv kvs (m ++ [(k', x')]).
Proof.
  intros D R. cbn [from_loop]. destruct (from_sql rk k) as [k'| |] eqn:E; try reflexivity. cbn [rbind].
  destruct (from_sql rv x) as [x'| |]; try reflexivity. cbn [rbind].
  rewrite map_app in D. cbn [map fst] in D. destruct (distinct_app _ _ D) as (D1 & D2 & D3 & D4).
  cbn [forallb] in D2. apply andb_true_iff in D2.
  rewrite (xmap_put_new rk k k' x' (proj1 D2) E done m R); [reflexivity|].
  intros kv Hkv. split.
  - rewrite forallb_forall in D1. apply D1, in_map, Hkv.
  - apply D4; [apply in_map, Hkv|left; reflexivity].
Qed.

Lemma full_key k : map_key k = true -> full k.
Proof. destruct k; try discriminate; intros; exact I. Qed.

(** What reading gives, when it gives something. *)
Lemma flip_is b : length b = 16 -> is_value (VUuid b) (XUuid (flip_halves b)).
Proof.
  intros H. unfold flip_halves.
  replace (VUuid b) with (VUuid (rev (rev (firstn 8 b)) ++ rev (rev (skipn 8 b))))
    by (rewrite !rev_involutive, firstn_skipn; reflexivity).
  apply IVUuid. rewrite rev_length, firstn_length. lia.
Qed.

Lemma elem_ok e t vs xs : elem_tag e t = true -> Forall (cell t) vs -> mapM (elem_from e) vs = Ok xs ->
  Forall2 is_value vs xs.
Proof.
  intros He. revert xs. induction vs as [|v vs IH]; intros xs F E; cbn [mapM] in E.
  - injection E as <-. constructor.
  - inv_do E. inv_do E. injection E as <-. apply Forall_cons_iff in F. destruct F as [F1 F2].
    constructor; [|apply IH; assumption].
    destruct e, t; try discriminate He; cbn [elem_from as_str as_bytes into_date into_time into_enum8 into_enum16 into_num] in E0;
      inversion F1; subst; cbn [as_str as_bytes into_date into_time into_enum8 into_enum16 into_num] in E0;
      try (injection E0 as <-; constructor; fail);
      try (destruct (utf8_valid b) eqn:U; [|discriminate E0]; injection E0 as <-; constructor; exact U);
      try (destruct (scalar_eq_dec _ _) as [<-|]; [|discriminate E0]; injection E0 as <-; constructor).
    inv_do E0. injection E0 as <-. destruct (to_datetime_exact _ _ _ H0 E). constructor; assumption.
Qed.

Lemma elem_tag_stands e t : elem_tag e t = true <-> elem_stands e t.
Proof.
  split.
  - destruct e, t; try discriminate; cbn [elem_tag]; try constructor.
    destruct (scalar_eq_dec s s0) as [<-|]; [constructor|discriminate].
  - intros []; cbn; try reflexivity. destruct (scalar_eq_dec s s); congruence.
Qed.


(** A cell seen through the wrappers of its type. *)
Lemma strip_bare t : match strip t with TAgg _ _ | TLowCardinality _ => False | _ => True end.
Proof. induction t; cbn; auto. Qed.

Ltac bare t Hc := let S := fresh "S" in pose proof (strip_bare t) as S; apply cell_strip in Hc;
  inversion Hc; match goal with E : _ = strip t |- _ => rewrite <- E in S end; try contradiction; clear S.

Lemma from_sql_ok : forall r t v x, cell t v -> from_sql r v = Ok x ->
  is_value v x /\ (full v -> stands r t).
Proof.
  induction r; intros t v0 x Hc H;
    destruct v0; cbn [from_sql as_str as_bytes into_time] in H; try discriminate H; bare t Hc;
    (match goal with |- is_value ?v _ /\ (_ -> stands ?r _) =>
       enough (is_value v x /\ (full v -> stands r (strip t))) as [A B] end;
      [split; [exact A|intros F; apply stands_wrapped, B, F]|]);
    match goal with E : _ = strip t |- _ => rewrite <- E end;
    try (injection H as <-; split; [constructor; fail|intros _; constructor; fail]).
  all: try (destruct (utf8_valid b) eqn:U; [|discriminate H]; injection H as <-; split; [constructor; exact U|]; intros _;
            constructor; (left; reflexivity) || (right; eexists; reflexivity)).
  all: try (injection H as <-; split; [constructor|intros _; constructor; (left; reflexivity) || (right; eexists; reflexivity)]).
  all: try (destruct e; try discriminate H;
            match type of H with context [match ?q with U8 => _ | _ => _ end] => destruct q end; discriminate H).
  all: subst.
  - destruct (scalar_eq_dec s s0) as [->|]; [|discriminate H]. injection H as <-. split; [|intros _]; constructor.
  - (* map *) inv_do H. injection H as <-.
    assert (G : forall todo done m m', distinct_keys (map fst (done ++ todo)) = true ->
      Forall (fun kv => cell k (fst kv) /\ cell v (snd kv)) todo -> read_from r1 done m ->
      from_loop r1 r2 todo m = Ok m' ->
      exists xs, m' = m ++ xs /\ Forall2 (fun a b => is_value (fst a) (fst b) /\ is_value (snd a) (snd b)) todo xs /\
        match todo with (a, b) :: _ => (full a -> stands r1 k) /\ (full b -> stands r2 v) | [] => True end).
    { clear -IHr1 IHr2. induction todo as [|[a b] todo IH]; intros done m m' D F R E.
      - injection E as <-. exists []. rewrite app_nil_r. repeat split. constructor.
      - rewrite (from_loop_step _ _ done) in E by assumption. inv_do E. inv_do E.
        apply Forall_cons_iff in F. destruct F as [[F1 F2] F]. cbn [fst snd] in F1, F2.
        destruct (IH (done ++ [(a, b)]) (m ++ [(x, x0)]) m') as (xs & -> & A & _).
        + rewrite <- app_assoc. exact D.
        + exact F.
        + apply Forall2_app; [exact R|]. constructor; [exact E0|constructor].
        + exact E.
        + exists ((x, x0) :: xs). rewrite <- app_assoc. split; [reflexivity|].
          destruct (IHr1 _ _ _ F1 E0), (IHr2 _ _ _ F2 E1). split; [|split; assumption].
          constructor; [split; assumption|exact A]. }
    destruct (G kvs [] [] x0) as (xs & -> & A & B); try assumption; [constructor|].
    split; [constructor; exact A|]. cbn [full]. intros [N F]. destruct kvs as [|[a b] kvs]; [congruence|].
    cbn [fold_right fst snd] in F. destruct B as [B1 B2]. constructor; [apply B1|apply B2]; apply F.
  - (* IPv4 *) injection H as <-. split; [|intros _; constructor].
    replace (VIpv4 b) with (VIpv4 (rev (rev b))) by (rewrite rev_involutive; reflexivity). constructor.
  - (* UUID *) injection H as <-. split; [apply flip_is; assumption|intros _; constructor].
  - destruct e; try discriminate H. destruct s; try discriminate H. injection H as <-.
    split; [constructor|]. intros _. apply SBytes. left. reflexivity.
  - destruct e; try discriminate H. destruct s; try discriminate H. injection H as <-.
    split; [constructor|]. intros _. apply SBytes. right. eexists. reflexivity.
  - destruct (elem_tag e t0) eqn:He; [|discriminate H]. inv_do H. injection H as <-.
    split; [constructor; eapply elem_ok; eassumption|]. intros _. constructor. apply elem_tag_stands, He.
  - (* NULL *) injection H as <-. split; [constructor|]. intros [].
  - inv_do H. injection H as <-. match goal with C : cell _ v0 |- _ => destruct (IHr _ _ _ C E) as [A B] end. split; [constructor; exact A|].
    intros F. constructor. apply B, F.
  - inv_do H. injection H as <-.
    match goal with P : (_ <= 9)%N |- _ => destruct (to_datetime_exact _ _ _ P E) end. split; [constructor; assumption|intros _; constructor].
Qed.

(** Reading panics only when the type is right. *)
Lemma elem_from_panic e t v p : elem_tag e t = true -> cell t v -> elem_from e v <> Panic p \/ exists q tz, t = TDateTime (DateTime64 q tz).
Proof.
  intros He Hc. destruct e, t; try discriminate He; inversion Hc; subst; cbn;
    try (left; discriminate); try (left; destruct (utf8_valid b); discriminate).
  - right. eauto.
  - cbn in He. destruct (scalar_eq_dec s s0); [left; discriminate|discriminate He].
Qed.

Lemma from_sql_panic : forall r t v p, cell t v -> full v -> from_sql r v = Panic p -> stands r t.
Proof.
  induction r; intros t v0 p Hc Hfull H; destruct v0; cbn [from_sql as_str as_bytes into_time] in H; try discriminate H;
    try (match type of H with (if ?b then _ else _) = _ => destruct b; discriminate H end);
    bare t Hc; apply stands_wrapped; match goal with E : _ = strip t |- _ => rewrite <- E end;
    try (destruct e; try discriminate H;
            match type of H with context [match ?q with U8 => _ | _ => _ end] => destruct q end; discriminate H);
    subst.
  - (* map *)
    assert (G : forall todo done m, distinct_keys (map fst (done ++ todo)) = true ->
      Forall (fun kv => cell k (fst kv) /\ cell v (snd kv)) todo ->
      fold_right (fun kv P => (full (fst kv) /\ full (snd kv)) /\ P) True todo -> read_from r1 done m ->
      from_loop r1 r2 todo m = Panic p -> stands (RMap r1 r2) (TMap k v)).
    { clear -IHr2. induction todo as [|[a b] todo IH]; intros done m D F Fu R E; [discriminate E|].
      rewrite (from_loop_step _ _ done) in E by assumption.
      apply Forall_cons_iff in F. destruct F as [[F1 F2] F]. cbn [fst snd] in F1, F2.
      cbn [fold_right fst snd] in Fu. destruct Fu as [[U1 U2] Fu].
      destruct (from_sql r1 a) as [x| |q] eqn:E1; cbn [rbind] in E.
      2: discriminate E.
      - destruct (from_sql_ok _ _ _ _ F1 E1) as [_ S1]. specialize (S1 U1).
        destruct (from_sql r2 b) as [y| |q] eqn:E2; cbn [rbind] in E; [|discriminate E|].
        + apply (IH (done ++ [(a, b)]) (m ++ [(x, y)])); try assumption; [rewrite <- app_assoc; exact D|].
          apply Forall2_app; [exact R|]. constructor; [exact E1|constructor].
        + constructor; [exact S1|]. apply (IHr2 _ _ _ F2 U2 E2).
      - exfalso. rewrite map_app in D. cbn [map fst] in D. destruct (distinct_app _ _ D) as (_ & D2 & _).
        cbn [forallb] in D2. apply andb_true_iff in D2.
        destruct (from_sql_key r1 a (proj1 D2)) as [[e E']|(x & E' & _)]; congruence. }
    cbn [full] in Hfull. destruct Hfull as [_ Hfull].
    match type of H with (do m <- ?l; _) = _ => destruct l eqn:EL end; try discriminate H.
    injection H as <-. apply (G kvs [] []); try assumption; constructor.
  - destruct (elem_tag e t0) eqn:He; [|discriminate H]. constructor. apply elem_tag_stands, He.
  - constructor. cbn [full] in Hfull. destruct (from_sql r v0) eqn:E; try discriminate H. injection H as <-.
    eapply IHr; eassumption.
  - constructor.
Qed.

(** Reading as the right type succeeds. *)
Lemma elem_there e t vs : elem_stands e t -> Forall (cell t) vs -> fold_right (fun x P => readable x /\ P) True vs ->
  exists xs, mapM (elem_from e) vs = Ok xs.
Proof.
  intros He. induction vs as [|v vs IH]; intros F R; [exists []; reflexivity|].
  apply Forall_cons_iff in F. destruct F as [F1 F2]. cbn [fold_right] in R. destruct R as [R1 R2].
  destruct (IH F2 R2) as [xs E]. cbn [mapM]. rewrite E.
  enough (exists x, elem_from e v = Ok x) as [x ->] by (cbn [rbind]; eauto).
  destruct He; inversion F1; subst; cbn [elem_from as_str as_bytes into_date into_time into_enum8 into_enum16 into_num];
    try (eexists; reflexivity).
  - cbn [readable] in R1. rewrite R1. eauto.
  - cbn [readable] in R1. rewrite R1. eauto.
  - cbn [readable] in R1. destruct R1 as (P1 & P2 & P3). destruct (to_datetime_there _ _ P1 P2 P3) as [x ->]. cbn. eauto.
  - destruct (scalar_eq_dec s s); [eauto|congruence].
Qed.

Lemma from_sql_there : forall r t v, cell t v -> readable v -> stands r t -> exists x, from_sql r v = Ok x.
Proof.
  induction r; intros t v0 Hc Hr Hs; apply cell_strip in Hc; apply stands_strip in Hs;
    pose proof (strip_bare t) as B; destruct (strip t); try contradiction; clear t B;
    inversion Hs; subst; try match goal with T : texty _ |- _ => destruct T as [T|[? T]]; try discriminate T end;
    inversion Hc; subst; cbn [from_sql as_str as_bytes into_time]; try (eexists; reflexivity);
    try (cbn [readable] in Hr; rewrite Hr; eexists; reflexivity).
  - destruct (scalar_eq_dec s0 s0); [eauto|congruence].
  - fold (from_loop r1 r2).
    assert (G : forall todo done m, distinct_keys (map fst (done ++ todo)) = true ->
      Forall (fun kv => cell s1 (fst kv) /\ cell s2 (snd kv)) todo ->
      fold_right (fun kv P => (readable (fst kv) /\ readable (snd kv)) /\ P) True todo -> read_from r1 done m ->
      exists m', from_loop r1 r2 todo m = Ok m').
    { induction todo as [|[a b] todo IH]; intros done m D F Fu R; [eexists; reflexivity|].
      rewrite (from_loop_step _ _ done) by assumption.
      apply Forall_cons_iff in F. destruct F as [[F1 F2] F]. cbn [fst snd] in F1, F2.
      cbn [fold_right fst snd] in Fu. destruct Fu as [[U1 U2] Fu].
      destruct (IHr1 _ _ F1 U1) as [x Ex]; [assumption|]. destruct (IHr2 _ _ F2 U2) as [y Ey]; [assumption|].
      rewrite Ex, Ey. cbn [rbind]. apply (IH (done ++ [(a, b)])); try assumption; [rewrite <- app_assoc; exact D|].
      apply Forall2_app; [exact R|]. constructor; [exact Ex|constructor]. }
    cbn [readable] in Hr. destruct (G kvs [] []) as [m' E]; try assumption; [constructor|].
    change (exists x, from_sql (RMap r1 r2) (VMap s1 s2 kvs) = Ok x). rewrite from_sql_map, E. cbn. eauto.
  - cbn [readable] in Hr. match goal with He : elem_stands _ _ |- _ => pose proof He as He'; apply elem_tag_stands in He' end.
    rewrite He'. destruct (elem_there e s vs) as [xs ->]; try assumption. cbn. eauto.
  - cbn [readable] in Hr. destruct (IHr _ _ H0 Hr) as [x ->]; [assumption|]. cbn. eauto.
  - cbn [readable] in Hr. destruct Hr as (P1 & P2 & P3). destruct (to_datetime_there _ _ P1 P2 P3) as [x ->]. cbn. eauto.
Qed.

(** Columns loaded from the wire are formed. *)
Section Load.
Variable tz_known : bytes -> bool.

Ltac lstep H :=
  first
  [ injection H as <- <-
  | let a := fresh "x" in let r := fresh "r" in let E := fresh "E" in
    apply bind_inv in H as (a & r & E & H) ].

Lemma load_formed tz t : forall fuel size s c r, precise_type t -> nameable tz_known t -> enough fuel t ->
  run (load_data tz_known fuel (type_name t) size tz) s = Ok (c, r) -> formed c.
Proof.
  induction t as [sc| |n| |[|p z|]| | | |t IH|t IH|t IH|p sc|vals|vals|f t IH|k IHk v IHv];
    intros fuel size s c r W N L H; destruct fuel as [|fuel]; try (unfold enough in L; lia);
    cbn [load_data] in H; rewrite (classify_name tz_known) in H by exact N;
    cbn [lift pbind kind_of] in H; cbn [precise_type nameable] in *.
  - lstep H. cbn [run] in H. lstep H. exact I.
  - lstep H. cbn [run] in H. lstep H. exact I.
  - lstep H. lstep H. lstep H. cbn [run] in H. lstep H. exact I.
  - lstep H. cbn [run] in H. lstep H. exact I.
  - lstep H. lstep H. cbn [run] in H. lstep H. exact I.
  - lstep H. lstep H. cbn [run] in H. lstep H. exact W.
  - lstep H. lstep H. cbn [run] in H. lstep H. exact I.
  - lstep H. lstep H. apply get_inv in H as (l & s' & H). cbn [run] in H. lstep H. exact I.
  - lstep H. lstep H. apply get_inv in H as (l & s' & H). cbn [run] in H. lstep H. exact I.
  - lstep H. lstep H. apply get_inv in H as (l & s' & H). cbn [run] in H. lstep H. exact I.
  - lstep H. apply get_inv in H as (l & s' & H). lstep H. cbn [run] in H. lstep H.
    cbn [formed]. eapply IH; [exact W|apply N|apply enough_nullable, L|exact E0].
  - lstep H. lstep H. cbn [run] in H. lstep H.
    cbn [formed]. eapply IH; [exact W|apply N|apply enough_array, L|exact E0].
  - unfold load_low in H. destruct (size =? 0)%N.
    + lstep H. lstep H. cbn [run] in H. lstep H. cbn [formed].
      eapply IH; [exact W|apply N|apply enough_low, L|exact E].
    + lstep H. destruct (negb _); [discriminate|]. lstep H. destruct (ix_of_flags _) as [ix|]; [|discriminate].
      destruct (negb _); [discriminate|]. destruct (_ =? 0)%N; [discriminate|].
      lstep H. lstep H. lstep H. lstep H. destruct (_ =? _)%N; [|discriminate].
      cbn [run] in H. lstep H. cbn [formed]. eapply IH; [exact W|apply N|apply enough_low, L|exact E2].
  - lstep H. cbn [run] in H. lstep H. exact I.
  - lstep H. cbn [run] in H. lstep H. exact I.
  - lstep H. cbn [run] in H. lstep H. exact I.
  - lstep H. cbn [run] in H. lstep H. cbn [formed]. eapply IH; [exact W|apply N|eapply enough_agg, L|exact E].
  - lstep H. lstep H. lstep H. cbn [run] in H. lstep H. apply enough_map in L as [Lk Lv].
    destruct N as (Nk & _ & Nv), W as [Wk Wv]. cbn [formed]. split; [eapply IHk|eapply IHv]; eassumption.
Qed.
End Load.
