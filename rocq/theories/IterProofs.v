(** Proofs about typed iteration. *)
From Verif Require Import Base Bytes Types TypeNames Decimal DateTime Values Columns SpecColumns FromSql
  SpecFromSql Iter SpecIter PushProofs FromSqlProofs.

(** * Lists *)

Lemma skipn_nth {A} (l : list A) i x : nth_error l i = Some x -> skipn i l = x :: skipn (S i) l.
Proof. revert i; induction l; destruct i; simpl; intros; try congruence. rewrite (IHl _ H). reflexivity. Qed.

Lemma skipn_more {A} (l : list A) a b : skipn a (skipn b l) = skipn (b + a) l.
Proof.
  revert l; induction b; intros l; simpl; [reflexivity|].
  destruct l; [destruct a; reflexivity|]. apply IHb.
Qed.

Lemma build_list {A} (P : nat -> A -> Prop) : forall n,
  (forall i, (i < n)%nat -> exists x, P i x) ->
  exists xs, length xs = n /\ forall i x, nth_error xs i = Some x -> P i x.
Proof.
  induction n; intro H.
  - exists []. split; auto. intros i x E. destruct i; discriminate.
  - destruct IHn as (xs & L & F); [intros; apply H; lia|].
    destruct (H n) as (y & Y); [lia|].
    exists (xs ++ [y]). split; [rewrite app_length; simpl; lia|].
    intros i x E. destruct (Nat.lt_ge_cases i (length xs)).
    + rewrite nth_error_app1 in E by assumption. auto.
    + rewrite nth_error_app2 in E by assumption.
      destruct (i - length xs)%nat eqn:D.
      * simpl in E. inversion E; subst. replace i with (length xs) by lia. assumption.
      * destruct n0; discriminate.
Qed.

Section Zones.
Variable offset : bytes -> Z -> Z.

(** * An iterator that gives the rows of a column *)

Definition shape (r : itype) (x : rval) : Prop :=
  match r with
  | INum s => exists z, x = XNum s z
  | IBytes => exists b, x = XBytes b
  | _ => True
  end.

Definition runs (r : itype) (c : col) (it : istate r) : Prop :=
  exists xs st,
    clen c = Ok (length xs) /\ st O = it /\
    (forall i x, nth_error xs i = Some x -> next offset r (st i) = Ok (Some x, st (S i))) /\
    next offset r (st (length xs)) = Ok (None, st (length xs)) /\
    (forall i x, nth_error xs i = Some x -> shape r x) /\
    (forall i v x, at_ c i = Ok v -> nth_error xs i = Some x -> item r v x).

Lemma runs_intro r c n (st : nat -> istate r) :
  clen c = Ok n ->
  (forall i, (i < n)%nat -> exists x, next offset r (st i) = Ok (Some x, st (S i)) /\ shape r x /\
                                      forall v, at_ c i = Ok v -> item r v x) ->
  next offset r (st n) = Ok (None, st n) ->
  runs r c (st O).
Proof.
  intros L H E. destruct (build_list _ n H) as (xs & Lx & F).
  exists xs, st. subst n. repeat split; auto.
  - intros i x N. apply (F _ _ N).
  - intros i x N. apply (F _ _ N).
  - intros i v x A N. destruct (F _ _ N) as (_ & _ & K). auto.
Qed.

Lemma runs_yields r c it : runs r c it ->
  exists xs, clen c = Ok (length xs) /\ yields (next offset r) it xs /\
             forall i v x, at_ c i = Ok v -> nth_error xs i = Some x -> item r v x.
Proof.
  intros (xs & st & L & S0 & N & E & _ & I). exists xs. repeat split; auto.
  subst it. clear L I.
  assert (G : forall ys k, (forall i x, nth_error ys i = Some x -> next offset r (st (k + i)%nat) = Ok (Some x, st (S (k + i)))) ->
                next offset r (st (k + length ys)%nat) = Ok (None, st (k + length ys)%nat) ->
                yields (next offset r) (st k) ys).
  { induction ys as [|y ys IH]; intros k Hn He; simpl.
    - exists (st k). simpl in He. replace (k + 0)%nat with k in He by lia. exact He.
    - exists (st (S k)). split.
      + specialize (Hn O y eq_refl). replace (k + 0)%nat with k in Hn by lia. exact Hn.
      + apply IH.
        * intros i x H. specialize (Hn (S i) x H). replace (S k + i)%nat with (k + S i)%nat by lia. exact Hn.
        * replace (S k + length ys)%nat with (k + length (y :: ys))%nat by (simpl; lia). exact He. }
  apply (G xs O); simpl; auto.
Qed.

(** * Where the pointers lead *)

Lemma eqb_eq a b : sqltype_eqb a b = true -> a = b.
Proof. unfold sqltype_eqb. destruct (sqltype_eq_dec a b); congruence. Qed.
Lemma eqb_refl a : sqltype_eqb a a = true.
Proof. unfold sqltype_eqb. destruct (sqltype_eq_dec a a); congruence. Qed.

Lemma number_check s t : check_type t (TNum s) = true <-> number s t.
Proof.
  split.
  - induction t; cbn [check_type]; intro H; try (apply eqb_eq in H; inversion H; subst; constructor).
    constructor. auto.
  - induction 1; cbn [check_type]; auto. apply eqb_refl.
Qed.

Lemma num_access s : forall c w, number s (ctype c) -> get_internal c 2 0 0 = Ok w ->
  exists zs, w = WNums s zs /\ clen c = Ok (length zs) /\
             forall i, at_ c i = do z <- index zs i; Ok (VNum s z).
Proof.
  induction c; intros w Hn Hw; cbn [ctype] in Hn; try (inversion Hn; fail); try discriminate Hw.
  - inversion Hn; subst. simpl in Hw. inversion Hw; subst. exists zs. repeat split; reflexivity.
  - destruct k; inversion Hn.
  - inversion Hn; subst. apply (IHc w); auto.
Qed.

Lemma text_access c w : ctype c = TString -> get_internal c 2 0 0 = Ok w ->
  exists l, c = CString l /\ w = WPool l.
Proof.
  destruct c; cbn [ctype]; intros T H; try discriminate T; try discriminate H.
  - simpl in H. inversion H; subst. exists l. split; reflexivity.
  - destruct k; discriminate T.
Qed.

Lemma fixed_access c n w : ctype c = TFixedString n -> get_internal c 2 0 0 = Ok w -> n <> 0%N ->
  exists buf, c = CFixed n buf /\ w = WFixed buf (length buf / N.to_nat n).
Proof.
  destruct c; cbn [ctype]; intros T H Z; try discriminate T; try discriminate H.
  - inversion T; subst. simpl in H. destruct (N.eqb_spec n 0); [contradiction|]. simpl in H.
    inversion H; subst. exists buf. split; reflexivity.
  - destruct k; discriminate T.
Qed.

Lemma decimal_access c p s w : ctype c = TDecimal p s -> get_internal c 3 0 0 = Ok w ->
  exists l nb, c = CDecimal l p s nb /\ w = WDecimals l nb.
Proof.
  destruct c; cbn [ctype]; intros T H; try discriminate T; try discriminate H.
  - destruct k; discriminate T.
  - inversion T; subst. simpl in H. inversion H; subst. exists l, nb. split; reflexivity.
Qed.

Lemma addr_access c k w : ctype c = ip_type k -> get_internal c 1 0 0 = Ok w ->
  exists buf, c = CIp k buf /\ w = WVec buf.
Proof.
  destruct c; cbn [ctype]; intros T H; try (destruct k; discriminate T); try discriminate H.
  simpl in H. inversion H; subst. exists buf. split; auto.
  destruct k, k0; try discriminate T; reflexivity.
Qed.

(** * The leaves *)

Lemma num_runs s c zs :
  clen c = Ok (length zs) -> (forall i, at_ c i = do z <- index zs i; Ok (VNum s z)) ->
  runs (INum s) c zs.
Proof.
  intros L A. apply (runs_intro (INum s) c (length zs) (fun i => skipn i zs) L).
  - intros i Hi. destruct (nth_error zs i) as [z|] eqn:E.
    2: { apply nth_error_None in E. lia. }
    exists (XNum s z). split; [|split].
    + simpl. rewrite (skipn_nth _ _ _ E). reflexivity.
    + exists z. reflexivity.
    + intros v Hv. rewrite A in Hv. unfold index in Hv. rewrite E in Hv. simpl in Hv.
      inversion Hv; subst. apply ItSimple; [reflexivity|]. constructor.
  - simpl. rewrite skipn_all. reflexivity.
Qed.

Lemma pool_runs l : runs IBytes (CString l) (mk_text (TPool l) 0 (length l)).
Proof.
  apply (runs_intro IBytes (CString l) (length l) (fun i => mk_text (TPool l) i (length l)) eq_refl).
  - intros i Hi. destruct (nth_error l i) as [b|] eqn:E.
    2: { apply nth_error_None in E. lia. }
    exists (XBytes b). split; [|split].
    + cbn [next]. unfold text_next. cbn [ti_src ti_index ti_size].
      destruct (Nat.eqb_spec i (length l)); [lia|]. rewrite E. reflexivity.
    + exists b. reflexivity.
    + intros v Hv. cbn [at_] in Hv. unfold index in Hv. rewrite E in Hv. simpl in Hv.
      inversion Hv; subst. apply ItSimple; [reflexivity|]. constructor.
  - cbn [next]. unfold text_next. cbn [ti_src ti_index ti_size]. rewrite Nat.eqb_refl. reflexivity.
Qed.

Lemma row_inside n len i : n <> 0%nat -> (len mod n = 0)%nat -> (i < len / n)%nat -> (i * n + n <= len)%nat.
Proof.
  intros Z M H. pose proof (Nat.div_mod len n Z) as D. rewrite M in D.
  assert ((i + 1) * n <= len / n * n)%nat by (apply Nat.mul_le_mono_r; lia).
  lia.
Qed.

Lemma slice_some {A} (l : list A) a b : (a <= b)%nat -> (b <= length l)%nat ->
  Base.slice l a b = Some (firstn (b - a) (skipn a l)).
Proof.
  intros H K. unfold Base.slice. destruct (Nat.leb_spec a b); [|lia].
  destruct (Nat.leb_spec b (length l)); [|lia]. reflexivity.
Qed.

Lemma fixed_runs n buf : n <> 0%N -> (length buf mod N.to_nat n = 0)%nat ->
  runs IBytes (CFixed n buf) (mk_text (TFixed buf (N.to_nat n)) 0 (length buf / N.to_nat n)).
Proof.
  intros Z M. set (k := N.to_nat n) in *. assert (Zk : k <> 0%nat) by (unfold k; lia).
  apply (runs_intro IBytes (CFixed n buf) (length buf / k)
           (fun i => mk_text (TFixed buf k) i (length buf / k))).
  - simpl. destruct (N.eqb_spec n 0); [contradiction|]. reflexivity.
  - intros i Hi. pose proof (row_inside k (length buf) i Zk M Hi) as R.
    pose proof (slice_some buf (i * k) (i * k + k) ltac:(lia) R) as E.
    eexists (XBytes _). split; [|split].
    + cbn [next]. unfold text_next. cbn [ti_src ti_index ti_size].
      destruct (Nat.leb_spec (length buf / k) i); [lia|]. rewrite E. reflexivity.
    + eexists; reflexivity.
    + intros v Hv. cbn [at_] in Hv. unfold cut in Hv. fold k in Hv. rewrite E in Hv. simpl in Hv.
      inversion Hv; subst. apply ItSimple; [reflexivity|]. constructor.
  - cbn [next]. unfold text_next. cbn [ti_src ti_index ti_size]. rewrite Nat.leb_refl. reflexivity.
Qed.

Lemma dict_string inner n j : tidy inner -> texty (ctype inner) -> has_accessor inner = true ->
  clen inner = Ok n -> (j < n)%nat ->
  exists b, get_string inner j = Ok b /\ at_ inner j = Ok (VString b).
Proof.
  intros T X A L J. destruct inner; try discriminate A.
  - simpl in L. inversion L; subst. destruct (nth_error l j) as [b|] eqn:E.
    2: { apply nth_error_None in E. lia. }
    exists b. simpl. unfold index. rewrite E. split; reflexivity.
  - destruct T as [Z M]. simpl in L. destruct (N.eqb_spec n0 0); [contradiction|]. inversion L; subst.
    pose proof (row_inside (N.to_nat n0) (length buf) j ltac:(lia) M J) as R.
    pose proof (slice_some buf (j * N.to_nat n0) (j * N.to_nat n0 + N.to_nat n0) ltac:(lia) R) as E.
    eexists. simpl. unfold cut. rewrite E. split; reflexivity.
  - destruct X as [X|[m X]]; discriminate X.
  - destruct X as [X|[m X]]; discriminate X.
Qed.

Lemma dict_runs inner ix idx vm : tidy (CLow inner ix idx vm) -> texty (ctype inner) ->
  has_accessor inner = true ->
  runs IBytes (CLow inner ix idx vm) (mk_text (TDict idx inner) 0 (length idx)).
Proof.
  intros [T (n & L & F)] X A.
  apply (runs_intro IBytes (CLow inner ix idx vm) (length idx)
           (fun i => mk_text (TDict idx inner) i (length idx)) eq_refl).
  - intros i Hi. destruct (nth_error idx i) as [j|] eqn:E.
    2: { apply nth_error_None in E. lia. }
    rewrite Forall_forall in F. pose proof (F j (nth_error_In _ _ E)) as J.
    destruct (dict_string inner n (N.to_nat j) T X A L J) as (b & G & V).
    exists (XBytes b). split; [|split].
    + cbn [next]. unfold text_next. cbn [ti_src ti_index ti_size].
      destruct (Nat.leb_spec (length idx) i); [lia|]. unfold index. rewrite E. simpl. rewrite G. reflexivity.
    + exists b; reflexivity.
    + intros v Hv. cbn [at_] in Hv. unfold index in Hv. rewrite E in Hv. cbn [or_panic rbind] in Hv.
      rewrite V in Hv. inversion Hv; subst. apply ItSimple; [reflexivity|]. constructor.
  - cbn [next]. unfold text_next. cbn [ti_src ti_index ti_size]. rewrite Nat.leb_refl. reflexivity.
Qed.

Lemma decimal_runs l p s nb : runs IDecimal (CDecimal l p s nb) (mk_dec l p s nb).
Proof.
  apply (runs_intro IDecimal (CDecimal l p s nb) (length l) (fun i => mk_dec (skipn i l) p s nb) eq_refl).
  - intros i Hi. destruct (nth_error l i) as [z|] eqn:E.
    2: { apply nth_error_None in E. lia. }
    eexists (XDecimal _). split; [|split].
    + cbn [next]. unfold dec_next. cbn [de_rest de_prec de_scale de_nb].
      rewrite (skipn_nth _ _ _ E). reflexivity.
    + exact I.
    + intros v Hv. cbn [at_] in Hv. unfold index in Hv. rewrite E in Hv. simpl in Hv.
      inversion Hv; subst. apply ItSimple; [reflexivity|]. constructor.
  - cbn [next]. unfold dec_next. cbn [de_rest]. rewrite skipn_all. reflexivity.
Qed.

Definition addr_type (k : ip_kind) : itype :=
  match k with IpV4 => IIpv4 | IpV6 => IIpv6 | IpUuid => IUuid end.
Definition addr_rval (k : ip_kind) (b : bytes) : rval :=
  match k with IpV4 => XIpv4 (rev b) | IpV6 => XIpv6 b | IpUuid => XUuid (flip_halves b) end.
Definition addr_state (k : ip_kind) (b : bytes) : istate (addr_type k) :=
  match k return istate (addr_type k) with IpV4 => b | IpV6 => b | IpUuid => b end.

Lemma addr_value k b : length b = ip_size k -> is_value (ip_value k b) (addr_rval k b).
Proof.
  intro L. destruct k; cbn [ip_value addr_rval].
  - rewrite <- (rev_involutive b) at 1. constructor.
  - constructor.
  - unfold flip_halves. rewrite <- (firstn_skipn 8 b) at 1.
    rewrite <- (rev_involutive (firstn 8 b)) at 1. rewrite <- (rev_involutive (skipn 8 b)) at 1.
    constructor. rewrite rev_length, firstn_length. simpl in L. lia.
Qed.

Lemma addr_next_eq k b : next offset (addr_type k) (addr_state k b) =
  do x <- addr_next (ip_size k) (addr_rval k) b; Ok (fst x, addr_state k (snd x)).
Proof.
  destruct k; cbn [next addr_type addr_state ip_size addr_rval]; unfold addr_next;
    destruct b; try reflexivity;
    match goal with |- context [or_panic _ ?o] => destruct o end; reflexivity.
Qed.

Lemma addr_runs k buf : (length buf mod ip_size k = 0)%nat ->
  runs (addr_type k) (CIp k buf) (addr_state k buf).
Proof.
  intro M. assert (Zk : ip_size k <> 0%nat) by (destruct k; discriminate).
  apply (runs_intro (addr_type k) (CIp k buf) (length buf / ip_size k)
           (fun i => addr_state k (skipn (i * ip_size k) buf)) eq_refl).
  - intros i Hi. pose proof (row_inside _ _ _ Zk M Hi) as R.
    assert (Ls : (ip_size k <= length (skipn (i * ip_size k) buf))%nat) by (rewrite skipn_length; lia).
    exists (addr_rval k (firstn (ip_size k) (skipn (i * ip_size k) buf))). split; [|split].
    + rewrite addr_next_eq. unfold addr_next.
      destruct (skipn (i * ip_size k) buf) as [|a rest] eqn:E; [simpl in Ls; lia|]. rewrite <- E in *.
      rewrite (slice_some _ 0 (ip_size k)) by lia. cbn [or_panic rbind fst snd].
      rewrite Nat.sub_0_r. cbn [skipn].
      replace (skipn (ip_size k) (skipn (i * ip_size k) buf)) with (skipn (S i * ip_size k) buf); [reflexivity|].
      rewrite skipn_more. f_equal; lia.
    + destruct k; exact I.
    + intros v Hv. cbn [at_] in Hv. unfold cut in Hv.
      rewrite (slice_some buf (i * ip_size k) ((i + 1) * ip_size k)) in Hv by lia.
      cbn [or_panic rbind] in Hv. inversion Hv; subst.
      replace ((i + 1) * ip_size k - i * ip_size k)%nat with (ip_size k) by lia.
      apply ItSimple; [destruct k; reflexivity|]. apply addr_value. rewrite firstn_length. lia.
  - rewrite addr_next_eq. unfold addr_next.
    rewrite skipn_all2; [reflexivity|].
    pose proof (Nat.div_mod (length buf) (ip_size k) Zk). lia.
Qed.

(** * Dates and times *)

Definition stamp_value (d : stamps) (tz : bytes) (j : nat) : option value :=
  match d with
  | SDays l => option_map VDate (nth_error l j)
  | SSecs l => option_map (fun t => VDateTime t tz) (nth_error l j)
  | STicks l p => option_map (fun t => VDateTime64 t p tz) (nth_error l j)
  end.

Lemma dates_run r c low d tz n (item_of : date_iter -> nat -> res rval)
    (st : nat -> istate r) :
  (forall i, next offset r (st i) =
     do x <- date_next item_of (mk_date low d i n tz);
     Ok (fst x, match fst x with Some _ => st (S i) | None => st i end)) ->
  clen c = Ok n -> (match r with INum _ | IBytes => False | _ => True end) ->
  (forall i, (i < n)%nat -> exists j x, low_index low i = Ok j /\
       (forall i', item_of (mk_date low d i' n tz) j = Ok x) /\
       forall v, at_ c i = Ok v -> item r v x) ->
  runs r c (st O).
Proof.
  intros Hn L Hr H. apply (runs_intro r c n st L).
  - intros i Hi. destruct (H i Hi) as (j & x & J & X & V). exists x. split; [|split].
    + rewrite Hn. unfold date_next. cbn [da_index da_len da_low da_data da_tz].
      destruct (Nat.eqb_spec i n); [lia|]. rewrite J. cbn [rbind]. rewrite X. reflexivity.
    + destruct r; try exact I; contradiction.
    + exact V.
  - rewrite Hn. unfold date_next. cbn [da_index da_len]. rewrite Nat.eqb_refl. reflexivity.
Qed.

(** The storage behind a date iterator. *)
Lemma date_store want c it : (want = is_datetime \/ want = is_date) ->
  start_dates want c (ctype c) = Ok it ->
  exists low d tz n, it = mk_date low d 0 n tz /\ clen c = Ok n /\
    (tidy c -> forall i, (i < n)%nat -> exists j v, low_index low i = Ok j /\ at_ c i = Ok v /\
                         stamp_value d tz j = Some v) /\
    match d with
    | SDays l => want = is_date /\ days_of c = (l, tz)
    | _ => want = is_datetime
    end.
Proof.
  assert (G : forall c it, (want = is_datetime \/ want = is_date) -> want (ctype c) = true ->
     (do d <- get_dates c; Ok (mk_date None (fst d) 0 (stamps_len (fst d)) (snd d))) = Ok it ->
     exists d tz, it = mk_date None d 0 (stamps_len d) tz /\ clen c = Ok (stamps_len d) /\
       (forall i, (i < stamps_len d)%nat -> exists v, at_ c i = Ok v /\ stamp_value d tz i = Some v) /\
       match d with
       | SDays l => want = is_date /\ days_of c = (l, tz)
       | _ => want = is_datetime
       end).
  { clear c it. intros c it Hw Ht H. destruct c; simpl in H; try discriminate H.
    - inversion H; subst. destruct Hw as [->| ->]; [discriminate Ht|]. exists (SDays l), tz. split; [reflexivity|].
      split; [reflexivity|]. split.
      + intros i Hi. simpl in Hi |- *. unfold index. destruct (nth_error l i) eqn:E.
        * simpl. eexists. split; reflexivity.
        * apply nth_error_None in E. lia.
      + simpl. auto.
    - inversion H; subst. destruct Hw as [->| ->]; [|discriminate Ht]. exists (SSecs l), tz. split; [reflexivity|].
      split; [reflexivity|]. split.
      + intros i Hi. simpl in Hi |- *. unfold index. destruct (nth_error l i) eqn:E.
        * simpl. eexists. split; reflexivity.
        * apply nth_error_None in E. lia.
      + reflexivity.
    - inversion H; subst. destruct Hw as [->| ->]; [|discriminate Ht]. exists (STicks l p), tz. split; [reflexivity|].
      split; [reflexivity|]. split.
      + intros i Hi. simpl in Hi |- *. unfold index. destruct (nth_error l i) eqn:E.
        * simpl. eexists. split; reflexivity.
        * apply nth_error_None in E. lia.
      + reflexivity.
    - destruct Hw as [->| ->]; discriminate Ht. }
  intros Hw H. unfold start_dates in H.
  destruct (ctype c) eqn:T;
    try (destruct (want _) eqn:W in H; [|discriminate H];
         rewrite <- T in W; destruct (G c it Hw W H) as (dd & tz & -> & L & A & D);
         exists None, dd, tz, (stamps_len dd); split; [reflexivity|]; split; [exact L|]; split; [|exact D];
         intros _ i Hi; destruct (A i Hi) as (v & Av & Sv); exists i, v; split; [reflexivity|]; split; assumption).
  destruct (want s) eqn:W; [|discriminate H].
  inv_do H. inv_do H. inversion H; subst it. clear H.
  destruct c; cbn [get_low] in E; try discriminate E.
  destruct (has_accessor c) eqn:Ha; [|discriminate E]. inversion E; subst x. clear E.
  cbn [fst snd]. cbn [get_dates] in E0. cbn [ctype] in T. inversion T; subst s. clear T.
  assert (Hd : (do d <- get_dates c; Ok (mk_date None (fst d) 0 (stamps_len (fst d)) (snd d)))
               = Ok (mk_date None (fst x0) 0 (stamps_len (fst x0)) (snd x0))) by (rewrite E0; reflexivity).
  destruct (G c _ Hw W Hd) as (d & tz & I & L & A & D). inversion I; subst d tz. clear I.
  exists (Some idx), (fst x0), (snd x0), (length idx). split; [reflexivity|]. split; [reflexivity|]. split.
  - intros (Tc & n & Ln & F) i Hi. rewrite L in Ln. inversion Ln; subst n.
    destruct (nth_error idx i) as [j|] eqn:Ej.
    2: { apply nth_error_None in Ej. lia. }
    rewrite Forall_forall in F. destruct (A (N.to_nat j) (F j (nth_error_In _ _ Ej))) as (v & Av & Sv).
    exists (N.to_nat j), v. simpl. unfold index. rewrite Ej. split; [reflexivity|]. split; assumption.
  - destruct (fst x0) eqn:Ed; auto. destruct D as [D1 D2]. split; auto.
    destruct c; try discriminate Ha; simpl in D2 |- *; auto; subst; destruct Hw as [X|X]; try discriminate W.
Qed.

Lemma date_runs c it : tidy c -> clocks offset IDate c -> start_dates is_date c (ctype c) = Ok it ->
  runs IDate c it.
Proof.
  intros T [Ea _] H. specialize (Ea eq_refl).
  destruct (date_store is_date c it (or_intror eq_refl) H) as (low & d & tz & n & -> & L & A & D).
  destruct d as [l|l|l p]; [|discriminate (f_equal (fun f => f TDate) D)|discriminate (f_equal (fun f => f TDate) D)].
  destruct D as [_ D]. unfold eastern in Ea. rewrite D in Ea. cbn [fst snd] in Ea.
  apply (dates_run IDate c low (SDays l) tz n (date_item offset) (fun i => mk_date low (SDays l) i n tz)); auto.
  - intro i. cbn [next]. unfold date_next. cbn [da_index da_len da_low da_data da_tz].
    destruct (i =? n)%nat; [reflexivity|]. destruct (low_index low i); try reflexivity. cbn [rbind].
    destruct (date_item _ _ _); reflexivity.
  - intros i Hi. destruct (A T i Hi) as (j & v & J & V & S).
    simpl in S. destruct (nth_error l j) as [day|] eqn:E; [|discriminate S]. simpl in S. inversion S; subst v.
    exists j, (XDate (Z.of_N day)). split; [exact J|]. split.
    + intro i'. unfold date_item, element. cbn [da_data da_tz]. rewrite E. cbn [or_panic rbind]. repeat f_equal.
      rewrite Forall_forall in Ea. specialize (Ea day (nth_error_In _ _ E)). cbv beta in Ea.
      set (o := offset tz _) in *. clearbody o.
      rewrite Z.add_comm, Z.div_add by lia. rewrite Z.div_small by lia. lia.
    + intros v Hv. rewrite V in Hv. inversion Hv; subst. apply ItSimple; [reflexivity|constructor].
Qed.

Lemma time_item_there (f : Z -> N -> rval) c tz d j v i : at_ c i = Ok v -> timely v ->
  (match d with SDays _ => False | _ => True end) -> stamp_value d tz j = Some v ->
  exists s n, is_value v (XTime s n tz) /\
    (forall low i' len, time_item (mk_date low d i' len tz) j = Ok (XTime s n tz)) /\
    (forall low i' len, naive_item (mk_date low d i' len tz) j = Ok (XTime s n [])).
Proof.
  intros V Ti Hd S. destruct d as [l|l|l p]; [contradiction| |]; simpl in S;
    destruct (nth_error l j) as [t|] eqn:E; try discriminate S; simpl in S; inversion S; subst v.
  - exists (Z.of_N t), 0%N. split; [constructor|]. split; intros; unfold time_item, naive_item, element;
      cbn [da_data da_tz]; rewrite E; reflexivity.
  - destruct Ti as (P & T0 & T1). destruct (to_datetime_there t p P T0 T1) as (x & X).
    destruct (to_datetime_exact t p x P X) as [X1 X2].
    exists (fst x), (snd x). split; [constructor; assumption|].
    split; intros; unfold time_item, naive_item, element; cbn [da_data da_tz]; rewrite E;
      cbn [or_panic rbind]; rewrite X; reflexivity.
Qed.

Lemma datetime_runs c it : tidy c -> clocks offset IDateTime c -> start_dates is_datetime c (ctype c) = Ok it ->
  runs IDateTime c it.
Proof.
  intros T [_ Ti] H.
  destruct (date_store is_datetime c it (or_introl eq_refl) H) as (low & d & tz & n & -> & L & A & D).
  assert (Hd : match d with SDays _ => False | _ => True end)
    by (destruct d; auto; destruct D as [D _]; discriminate (f_equal (fun f => f TDate) D)).
  apply (dates_run IDateTime c low d tz n time_item (fun i => mk_date low d i n tz)); auto.
  - intro i. cbn [next]. unfold date_next. cbn [da_index da_len da_low da_data da_tz].
    destruct (i =? n)%nat; [reflexivity|]. destruct (low_index low i); try reflexivity. cbn [rbind].
    destruct (time_item _ _); reflexivity.
  - intros i Hi. destruct (A T i Hi) as (j & v & J & V & S).
    destruct (time_item_there (fun _ _ => XBytes []) c tz d j v i V (Ti _ _ V) Hd S) as (sec & nan & Iv & X & _).
    exists j, (XTime sec nan tz). split; [exact J|]. split; [intros; apply X|].
    intros v' Hv. rewrite V in Hv. inversion Hv; subst. apply ItSimple; [reflexivity|exact Iv].
Qed.

Lemma naive_runs c it : tidy c -> clocks offset INaive c -> start_dates is_datetime c (ctype c) = Ok it ->
  runs INaive c it.
Proof.
  intros T [_ Ti] H.
  destruct (date_store is_datetime c it (or_introl eq_refl) H) as (low & d & tz & n & -> & L & A & D).
  assert (Hd : match d with SDays _ => False | _ => True end)
    by (destruct d; auto; destruct D as [D _]; discriminate (f_equal (fun f => f TDate) D)).
  apply (dates_run INaive c low d tz n naive_item (fun i => mk_date low d i n tz)); auto.
  - intro i. cbn [next]. unfold date_next. cbn [da_index da_len da_low da_data da_tz].
    destruct (i =? n)%nat; [reflexivity|]. destruct (low_index low i); try reflexivity. cbn [rbind].
    destruct (naive_item _ _); reflexivity.
  - intros i Hi. destruct (A T i Hi) as (j & v & J & V & S).
    destruct (time_item_there (fun _ _ => XBytes []) c tz d j v i V (Ti _ _ V) Hd S) as (sec & nan & Iv & _ & X).
    exists j, (XTime sec nan []). split; [exact J|]. split; [intros; apply X|].
    intros v' Hv. rewrite V in Hv. inversion Hv; subst. eapply ItNaive. exact Iv.
Qed.

(** * Optional values, arrays and maps *)

Lemma option_runs r c it nulls : runs r c it -> clen c = Ok (length nulls) ->
  Forall (fun b => b = 0%N \/ b = 1%N) nulls ->
  runs (IOption r) (CNullable c nulls) (it, nulls).
Proof.
  intros (ys & st & L & S0 & N & E & _ & I) Ln F.
  rewrite Ln in L. inversion L as [Ly]. clear L.
  replace (it, nulls) with ((fun i => (st i, skipn i nulls)) O) by (simpl; congruence).
  apply (runs_intro (IOption r) (CNullable c nulls) (length nulls) (fun i => (st i, skipn i nulls))).
  - simpl. rewrite Ln. simpl. rewrite Nat.eqb_refl. reflexivity.
  - intros i Hi. destruct (nth_error nulls i) as [b|] eqn:Eb.
    2: { apply nth_error_None in Eb. lia. }
    destruct (nth_error ys i) as [y|] eqn:Ey.
    2: { apply nth_error_None in Ey. lia. }
    exists (XOption (if (b =? 0)%N then Some y else None)). split; [|split].
    + cbn [next]. cbn [fst snd]. rewrite (skipn_nth _ _ _ Eb). rewrite (N _ _ Ey). reflexivity.
    + exact Logic.I.
    + intros v Hv. cbn [at_] in Hv. unfold index in Hv. rewrite Eb in Hv. cbn [or_panic rbind] in Hv.
      rewrite Forall_forall in F. destruct (F b (nth_error_In _ _ Eb)) as [-> | ->].
      * cbn in Hv. inv_do Hv. inversion Hv; subst. cbn. apply ItSome. apply (I i); assumption.
      * cbn in Hv. inversion Hv; subst. cbn. apply ItNone.
  - cbn [next]. cbn [snd]. rewrite skipn_all. reflexivity.
Qed.

(** Where row [k] starts. *)
Definition row_start (offs : list N) (k : nat) : nat :=
  match k with O => O | S j => N.to_nat (List.nth j offs 0%N) end.

Lemma climbs_step l : forall a j x y, climbs a l -> nth_error (a :: l) j = Some x -> nth_error l j = Some y -> (x <= y)%N.
Proof.
  induction l as [|b l IH]; intros a j x y C X Y; [destruct j; discriminate|].
  destruct C as [C1 C2]. destruct j as [|j].
  - simpl in X, Y. inversion X; inversion Y; subst; assumption.
  - simpl in X, Y. apply (IH b j); auto.
Qed.

Lemma row_bounds_starts offs k : climbs 0 offs -> (k < length offs)%nat ->
  row_bounds offs k = Ok (row_start offs k, row_start offs (S k)) /\
  (row_start offs k <= row_start offs (S k) <= N.to_nat (last offs 0%N))%nat.
Proof.
  intros C K. destruct (nth_error offs k) as [e|] eqn:E.
  2: { apply nth_error_None in E. lia. }
  assert (Ne : List.nth k offs 0%N = e) by (apply nth_error_nth; exact E).
  assert (exists s, match k with O => Ok 0%N | S j => index offs j end = Ok s /\
                    N.to_nat s = row_start offs k /\ (s <= e)%N) as (s & Hs & Rs & Le).
  { destruct k as [|j].
    - exists 0%N. simpl. split; [reflexivity|]. split; [reflexivity|lia].
    - destruct (nth_error offs j) as [s|] eqn:Es.
      2: { apply nth_error_None in Es. lia. }
      exists s. unfold index. rewrite Es. split; [reflexivity|]. split.
      + simpl. f_equal. symmetry. apply nth_error_nth. exact Es.
      + apply (climbs_step offs 0%N (S j) s e C); auto. }
  pose proof (climbs_nth offs 0%N k e C E) as Lst.
  split.
  - unfold row_bounds. rewrite Hs. cbn [rbind]. unfold index. rewrite E. cbn [or_panic rbind].
    destruct (N.ltb_spec e s); [lia|]. rewrite Rs. cbn [row_start]. rewrite Ne. reflexivity.
  - cbn [row_start]. rewrite Ne. rewrite <- Rs. lia.
Qed.

Lemma take_runs {S} (step : S -> res (option rval * S)) (st : nat -> S) xs :
  (forall i x, nth_error xs i = Some x -> step (st i) = Ok (Some x, st (Datatypes.S i))) ->
  forall n a, (a + n <= length xs)%nat ->
    take step n (st a) = Ok (firstn n (skipn a xs), st (a + n)%nat).
Proof.
  intros H. induction n as [|n IH]; intros a L.
  - simpl. replace (a + 0)%nat with a by lia. reflexivity.
  - destruct (nth_error xs a) as [x|] eqn:E.
    2: { apply nth_error_None in E. lia. }
    cbn [take]. rewrite (H _ _ E). cbn [rbind fst snd]. rewrite IH by lia. cbn [rbind fst snd].
    rewrite (skipn_nth _ _ _ E). cbn [firstn]. replace (Datatypes.S a + n)%nat with (a + Datatypes.S n)%nat by lia.
    reflexivity.
Qed.

Lemma rows_items r c ys : (forall i v x, at_ c i = Ok v -> nth_error ys i = Some x -> item r v x) ->
  forall n a vs, (a + n <= length ys)%nat -> mapM (at_ c) (seq a n) = Ok vs ->
    Forall2 (item r) vs (firstn n (skipn a ys)).
Proof.
  intro I. induction n as [|n IH]; intros a vs L H.
  - simpl in H. inversion H; subst. constructor.
  - destruct (nth_error ys a) as [y|] eqn:E.
    2: { apply nth_error_None in E. lia. }
    rewrite (skipn_nth _ _ _ E). cbn [seq mapM firstn] in H |- *. inv_do H. inv_do H. inversion H; subst.
    constructor; [apply (I a); assumption|]. apply IH; [lia|assumption].
Qed.

Lemma vec_runs r c it offs : runs r c it -> clen c = Ok (N.to_nat (last offs 0%N)) -> climbs 0 offs ->
  runs (IVec r) (CArray c offs) (it, mk_rows offs 0 (length offs)).
Proof.
  intros (ys & st & L & S0 & N & _ & _ & I) Lc C.
  rewrite Lc in L. inversion L as [Ly]. clear L.
  set (stv := fun i => (st (row_start offs i), mk_rows offs i (length offs))).
  replace (it, mk_rows offs 0 (length offs)) with (stv O) by (unfold stv; simpl; congruence).
  apply (runs_intro (IVec r) (CArray c offs) (length offs) stv eq_refl).
  - intros i Hi. destruct (row_bounds_starts offs i C Hi) as [Rb Le].
    set (a := row_start offs i) in *. set (b := row_start offs (S i)) in *.
    exists (XVec (firstn (b - a) (skipn a ys))). split; [|split].
    + unfold stv. cbn [next]. cbn [fst snd ro_index ro_size ro_offs].
      destruct (Nat.eqb_spec i (length offs)); [lia|]. rewrite Rb. cbn [rbind fst snd].
      rewrite (take_runs (next offset r) st ys N) by (fold a; lia). cbn [rbind fst snd].
      fold a b. replace (a + (b - a))%nat with b by lia. reflexivity.
    + exact Logic.I.
    + intros v Hv. cbn [at_] in Hv. rewrite Rb in Hv. cbn [rbind fst snd] in Hv. fold a b in Hv.
      inv_do Hv. inversion Hv; subst. apply ItVec. apply (rows_items r c ys I); [lia|assumption].
  - unfold stv. cbn [next]. cbn [fst snd ro_index ro_size]. rewrite Nat.eqb_refl. reflexivity.
Qed.

(** Keys of maps: numbers and byte strings. *)
Definition keyed (r : itype) : Prop := match r with INum _ | IBytes => True | _ => False end.

Lemma keyed_eq r a b : keyed r -> shape r a -> shape r b -> exists e, key_eq a b = Ok e.
Proof.
  destruct r; try contradiction; intros _ [x ->] [y ->]; cbn; eauto.
Qed.

Lemma keyed_same r k k' x x' : keyed r -> shape r x -> shape r x' -> map_key k = true -> map_key k' = true ->
  item r k x -> item r k' x' -> key_eq x x' = vref_eq k k'.
Proof.
  intros R Sx Sx' K K' H H'. rewrite same_key_eq by assumption.
  destruct r; try contradiction; inversion H; subst; inversion H'; subst;
    destruct Sx as [? ->]; destruct Sx' as [? ->];
    repeat match goal with P : is_value _ _ |- _ => inversion P; subst; clear P end; reflexivity.
Qed.

Definition entries (rk rv : itype) := Forall2 (fun (a : value * value) (b : rval * rval) =>
  item rk (fst a) (fst b) /\ item rv (snd a) (snd b)).

Lemma put_shape rk x y : keyed rk -> shape rk x -> forall m, Forall (fun p => shape rk (fst p)) m ->
  exists m', xmap_put m x y = Ok m' /\ Forall (fun p => shape rk (fst p)) m'.
Proof.
  intros R Sx. induction m as [|[k v] m IH]; intros F.
  - exists [(x, y)]. split; [reflexivity|]. constructor; [exact Sx|constructor].
  - inversion F; subst. cbn [fst] in *. destruct (keyed_eq rk k x R H1 Sx) as (e & E).
    cbn [xmap_put]. rewrite E. cbn [rbind]. destruct e.
    + eexists. split; [reflexivity|]. constructor; assumption.
    + destruct (IH H2) as (m' & P & Q). rewrite P. eexists. split; [reflexivity|]. constructor; assumption.
Qed.

Lemma put_same rk rv k v x y : keyed rk -> shape rk x -> map_key k = true -> item rk k x -> item rv v y ->
  forall kvs m, entries rk rv kvs m -> Forall (fun p => shape rk (fst p)) m ->
    Forall (fun p => map_key (fst p) = true) kvs ->
    forall kvs' m', vref_put kvs k v = Ok kvs' -> xmap_put m x y = Ok m' ->
      entries rk rv kvs' m' /\ Forall (fun p => map_key (fst p) = true) kvs'.
Proof.
  intros R Sx K Ik Iv. induction 1 as [|[k0 v0] [x0 y0] kvs m [H1 H2] H IH]; intros F G kvs' m' E E'.
  - simpl in E, E'. inversion E; inversion E'; subst. split; [constructor; [split; assumption|constructor]|constructor; [assumption|constructor]].
  - inversion F; inversion G; subst. cbn [fst snd] in *. cbn [vref_put xmap_put] in E, E'.
    rewrite (keyed_same rk k0 k x0 x) in E' by assumption.
    destruct (vref_eq k0 k) as [e| |]; try discriminate E. cbn [rbind] in E, E'. destruct e.
    + inversion E; inversion E'; subst. split; constructor; auto. 
    + inv_do E. inv_do E'. inversion E; inversion E'; subst.
      destruct (IH H5 H9 _ _ E0 E1) as [P Q]. split; constructor; auto.
Qed.

Lemma take_pairs_runs rk rv ck cv (stk : nat -> istate rk) (stv : nat -> istate rv) ks vs :
  keyed rk ->
  (forall i x, nth_error ks i = Some x -> next offset rk (stk i) = Ok (Some x, stk (S i))) ->
  (forall i x, nth_error vs i = Some x -> next offset rv (stv i) = Ok (Some x, stv (S i))) ->
  (forall i x, nth_error ks i = Some x -> shape rk x) ->
  (forall i v x, at_ ck i = Ok v -> nth_error ks i = Some x -> item rk v x) ->
  (forall i v x, at_ cv i = Ok v -> nth_error vs i = Some x -> item rv v x) ->
  length ks = length vs ->
  forall n a m, (a + n <= length ks)%nat -> Forall (fun p => shape rk (fst p)) m ->
    exists m', take_pairs (next offset rk) (next offset rv) n (stk a) (stv a) m
               = Ok (m', (stk (a + n)%nat, stv (a + n)%nat)) /\
      forall kvs kvs', entries rk rv kvs m -> Forall (fun p => map_key (fst p) = true) kvs ->
        map_loop (at_ ck) (at_ cv) (seq a n) kvs = Ok kvs' -> entries rk rv kvs' m'.
Proof.
  intros R Nk Nv Sk Ik Iv Ll. induction n as [|n IH]; intros a m L F.
  - exists m. replace (a + 0)%nat with a by lia. split; [reflexivity|].
    intros kvs kvs' H _ E. simpl in E. inversion E; subst. exact H.
  - destruct (nth_error ks a) as [x|] eqn:Ex.
    2: { apply nth_error_None in Ex. lia. }
    destruct (nth_error vs a) as [y|] eqn:Ey.
    2: { apply nth_error_None in Ey. lia. }
    destruct (put_shape rk x y R (Sk _ _ Ex) m F) as (m1 & P & F1).
    destruct (IH (S a) m1 ltac:(lia) F1) as (m' & T & Q).
    exists m'. split.
    + cbn [take_pairs]. rewrite (Nk _ _ Ex). cbn [rbind fst snd]. rewrite (Nv _ _ Ey). cbn [rbind fst snd].
      rewrite P. cbn [rbind]. rewrite T. replace (S a + n)%nat with (a + S n)%nat by lia. reflexivity.
    + intros kvs kvs' H G E. cbn [seq map_loop] in E. inv_do E. inv_do E. inv_do E.
      unfold vref_insert in E2. destruct (value_ref_hashable x0) eqn:Hh; [|discriminate E2].
      destruct (put_same rk rv x0 x1 x y R (Sk _ _ Ex) (hashable_map_key _ Hh) (Ik _ _ _ E0 Ex) (Iv _ _ _ E1 Ey)
                  kvs m H F G _ _ E2 P) as [H' G'].
      apply (Q x2 kvs' H' G' E).
Qed.

Lemma map_runs rk rv ck cv ki vi offs : keyed rk -> runs rk ck ki -> runs rv cv vi ->
  clen ck = Ok (N.to_nat (last offs 0%N)) -> clen cv = Ok (N.to_nat (last offs 0%N)) -> climbs 0 offs ->
  runs (IMap rk rv) (CMap ck cv offs) (ki, vi, mk_rows offs 0 (length offs)).
Proof.
  intros R (ks & stk & Lk & Sk & Nk & _ & Hk & Ik) (vs & stv & Lv & Sv & Nv & _ & _ & Iv) Ck Cv C.
  rewrite Ck in Lk. inversion Lk as [Lks]. rewrite Cv in Lv. inversion Lv as [Lvs]. clear Lk Lv.
  set (stm := fun i => (stk (row_start offs i), stv (row_start offs i), mk_rows offs i (length offs))).
  replace (ki, vi, mk_rows offs 0 (length offs)) with (stm O) by (unfold stm; simpl; congruence).
  apply (runs_intro (IMap rk rv) (CMap ck cv offs) (length offs) stm eq_refl).
  - intros i Hi. destruct (row_bounds_starts offs i C Hi) as [Rb Le].
    set (a := row_start offs i) in *. set (b := row_start offs (S i)) in *.
    destruct (take_pairs_runs rk rv ck cv stk stv ks vs R Nk Nv Hk Ik Iv ltac:(lia) (b - a) a []
                ltac:(lia) (Forall_nil _)) as (m' & T & Q).
    exists (XMap m'). split; [|split].
    + unfold stm. cbn [next]. cbn [fst snd ro_index ro_size ro_offs].
      destruct (Nat.eqb_spec i (length offs)); [lia|]. rewrite Rb. cbn [rbind fst snd].
      fold a b. rewrite T. cbn [rbind fst snd]. replace (a + (b - a))%nat with b by lia. reflexivity.
    + exact Logic.I.
    + intros v Hv. rewrite at_map in Hv. rewrite Rb in Hv. cbn [rbind fst snd] in Hv. fold a b in Hv.
      inv_do Hv. inversion Hv; subst. apply ItMap. apply (Q [] _ (Forall2_nil _) (Forall_nil _) E).
  - unfold stm. cbn [next]. cbn [fst snd ro_index ro_size]. rewrite Nat.eqb_refl. reflexivity.
Qed.

(** * From the whole column down to a part of it *)

Lemma key_props m : N.lor 1 (N.shiftl (N.of_nat m) 1) = (1 + 2 * N.of_nat m)%N.
Proof.
  rewrite N.shiftl_mul_pow2. change (2 ^ 1)%N with 2%N.
  set (n := N.of_nat m). clearbody n. destruct n; [reflexivity|].
  replace (N.pos p * 2)%N with (N.pos p~0) by lia. reflexivity.
Qed.

Lemma value_props m : N.lor 1 (N.shiftl (N.shiftr (1 + 2 * N.of_nat (S m)) 1 - 1) 1) = (1 + 2 * N.of_nat m)%N.
Proof.
  replace (N.shiftr (1 + 2 * N.of_nat (S m)) 1 - 1)%N with (N.of_nat m); [apply key_props|].
  rewrite N.shiftr_div_pow2. change (2 ^ 1)%N with 2%N.
  replace (1 + 2 * N.of_nat (S m))%N with (1 + N.of_nat (S m) * 2)%N by lia.
  rewrite N.div_add by discriminate. change (1 / 2)%N with 0%N. lia.
Qed.

(** [part C c j]: the pointers to the part [c] of the column [C] are found from [C], below [j] maps. *)
Record part (C c : col) (j : nat) : Prop := {
  pt_values : forall slots lvl, (lvl <= level (ctype c))%nat ->
    get_internal C slots lvl 0 = get_internal c slots lvl 0;
  pt_keys : forall slots m,
    get_internal C slots 0 (1 + 2 * N.of_nat (j + m)) = get_internal c slots 0 (1 + 2 * N.of_nat m);
  pt_maps : mapless (ctype c) \/
            (chain (ctype c) /\ map_level (ctype C) = j + level (ctype c))%nat \/
            (C = c /\ j = O /\ regular (ctype c))
}.

Lemma part_self c : regular (ctype c) -> part c c 0.
Proof. intro R. constructor; auto. Qed.

Lemma below {C c i j} : part C c j -> level (ctype c) = S (level (ctype i)) ->
  (forall slots lvl p, (lvl <= level (ctype i))%nat -> get_internal c slots lvl p = get_internal i slots lvl p) ->
  (mapless (ctype c) -> mapless (ctype i)) ->
  (chain (ctype c) -> mapless (ctype i)) ->
  (C = c -> regular (ctype c) -> chain (ctype i) /\ map_level (ctype c) = level (ctype i)) ->
  part C i j.
Proof.
  intros [Pv Pk Pm] L G M1 M2 M3. constructor.
  - intros slots lvl H. rewrite Pv by lia. apply G. exact H.
  - intros slots m. rewrite Pk. apply G. lia.
  - destruct Pm as [M|[(Ch & E)|(E & J & Rg)]]; auto.
    right. left. subst. destruct (M3 eq_refl Rg) as [X Y]. split; [exact X|]. rewrite Y. reflexivity.
Qed.

Lemma part_null C i nulls j : part C (CNullable i nulls) j -> part C i j.
Proof.
  intro P. apply (below P); auto.
  - intros slots lvl p H. cbn [get_internal]. cbn [ctype level].
    destruct (Nat.eqb_spec lvl (1 + level (ctype i))); [lia|reflexivity].
Qed.
Lemma part_array C i offs j : part C (CArray i offs) j -> part C i j.
Proof.
  intro P. apply (below P); auto.
  - intros slots lvl p H. cbn [get_internal]. cbn [ctype level].
    destruct (Nat.eqb_spec lvl (1 + level (ctype i))); [lia|reflexivity].
Qed.
Lemma part_value C k v offs j : part C (CMap k v offs) j -> part C v (S j).
Proof.
  intros [Pv Pk Pm]. constructor.
  - intros slots lvl H. rewrite Pv by (cbn [ctype level]; lia). cbn [get_internal]. cbn [ctype level].
    cbn [N.eqb]. destruct (Nat.eqb_spec lvl (1 + level (ctype v))); [lia|reflexivity].
  - intros slots m. replace (S j + m)%nat with (j + S m)%nat by lia. rewrite Pk. cbn [get_internal].
    destruct (N.eqb_spec (1 + 2 * N.of_nat (S m)) 1); [lia|]. cbn [ctype level Nat.eqb Nat.add].
    destruct (N.eqb_spec (1 + 2 * N.of_nat (S m)) 0); [lia|]. rewrite value_props. reflexivity.
  - cbn [ctype] in Pm. destruct Pm as [M|[(Ch & E)|(E & J & Rg)]].
    + contradiction.
    + right. left. destruct Ch as [_ Ch]. split; [exact Ch|]. rewrite E. cbn [level]. lia.
    + right. left. subst. destruct Rg as [_ Ch]. split; [exact Ch|]. reflexivity.
Qed.

(** The keys of a map. *)
Lemma part_key C k v offs j : part C (CMap k v offs) j ->
  (map_level (ctype C) <? map_level (TMap (ctype k) (ctype v)) = false)%nat /\ plain_key (ctype k) /\
  forall slots, get_internal C slots 0
      (N.lor 1 (N.shiftl (N.of_nat (map_level (ctype C) - map_level (TMap (ctype k) (ctype v)))) 1))
    = get_internal k slots 0 0.
Proof.
  intros [Pv Pk Pm]. cbn [ctype] in Pm.
  assert (plain_key (ctype k) /\ map_level (ctype C) = j + S (level (ctype v)))%nat as [K E].
  { destruct Pm as [M|[(Ch & E)|(E & J & Rg)]].
    - contradiction.
    - destruct Ch as [K _]. split; [exact K|]. rewrite E. reflexivity.
    - subst. destruct Rg as [K _]. split; [exact K|]. reflexivity. }
  cbn [map_level]. rewrite E. split; [|split; [exact K|]].
  - destruct (Nat.ltb_spec (j + S (level (ctype v))) (1 + level (ctype v))); [lia|reflexivity].
  - intro slots. replace (j + S (level (ctype v)) - (1 + level (ctype v)))%nat with j by lia.
    rewrite key_props. specialize (Pk slots O). replace (j + 0)%nat with j in Pk by lia. rewrite Pk.
    reflexivity.
Qed.

(** Dates, times and dictionaries can be had from a whole column only. *)
Definition whole (r : itype) (C c : col) : Prop :=
  (C = c /\ clocks offset r c) \/ (get_low C = Err EUnsupported /\ get_dates C = Err EUnsupported).

Lemma whole_below r r' C c i : whole r C c ->
  get_low c = Err EUnsupported -> get_dates c = Err EUnsupported -> whole r' C i.
Proof. intros [(-> & _)|W] L D; right; auto. Qed.

Lemma leaf_num C c s p it : (forall slots, get_internal C slots 0 p = get_internal c slots 0 0) ->
  number s (ctype c) -> iter_with_props (INum s) C (ctype c) p = Ok it -> runs (INum s) c it.
Proof.
  intros G Hn H. cbn [iter_with_props] in H. rewrite (proj2 (number_check s (ctype c)) Hn) in H.
  rewrite G in H. inv_do H. destruct (num_access s c x Hn E) as (zs & -> & L & A).
  destruct (scalar_eq_dec s s); [|congruence]. inversion H; subst it. apply num_runs; assumption.
Qed.

Lemma leaf_text C c p it : (forall slots, get_internal C slots 0 p = get_internal c slots 0 0) ->
  ctype c = TString -> iter_with_props IBytes C (ctype c) p = Ok it -> runs IBytes c it.
Proof.
  intros G Hn H. rewrite Hn in H. cbn [iter_with_props] in H.
  rewrite G in H. inv_do H. destruct (text_access c x Hn E) as (l & -> & ->).
  inversion H; subst it. apply pool_runs.
Qed.

Lemma leaf_key C c r p it : (forall slots, get_internal C slots 0 p = get_internal c slots 0 0) ->
  plain_key (ctype c) -> walks r (ctype c) -> iter_with_props r C (ctype c) p = Ok it ->
  keyed r /\ runs r c it.
Proof.
  intros G K W H. destruct K as [K|[s K]].
  - rewrite K in W. inversion W; subst.
    + match goal with P : number _ _ |- _ => inversion P end.
    + split; [exact I|]. apply (leaf_text C c p it G K H).
  - rewrite K in W. inversion W; subst.
    + split; [exact I|]. rewrite <- K in *. apply (leaf_num C c s0 p it G); assumption.
    + match goal with P : texty _ |- _ => destruct P as [P|[n P]]; discriminate P end.
Qed.

Lemma addr_iter C c k it : (forall slots, get_internal C slots 0 0 = get_internal c slots 0 0) ->
  tidy c -> ctype c = ip_type k ->
  iter_with_props (addr_type k) C (ctype c) 0 = Ok it -> runs (addr_type k) c it.
Proof.
  intros G T Hk H.
  assert (exists w, get_internal C 1 0 0 = Ok w /\ match w with WVec buf => Ok (addr_state k buf) | _ => Panic PUndefined end = Ok it)
    as (w & W & E).
  { destruct k; cbn [iter_with_props addr_type addr_state] in H |- *; inv_do H; exists x; split; auto. }
  rewrite G in W. destruct (addr_access c k w Hk W) as (buf & -> & ->). inversion E; subst it.
  apply addr_runs. exact T.
Qed.

Theorem iter_runs : forall r C c j it, part C c j -> whole r C c -> tidy c -> walks r (ctype c) ->
  iter_with_props r C (ctype c) 0 = Ok it -> runs r c it.
Proof.
  induction r; intros C c j it P W T Wk H;
    assert (G : forall slots, get_internal C slots 0 0 = get_internal c slots 0 0)
      by (intro slots; apply (pt_values _ _ _ P); lia).
  - (* INum *) inversion Wk; subst. apply (leaf_num C c s 0 it G); assumption.
  - (* IBytes *)
    inversion Wk; subst;
      match goal with T' : texty _ |- _ => rename T' into Q end;
      try match goal with Q : _ = ctype c |- _ => rename Q into Eq end.
    + destruct Q as [Q|[n Q]].
      * apply (leaf_text C c 0 it G); assumption.
      * rewrite Q in H. cbn [iter_with_props] in H. rewrite G in H. inv_do H.
        assert (n <> 0%N).
        { destruct c; cbn [ctype] in Q; try discriminate Q; cbn [get_internal] in E; try discriminate E.
          - inversion Q; subst. apply (proj1 T).
          - destruct k; discriminate Q. }
        destruct (fixed_access c n x Q E) as (buf & -> & ->); [assumption|].
        inversion H; subst it. apply fixed_runs; apply T.
    + rewrite <- Eq in H. cbn [iter_with_props] in H.
      destruct W as [(-> & _)|(W & _)].
      * assert (exists low, get_low c = Ok low /\ it = mk_text (TDict (fst low) (snd low)) 0 (length (fst low))) as (low & Lw & ->).
        { destruct Q as [->|[n ->]]; inv_do H; exists x; split; auto; inversion H; auto. }
        destruct c; cbn [get_low] in Lw; try discriminate Lw.
        destruct (has_accessor c) eqn:Ha; [|discriminate Lw]. inversion Lw; subst low. cbn [fst snd].
        apply dict_runs; auto. cbn [ctype] in Eq. inversion Eq; subst. assumption.
      * exfalso. destruct Q as [->|[n ->]]; rewrite W in H; discriminate H.
  - (* IDecimal *)
    inversion Wk; subst. match goal with Q : TDecimal ?a ?b = ctype c |- _ => rename Q into Eq; rename a into p; rename b into s end. symmetry in Eq. rewrite Eq in H.
    cbn [iter_with_props] in H. rewrite G in H. inv_do H.
    destruct (decimal_access c p s x Eq E) as (l & nb & -> & ->). inversion H; subst it. apply decimal_runs.
  - (* IDateTime *)
    cbn [iter_with_props] in H. destruct W as [(-> & Cl)|(W1 & W2)].
    + apply datetime_runs; assumption.
    + exfalso. unfold start_dates in H. destruct (ctype c); cbn [is_datetime] in H; try discriminate H.
      * rewrite W2 in H. discriminate H.
      * destruct (is_datetime _); [|discriminate H]. rewrite W1 in H. discriminate H.
  - (* INaive *)
    cbn [iter_with_props] in H. destruct W as [(-> & Cl)|(W1 & W2)].
    + apply naive_runs; assumption.
    + exfalso. unfold start_dates in H. destruct (ctype c); cbn [is_datetime] in H; try discriminate H.
      * rewrite W2 in H. discriminate H.
      * destruct (is_datetime _); [|discriminate H]. rewrite W1 in H. discriminate H.
  - (* IDate *)
    cbn [iter_with_props] in H. destruct W as [(-> & Cl)|(W1 & W2)].
    + apply date_runs; assumption.
    + exfalso. unfold start_dates in H. destruct (ctype c); cbn [is_date] in H; try discriminate H.
      * rewrite W2 in H. discriminate H.
      * destruct (is_date _); [|discriminate H]. rewrite W1 in H. discriminate H.
  - (* IIpv4 *) apply (addr_iter C c IpV4 it G T); [inversion Wk; reflexivity|exact H].
  - (* IIpv6 *) apply (addr_iter C c IpV6 it G T); [inversion Wk; reflexivity|exact H].
  - (* IUuid *) apply (addr_iter C c IpUuid it G T); [inversion Wk; reflexivity|exact H].
  - (* IOption *)
    inversion Wk; subst. match goal with Q : _ = ctype c |- _ => rename Q into Eq end. rewrite <- Eq in H. cbn [iter_with_props] in H.
    inv_do H. inv_do H. rewrite Eq in E0. rewrite (pt_values _ _ _ P) in E0 by lia.
    destruct x0; try discriminate H. inversion H; subst it. clear H.
    assert (exists i, c = CNullable i nulls) as (i & ->).
    { destruct c; cbn [ctype] in Eq; try discriminate Eq; cbn [get_internal] in E0; try discriminate E0.
      - destruct k; discriminate Eq.
      - rewrite Nat.eqb_refl in E0. cbn [Nat.ltb Nat.leb] in E0. inv_do E0. inversion E0; subst. eauto.
      - destruct (level _ =? 255)%nat; discriminate E0. }
    cbn [ctype] in Eq. inversion Eq; subst. match goal with X : walks r _ |- _ => rename X into Wi end. destruct T as (Ti & Ln & F).
    apply option_runs; auto.
    apply (IHr C i j x (part_null _ _ _ _ P) (whole_below _ r _ _ _ W eq_refl eq_refl) Ti Wi E).
  - (* IVec *)
    inversion Wk; subst. match goal with Q : _ = ctype c |- _ => rename Q into Eq end. rewrite <- Eq in H. cbn [iter_with_props] in H.
    inv_do H. inv_do H. rewrite Eq in E0. rewrite (pt_values _ _ _ P) in E0 by lia.
    destruct x0; try discriminate H. inversion H; subst it. clear H.
    assert (exists i, c = CArray i offs) as (i & ->).
    { destruct c; cbn [ctype] in Eq; try discriminate Eq; cbn [get_internal] in E0; try discriminate E0.
      - destruct k; discriminate Eq.
      - rewrite Nat.eqb_refl in E0. inversion E0; subst. eauto.
      - destruct (level _ =? 255)%nat; discriminate E0. }
    cbn [ctype] in Eq. inversion Eq; subst. match goal with X : walks r _ |- _ => rename X into Wi end. destruct T as (Ti & Ln & F).
    apply vec_runs; auto.
    apply (IHr C i j x (part_array _ _ _ _ P) (whole_below _ r _ _ _ W eq_refl eq_refl) Ti Wi E).
  - (* IMap *)
    inversion Wk; subst. match goal with Q : _ = ctype c |- _ => rename Q into Eq end. rewrite <- Eq in H. cbn [iter_with_props] in H.
    assert (Hc : (exists k v offs, c = CMap k v offs) \/
                 forall slots lvl p w, get_internal c slots lvl p = Ok w -> w = WPieces [] \/ exists x l, w = WPieces (x :: l)).
    { destruct c; cbn [ctype] in Eq; try discriminate Eq; try (right; cbn [get_internal]; discriminate).
      - destruct k; discriminate Eq.
      - left. eauto.
      - right. intros slots lvl p w. cbn [get_internal]. destruct (lvl =? 255)%nat; [|discriminate].
        intro X. inversion X. right. eauto. }
    destruct Hc as [(k & v & offs & ->)|Hc].
    + destruct (part_key _ _ _ _ _ P) as (Lt & Kp & Gk). cbn [ctype] in Eq. inversion Eq; subst. clear Eq.
      match goal with X : walks r1 _ |- _ => rename X into Wa end. match goal with X : walks r2 _ |- _ => rename X into Wb end.
      rewrite Lt in H. inv_do H. inv_do H. inv_do H.
      change (TMap (ctype k) (ctype v)) with (ctype (CMap k v offs)) in E1.
      rewrite (pt_values _ _ _ P) in E1 by lia. cbn [get_internal N.eqb] in E1. rewrite Nat.eqb_refl in E1.
      inversion E1; subst x1. inversion H; subst it. clear H E1.
      destruct T as (Tk & Tv & Lk & Lv & Cl).
      destruct (leaf_key C k r1 _ x Gk Kp Wa E) as [K R].
      apply map_runs; auto.
      apply (IHr2 C v (S j) x0 (part_value _ _ _ _ _ P) (whole_below _ r2 _ _ _ W eq_refl eq_refl) Tv Wb E0).
    + exfalso. destruct (_ <? _)%nat; [discriminate H|]. inv_do H. inv_do H. inv_do H.
      rewrite Eq in E1. rewrite (pt_values _ _ _ P) in E1 by lia.
      destruct (Hc _ _ _ _ E1) as [->|(y & l & ->)]; discriminate H.
Qed.

End Zones.
