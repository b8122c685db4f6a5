(** Appending to columns: lemmas behind PropColumns.v. *)
From Verif Require Import Base Bytes Types Decimal DateTime Values TypeNames Columns SpecColumns.
From Verif Require Import DecimalProofs WireProofs.
Open Scope nat_scope.

(** The most rows any low-cardinality column inside [c] has. *)
Fixpoint low_rows (c : col) : N :=
  match c with
  | CNullable i _ | CArray i _ | CAgg _ i => low_rows i
  | CMap k v _ => N.max (low_rows k) (low_rows v)
  | CLow i _ idx _ => N.max (low_rows i) (lenN idx)
  | _ => 0%N
  end.

(** [s] and [c] are built alike. *)
Fixpoint similar (s c : col) {struct c} : Prop :=
  match c with
  | CNullable i _ => match s with CNullable si _ => similar si i | _ => False end
  | CArray i _ => match s with CArray si _ => similar si i | _ => False end
  | CMap k v _ => match s with CMap sk sv _ => similar sk k /\ similar sv v | _ => False end
  | CAgg _ i => match s with CAgg _ si => similar si i | _ => False end
  | CLow i _ _ _ => match s with CLow si _ _ _ => similar si i | _ => False end
  | _ => True
  end.

(** The dictionary's lookup table: every key is at its place. *)
Definition table_ok (inner : col) (n : nat) (m : list (value * N)) : Prop :=
  Forall (fun kj => low_key inner (fst kj) = true /\ N.to_nat (snd kj) < n /\
                    exists w, reads_as inner (fst kj) = Some w /\ at_ inner (N.to_nat (snd kj)) = Ok w) m.

(** Columns that appending works on. *)
Fixpoint wf (c : col) : Prop :=
  match c with
  | CVec _ _ | CString _ | CDate _ _ | CDateTime _ _ | CDateTime64 _ _ _ | CChrono _ _
  | CDecimal _ _ _ _ | CEnum8 _ _ | CEnum16 _ _ => True
  | CFixed n buf => n <> 0%N /\ Nat.modulo (length buf) (N.to_nat n) = 0
  | CIp k buf => Nat.modulo (length buf) (ip_size k) = 0
  | CNullable i nulls => wf i /\ clen i = Ok (length nulls)
  | CArray i offs => wf i /\ clen i = Ok (N.to_nat (last offs 0%N)) /\ climbs 0 offs
  | CMap k v offs =>
      wf k /\ wf v /\ clen k = Ok (N.to_nat (last offs 0%N)) /\ clen v = Ok (N.to_nat (last offs 0%N)) /\
      climbs 0 offs
  | CAgg _ i => wf i
  | CLow i ix idx vmap =>
      wf i /\ exists n, clen i = Ok n /\ Forall (fun j => N.to_nat j < n) idx /\
        (N.of_nat n <= lenN idx + 1)%N /\ (N.of_nat n <= ix_max ix + 1)%N /\
        match vmap with
        | Some m => table_ok i n m
        | None => Forall (fun j => exists w, at_ i (N.to_nat j) = Ok w /\ low_key i w = true /\
                                             reads_as i w = Some w) idx
        end
  | _ => False
  end.

Record step (c : col) (k : N) (ws : list value) (c' : col) : Prop := {
  st_sim : forall s, similar s c -> similar s c';
  st_type : ctype c' = ctype c;
  st_reads : forall x, reads_as c' x = reads_as c x;
  st_low : forall x, low_key c' x = low_key c x;
  st_wf : wf c';
  st_n : exists n, clen c = Ok n /\ clen c' = Ok (n + length ws) /\
         (forall i, i < n -> at_ c' i = at_ c i) /\
         (forall j w, nth_error ws j = Some w -> at_ c' (n + j) = Ok w);
  st_rows : (low_rows c' <= low_rows c + k)%N
}.

Lemma wf_clen c : wf c -> exists n, clen c = Ok n.
Proof.
  induction c; cbn [wf clen]; intros H; try contradiction; try (eexists; reflexivity).
  - destruct H as [H _]. destruct (N.eqb_spec n 0); [contradiction|]. eexists; reflexivity.
  - destruct H as [_ ->]. cbn. rewrite Nat.eqb_refl. eexists; reflexivity.
  - apply IHc, H.
Qed.

Lemma step_refl c : wf c -> step c 0 [] c.
Proof.
  intros H. destruct (wf_clen c H) as [n Hn]. constructor; auto; [|lia].
  exists n. cbn. rewrite Nat.add_0_r. repeat split; auto. intros [|j] w; discriminate.
Qed.

Lemma step_trans a k ws b k' ws' c : step a k ws b -> step b k' ws' c -> step a (k + k') (ws ++ ws') c.
Proof.
  intros [A1 A2 A3 A7 A4 A5 A6] [B1 B2 B3 B7 B4 B5 B6].
  destruct A5 as (n & N1 & N2 & N3 & N4). destruct B5 as (m & M1 & M2 & M3 & M4).
  rewrite N2 in M1. injection M1 as <-.
  constructor; auto; try congruence.
  - exists n. rewrite app_length. split; [exact N1|]. split; [rewrite M2; f_equal; lia|]. split.
    + intros i Hi. rewrite M3 by lia. apply N3, Hi.
    + intros j w Hj. destruct (Nat.lt_ge_cases j (length ws)) as [L|L].
      * rewrite nth_error_app1 in Hj by exact L. rewrite M3 by lia. apply N4, Hj.
      * rewrite nth_error_app2 in Hj by exact L.
        replace (n + j) with (n + length ws + (j - length ws)) by lia. apply M4, Hj.
  - lia.
Qed.

Lemma index_app1 {A} (l k : list A) i : i < length l -> index (l ++ k) i = index l i.
Proof. intros H. unfold index. rewrite nth_error_app1 by exact H. reflexivity. Qed.

Lemma index_snoc {A} (l : list A) x : index (l ++ [x]) (length l) = Ok x.
Proof. unfold index. rewrite nth_error_app2 by lia. rewrite Nat.sub_diag. reflexivity. Qed.

Lemma cut_app1 {A} (l k : list A) a b : b <= length l -> cut (l ++ k) a b = cut l a b.
Proof.
  intros H. unfold cut, slice. rewrite app_length.
  destruct (Nat.leb_spec a b); cbn [andb]; [|reflexivity].
  destruct (Nat.leb_spec b (length l + length k)); [|lia].
  destruct (Nat.leb_spec b (length l)); [|lia]. cbn [or_panic].
  rewrite skipn_app. replace (a - length l) with 0 by lia. rewrite skipn_O.
  rewrite firstn_app, skipn_length. replace (b - a - (length l - a)) with 0 by lia.
  cbn [firstn]. rewrite app_nil_r. reflexivity.
Qed.

Lemma cut_last {A} (l k : list A) : cut (l ++ k) (length l) (length l + length k) = Ok k.
Proof.
  unfold cut, slice. rewrite app_length.
  destruct (Nat.leb_spec (length l) (length l + length k)); [|lia].
  rewrite Nat.leb_refl. cbn [andb or_panic].
  rewrite skipn_app, skipn_all, Nat.sub_diag. cbn [skipn app].
  replace (length l + length k - length l) with (length k) by lia. rewrite firstn_all. reflexivity.
Qed.

(** A step of a column that keeps its cells in a plain list. *)
Lemma step_list {A} (l : list A) (mk : list A -> col) (g : A -> value) x :
  (forall l', wf (mk l')) ->
  (forall l', clen (mk l') = Ok (length l')) ->
  (forall l' i, at_ (mk l') i = do z <- index l' i; Ok (g z)) ->
  (forall s l1 l2, similar s (mk l1) -> similar s (mk l2)) ->
  (forall l1 l2, ctype (mk l1) = ctype (mk l2)) ->
  (forall l1 l2 y, reads_as (mk l1) y = reads_as (mk l2) y) ->
  (forall l1 l2 y, low_key (mk l1) y = low_key (mk l2) y) ->
  (forall l', low_rows (mk l') = 0%N) ->
  step (mk l) 1 [g x] (mk (l ++ [x])).
Proof.
  intros Hwf Hlen Hat Hsim Htype Hreads Hlow Hrows. constructor; auto.
  - intros s. apply Hsim.
  - exists (length l). rewrite !Hlen, app_length. repeat split.
    + intros i Hi. rewrite !Hat, index_app1 by exact Hi. reflexivity.
    + intros [|[|j]] w Hw; try discriminate. injection Hw as <-.
      rewrite Nat.add_0_r, Hat, index_snoc. reflexivity.
  - rewrite !Hrows. lia.
Qed.

Ltac by_list := apply (step_list (A := _)); intros; solve [exact I | reflexivity | auto].

Lemma div_add_r a n : n <> 0 -> a mod n = 0 -> (a + n) / n = a / n + 1.
Proof. intros H _. replace (a + n) with (a + 1 * n) by lia. rewrite Nat.div_add by exact H. reflexivity. Qed.

Lemma mod_add_r a n : n <> 0 -> a mod n = 0 -> (a + n) mod n = 0.
Proof. intros H E. replace (a + n) with (a + 1 * n) by lia. rewrite Nat.mod_add by exact H. exact E. Qed.

(** Rows of [w] bytes in one flat buffer. *)
Lemma flat_rows (buf row : bytes) w n (H0 : w <> 0) (Hm : length buf mod w = 0) (Hr : length row = w) :
  n = length buf / w ->
  length (buf ++ row) / w = n + 1 /\ length (buf ++ row) mod w = 0 /\
  (forall i, i < n -> cut (buf ++ row) (i * w) (i * w + w) = cut buf (i * w) (i * w + w)) /\
  cut (buf ++ row) (n * w) (n * w + w) = Ok row.
Proof.
  intros ->. rewrite app_length, Hr.
  pose proof (Nat.div_mod (length buf) w H0) as E. rewrite Hm in E.
  split; [apply div_add_r; assumption|]. split; [apply mod_add_r; assumption|].
  set (n := length buf / w) in *.
  split.
  - intros i Hi. apply cut_app1. nia.
  - assert (n * w = length buf) as -> by lia. rewrite <- Hr. apply cut_last.
Qed.

Lemma firstn_repeat {A} (x : A) k m : firstn k (repeat x m) = repeat x (Nat.min k m).
Proof.
  revert m. induction k as [|k IH]; intros m; [reflexivity|].
  destruct m; cbn; [reflexivity|]. f_equal. apply IH.
Qed.

Lemma pad_length n b : length (pad_or_cut n b) = n.
Proof. unfold pad_or_cut. rewrite firstn_length, app_length, repeat_length. lia. Qed.

Lemma resize_push n buf b :
  resize (length buf + n) (buf ++ firstn (Nat.min (length b) n) b) = buf ++ pad_or_cut n b.
Proof.
  unfold resize, pad_or_cut. rewrite app_length, firstn_length.
  rewrite (firstn_app (length buf + n)), (firstn_all2 (n := length buf + n) buf) by lia.
  replace (length buf + n - length buf) with n by lia.
  rewrite firstn_firstn, <- app_assoc. f_equal.
  rewrite firstn_app, firstn_repeat. f_equal.
  - destruct (Nat.le_ge_cases (length b) n) as [L|L].
    + rewrite !firstn_all2 by lia. reflexivity.
    + f_equal. lia.
  - f_equal. lia.
Qed.

Lemma as_u32_small s : (s < 2 ^ 32)%N -> as_u32 (Z.of_N s) = s.
Proof. intros H. unfold as_u32, to_unsigned. change (2 ^ (8 * Z.of_nat 4))%Z with 4294967296%Z. lia. Qed.

Lemma as_u32_nonneg s : (0 <= s < 2 ^ 32)%Z -> as_u32 s = Z.to_N s.
Proof. intros H. rewrite <- (as_u32_small (Z.to_N s)) by lia. f_equal. lia. Qed.

Lemma step_ip k buf row : length buf mod ip_size k = 0 -> length row = ip_size k ->
  step (CIp k buf) 1 [ip_value k row] (CIp k (buf ++ row)).
Proof.
  intros Hm Hr.
  assert (ip_size k <> 0) as H0 by (destruct k; discriminate).
  destruct (flat_rows buf row (ip_size k) _ H0 Hm Hr eq_refl) as (F1 & F2 & F3 & F4).
  constructor; auto; try reflexivity; [|cbn [low_rows]; lia].
  exists (length buf / ip_size k). cbn [clen length]. split; [reflexivity|].
  split; [rewrite F1; reflexivity|]. cbn [at_]. split.
  - intros i Hi. replace ((i + 1) * ip_size k) with (i * ip_size k + ip_size k) by lia.
    rewrite F3 by exact Hi. reflexivity.
  - intros [|[|j]] w Hw; try discriminate. injection Hw as <-. rewrite Nat.add_0_r.
    match goal with |- context [(?q + 1) * ip_size k] =>
      replace ((q + 1) * ip_size k) with (q * ip_size k + ip_size k) by lia end.
    rewrite F4. reflexivity.
Qed.

Definition leaf (c : col) : bool :=
  match c with
  | CNullable _ _ | CArray _ _ | CMap _ _ _ | CAgg _ _ | CLow _ _ _ _ => false
  | _ => true
  end.

Lemma push_leaf shape c v w : leaf c = true -> wf c -> reads_as c v = Some w ->
  exists c', push_as shape c v = Ok c' /\ step c 1 [w] c'.
Proof.
  intros Hl Hwf Hr.
  assert (forall s, push_as s c v = push_as (CVec U8 []) c v) as E.
  { intros s. destruct c; try discriminate Hl; destruct s; reflexivity. }
  rewrite E. clear E shape.
  destruct c; try discriminate Hl; try contradiction Hwf; cbn [reads_as] in Hr; try discriminate Hr.
  - (* CVec *)
    destruct v; try discriminate Hr. cbn [push_as value_num].
    destruct (scalar_eq_dec s s0); [|discriminate Hr]. injection Hr as <-.
    cbn [rbind]. eexists; split; [reflexivity|]. apply (step_list zs (CVec s) (VNum s)); auto.
  - destruct v; try discriminate Hr. injection Hr as <-. cbn [push_as value_bytes rbind].
    eexists; split; [reflexivity|]. apply (step_list l CString VString); auto.
  - (* CFixed *)
    destruct v; try discriminate Hr. injection Hr as <-. cbn [push_as value_bytes rbind].
    destruct Hwf as [H0 Hm]. rewrite resize_push.
    eexists; split; [reflexivity|].
    assert (N.to_nat n <> 0) as H0' by lia.
    destruct (flat_rows buf (pad_or_cut (N.to_nat n) b) (N.to_nat n) _ H0' Hm (pad_length _ _) eq_refl)
      as (F1 & F2 & F3 & F4).
    constructor; auto; try reflexivity; [split; assumption| |cbn [low_rows]; lia].
    exists (length buf / N.to_nat n). cbn [clen length].
    destruct (N.eqb_spec n 0); [contradiction|]. split; [reflexivity|].
    split; [rewrite F1; reflexivity|]. cbn [at_]. split.
    + intros i Hi. rewrite F3 by exact Hi. reflexivity.
    + intros [|[|j]] w Hw; try discriminate. injection Hw as <-. rewrite Nat.add_0_r, F4. reflexivity.
  - (* CDate *)
    destruct v; try discriminate Hr. destruct (N.ltb_spec days 65536); [|discriminate Hr].
    injection Hr as <-. cbn [push_as value_date rbind].
    assert (get_days (Z.of_N days) = days) as ->.
    { unfold get_days, to_unsigned. change (2 ^ (8 * Z.of_nat 2))%Z with 65536%Z. lia. }
    eexists; split; [reflexivity|]. apply (step_list l (fun l => CDate l tz) VDate); auto.
  - (* CDateTime *)
    destruct v; try discriminate Hr.
    + destruct (N.ltb_spec secs (2 ^ 32)); [|discriminate Hr]. injection Hr as <-.
      cbn [push_as value_datetime rbind]. rewrite as_u32_small by assumption.
      eexists; split; [reflexivity|].
      apply (step_list l (fun l => CDateTime l tz) (fun s => VDateTime s tz)); auto.
    + destruct ((0 <=? secs) && (secs <? 2 ^ 32))%Z eqn:B; [|discriminate Hr]. injection Hr as <-.
      rewrite <- as_u32_nonneg by lia. cbn [push_as value_datetime rbind].
      eexists; split; [reflexivity|].
      apply (step_list l (fun l => CDateTime l tz) (fun s => VDateTime s tz)); auto.
  - (* CDateTime64 *)
    destruct v; try discriminate Hr. 
    destruct ((precision <=? 9)%N && (p <=? 9)%N && _) eqn:B in Hr; [|discriminate Hr].
    injection Hr as <-.
    assert (Hf : (precision <= 9)%N) by lia. assert (Hp : (p <= 9)%N) by lia.
    assert (Hx : (0 <= ticks)%Z) by lia.
    set (f := (10 ^ (9 - Z.of_N precision))%Z) in *.
    assert (Hn : (ticks * f < 2 ^ 63)%Z) by lia. clear B.
    assert (Hf0 : (0 < f)%Z) by (apply Z.pow_pos_nonneg; lia).
    assert (Hn0 : (0 <= ticks * f)%Z) by nia.
    assert (to_datetime ticks precision = Ok (ticks * f / 1000000000, Z.to_N (ticks * f mod 1000000000)))%Z as Q.
    { unfold to_datetime, to_datetime_opt, pow_factor.
      destruct (N.ltb_spec precision 19); [|lia]. destruct (N.leb_spec precision 9); [|lia].
      cbn [rbind]. fold f. unfold i64_mul.
      replace (i64_ok (ticks * f)) with true by (unfold i64_ok; lia). cbn [rbind].
      rewrite Z.quot_div_nonneg by lia.
      replace (to_unsigned 4 _) with (Z.to_N (ticks * f mod 1000000000)).
      - destruct (N.ltb_spec (Z.to_N (ticks * f mod 1000000000)) 2000000000); [reflexivity|lia].
      - unfold to_unsigned. change (2 ^ (8 * Z.of_nat 4))%Z with 4294967296%Z. f_equal.
        generalize dependent (ticks * f)%Z. intros y _ _. lia. }
    cbn [push_as value_datetime]. rewrite Q. cbn [rbind fst snd].
    assert (from_datetime (ticks * f / 1000000000) (Z.to_N (ticks * f mod 1000000000)) p =
            Ok (ticks * f / 10 ^ (9 - Z.of_N p)))%Z as ->.
    { unfold from_datetime, pow_factor. destruct (N.leb_spec p 9); [|lia].
      replace (ticks * f / 1000000000 * 1000000000 + Z.of_N (Z.to_N (ticks * f mod 1000000000)))%Z
        with (ticks * f)%Z by (generalize dependent (ticks * f)%Z; intros y _ _ _; lia).
      replace (i64_ok (ticks * f)) with true by (unfold i64_ok; lia). cbn [rbind].
      rewrite Z.quot_div_nonneg; [reflexivity|lia|]. apply Z.pow_pos_nonneg; lia. }
    cbn [rbind]. eexists; split; [reflexivity|].
    apply (step_list l (fun l => CDateTime64 l p tz) (fun x => VDateTime64 x p tz)); auto.
  - (* CChrono *)
    destruct v; try discriminate Hr.
    + destruct (N.ltb_spec secs (2 ^ 32)); [|discriminate Hr]. injection Hr as <-.
      cbn [push_as value_datetime rbind].
      eexists; split; [reflexivity|].
      rewrite <- (as_u32_small secs) at 1 by assumption.
      refine (step_list l (fun l => CChrono l tz) (fun t => VDateTime (as_u32 (fst (fst t))) (snd t))
               (Z.of_N secs, 0%N, tz0) _ _ _ _ _ _ _ _); auto.
      intros l' i. cbn [at_]. destruct (index l' i) as [[[]]| |]; reflexivity.
    + destruct ((0 <=? secs) && (secs <? 2 ^ 32))%Z eqn:B; [|discriminate Hr]. injection Hr as <-.
      cbn [push_as value_datetime rbind].
      rewrite <- as_u32_nonneg by lia.
      eexists; split; [reflexivity|].
      refine (step_list l (fun l => CChrono l tz) (fun t => VDateTime (as_u32 (fst (fst t))) (snd t))
               (secs, nanos, tz0) _ _ _ _ _ _ _ _); auto.
      intros l' i. cbn [at_]. destruct (index l' i) as [[[]]| |]; reflexivity.
  - (* CIp *)
    destruct k, v; try discriminate Hr;
    match type of Hr with (if ?b then _ else _) = _ => destruct b eqn:L; [|discriminate Hr] end;
    injection Hr as <-; apply Nat.eqb_eq in L; (eexists; split; [reflexivity|]);
    refine (step_ip _ _ _ Hwf _); assumption.
  - (* CDecimal *)
    destruct v; try discriminate Hr.
    match type of Hr with (if ?b then _ else _) = _ => destruct b eqn:L; [|discriminate Hr] end.
    injection Hr as <-. cbn [push_as].
    assert (internal nb d = d_underlying d) as ->.
    { destruct nb; [|reflexivity]. unfold internal, as_i32. apply to_signed_unsigned; [lia|].
      change (2 ^ (8 * Z.of_nat 4))%Z with 4294967296%Z. lia. }
    eexists; split; [reflexivity|].
    apply (step_list l (fun l => CDecimal l p s nb) (fun z => VDecimal (mk_decimal z nb p s))); auto.
  - destruct v; try discriminate Hr. injection Hr as <-. cbn [push_as].
    eexists; split; [reflexivity|]. apply (step_list l (CEnum8 vals) (VEnum8 vals)); auto.
  - destruct v; try discriminate Hr. injection Hr as <-. cbn [push_as].
    eexists; split; [reflexivity|]. apply (step_list l (CEnum16 vals) (VEnum16 vals)); auto.
Qed.

Lemma step_more c k k' ws c' : (k <= k')%N -> step c k ws c' -> step c k' ws c'.
Proof. intros H [A1 A2 A3 A4 A5 A6 A7]. constructor; auto. lia. Qed.

Lemma mapM_ext {A B} (f g : A -> res B) l : (forall x, In x l -> f x = g x) -> mapM f l = mapM g l.
Proof.
  induction l as [|x l IH]; intros H; [reflexivity|]. cbn [mapM].
  rewrite (H x) by (left; reflexivity). rewrite IH by (intros y Hy; apply H; right; exact Hy). reflexivity.
Qed.

Lemma mapM_seq {B} (f : nat -> res B) ws : forall n,
  (forall j w, nth_error ws j = Some w -> f (n + j) = Ok w) -> mapM f (seq n (length ws)) = Ok ws.
Proof.
  induction ws as [|w ws IH]; intros n H; [reflexivity|]. cbn [length seq mapM].
  rewrite <- (Nat.add_0_r n) at 1. rewrite (H 0 w eq_refl). cbn [rbind].
  rewrite IH; [reflexivity|]. intros j w' Hj. replace (S n + j) with (n + S j) by lia. apply H, Hj.
Qed.

Lemma last_snoc {A} (l : list A) x d : last (l ++ [x]) d = x.
Proof. apply last_last. Qed.

Lemma climbs_last l : forall a, climbs a l -> (a <= last l a)%N.
Proof.
  induction l as [|b l IH]; intros a H; [cbn; lia|]. destruct H as [H1 H2]. apply IH in H2.
  destruct l as [|x l]; [cbn in *; lia|]. 
  change (last (b :: x :: l) a) with (last (x :: l) a).
  replace (last (x :: l) a) with (last (x :: l) b); [lia|].
  clear. revert x. induction l as [|y l IH]; intros x; [reflexivity|].
  change (last (x :: y :: l) b) with (last (y :: l) b). change (last (x :: y :: l) a) with (last (y :: l) a).
  apply IH.
Qed.

Lemma last_any {A} (l : list A) x a b : last (x :: l) a = last (x :: l) b.
Proof.
  revert x. induction l as [|y l IH]; intros x; [reflexivity|].
  change (last (x :: y :: l) b) with (last (y :: l) b). change (last (x :: y :: l) a) with (last (y :: l) a).
  apply IH.
Qed.

Lemma climbs_nth l : forall a i e, climbs a l -> nth_error l i = Some e -> (e <= last l a)%N.
Proof.
  induction l as [|b l IH]; intros a i e H Hi; [destruct i; discriminate|].
  destruct H as [H1 H2]. destruct i as [|i].
  - injection Hi as <-. destruct l as [|x l]; [cbn; lia|].
    change (last (b :: x :: l) a) with (last (x :: l) a). rewrite (last_any l x a b).
    apply (climbs_last (x :: l)). exact H2.
  - cbn [nth_error] in Hi. destruct l as [|x l]; [destruct i; discriminate|].
    change (last (b :: x :: l) a) with (last (x :: l) a). rewrite (last_any l x a b).
    apply (IH b i e H2 Hi).
Qed.

Lemma climbs_snoc l x : forall a, climbs a l -> (last l a <= x)%N -> climbs a (l ++ [x]).
Proof.
  induction l as [|b l IH]; intros a H Hx; cbn [app climbs]; [cbn in Hx; auto|].
  destruct H as [H1 H2]. split; [exact H1|]. apply IH; [exact H2|].
  destruct l as [|y l]; [exact Hx|]. change (last (b :: y :: l) a) with (last (y :: l) a) in Hx.
  rewrite (last_any l y b a). exact Hx.
Qed.

Lemma row_bounds_old offs x i : i < length offs -> row_bounds (offs ++ [x]) i = row_bounds offs i.
Proof.
  intros H. unfold row_bounds. rewrite (index_app1 offs [x] i) by exact H.
  destruct i; [reflexivity|]. rewrite index_app1 by lia. reflexivity.
Qed.

Lemma row_bounds_le offs i s e : climbs 0 offs -> row_bounds offs i = Ok (s, e) ->
  s <= e <= N.to_nat (last offs 0%N).
Proof.
  intros Hc H. unfold row_bounds in H.
  destruct (match i with O => Ok 0%N | S j => index offs j end) as [a| |]; try discriminate H.
  cbn [rbind] in H. unfold index in H. destruct (nth_error offs i) as [b|] eqn:E; [|discriminate H].
  cbn in H. destruct (N.ltb_spec b a); [discriminate H|]. injection H as <- <-.
  pose proof (climbs_nth offs 0%N i b Hc E). lia.
Qed.

Lemma row_bounds_new offs k :
  row_bounds (offs ++ [last offs 0 + k]%N) (length offs) =
  Ok (N.to_nat (last offs 0%N), N.to_nat (last offs 0%N) + N.to_nat k).
Proof.
  unfold row_bounds. rewrite index_snoc.
  assert (match length offs with 0 => Ok 0%N | S j => index (offs ++ [last offs 0 + k]%N) j end
          = Ok (last offs 0%N)) as ->.
  { destruct offs as [|x l] using rev_ind; [reflexivity|]. rewrite app_length. cbn [length].
    replace (length l + 1) with (S (length l)) by lia. rewrite index_app1 by (rewrite app_length; cbn; lia).
    rewrite index_snoc, last_snoc. reflexivity. }
  cbn [rbind]. destruct (N.ltb_spec (last offs 0 + k) (last offs 0%N))%N; [lia|]. f_equal. f_equal. lia.
Qed.

Lemma mapO_length {A B} (f : A -> option B) l l' : mapO f l = Some l' -> length l' = length l.
Proof.
  revert l'. induction l as [|x l IH]; intros l' H; cbn in H; [injection H as <-; reflexivity|].
  destruct (f x); [|discriminate]. destruct (mapO f l); [|discriminate]. injection H as <-.
  cbn. f_equal. apply IH. reflexivity.
Qed.

Lemma mapO_ext {A B} (f g : A -> option B) l : (forall x, f x = g x) -> mapO f l = mapO g l.
Proof. intros H. induction l as [|x l IH]; [reflexivity|]. cbn. rewrite H, IH. reflexivity. Qed.

Definition pushes (shape : col) : Prop := forall c v w,
  similar shape c -> wf c -> reads_as c v = Some w -> (low_rows c + weight v < 2 ^ 64)%N ->
  exists c', push_as shape c v = Ok c' /\ step c (weight v) [w] c'.

Definition weights (vs : list value) : N := fold_right (fun x n => (weight x + n)%N) 0%N vs.

Lemma pushes_each shape : pushes shape -> forall vs c ws,
  similar shape c -> wf c -> mapO (reads_as c) vs = Some ws -> (low_rows c + weights vs < 2 ^ 64)%N ->
  exists c', push_each (push_as shape) c vs = Ok c' /\ step c (weights vs) ws c'.
Proof.
  intros P. induction vs as [|v vs IH]; intros c ws Hs Hw Hr Hb; cbn [mapO] in Hr.
  - injection Hr as <-. exists c. split; [reflexivity|]. apply step_refl, Hw.
  - destruct (reads_as c v) as [w|] eqn:Ev; [|discriminate Hr].
    destruct (mapO (reads_as c) vs) as [ws'|] eqn:Evs; [|discriminate Hr]. injection Hr as <-.
    cbn [weights fold_right] in Hb. fold (weights vs) in Hb.
    destruct (P c v w Hs Hw Ev ltac:(lia)) as (c1 & E1 & S1). pose proof S1 as [B1 B2 B3 B4 B5 B6 B7].
    destruct (IH c1 ws') as (c2 & E2 & S2); auto.
    { rewrite (mapO_ext _ _ vs B3). exact Evs. }
    { lia. }
    exists c2. cbn [push_each]. rewrite E1. cbn [rbind]. split; [exact E2|].
    apply (step_trans _ _ [w] _ _ ws' _ S1 S2).
Qed.

Definition pair_weights (kvs : list (value * value)) : N :=
  fold_right (fun kv n => (weight (fst kv) + weight (snd kv) + n)%N) 0%N kvs.

Lemma pushes_pairs sk sv : pushes sk -> pushes sv -> forall kvs ks vs ws,
  similar sk ks -> similar sv vs -> wf ks -> wf vs ->
  mapO (fun kv => match reads_as ks (fst kv), reads_as vs (snd kv) with
                  | Some k, Some x => Some (k, x) | _, _ => None end) kvs = Some ws ->
  (low_rows ks + pair_weights kvs < 2 ^ 64)%N -> (low_rows vs + pair_weights kvs < 2 ^ 64)%N ->
  exists ks' vs', push_pairs (push_as sk) (push_as sv) ks vs kvs = Ok (ks', vs') /\
    step ks (pair_weights kvs) (map fst ws) ks' /\ step vs (pair_weights kvs) (map snd ws) vs'.
Proof.
  intros Pk Pv. induction kvs as [|[k x] kvs IH]; intros ks vs ws Sk Sv Wk Wv Hr Bk Bv; cbn [mapO] in Hr.
  - injection Hr as <-. exists ks, vs. split; [reflexivity|]. split; apply step_refl; assumption.
  - cbn [fst snd] in Hr. destruct (reads_as ks k) as [k'|] eqn:Ek; [|discriminate Hr].
    destruct (reads_as vs x) as [x'|] eqn:Ex; [|discriminate Hr].
    match type of Hr with match ?m with _ => _ end = _ => destruct m as [ws'|] eqn:Ew; [|discriminate Hr] end.
    injection Hr as <-.
    cbn [pair_weights fold_right fst snd] in Bk, Bv. fold (pair_weights kvs) in Bk, Bv.
    destruct (Pk ks k k' Sk Wk Ek ltac:(lia)) as (ks1 & Ek1 & Sk1).
    destruct (Pv vs x x' Sv Wv Ex ltac:(lia)) as (vs1 & Ev1 & Sv1).
    pose proof Sk1 as [A1 A2 A3 A4 A5 A6 A7]. pose proof Sv1 as [B1 B2 B3 B4 B5 B6 B7].
    destruct (IH ks1 vs1 ws') as (ks2 & vs2 & E2 & Sk2 & Sv2); auto; try lia.
    { rewrite <- Ew. apply mapO_ext. intros y. rewrite A3, B3. reflexivity. }
    exists ks2, vs2. cbn [push_pairs]. rewrite Ek1. cbn [rbind]. rewrite Ev1. cbn [rbind].
    split; [exact E2|]. cbn [map fst snd pair_weights fold_right]. fold (pair_weights kvs).
    split.
    + apply (step_more _ (weight k + pair_weights kvs)); [lia|]. apply (step_trans _ _ [k'] _ _ _ _ Sk1 Sk2).
    + apply (step_more _ (weight x + pair_weights kvs)); [lia|]. apply (step_trans _ _ [x'] _ _ _ _ Sv1 Sv2).
Qed.

(** Reading a map row. *)
Definition map_loop (f g : nat -> res value) :=
  fix loop (js : list nat) (m : list (value * value)) : res (list (value * value)) :=
    match js with
    | [] => Ok m
    | j :: js' => do k <- f j; do v <- g j; do m' <- vref_insert m k v; loop js' m'
    end.

Lemma at_map ks vs offs i : at_ (CMap ks vs offs) i =
  do se <- row_bounds offs i;
  do m <- map_loop (at_ ks) (at_ vs) (seq (fst se) (snd se - fst se)) [];
  Ok (VMap (ctype ks) (ctype vs) m).
Proof. reflexivity. Qed.

Lemma map_loop_ext f g f' g' js : (forall j, In j js -> f j = f' j /\ g j = g' j) ->
  forall m, map_loop f g js m = map_loop f' g' js m.
Proof.
  induction js as [|j js IH]; intros H m; [reflexivity|]. cbn [map_loop].
  destruct (H j) as [-> ->]; [left; reflexivity|].
  destruct (f' j); [|reflexivity|reflexivity]. destruct (g' j); [|reflexivity|reflexivity]. cbn [rbind].
  destruct (vref_insert m a a0); [|reflexivity|reflexivity]. cbn [rbind].
  apply IH. intros y Hy. apply H. right. exact Hy.
Qed.

Lemma map_key_hashable k : map_key k = true -> value_ref_hashable k = true.
Proof. destruct k; try discriminate; cbn; try reflexivity. destruct s; try discriminate; reflexivity. Qed.

Lemma same_key_eq a b : map_key a = true -> map_key b = true -> vref_eq a b = Ok (same_key a b).
Proof.
  destruct a; try discriminate; destruct b; try discriminate; cbn [map_key same_key]; intros Ha Hb.
  - cbn. destruct s; try discriminate Ha; destruct (scalar_eq_dec _ s0); reflexivity.
  - destruct s; try discriminate Ha; reflexivity.
  - reflexivity.
  - reflexivity.
Qed.

Lemma same_key_sym a b : same_key a b = same_key b a.
Proof.
  destruct a; destruct b; try reflexivity; cbn [same_key].
  - destruct (scalar_eq_dec s s0), (scalar_eq_dec s0 s); try congruence; cbn; try reflexivity; apply Z.eqb_sym.
  - unfold bytes_eqb. destruct (bytes_eq_dec b0 b), (bytes_eq_dec b b0); congruence.
Qed.

Lemma vref_put_new m k v : map_key k = true ->
  forallb (fun kv => map_key (fst kv)) m = true ->
  forallb (fun kv => negb (same_key (fst kv) k)) m = true -> vref_put m k v = Ok (m ++ [(k, v)]).
Proof.
  intros Hk. induction m as [|[k' v'] m IH]; intros H1 H2; [reflexivity|].
  cbn [forallb fst] in H1, H2. apply andb_true_iff in H1, H2. destruct H1 as [H1 H1'], H2 as [H2 H2'].
  cbn [vref_put]. rewrite same_key_eq by assumption. cbn [rbind].
  destruct (same_key k' k); [discriminate H2|]. rewrite IH by assumption. reflexivity.
Qed.

Lemma distinct_app a b : distinct_keys (a ++ b) = true ->
  forallb map_key a = true /\ forallb map_key b = true /\ distinct_keys b = true /\
  (forall x y, In x a -> In y b -> same_key x y = false).
Proof.
  induction a as [|x a IH]; cbn [app distinct_keys forallb]; intros H.
  - split; [reflexivity|]. repeat split; auto; [|contradiction].
    clear -H. induction b as [|y b IH]; [reflexivity|]. cbn in *.
    apply andb_true_iff in H. destruct H as [H1 H2]. apply andb_true_iff in H1. destruct H1 as [H1 _].
    rewrite H1. apply IH, H2.
  - apply andb_true_iff in H. destruct H as [H1 H2]. apply andb_true_iff in H1. destruct H1 as [H1 H3].
    destruct (IH H2) as (A & B & C & D). rewrite H1, A. repeat split; auto.
    intros u y [->|Hu] Hy; [|apply D; assumption].
    destruct (same_key u y) eqn:E; [|reflexivity].
    apply negb_true_iff in H3. rewrite <- H3. symmetry. apply existsb_exists. exists y.
    split; [apply in_or_app; right; exact Hy|exact E].
Qed.

Lemma map_loop_ok f g kvs : forall n m, distinct_keys (map fst (m ++ kvs)) = true ->
  (forall j k v, nth_error kvs j = Some (k, v) -> f (n + j) = Ok k /\ g (n + j) = Ok v) ->
  map_loop f g (seq n (length kvs)) m = Ok (m ++ kvs).
Proof.
  induction kvs as [|[k v] kvs IH]; intros n m Hd H; [cbn; rewrite app_nil_r; reflexivity|].
  cbn [length seq map_loop]. destruct (H 0 k v eq_refl) as [E1 E2]. rewrite Nat.add_0_r in E1, E2.
  rewrite E1, E2. cbn [rbind]. unfold vref_insert.
  rewrite map_app in Hd. cbn [map fst] in Hd.
  destruct (distinct_app _ _ Hd) as (D1 & D2 & D3 & D4).
  cbn [forallb] in D2. apply andb_true_iff in D2. destruct D2 as [D2 D2'].
  rewrite map_key_hashable by exact D2. rewrite vref_put_new; [|exact D2| |].
  - cbn [rbind]. rewrite IH.
    + rewrite <- app_assoc. reflexivity.
    + rewrite <- app_assoc. cbn [app]. rewrite map_app. exact Hd.
    + intros j k' v' Hj. replace (S n + j) with (n + S j) by lia. apply H, Hj.
  - clear -D1. induction m as [|x m IH]; [reflexivity|]. cbn in *. apply andb_true_iff in D1.
    destruct D1 as [-> D1]. apply IH, D1.
  - apply forallb_forall. intros [k' v'] Hin. cbn [fst]. apply negb_true_iff. apply D4; [|left; reflexivity].
    apply (in_map fst _ _ Hin).
Qed.

(** The dictionary of a low-cardinality column. *)
Lemma low_hashable i v : low_key i v = true -> value_hashable v = true.
Proof.
  destruct i; try discriminate; destruct v; try discriminate; cbn; intros H; try reflexivity.
  destruct (scalar_eq_dec s s0) as [<-|]; [|rewrite andb_false_r in H; discriminate H].
  destruct s; try discriminate H; reflexivity.
Qed.

Lemma low_weight i v : low_key i v = true -> weight v = 1%N.
Proof. destruct i; try discriminate; destruct v; try discriminate; reflexivity. Qed.

Lemma low_same i a b : low_key i a = true -> low_key i b = true ->
  exists e, key_eq a b = Ok e /\ (e = true -> reads_as i a = reads_as i b).
Proof.
  destruct i; try discriminate; destruct a; try discriminate; destruct b; try discriminate;
    cbn [low_key]; intros Ha Hb.
  - destruct (scalar_eq_dec s s0) as [<-|]; [|rewrite andb_false_r in Ha; discriminate Ha].
    destruct (scalar_eq_dec s s1) as [<-|]; [|rewrite andb_false_r in Hb; discriminate Hb].
    cbn [key_eq value_eq]. destruct (scalar_eq_dec s s); [|congruence].
    exists (z =? z0)%Z. split.
    + destruct s; try discriminate Ha; reflexivity.
    + intros E. apply Z.eqb_eq in E. subst. reflexivity.
  - cbn [key_eq value_eq]. unfold bytes_eqb. destruct (bytes_eq_dec b0 b) as [->|]; eexists; split;
      try reflexivity. discriminate.
  - cbn [key_eq value_eq]. unfold bytes_eqb. destruct (bytes_eq_dec b0 b) as [->|]; eexists; split;
      try reflexivity. discriminate.
  - cbn [key_eq value_eq]. eexists; split; [reflexivity|]. intros E. apply N.eqb_eq in E. subst. reflexivity.
  - cbn [key_eq value_eq]. eexists; split; [reflexivity|]. intros E. apply N.eqb_eq in E. subst. reflexivity.
  - cbn [key_eq value_eq]. eexists; split; [reflexivity|]. intros E. apply N.eqb_eq in E. subst.
    unfold bytes_eqb in *. destruct (bytes_eq_dec tz0 tz); [|discriminate Ha].
    destruct (bytes_eq_dec tz1 tz); [|discriminate Hb]. subst. reflexivity.
Qed.

Definition unlike (m : list (value * N)) (v : value) : Prop :=
  Forall (fun kj => key_eq (fst kj) v = Ok false) m.

Lemma vmap_find_ok i n m v : table_ok i n m -> low_key i v = true ->
  exists g, vmap_find m v = Ok g /\
    match g with
    | Some j => N.to_nat j < n /\ exists w, reads_as i v = Some w /\ at_ i (N.to_nat j) = Ok w
    | None => unlike m v
    end.
Proof.
  intros Hm Hv. induction Hm as [|[k j] m (K1 & K2 & w & K3 & K4) Hm IH].
  - exists None. split; [reflexivity|constructor].
  - cbn [fst snd] in *. cbn [vmap_find].
    destruct (low_same i k v K1 Hv) as (e & E & F). rewrite E. cbn [rbind]. destruct e.
    + exists (Some j). split; [reflexivity|]. split; [exact K2|]. exists w. rewrite <- F by reflexivity. auto.
    + destruct IH as (g & G1 & G2). exists g. split; [exact G1|]. destruct g; [exact G2|].
      constructor; [exact E|exact G2].
Qed.

Lemma vmap_get_ok i n m v : table_ok i n m -> low_key i v = true ->
  exists g, vmap_get m v = Ok g /\
    match g with
    | Some j => N.to_nat j < n /\ exists w, reads_as i v = Some w /\ at_ i (N.to_nat j) = Ok w
    | None => unlike m v
    end.
Proof.
  intros Hm Hv. destruct m as [|x m]; [exists None; split; [reflexivity|constructor]|].
  unfold vmap_get. rewrite (low_hashable i v Hv). apply vmap_find_ok; assumption.
Qed.

Lemma vmap_put_new m v j : unlike m v -> vmap_put m v j = Ok (m ++ [(v, j)]).
Proof.
  induction 1 as [|[k x] m E H IH]; [reflexivity|]. cbn [vmap_put app]. cbn [fst] in E.
  rewrite E. cbn [rbind]. rewrite IH. reflexivity.
Qed.

Lemma vmap_put_ok i n m v j w : table_ok i n m -> low_key i v = true -> N.to_nat j < n ->
  reads_as i v = Some w -> at_ i (N.to_nat j) = Ok w ->
  exists m', vmap_put m v j = Ok m' /\ table_ok i n m'.
Proof.
  intros Hm Hv Hj Hr Ha. induction Hm as [|[k x] m (K1 & K2 & w' & K3 & K4) Hm IH].
  - eexists; split; [reflexivity|]. constructor; [|constructor]. cbn [fst snd]. eauto.
  - cbn [vmap_put]. cbn [fst snd] in *. destruct (low_same i k v K1 Hv) as (e & E & F). rewrite E. cbn [rbind].
    destruct e.
    + eexists; split; [reflexivity|]. constructor; [|exact Hm]. cbn [fst snd]. split; [exact K1|].
      split; [exact Hj|]. exists w. rewrite F by reflexivity. auto.
    + destruct IH as (m' & -> & IH). cbn [rbind]. eexists; split; [reflexivity|].
      constructor; [cbn [fst snd]; eauto|exact IH].
Qed.

Lemma value_map_ok i n idx : forall m, table_ok i n m ->
  Forall (fun j => N.to_nat j < n) idx ->
  Forall (fun j => exists w, at_ i (N.to_nat j) = Ok w /\ low_key i w = true /\ reads_as i w = Some w) idx ->
  exists m', value_map_loop (at_ i) idx m = Ok m' /\ table_ok i n m'.
Proof.
  induction idx as [|j idx IH]; intros m Hm H1 H2; [exists m; split; [reflexivity|exact Hm]|].
  inversion_clear H1. inversion_clear H2 as [|? ? (w & W1 & W2 & W3) H3].
  cbn [value_map_loop]. rewrite W1. cbn [rbind]. unfold vmap_insert. rewrite (low_hashable i w W2).
  destruct (vmap_put_ok i n m w j w Hm W2 H W3 W1) as (m' & -> & Hm'). cbn [rbind].
  apply IH; assumption.
Qed.

Lemma ix_push_ok ix idx j : (j <= lenN idx + 1)%N -> (j <= ix_max ix + 1)%N -> (lenN idx + 1 < 2 ^ 64)%N ->
  exists ix', ix_push ix idx j = Ok (ix', idx ++ [j]) /\ (j <= ix_max ix')%N /\ (ix_max ix <= ix_max ix')%N.
Proof.
  intros H1 H2 H3. unfold ix_push.
  assert (exists ix', (if (ix_max ix <? lenN idx + 1)%N then ix_wider ix else Ok ix) = Ok ix' /\
            (j <= ix_max ix')%N /\ (ix_max ix <= ix_max ix')%N) as (ix' & -> & H).
  { destruct (N.ltb_spec (ix_max ix) (lenN idx + 1)).
    - destruct ix; cbn [ix_wider ix_max] in *;
        [exists X16|exists X32|exists X64|exfalso; lia]; (split; [reflexivity|cbn [ix_max]; lia]).
    - exists ix. split; [reflexivity|lia]. }
  cbn [rbind]. exists ix'. rewrite N.mod_small by lia. split; [reflexivity|exact H].
Qed.

Lemma table_step i k ws i' n m : step i k ws i' -> clen i = Ok n -> table_ok i n m ->
  table_ok i' (n + length ws) m.
Proof.
  intros [A1 A2 A3 A4 A5 (n' & B1 & B2 & B3 & B4) A7] Hn Hm. rewrite Hn in B1. injection B1 as <-.
  eapply Forall_impl; [|exact Hm]. intros [v j] (H1 & H2 & w & H3 & H4). cbn [fst snd] in *.
  rewrite A4, A3. split; [exact H1|]. split; [lia|]. exists w. split; [exact H3|].
  rewrite B3 by exact H2. exact H4.
Qed.

Lemma default_weight t : (weight (value_default t) <= 1)%N.
Proof.
  induction t; try (cbn [value_default weight]; reflexivity); try exact IHt; try (cbn; discriminate).
  destruct d; cbn; reflexivity.
Qed.

Lemma leaf_weight c v w : leaf c = true -> wf c -> reads_as c v = Some w -> weight v = 1%N.
Proof.
  intros Hl Hw Hr. destruct c; try discriminate Hl; try contradiction Hw; cbn [reads_as] in Hr;
    try (destruct v; try discriminate Hr; reflexivity).
  destruct k, v; try discriminate Hr; reflexivity.
Qed.

Lemma plain_push shape c v w : leaf c = true -> wf c -> reads_as c v = Some w ->
  exists c', push_as shape c v = Ok c' /\ step c (weight v) [w] c'.
Proof.
  intros Hl Hw Hr. rewrite (leaf_weight c v w Hl Hw Hr). apply push_leaf; assumption.
Qed.

Lemma nullable_step i nulls k w i' b :
  wf i -> clen i = Ok (length nulls) -> step i k [w] i' ->
  step (CNullable i nulls) k [if (b =? 1)%N then VNull (ctype i) else VSome w] (CNullable i' (nulls ++ [b])).
Proof.
  intros Hw Hn [A1 A2 A3 A4 A5 (n' & B1 & B2 & B3 & B4) A7]. rewrite Hn in B1. injection B1 as <-.
  assert (length (nulls ++ [b]) = length nulls + 1) as L by (rewrite app_length; reflexivity).
  constructor.
  - intros s. cbn [similar]. destruct s; auto.
  - cbn [ctype]. rewrite A2. reflexivity.
  - intros x. destruct x; cbn [reads_as]; rewrite ?A3, ?A2; reflexivity.
  - reflexivity.
  - cbn [wf]. split; [exact A5|]. rewrite L. exact B2.
  - exists (length nulls). cbn [clen]. rewrite Hn, B2. cbn [rbind length]. rewrite L, !Nat.eqb_refl.
    split; [reflexivity|]. split; [reflexivity|]. split.
    + intros j Hj. cbn [at_]. rewrite index_app1 by exact Hj. rewrite A2, B3 by exact Hj. reflexivity.
    + intros [|[|j]] x Hx; try discriminate. injection Hx as <-. rewrite Nat.add_0_r. cbn [at_].
      rewrite index_snoc. cbn [rbind]. destruct (b =? 1)%N; [rewrite A2; reflexivity|].
      specialize (B4 0 w eq_refl). rewrite Nat.add_0_r in B4. rewrite B4. reflexivity.
  - exact A7.
Qed.

Theorem push_step shape : pushes shape.
Proof.
  induction shape; intros c v w Hs Hw Hr Hb; (destruct c; try contradiction Hw; try contradiction Hs;
    try (apply plain_push; [reflexivity|assumption|assumption])).
  - (* Nullable *)
    cbn [similar wf low_rows] in *. destruct Hw as [Hw Hn].
    assert (forall x (b : N), reads_as c x <> None -> (weight x <= weight v)%N ->
              (push_as (CNullable shape nulls) (CNullable c nulls0) v =
                 do i <- push_as shape c x; Ok (CNullable i (nulls0 ++ [b]))) ->
              exists wx i, reads_as c x = Some wx /\ push_as (CNullable shape nulls) (CNullable c nulls0) v = Ok i /\
                 step (CNullable c nulls0) (weight v)
                   [if (b =? 1)%N then VNull (ctype c) else VSome wx] i) as G.
    { intros x b Hx Hwt E. destruct (reads_as c x) as [wx|] eqn:Ex; [|congruence].
      destruct (IHshape c x wx Hs Hw Ex ltac:(lia)) as (i & E1 & S1).
      exists wx, (CNullable i (nulls0 ++ [b])). rewrite E, E1. split; [reflexivity|]. split; [reflexivity|].
      apply nullable_step; [assumption|assumption|]. apply (step_more _ _ _ _ _ Hwt S1). }
    destruct v; cbn [reads_as] in Hr;
      try (match type of Hr with match reads_as c ?x with _ => _ end = _ =>
             destruct (reads_as c x) as [wx|] eqn:Ex; [|discriminate Hr] end;
           injection Hr as <-;
           match type of Ex with reads_as c ?x = _ =>
             destruct (G x 0%N) as (wx' & i & E1 & E2 & S);
               [congruence|cbn [weight]; lia|reflexivity|];
               rewrite E1 in Ex; injection Ex as <-; exists i; split; [exact E2|exact S] end).
    destruct (reads_as c (value_default t)) as [wx|] eqn:Ex; [|discriminate Hr]. injection Hr as <-.
    destruct (G (value_default t) 1%N) as (wx' & i & E1 & E2 & S);
      [congruence|apply default_weight|reflexivity|].
    exists i. split; [exact E2|exact S].
  - (* Array *)
    cbn [similar wf low_rows] in *. destruct Hw as (Hw & Hn & Hc).
    cbn [reads_as] in Hr. destruct v; try discriminate Hr.
    destruct (mapO (reads_as c) vs) as [ws|] eqn:Ew; [|discriminate Hr]. injection Hr as <-.
    cbn [weight] in Hb. fold (weights vs) in Hb.
    destruct (pushes_each shape IHshape vs c ws Hs Hw Ew Hb) as (i & E & S).
    cbn [push_as]. rewrite E. cbn [rbind]. eexists; split; [reflexivity|].
    pose proof (mapO_length _ _ _ Ew) as Hl.
    destruct S as [A1 A2 A3 A4 A5 (n' & B1 & B2 & B3 & B4) A7]. rewrite Hn in B1. injection B1 as <-.
    constructor.
    + intros s. cbn [similar]. destruct s; auto.
    + cbn [ctype]. rewrite A2. reflexivity.
    + intros x. cbn [reads_as]. destruct x; try reflexivity. rewrite (mapO_ext _ _ vs0 A3), A2. reflexivity.
    + reflexivity.
    + cbn [wf]. split; [exact A5|]. rewrite last_snoc. split; [rewrite B2; f_equal; unfold lenN; lia|].
      apply climbs_snoc; [exact Hc|lia].
    + exists (length offs0). cbn [clen]. rewrite app_length. split; [reflexivity|]. split; [reflexivity|]. split.
      * intros j Hj. cbn [at_]. rewrite row_bounds_old by exact Hj. rewrite A2.
        destruct (row_bounds offs0 j) as [[a b]| |] eqn:Rb; try reflexivity. cbn [rbind fst snd].
        pose proof (row_bounds_le _ _ _ _ Hc Rb).
        rewrite (mapM_ext (at_ i) (at_ c)); [reflexivity|]. intros y Hy. apply in_seq in Hy. apply B3. lia.
      * intros [|[|j]] x Hx; try discriminate. injection Hx as <-. rewrite Nat.add_0_r. cbn [at_].
        rewrite row_bounds_new. cbn [rbind fst snd]. rewrite A2.
        replace (_ + _ - _) with (length ws) by (unfold lenN; lia).
        rewrite (mapM_seq (at_ i) ws); [reflexivity|exact B4].
    + cbn [low_rows weight]. fold (weights vs). exact A7.
  - (* Map *)
    cbn [similar wf low_rows] in *. destruct Hs as [Hs1 Hs2]. destruct Hw as (Hw1 & Hw2 & Hn1 & Hn2 & Hc).
    cbn [reads_as] in Hr. destruct v; try discriminate Hr.
    match type of Hr with match ?m with _ => _ end = _ => destruct m as [ws|] eqn:Ew; [|discriminate Hr] end.
    destruct (distinct_keys (map fst ws)) eqn:Hd; [|discriminate Hr]. injection Hr as <-.
    cbn [weight] in Hb. fold (pair_weights kvs) in Hb.
    destruct (pushes_pairs shape1 shape2 IHshape1 IHshape2 kvs c1 c2 ws Hs1 Hs2 Hw1 Hw2 Ew)
      as (ks' & vs' & E & Sk & Sv); [lia|lia|].
    cbn [push_as]. rewrite E. cbn [rbind fst snd]. eexists; split; [reflexivity|].
    pose proof (mapO_length _ _ _ Ew) as Hl.
    destruct Sk as [A1 A2 A3 A4 A5 (n' & A61 & A62 & A63 & A64) A7]. rewrite Hn1 in A61. injection A61 as <-.
    destruct Sv as [B1 B2 B3 B4 B5 (n' & B61 & B62 & B63 & B64) B7]. rewrite Hn2 in B61. injection B61 as <-.
    rewrite map_length in A62, B62.
    constructor.
    + intros s. cbn [similar]. destruct s; auto. intros [? ?]. split; auto.
    + cbn [ctype]. rewrite A2, B2. reflexivity.
    + intros x. cbn [reads_as]. destruct x; try reflexivity. rewrite A2, B2.
      erewrite mapO_ext; [reflexivity|]. intros y. cbn. rewrite A3, B3. reflexivity.
    + reflexivity.
    + cbn [wf]. split; [exact A5|]. split; [exact B5|]. rewrite last_snoc.
      split; [rewrite A62; f_equal; unfold lenN; lia|].
      split; [rewrite B62; f_equal; unfold lenN; lia|]. apply climbs_snoc; [exact Hc|lia].
    + exists (length offs0). cbn [clen]. rewrite app_length. split; [reflexivity|]. split; [reflexivity|]. split.
      * intros j Hj. rewrite !at_map. rewrite row_bounds_old by exact Hj. rewrite A2, B2.
        destruct (row_bounds offs0 j) as [[a b]| |] eqn:Rb; try reflexivity. cbn [rbind fst snd].
        pose proof (row_bounds_le _ _ _ _ Hc Rb).
        rewrite (map_loop_ext (at_ ks') (at_ vs') (at_ c1) (at_ c2)); [reflexivity|].
        intros y Hy. apply in_seq in Hy. split; [apply A63|apply B63]; lia.
      * intros [|[|j]] x Hx; try discriminate. injection Hx as <-. rewrite Nat.add_0_r, at_map.
        rewrite row_bounds_new. cbn [rbind fst snd]. rewrite A2, B2.
        replace (_ + _ - _) with (length ws) by (unfold lenN; lia).
        rewrite (map_loop_ok (at_ ks') (at_ vs') ws _ []); [reflexivity|exact Hd|].
        intros j k0 x0 Hj. split; [apply A64|apply B64]; rewrite nth_error_map, Hj; reflexivity.
    + cbn [low_rows weight]. fold (pair_weights kvs). lia.
  - (* Agg *)
    cbn [similar wf low_rows reads_as] in *.
    destruct (IHshape c v w Hs Hw Hr Hb) as (i & E & S). cbn [push_as]. rewrite E. cbn [rbind].
    eexists; split; [reflexivity|]. destruct S as [A1 A2 A3 A4 A5 A6 A7]. constructor; auto.
    + intros s. cbn [similar]. destruct s; auto.
    + cbn [ctype]. rewrite A2. reflexivity.
  - (* Low *)
    cbn [similar wf low_rows reads_as] in *. destruct Hw as (Hw & n & Hn & Hi & Hd & Hx & Hm).
    destruct (low_key c v) eqn:Hk; [|discriminate Hr]. rewrite (low_weight _ _ Hk) in *.
    assert (exists m, match vmap0 with Some m => Ok m | None => value_map_loop (at_ c) idx0 [] end = Ok m /\
                      table_ok c n m) as (m & Em & Tm).
    { destruct vmap0 as [m|]; [exists m; auto|]. apply value_map_ok; [constructor|exact Hi|exact Hm]. }
    cbn [push_as]. rewrite Em. cbn [rbind].
    destruct (vmap_get_ok c n m v Tm Hk) as (g & Eg & Hg). rewrite Eg. cbn [rbind].
    destruct g as [j|].
    + destruct Hg as (Hj & w' & W1 & W2). rewrite Hr in W1. injection W1 as <-.
      assert (Hjn : (j < N.of_nat n)%N) by lia.
      destruct (ix_push_ok ix0 idx0 j ltac:(lia) ltac:(lia) ltac:(lia)) as (ix' & -> & Hix & Hmx).
      cbn [rbind fst snd]. eexists; split; [reflexivity|].
      constructor; try reflexivity; auto.
      * cbn [wf]. split; [exact Hw|]. exists n. split; [exact Hn|].
        unfold lenN in *. rewrite app_length. cbn [length].
        split; [apply Forall_app; split; [exact Hi|constructor; [lia|constructor]]|].
        split; [lia|]. split; [lia|]. exact Tm.
      * exists (length idx0). cbn [clen]. rewrite app_length. split; [reflexivity|]. split; [reflexivity|]. split.
        -- intros y Hy. cbn [at_]. rewrite index_app1 by exact Hy. reflexivity.
        -- intros [|[|y]] x Hx'; try discriminate. injection Hx' as <-. rewrite Nat.add_0_r. cbn [at_].
           rewrite index_snoc. cbn [rbind]. exact W2.
      * cbn [low_rows]. unfold lenN. rewrite app_length. cbn [length]. lia.
    + rewrite Hn. cbn [rbind].
      destruct (IHshape c v w Hs Hw Hr) as (i & E & S); [rewrite (low_weight _ _ Hk); lia|].
      rewrite (low_weight _ _ Hk) in S. rewrite E. cbn [rbind].
      unfold vmap_insert. rewrite (low_hashable _ _ Hk), vmap_put_new by exact Hg. cbn [rbind].
      destruct (ix_push_ok ix0 idx0 (N.of_nat n) Hd Hx ltac:(lia)) as (ix' & -> & Hix & Hmx).
      cbn [rbind fst snd]. eexists; split; [reflexivity|].
      pose proof (table_step _ _ _ _ _ _ S Hn Tm) as Tm'.
      destruct S as [A1 A2 A3 A4 A5 (n' & B1 & B2 & B3 & B4) A7]. rewrite Hn in B1. injection B1 as <-.
      cbn [length] in *. pose proof (B4 0 w eq_refl) as Bn. rewrite Nat.add_0_r in Bn.
      constructor.
      * intros s. cbn [similar]. destruct s; auto.
      * cbn [ctype]. rewrite A2. reflexivity.
      * intros x. cbn [reads_as]. rewrite A4, A3. reflexivity.
      * reflexivity.
      * cbn [wf]. split; [exact A5|]. exists (n + 1). split; [exact B2|].
        unfold lenN in *. rewrite app_length. cbn [length].
        split; [apply Forall_app; split; [|constructor; [lia|constructor]]|].
        { eapply Forall_impl; [|exact Hi]. intros a Ha. cbn in Ha. lia. }
        split; [lia|]. split; [lia|]. apply Forall_app. split; [exact Tm'|]. constructor; [|constructor].
        cbn [fst snd]. rewrite A4, A3, Nat2N.id. split; [exact Hk|]. split; [lia|]. exists w. auto.
      * exists (length idx0). cbn [clen]. rewrite app_length. split; [reflexivity|]. split; [reflexivity|]. split.
        -- intros y Hy. cbn [at_]. rewrite index_app1 by exact Hy. unfold index.
           destruct (nth_error idx0 y) as [j|] eqn:Ej; [|reflexivity]. cbn [or_panic rbind].
           apply B3. rewrite Forall_forall in Hi. apply Hi. eapply nth_error_In. exact Ej.
        -- intros [|[|y]] x Hx'; try discriminate. injection Hx' as <-. rewrite Nat.add_0_r. cbn [at_].
           rewrite index_snoc. cbn [rbind]. rewrite Nat2N.id. exact Bn.
      * cbn [low_rows]. unfold lenN. rewrite app_length. cbn [length]. unfold lenN in *. lia.
Qed.

(** Building alike does not depend on the rows, and is kept by appending. *)
Lemma similar_refl c : similar c c.
Proof. induction c; cbn [similar]; auto. Qed.

Lemma push_each_keeps (R : col -> col -> Prop) f :
  (forall c, R c c) -> (forall a b c, R a b -> R b c -> R a c) ->
  (forall c v c', f c v = Ok c' -> R c c') ->
  forall vs c c', push_each f c vs = Ok c' -> R c c'.
Proof.
  intros Rr Rt Hf. induction vs as [|v vs IH]; intros c c' H; cbn [push_each] in H.
  - injection H as <-. apply Rr.
  - destruct (f c v) as [c1| |] eqn:E; try discriminate H. cbn [rbind] in H.
    eapply Rt; [eapply Hf, E|apply IH, H].
Qed.

Definition alike (c c' : col) : Prop := (forall s, similar s c -> similar s c') /\ ctype c' = ctype c.

Lemma alike_refl c : alike c c.
Proof. split; auto. Qed.
Lemma alike_trans a b c : alike a b -> alike b c -> alike a c.
Proof. intros [H1 H2] [H3 H4]. split; [auto|congruence]. Qed.

Lemma push_pairs_alike f g :
  (forall c v c', f c v = Ok c' -> alike c c') -> (forall c v c', g c v = Ok c' -> alike c c') ->
  forall kvs a b a' b', push_pairs f g a b kvs = Ok (a', b') -> alike a a' /\ alike b b'.
Proof.
  intros Hf Hg. induction kvs as [|[k v] kvs IH]; intros a b a' b' H; cbn [push_pairs] in H.
  - injection H as <- <-. split; apply alike_refl.
  - destruct (f a k) as [a1| |] eqn:E1; try discriminate H. cbn [rbind] in H.
    destruct (g b v) as [b1| |] eqn:E2; try discriminate H. cbn [rbind] in H.
    apply IH in H. destruct H as [H1 H2]. split; eapply alike_trans; eauto.
Qed.

Lemma bind_ok {A B} (r : res A) (f : A -> res B) b : (do x <- r; f x) = Ok b -> exists a, r = Ok a /\ f a = Ok b.
Proof. destruct r; try discriminate. intros H. eauto. Qed.

Ltac inv_do H := let x := fresh "x" in let E := fresh "E" in
  apply bind_ok in H; destruct H as (x & E & H).

Lemma push_alike s : forall c v c', push_as s c v = Ok c' -> alike c c'.
Proof.
  assert (forall s c v c', leaf c = true -> push_as s c v = Ok c' -> alike c c') as L.
  { clear s. intros s c v c' Hl H.
    assert (push_as s c v = push_as (CVec U8 []) c v) as E
      by (destruct c; try discriminate Hl; destruct s; reflexivity).
    rewrite E in H. clear E.
    destruct c; try discriminate Hl; cbn [push_as] in H; try discriminate H;
      try (repeat (inv_do H); injection H as <-; split; [intros s1 Hs1; exact Hs1 | reflexivity]).
    - inv_do H. destruct x as [[? ?] ?]. injection H as <-. split; auto.
    - inv_do H. destruct x as [[? ?] ?]. inv_do H. injection H as <-. split; auto.
    - destruct k, v; try discriminate H; injection H as <-; split; auto.
    - destruct v; try discriminate H. injection H as <-. split; auto.
    - destruct v; try discriminate H. injection H as <-. split; auto.
    - destruct v; try discriminate H. injection H as <-. split; auto. }
  assert (forall inner nulls inner' nulls', alike inner inner' -> alike (CNullable inner nulls) (CNullable inner' nulls')) as Hn.
  { intros ? ? ? ? [H1 H2]. split; [intros []; cbn [similar]; auto|cbn [ctype]; rewrite H2; reflexivity]. }
  induction s; intros c v c' H; (destruct (leaf c) eqn:Lc; [eapply L; eassumption|]);
    destruct c; try discriminate Lc; cbn [push_as] in H; try discriminate H;
    try (destruct v; discriminate H).
  - destruct v; inv_do H; injection H as <-; apply Hn; eapply IHs; eassumption.
  - destruct v; try discriminate H. inv_do H. injection H as <-.
    destruct (push_each_keeps alike (push_as s) alike_refl alike_trans (fun _ _ _ => IHs _ _ _) _ _ _ E) as [H1 H2].
    split; [intros []; cbn [similar]; auto|cbn [ctype]; rewrite H2; reflexivity].
  - destruct v; try discriminate H. inv_do H. injection H as <-. destruct x as [a b].
    destruct (push_pairs_alike _ _ (fun _ _ _ => IHs1 _ _ _) (fun _ _ _ => IHs2 _ _ _) _ _ _ _ _ E) as [[H1 H2] [H3 H4]].
    cbn [fst snd]. split; [intros []; cbn [similar]; try contradiction; intros [? ?]; split; auto|].
    cbn [ctype]. rewrite H2, H4. reflexivity.
  - inv_do H. injection H as <-. destruct (IHs _ _ _ E) as [H1 H2].
    split; [intros []; cbn [similar]; auto|cbn [ctype]; rewrite H2; reflexivity].
  - inv_do H. inv_do H. destruct x0.
    + inv_do H. injection H as <-. split; [intros []; cbn [similar]; auto|reflexivity].
    + inv_do H. inv_do H. inv_do H. inv_do H. injection H as <-. destruct (IHs _ _ _ E2) as [H1 H2].
      split; [intros []; cbn [similar]; auto|cbn [ctype]; rewrite H2; reflexivity].
Qed.

Lemma push_each_shape f g (S : col -> Prop) :
  (forall c v, S c -> f c v = g c v) -> (forall c v c', S c -> f c v = Ok c' -> S c') ->
  forall vs c, S c -> push_each f c vs = push_each g c vs.
Proof.
  intros Hfg Hk. induction vs as [|v vs IH]; intros c Hc; [reflexivity|]. cbn [push_each].
  rewrite <- (Hfg c v Hc). destruct (f c v) as [c'| |] eqn:E; try reflexivity. cbn [rbind]. apply IH.
  eapply Hk; eassumption.
Qed.

Lemma push_pairs_shape f g f' g' (S T : col -> Prop) :
  (forall c v, S c -> f c v = f' c v) -> (forall c v c', S c -> f c v = Ok c' -> S c') ->
  (forall c v, T c -> g c v = g' c v) -> (forall c v c', T c -> g c v = Ok c' -> T c') ->
  forall kvs a b, S a -> T b -> push_pairs f g a b kvs = push_pairs f' g' a b kvs.
Proof.
  intros H1 H2 H3 H4. induction kvs as [|[k v] kvs IH]; intros a b Ha Hb; [reflexivity|]. cbn [push_pairs].
  rewrite <- (H1 a k Ha). destruct (f a k) as [a'| |] eqn:E; try reflexivity. cbn [rbind].
  rewrite <- (H3 b v Hb). destruct (g b v) as [b'| |] eqn:E'; try reflexivity. cbn [rbind]. apply IH; eauto.
Qed.

Lemma push_shape s1 : forall c v s2, similar s1 c -> similar s2 c -> push_as s1 c v = push_as s2 c v.
Proof.
  assert (forall s c v, leaf c = true -> push_as s c v = push_as (CVec U8 []) c v) as L.
  { intros s c v Hl. destruct c; try discriminate Hl; destruct s; reflexivity. }
  induction s1; intros c v s2 H1 H2; (destruct (leaf c) eqn:Lc; [rewrite (L _ c v Lc), (L s2 c v Lc); reflexivity|]);
    destruct c; try discriminate Lc; try contradiction H1; destruct s2; try contradiction H2;
    cbn [similar push_as] in *.
  - destruct v; rewrite (IHs1 _ _ s2) by assumption; reflexivity.
  - destruct v; try reflexivity.
    rewrite (push_each_shape (push_as s1) (push_as s2) (fun c => similar s1 c /\ similar s2 c)); auto.
    + intros c0 v0 [? ?]. apply IHs1; assumption.
    + intros c0 v0 c' [? ?] E. apply push_alike in E. destruct E as [E _]. auto.
  - destruct v; try reflexivity. destruct H1, H2.
    rewrite (push_pairs_shape (push_as s1_1) (push_as s1_2) (push_as s2_1) (push_as s2_2)
              (fun c => similar s1_1 c /\ similar s2_1 c) (fun c => similar s1_2 c /\ similar s2_2 c)); auto.
    + intros c0 v0 [? ?]. apply IHs1_1; assumption.
    + intros c0 v0 c' [? ?] E. apply push_alike in E. destruct E as [E _]. auto.
    + intros c0 v0 [? ?]. apply IHs1_2; assumption.
    + intros c0 v0 c' [? ?] E. apply push_alike in E. destruct E as [E _]. auto.
  - rewrite (IHs1 _ _ s2) by assumption. reflexivity.
  - rewrite (IHs1 _ _ s2) by assumption. reflexivity.
Qed.

(** The equations of [push] as the code has them. *)
Lemma push_each_push s c vs : similar s c -> push_each (push_as s) c vs = push_each push c vs.
Proof.
  intros H. apply (push_each_shape _ _ (similar s)); [| |exact H].
  - intros c0 v H0. apply push_shape; [exact H0|apply similar_refl].
  - intros c0 v c' H0 E. apply push_alike in E. destruct E as [E _]. auto.
Qed.

Lemma push_array inner offs t vs : push (CArray inner offs) (VArray t vs) =
  do i <- push_each push inner vs; Ok (CArray i (offs ++ [last offs 0 + lenN vs]%N)).
Proof. unfold push at 1. cbn [push_as]. rewrite (push_each_push inner inner) by apply similar_refl. reflexivity. Qed.

Lemma push_nullable inner nulls v : push (CNullable inner nulls) v =
  match v with
  | VNull t => do i <- push inner (value_default t); Ok (CNullable i (nulls ++ [1%N]))
  | VSome x => do i <- push inner x; Ok (CNullable i (nulls ++ [0%N]))
  | _ => do i <- push inner v; Ok (CNullable i (nulls ++ [0%N]))
  end.
Proof. unfold push. cbn [push_as]. reflexivity. Qed.

Lemma push_all c vs ws : wf c -> mapO (reads_as c) vs = Some ws -> (low_rows c + weights vs < 2 ^ 64)%N ->
  exists c', push_each push c vs = Ok c' /\ step c (weights vs) ws c'.
Proof.
  intros Hw Hr Hb. rewrite <- (push_each_push c c) by apply similar_refl.
  apply pushes_each; auto using push_step, similar_refl.
Qed.

Lemma from_type_wf t tz : forall c, from_type t tz = Ok c -> no_empty_rows t ->
  wf c /\ clen c = Ok 0 /\ low_rows c = 0%N.
Proof.
  induction t; intros c H Hn; cbn [from_type no_empty_rows] in *;
    try (injection H as <-; cbn [wf clen low_rows]; auto; fail).
  - injection H as <-. cbn [wf clen low_rows]. destruct (N.eqb_spec n 0); [contradiction|].
    rewrite Nat.mod_0_l, Nat.div_0_l by lia. auto.
  - destruct d; injection H as <-; cbn; auto.
  - inv_do H. injection H as <-. destruct (IHt _ E Hn) as (A & B & C). cbn [wf clen low_rows length].
    rewrite B. auto.
  - inv_do H. injection H as <-. destruct (IHt _ E Hn) as (A & B & C). cbn [wf clen low_rows length last climbs]. auto.
  - inv_do H. injection H as <-. destruct (IHt _ E Hn) as (A & B & C). cbn [wf clen low_rows length].
    split; [|split; [reflexivity|rewrite C; reflexivity]]. split; [exact A|]. exists 0. unfold lenN. cbn [length].
    repeat split; auto; [lia|apply N.le_0_l].
  - inv_do H. injection H as <-. cbn; auto.
  - inv_do H. injection H as <-. destruct (IHt _ E Hn) as (A & B & C). cbn [wf clen low_rows]. auto.
  - inv_do H. inv_do H. injection H as <-. destruct Hn as [Hn1 Hn2].
    destruct (IHt1 _ E Hn1) as (A & B & C). destruct (IHt2 _ E0 Hn2) as (A' & B' & C').
    cbn [wf clen low_rows length last climbs]. rewrite C, C'. repeat split; auto.
Qed.

Lemma step_holds c k ws c' vs : step c k ws c' -> holds c vs -> holds c' (vs ++ ws).
Proof.
  intros [A1 A2 A3 A4 A5 (n & B1 & B2 & B3 & B4) A7] [H1 H2]. rewrite H1 in B1. injection B1 as <-.
  split; [rewrite app_length; exact B2|]. intros i v Hi.
  destruct (Nat.lt_ge_cases i (length vs)) as [L|L].
  - rewrite nth_error_app1 in Hi by exact L. rewrite B3 by exact L. apply H2, Hi.
  - rewrite nth_error_app2 in Hi by exact L. replace i with (length vs + (i - length vs)) by lia. apply B4, Hi.
Qed.

Lemma holds_empty c : clen c = Ok 0 -> holds c [].
Proof. intros H. split; [exact H|]. intros [|i] v; discriminate. Qed.

(** The dictionary of a column built from empty has each value appended once. *)
Definition one_zone (c : col) : Prop := forall s s' z z',
  low_key c (VDateTime s z) = true -> low_key c (VDateTime s' z') = true -> z = z'.

Lemma key_eq_same i a b : one_zone i -> low_key i a = true -> low_key i b = true ->
  (key_eq a b = Ok true -> a = b) /\ key_eq a a = Ok true.
Proof.
  destruct i; try discriminate; destruct a; try discriminate; destruct b; try discriminate;
    cbn [low_key key_eq value_eq]; intros Hz Ha Hb.
  - destruct (scalar_eq_dec s s0) as [<-|]; [|rewrite andb_false_r in Ha; discriminate Ha].
    destruct (scalar_eq_dec s s1) as [<-|]; [|rewrite andb_false_r in Hb; discriminate Hb].
    destruct (scalar_eq_dec s s); [|congruence].
    split; [intros E; injection E as E; f_equal|f_equal];
      destruct s; try discriminate Ha; cbn in *; lia.
  - unfold bytes_eqb. destruct (bytes_eq_dec b0 b0); [|congruence]. split; [|reflexivity].
    destruct (bytes_eq_dec b0 b); [congruence|discriminate].
  - unfold bytes_eqb. destruct (bytes_eq_dec b0 b0); [|congruence]. split; [|reflexivity].
    destruct (bytes_eq_dec b0 b); [congruence|discriminate].
  - rewrite N.eqb_refl. split; [|reflexivity]. intros E. injection E as E. f_equal. lia.
  - rewrite N.eqb_refl. split; [|reflexivity]. intros E. injection E as E.
    rewrite (Hz 0%N 0%N tz0 tz1 eq_refl eq_refl). f_equal. lia.
  - rewrite N.eqb_refl. split; [|reflexivity]. intros E. injection E as E.
    rewrite (Hz 0%N 0%N tz0 tz1 Ha Hb). f_equal. lia.
Qed.

(** [c] was built by appending [vs]: its dictionary [ds] has the same values, each once. *)
Definition dict_of (c : col) (vs ds : list value) : Prop :=
  exists i ix idx vmap es, c = CLow i ix idx vmap /\ one_zone i /\
    match vmap with None => ds = [] /\ idx = [] | Some m => map fst m = ds end /\
    NoDup ds /\ (forall d, In d ds <-> In d vs) /\ Forall (fun d => low_key i d = true) ds /\
    mapO (reads_as i) ds = Some es /\ holds i es.

Lemma mapO_app {A B} (f : A -> option B) l l' r r' :
  mapO f l = Some r -> mapO f l' = Some r' -> mapO f (l ++ l') = Some (r ++ r').
Proof.
  revert r. induction l as [|x l IH]; intros r H1 H2; cbn in *.
  - injection H1 as <-. exact H2.
  - destruct (f x); [|discriminate]. destruct (mapO f l); [|discriminate]. injection H1 as <-.
    rewrite (IH l0 eq_refl H2). reflexivity.
Qed.

Lemma vmap_find_in m v j : vmap_find m v = Ok (Some j) -> exists k, In k (map fst m) /\ key_eq k v = Ok true.
Proof.
  induction m as [|[k x] m IH]; cbn [vmap_find map fst]; intros H; [discriminate H|].
  destruct (key_eq k v) as [[]| |] eqn:E; try discriminate H.
  - exists k. split; [left; reflexivity|exact E].
  - cbn in H. destruct (IH H) as (k' & H1 & H2). exists k'. split; [right; exact H1|exact H2].
Qed.


Lemma dict_push c vs ds v w : wf c -> dict_of c vs ds -> reads_as c v = Some w -> (low_rows c + 1 < 2 ^ 64)%N ->
  exists c' ds', push c v = Ok c' /\ dict_of c' (vs ++ [v]) ds'.
Proof.
  intros Hw (i & ix & idx & vmap & es & -> & Hz & Hm & Hnd & Hin & Hlow & Hes & Hh) Hr Hb.
  cbn [wf] in Hw. destruct Hw as (Hw & n & Hn & Hi & Hd & Hx & Hm').
  cbn [reads_as] in Hr. destruct (low_key i v) eqn:Hk; [|discriminate Hr].
  cbn [low_rows] in Hb.
  assert (exists m, match vmap with Some m => Ok m | None => value_map_loop (at_ i) idx [] end = Ok m /\
                    table_ok i n m /\ map fst m = ds) as (m & Em & Tm & Dm).
  { destruct vmap as [m|]; [exists m; auto|]. destruct Hm as [-> ->].
    exists []. split; [reflexivity|]. split; [constructor|reflexivity]. }
  unfold push. cbn [push_as]. rewrite Em. cbn [rbind].
  destruct (vmap_get_ok i n m v Tm Hk) as (g & Eg & Hg). rewrite Eg. cbn [rbind].
  destruct g as [j|].
  - destruct Hg as (Hj & w' & W1 & W2).
    destruct (ix_push_ok ix idx j ltac:(lia) ltac:(lia) ltac:(lia)) as (ix' & -> & Hix & Hmx).
    cbn [rbind fst snd]. do 2 eexists; split; [reflexivity|].
    exists i, ix', (idx ++ [j]), (Some m), es. split; [reflexivity|]. split; [exact Hz|]. split; [exact Dm|].
    split; [exact Hnd|]. split; [|auto].
    assert (In v ds) as Hv.
    { assert (vmap_find m v = Ok (Some j)) as F.
      { destruct m as [|x m]; [discriminate Eg|]. unfold vmap_get in Eg.
        rewrite (low_hashable _ _ Hk) in Eg. exact Eg. }
      destruct (vmap_find_in _ _ _ F) as (k & K1 & K2). rewrite Dm in K1.
      rewrite Forall_forall in Hlow.
      rewrite <- (proj1 (key_eq_same i k v Hz (Hlow k K1) Hk) K2). exact K1. }
    intros d. rewrite Hin, in_app_iff. split; [auto|]. intros [H|[<-|[]]]; [exact H|]. apply Hin, Hv.
  - rewrite Hn. cbn [rbind].
    destruct (push_step i i v w (similar_refl i) Hw Hr) as (i' & E & S); [rewrite (low_weight _ _ Hk); lia|].
    rewrite E. cbn [rbind]. unfold vmap_insert. rewrite (low_hashable _ _ Hk), vmap_put_new by exact Hg.
    cbn [rbind]. destruct (ix_push_ok ix idx (N.of_nat n) Hd Hx ltac:(lia)) as (ix' & -> & Hix & Hmx).
    cbn [rbind fst snd]. do 2 eexists; split; [reflexivity|].
    exists i', ix', (idx ++ [N.of_nat n]), (Some (m ++ [(v, N.of_nat n)])), (es ++ [w]).
    split; [reflexivity|]. split.
    { intros s s' z z' H1 H2. rewrite (st_low _ _ _ _ S) in H1, H2. eapply Hz; eassumption. }
    rewrite map_app, Dm. cbn [map fst]. split; [reflexivity|].
    assert (~ In v ds) as Hnv.
    { intros Hv. rewrite <- Dm in Hv. apply in_map_iff in Hv. destruct Hv as ([k x] & <- & Hv).
      unfold unlike in Hg. rewrite Forall_forall in Hg. specialize (Hg _ Hv). cbn [fst] in Hg, Hk.
      destruct (key_eq_same i k k Hz Hk Hk) as [_ K]. congruence. }
    split.
    {
      rewrite <- (rev_involutive (ds ++ [v])). apply NoDup_rev. rewrite rev_app_distr. cbn.
      constructor; [rewrite <- in_rev; exact Hnv|apply NoDup_rev, Hnd]. }
    split.
    { intros d. rewrite !in_app_iff, Hin. reflexivity. }
    split.
    { apply Forall_app. split; [|constructor; [rewrite (st_low _ _ _ _ S); exact Hk|constructor]].
      eapply Forall_impl; [|exact Hlow]. intros a Ha. rewrite (st_low _ _ _ _ S). exact Ha. }
    split.
    { apply mapO_app; [rewrite <- Hes; apply mapO_ext, (st_reads _ _ _ _ S)|].
      cbn [mapO]. rewrite (st_reads _ _ _ _ S), Hr. reflexivity. }
    apply (step_holds _ _ _ _ _ S Hh).
Qed.

Lemma dict_all vs : forall c us ds ws, wf c -> dict_of c us ds -> mapO (reads_as c) vs = Some ws ->
  (low_rows c + weights vs < 2 ^ 64)%N ->
  exists c' ds', push_each push c vs = Ok c' /\ dict_of c' (us ++ vs) ds'.
Proof.
  induction vs as [|v vs IH]; intros c us ds ws Hw Hd Hr Hb; cbn [mapO] in Hr.
  - exists c, ds. rewrite app_nil_r. auto.
  - destruct (reads_as c v) as [w|] eqn:Ev; [|discriminate Hr].
    destruct (mapO (reads_as c) vs) as [ws'|] eqn:Evs; [|discriminate Hr].
    assert (weight v = 1%N) as Hv.
    { destruct Hd as (i & ix & idx & vmap & es & -> & _). cbn [reads_as] in Ev.
      destruct (low_key i v) eqn:Hk; [|discriminate Ev]. eapply low_weight, Hk. }
    cbn [weights fold_right] in Hb. fold (weights vs) in Hb.
    destruct (dict_push c us ds v w Hw Hd Ev ltac:(lia)) as (c1 & ds1 & E1 & D1).
    destruct (push_step c c v w (similar_refl c) Hw Ev ltac:(lia)) as (c1' & E1' & S1).
    unfold push in E1. rewrite E1' in E1. injection E1 as ->.
    cbn [push_each]. unfold push at 1. rewrite E1'. cbn [rbind].
    destruct (IH c1 (us ++ [v]) ds1 ws') as (c2 & ds2 & E2 & D2).
    + apply S1.
    + exact D1.
    + rewrite <- Evs. apply mapO_ext, (st_reads _ _ _ _ S1).
    + pose proof (st_rows _ _ _ _ S1). lia.
    + exists c2, ds2. split; [exact E2|]. rewrite <- app_assoc in D2. exact D2.
Qed.
