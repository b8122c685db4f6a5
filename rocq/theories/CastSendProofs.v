(** What a table receives from converted columns: proofs. *)
From Verif Require Import Base Bytes Reader Wire Types Text TypeNames Decimal DateTime Values Columns Casts.
From Verif Require Import SpecColumns SpecTypes SpecCasts ReaderProofs WireProofs PushProofs TypeNamesProofs LoadTypeProofs SendProofs RangeProofs ColumnFromProofs CastProofs.
Open Scope nat_scope.

Lemma mapO_Forall2 {A B} (f : A -> option B) l l' : mapO f l = Some l' <-> Forall2 (fun x y => f x = Some y) l l'.
Proof.
  split.
  - revert l'. induction l as [|x l IH]; intros l' H; cbn [mapO] in H; [injection H as <-; constructor|].
    destruct (f x) eqn:E; [|discriminate]. destruct (mapO f l); [|discriminate]. injection H as <-. constructor; auto.
  - induction 1 as [|x y l l' H _ IH]; [reflexivity|]. cbn [mapO]. rewrite H, IH. reflexivity.
Qed.
Lemma F2_sub {A B} (R : A -> B -> Prop) l l' a b : Forall2 R l l' -> Forall2 R (sub l a b) (sub l' a b).
Proof.
  intros H. unfold sub. generalize (b - a). clear b. revert a. induction H as [|x y l l' H HF IH]; intros a n.
  - rewrite !skipn_nil, !firstn_nil. constructor.
  - destruct a; [|apply IH]. cbn [skipn]. destruct n; cbn [firstn]; constructor; auto. apply (IH 0 n).
Qed.
Lemma F2_length {A B} (R : A -> B -> Prop) l l' : Forall2 R l l' -> length l = length l'.
Proof. induction 1; cbn; congruence. Qed.
Lemma F2_mapM {A B C} (R : A -> B -> Prop) (f : A -> res C) (g : B -> C) l l' : Forall2 R l l' ->
  (forall x y, R x y -> f x = Ok (g y)) -> mapM f l = Ok (map g l').
Proof. intros H E. induction H as [|x y l l' H _ IH]; [reflexivity|]. cbn [mapM map]. rewrite (E x y H), IH. reflexivity. Qed.
Lemma nth_sub {A} (l : list A) a b i x : nth_error (sub l a b) i = Some x -> nth_error l (a + i) = Some x /\ i < b - a.
Proof.
  unfold sub. intros H. assert (i < b - a) as L.
  { apply Nat.nle_gt. intros L. assert (nth_error (firstn (b - a) (skipn a l)) i <> None) as N by congruence.
    apply nth_error_Some in N. rewrite firstn_length in N. lia. }
  rewrite nth_error_firstn in H by exact L. rewrite nth_error_skipn in H. auto.
Qed.
Lemma rows_holds c vs a b : holds c vs -> a <= b <= length vs -> rows (at_ c) a b = Ok (sub vs a b).
Proof.
  intros [_ H] L. unfold rows, sub. rewrite <- (mapM_index vs (b - a) a) by lia. apply mapM_ext. intros i Hi. apply in_seq in Hi.
  unfold index, or_panic. destruct (nth_error vs i) eqn:E; [apply H, E|]. apply nth_error_None in E. lia.
Qed.
Lemma sub_all {A} (l : list A) a b : a <= b <= length l -> lenN (sub l a b) = N.of_nat (b - a).
Proof. intros H. unfold lenN. rewrite sub_length by lia. reflexivity. Qed.

Lemma load_fuel fuel t : enough fuel t -> exists f, fuel = S f.
Proof. unfold enough. destruct fuel; [lia|eauto]. Qed.

(** Null marks before the contents. *)
Definition put_null (t : sqltype) (m : N) (v : value) : value := if (m =? 1)%N then VNull t else VSome v.
Fixpoint zip_with {A B C} (f : A -> B -> C) (l : list A) (k : list B) : list C :=
  match l, k with x :: l', y :: k' => f x y :: zip_with f l' k' | _, _ => [] end.
Lemma zip_length {A B C} (f : A -> B -> C) l k : length l = length k -> length (zip_with f l k) = length l.
Proof. revert k. induction l as [|x l IH]; intros [|y k] H; try discriminate; [reflexivity|]. cbn. f_equal. apply IH. cbn in H. lia. Qed.
Lemma zip_nth {A B C} (f : A -> B -> C) l k i z : nth_error (zip_with f l k) i = Some z ->
  exists x y, nth_error l i = Some x /\ nth_error k i = Some y /\ z = f x y.
Proof.
  revert l k. induction i as [|i IH]; intros [|x l] [|y k] H; try discriminate.
  - injection H as <-. cbn. eauto.
  - apply IH in H. exact H.
Qed.

Section Receive.
Variable tz_known : bytes -> bool.
Variable tz : bytes.

(** Bytes that a reader of type [t] takes for the cells [ws]. *)
Definition received (t : sqltype) (ws : list value) (bs : bytes) : Prop :=
  exists d, ctype d = t /\ holds d ws /\
    forall fuel r, enough fuel t -> run (load_data tz_known fuel (type_name t) (lenN ws) tz) (bs ++ r) = Ok (d, r).

Ltac load_step :=
  match goal with F : enough ?fuel ?t |- context [load_data _ ?fuel] =>
    let f := fresh "f" in destruct (load_fuel _ _ F) as [f ->];
    cbn [load_data]; rewrite (classify_name tz_known) by assumption; cbn [lift pbind kind_of] end.

Lemma recv_list {A} s (enc : A -> Z) (dec : Z -> A) (mk : list A -> col) (g : A -> value) t l :
  (forall l', clen (mk l') = Ok (length l')) -> (forall l', ctype (mk l') = t) ->
  (forall l' i, at_ (mk l') i = do x <- index l' i; Ok (g x)) ->
  (forall x, dec (enc x) = x) -> Forall (fun x => scalar_ok s (enc x) = true) l ->
  (lenN l * N.of_nat (width s) <= isize_max)%N ->
  (forall fuel n r, enough fuel t -> run (load_data tz_known fuel (type_name t) n tz) r =
      run (let! l := read_vec s n in Ret (mk (map dec l))) r) ->
  received t (map g l) (image s (map enc l)).
Proof.
  intros Hl Ht Ha Hd Hs Hb Hr. exists (mk l). split; [apply Ht|]. split; [apply holds_list; assumption|].
  intros fuel r F. rewrite Hr by exact F. rewrite run_bind, run_read_vec.
  - cbn [run]. rewrite map_map. rewrite (map_ext _ (fun x => x)), map_id by exact Hd. reflexivity.
  - apply Forall_map, Hs.
  - unfold lenN. rewrite !map_length. reflexivity.
  - unfold lenN in *. rewrite map_length. lia.
Qed.

Lemma recv_decimal p s nb l : nameable tz_known (TDecimal p s) -> from_precision p = Some nb ->
  Forall (fun z => scalar_ok (nb_scalar nb) z = true) l -> (8 * lenN l <= isize_max)%N ->
  received (TDecimal p s) (map (fun z => VDecimal (mk_decimal z nb p s)) l) (image (nb_scalar nb) l).
Proof.
  intros N Hp H B. rewrite <- (map_id l) at 2.
  apply (recv_list (nb_scalar nb) (fun z => z) (fun z => z) (fun l => CDecimal l p s nb)); auto.
  - destruct nb; cbn; lia.
  - intros fuel n r F. load_step.
    assert ((if (p <=? 9)%N then N32 else N64) = nb) as ->.
    { cbn [nameable] in N. unfold from_precision in Hp.
      destruct (N.leb_spec p 9); repeat match goal with H : (if ?b then _ else _) = _ |- _ => destruct b eqn:?; try discriminate end;
        try (injection Hp as <-); try reflexivity; lia. }
    rewrite !run_bind. destruct (run (read_vec (nb_scalar nb) n) r) as [[x y]|e|q]; try reflexivity.
    rewrite map_id. reflexivity.
Qed.
Lemma recv_enum8 vals l : nameable tz_known (TEnum8 vals) -> Forall (fun z => scalar_ok I8 z = true) l -> (lenN l <= isize_max)%N ->
  received (TEnum8 vals) (map (VEnum8 vals) l) (image I8 l).
Proof.
  intros N H B. rewrite <- (map_id l) at 2. apply (recv_list I8 (fun z => z) (fun z => z) (CEnum8 vals)); auto.
  - change (N.of_nat (width I8)) with 1%N. lia.
  - intros fuel n r F. load_step. rewrite !run_bind. destruct (run (read_vec I8 n) r) as [[x y]|e|p]; try reflexivity.
    rewrite map_id. reflexivity.
Qed.
Lemma recv_enum16 vals l : nameable tz_known (TEnum16 vals) -> Forall (fun z => scalar_ok I16 z = true) l -> (2 * lenN l <= isize_max)%N ->
  received (TEnum16 vals) (map (VEnum16 vals) l) (image I16 l).
Proof.
  intros N H B. rewrite <- (map_id l) at 2. apply (recv_list I16 (fun z => z) (fun z => z) (CEnum16 vals)); auto.
  - change (N.of_nat (width I16)) with 2%N. lia.
  - intros fuel n r F. load_step. rewrite !run_bind. destruct (run (read_vec I16 n) r) as [[x y]|e|p]; try reflexivity.
    rewrite map_id. reflexivity.
Qed.
Lemma recv_datetime l : Forall (fun d => d < 2 ^ 32)%N l -> (4 * lenN l <= isize_max)%N ->
  received (TDateTime DateTime32) (map (fun s => VDateTime s tz) l) (image U32 (map Z.of_N l)).
Proof.
  intros H B. assert (nameable tz_known (TDateTime DateTime32)) as N by exact I.
  apply (recv_list U32 Z.of_N Z.to_N (fun l => CDateTime l tz)); auto.
  - intros x. apply N2Z.id.
  - eapply Forall_impl; [|exact H]. intros x Hx. cbn beta in Hx. apply scalar_u_ok; [reflexivity|discriminate|].
    change (2 ^ (8 * Z.of_nat (width U32)))%Z with (Z.of_N (2 ^ 32)). lia.
  - change (N.of_nat (width U32)) with 4%N. lia.
  - intros fuel n r F. load_step. reflexivity.
Qed.
Lemma recv_datetime64 p z l : nameable tz_known (TDateTime (DateTime64 p z)) ->
  Forall (fun x => scalar_ok I64 x = true) l -> (8 * lenN l <= isize_max)%N ->
  received (TDateTime (DateTime64 p z)) (map (fun x => VDateTime64 x p z) l) (image I64 l).
Proof.
  intros N H B. rewrite <- (map_id l) at 2.
  apply (recv_list I64 (fun z => z) (fun z => z) (fun l => CDateTime64 l p z)); auto.
  - change (N.of_nat (width I64)) with 8%N. lia.
  - intros fuel n r F. load_step. cbn [get_timezone]. cbn [nameable] in N. rewrite (proj2 (proj2 N)).
    cbn [pbind]. rewrite !run_bind. destruct (run (read_vec I64 n) r) as [[x y]|e|q]; try reflexivity. rewrite map_id. reflexivity.
Qed.
Lemma recv_string l : Forall (fun b => lenN b <= isize_max)%N l -> (80 * lenN l <= isize_max)%N ->
  exists parts, mapM enc_string l = Ok parts /\ received TString (map VString l) (concat parts).
Proof.
  intros H B. destruct (enc_strings l H) as (parts & E & R). exists parts. split; [exact E|].
  exists (CString l). split; [reflexivity|]. split; [apply holds_list; reflexivity|].
  intros fuel r F. assert (nameable tz_known TString) as N by exact I. load_step. rewrite run_bind, R; [reflexivity| |].
  - unfold lenN in *. rewrite map_length. exact B.
  - unfold lenN. rewrite map_length. lia.
Qed.

Lemma holds_fixed n (bs : list bytes) : n <> 0%N -> Forall (fun b => length b = N.to_nat n) bs ->
  holds (CFixed n (concat bs)) (map VString bs).
Proof.
  intros H0 F. pose proof (concat_length _ _ F) as L. split.
  - cbn [clen]. destruct (N.eqb_spec n 0); [contradiction|]. rewrite L, map_length, Nat.div_mul by lia. reflexivity.
  - intros i v Hi. rewrite nth_error_map in Hi. destruct (nth_error bs i) as [b|] eqn:E; [|discriminate]. injection Hi as <-.
    cbn [at_]. set (w := N.to_nat n) in *. assert (cut (concat bs) (i * w) (i * w + w) = Ok b) as ->; [|reflexivity].
    clear H0 L. clearbody w. clear n. revert i E. induction F as [|x bs Hx F IH]; intros i E; [destruct i; discriminate|]. cbn [concat].
    destruct i as [|i].
    + injection E as <-. cbn [Nat.mul Nat.add]. rewrite cut_app1 by lia. rewrite cut_ok by lia.
      unfold sub. cbn [skipn]. rewrite firstn_all2 by lia. reflexivity.
    + specialize (IH i E). pose proof (concat_length _ _ F) as L2.
      assert (i < length bs) as Li by (apply nth_error_Some; change (nth_error bs i = Some b) in E; rewrite E; discriminate).
      rewrite cut_ok in IH |- * by (rewrite ?app_length; nia). rewrite <- IH. f_equal. unfold sub.
      replace (S i * w) with (length x + i * w) by lia. rewrite <- skipn_add, skipn_app, skipn_all, Nat.sub_diag.
      cbn [app skipn]. f_equal. lia.
Qed.
Lemma recv_fixed n (bs : list bytes) : n <> 0%N -> (n < 2 ^ 64)%N -> Forall (fun b => length b = N.to_nat n) bs ->
  (lenN bs * n <= isize_max)%N -> received (TFixedString n) (map VString bs) (concat bs).
Proof.
  intros H0 Hn F B. pose proof (concat_length _ _ F) as L. assert (nameable tz_known (TFixedString n)) as N by exact Hn.
  exists (CFixed n (concat bs)). split; [reflexivity|]. split; [apply holds_fixed; assumption|].
  intros fuel r E. load_step. unfold lenN in *. rewrite map_length.
  rewrite run_bind, run_mul_usize by (pose proof isize_lt; lia). rewrite run_bind, run_alloc by lia.
  rewrite run_bind. destruct (run_fixed_rows n (N.of_nat (length bs)) (concat bs) r) as (rs & R & C).
  { rewrite L, Nat2N.id. reflexivity. }
  rewrite R, C. reflexivity.
Qed.

Lemma recv_nullable t marks ws bs : nameable tz_known (TNullable t) -> length marks = length ws -> (lenN ws <= isize_max)%N ->
  received t ws bs -> received (TNullable t) (zip_with (put_null t) marks ws) (marks ++ bs).
Proof.
  intros N L B (d & T & [HL HA] & R). exists (CNullable d marks). split; [cbn; congruence|]. split.
  - split; [cbn; rewrite HL; cbn; rewrite <- L, Nat.eqb_refl, zip_length by exact L; reflexivity|].
    intros i v Hi. destruct (zip_nth _ _ _ _ _ Hi) as (m & w & E1 & E2 & ->). cbn [at_]. unfold index. rewrite E1. cbn [or_panic rbind].
    unfold put_null. rewrite (HA _ _ E2), T. destruct (m =? 1)%N; reflexivity.
  - intros fuel r F. unfold lenN. rewrite zip_length by exact L. rewrite L. load_step.
    rewrite run_bind, run_alloc by exact B. cbv beta iota. rewrite <- app_assoc.
    rewrite run_get by (unfold lenN; lia). rewrite run_bind, R by (apply enough_nullable, F). reflexivity.
Qed.
End Receive.
