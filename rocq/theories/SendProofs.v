(** What a column writes is read back as the same column. *)
From Verif Require Import Base Bytes Reader Wire Types Text TypeNames Decimal DateTime Values Columns.
From Verif Require Import SpecColumns SpecTypes ReaderProofs WireProofs PushProofs TypeNamesProofs LoadTypeProofs.
From Verif Require Iter SpecIter.
Open Scope nat_scope.

(** ** Slices of lists *)
Definition sub {A} (l : list A) (a b : nat) : list A := firstn (b - a) (skipn a l).

Lemma cut_ok {A} (l : list A) a b : a <= b -> b <= length l -> cut l a b = Ok (sub l a b).
Proof.
  intros H H'. unfold cut, slice. destruct (Nat.leb_spec a b); [|lia].
  destruct (Nat.leb_spec b (length l)); [|lia]. reflexivity.
Qed.
Lemma sub_length {A} (l : list A) a b : b <= length l -> length (sub l a b) = b - a.
Proof. intros H. unfold sub. rewrite firstn_length, skipn_length. lia. Qed.
Lemma sub_lenN {A} (l : list A) a b : a <= b -> b <= length l -> (lenN (sub l a b) <= lenN l)%N.
Proof. intros H H'. unfold lenN. rewrite sub_length by lia. lia. Qed.
Lemma sub_Forall {A} (P : A -> Prop) l a b : Forall P l -> Forall P (sub l a b).
Proof.
  intros H. unfold sub. rewrite Forall_forall in *. intros x Hx. apply H.
  rewrite <- (firstn_skipn a l). apply in_or_app. right.
  rewrite <- (firstn_skipn (b - a) (skipn a l)). apply in_or_app. left. exact Hx.
Qed.

Lemma nth_error_skipn {A} (l : list A) a i : nth_error (skipn a l) i = nth_error l (a + i).
Proof. revert l. induction a as [|a IH]; intros l; [reflexivity|]. destruct l; [destruct i; reflexivity|]. apply IH. Qed.
Lemma nth_error_firstn {A} (l : list A) n i : i < n -> nth_error (firstn n l) i = nth_error l i.
Proof.
  revert l i. induction n as [|n IH]; intros l i H; [lia|]. destruct l; [reflexivity|].
  destruct i; [reflexivity|]. exact (IH l i ltac:(lia)).
Qed.

Lemma index_sub {A} (l : list A) a b i : i < b - a -> index (sub l a b) i = index l (a + i).
Proof. intros H. unfold index, sub. rewrite nth_error_firstn by exact H. rewrite nth_error_skipn. reflexivity. Qed.

Lemma skipn_add {A} (l : list A) a b : skipn a (skipn b l) = skipn (b + a) l.
Proof. revert l. induction b as [|b IH]; intros l; [reflexivity|]. destruct l; [destruct a; reflexivity|]. apply IH. Qed.

Lemma cut_sub {A} (l : list A) a b x y : a <= b -> b <= length l -> x <= y -> y <= b - a ->
  cut (sub l a b) x y = cut l (a + x) (a + y).
Proof.
  intros H1 H2 H3 H4. rewrite !cut_ok by (rewrite ?sub_length; lia). f_equal. unfold sub.
  rewrite skipn_firstn_comm, skipn_add, firstn_firstn. f_equal. lia.
Qed.

(** ** Vectors *)
Lemma raw_marshal s z : scalar_ok s z = true -> raw_scalar s (marshal s z) = z.
Proof.
  intros H. destruct s; try (apply unmarshal_marshal; exact H).
  cbn in H. assert (z = 0 \/ z = 1)%Z as [-> | ->] by lia; reflexivity.
Qed.

Lemma image_length s l : length (image s l) = length l * width s.
Proof.
  unfold image. induction l as [|z l IH]; [reflexivity|]. cbn [map concat]. rewrite app_length, IH, marshal_length.
  cbn [length]. lia.
Qed.

Lemma chunks_image s l : Forall (fun z => scalar_ok s z = true) l ->
  map (raw_scalar s) (chunks (width s) (length l) (image s l)) = l.
Proof.
  intros H. induction H as [|z l Hz Hl IH]; [reflexivity|]. cbn [length chunks].
  unfold image. cbn [map concat]. fold (image s l).
  rewrite firstn_app, (firstn_all2 (marshal s z)), marshal_length, Nat.sub_diag, firstn_O, app_nil_r
    by (rewrite marshal_length; lia).
  rewrite skipn_app, (skipn_all2 (marshal s z)), marshal_length, Nat.sub_diag by (rewrite marshal_length; lia).
  cbn [app skipn map]. rewrite raw_marshal by exact Hz. f_equal. exact IH.
Qed.

Lemma run_read_vec s l n r : Forall (fun z => scalar_ok s z = true) l -> n = lenN l ->
  (lenN l * N.of_nat (width s) <= isize_max)%N ->
  run (read_vec s n) (image s l ++ r) = Ok (l, r).
Proof.
  intros H -> B. unfold read_vec. rewrite run_bind, run_alloc by exact B. cbv beta iota.
  rewrite run_get.
  - cbn [run]. unfold lenN. rewrite Nat2N.id, chunks_image by exact H. reflexivity.
  - unfold lenN. rewrite image_length. lia.
Qed.

Lemma to_of_N l : map Z.to_N (map Z.of_N l) = l.
Proof. rewrite map_map. rewrite <- (map_id l) at 2. apply map_ext. intros x. apply N2Z.id. Qed.

Lemma run_read_vecN s (l : list N) n r :
  Forall (fun x => scalar_ok s (Z.of_N x) = true) l -> n = lenN l ->
  (lenN l * N.of_nat (width s) <= isize_max)%N ->
  run (read_vec s n) (image s (map Z.of_N l) ++ r) = Ok (map Z.of_N l, r).
Proof.
  intros H E B. apply run_read_vec.
  - apply Forall_map. exact H.
  - unfold lenN. rewrite map_length. exact E.
  - unfold lenN. rewrite map_length. exact B.
Qed.

Lemma image_u64 l : concat (map put_u64 l) = image U64 (map Z.of_N l).
Proof. unfold image. rewrite map_map. reflexivity. Qed.

(** ** Flat buffers *)
Lemma chunks_concat w n (l : bytes) : length l = n * w -> concat (chunks w n l) = l.
Proof.
  revert l. induction n as [|n IH]; intros l H; [destruct l; [reflexivity|discriminate]|].
  cbn [chunks concat]. rewrite IH by (rewrite skipn_length; lia). apply firstn_skipn.
Qed.
Lemma chunks_each w n (l : bytes) : length l = n * w -> Forall (fun x => length x = w) (chunks w n l).
Proof.
  revert l. induction n as [|n IH]; intros l H; constructor.
  - rewrite firstn_length. lia.
  - apply IH. rewrite skipn_length. lia.
Qed.
Lemma chunks_length w n l : length (chunks w n l) = n.
Proof. revert l. induction n as [|n IH]; intros l; [reflexivity|]. cbn. rewrite IH. reflexivity. Qed.

Lemma run_fixed_rows w n (buf : bytes) r : length buf = N.to_nat n * N.to_nat w ->
  exists rows, run (prepeatN n (Get w (fun l => Ret l))) (buf ++ r) = Ok (rows, r) /\ concat rows = buf.
Proof.
  intros H. exists (chunks (N.to_nat w) (N.to_nat n) buf). pose proof (chunks_concat _ _ _ H) as C. split; [|exact C].
  rewrite <- C at 1. rewrite <- (map_id (chunks _ _ _)) at 1. apply run_prepeatN.
  - rewrite chunks_length. reflexivity.
  - intros x r' Hx. pose proof (chunks_each _ _ _ H) as F. rewrite Forall_forall in F. specialize (F x Hx).
    rewrite run_get; [reflexivity|]. unfold lenN. lia.
Qed.

Lemma run_mul_usize a b s : (a * b < 2 ^ 64)%N -> run (mul_usize a b) s = Ok ((a * b)%N, s).
Proof. intros H. unfold mul_usize. destruct (N.ltb_spec (a * b) (2 ^ 64))%N; [reflexivity|lia]. Qed.

(** ** Strings *)
Lemma enc_strings (l : list bytes) : Forall (fun b => lenN b <= isize_max)%N l ->
  exists parts, mapM enc_string l = Ok parts /\
    forall n r, (80 * n <= isize_max)%N -> N.to_nat n = length l ->
      run (read_strings n) (concat parts ++ r) = Ok (l, r).
Proof.
  intros H.
  assert (exists enc, forall b, In b l -> enc_string b = Ok (enc b) /\
    forall n r, (80 * n <= isize_max)%N ->
      run (let! k := read_uvarint in let! m := mul_usize n 80 in let! _ := alloc (N.max m k) in
           Get k (fun x => Ret x)) (enc b ++ r) = Ok (b, r)) as (enc & E).
  { exists (fun b => match enc_string b with Ok e => e | _ => [] end). intros b Hb.
    rewrite Forall_forall in H. specialize (H b Hb).
    destruct (enc_string_ok b) as (l0 & _ & E & R); [pose proof isize_lt; lia|]. rewrite E.
    split; [reflexivity|]. intros n r Hn. rewrite <- app_assoc, run_bind, R. cbn.
    rewrite run_bind, run_mul_usize by (pose proof isize_lt; lia). rewrite run_bind, run_alloc by lia.
    cbv beta iota. rewrite run_get by reflexivity. reflexivity. }
  exists (map enc l). split.
  - clear H. induction l as [|b l IH]; [reflexivity|]. cbn [mapM map].
    rewrite (proj1 (E b (or_introl eq_refl))). cbn [rbind]. rewrite IH; [reflexivity|].
    intros x Hx. apply E. right. exact Hx.
  - intros n r B L. unfold read_strings. rewrite run_bind, run_alloc by lia.
    apply run_prepeatN; [exact L|]. intros b r' Hb. apply (proj2 (E b Hb)). exact B.
Qed.

(** ** Maps *)
Lemma zoned_key tz k : value_ref_hashable k = true -> zoned tz k = k.
Proof. destruct k; try discriminate; reflexivity. Qed.

Definition zoned2 (tz : bytes) (kv : value * value) := (zoned tz (fst kv), zoned tz (snd kv)).

Lemma zoned_put tz k v m : value_ref_hashable k = true ->
  Forall (fun kv => value_ref_hashable (fst kv) = true) m ->
  vref_put (map (zoned2 tz) m) (zoned tz k) (zoned tz v) = rmap (map (zoned2 tz)) (vref_put m k v) /\
  (forall m', vref_put m k v = Ok m' -> Forall (fun kv => value_ref_hashable (fst kv) = true) m').
Proof.
  intros Hk. rewrite (zoned_key tz k Hk). induction 1 as [|[k' v'] m Hk' Hm [IH IH']].
  - split; [cbn; unfold zoned2; cbn; rewrite (zoned_key tz k Hk); reflexivity|].
    intros m' H. injection H as <-. constructor; [exact Hk|constructor].
  - cbn [map vref_put zoned2 fst snd] in *. rewrite (zoned_key tz k' Hk').
    destruct (vref_eq k' k) as [[|]|e|p]; cbn [rbind rmap]; split; try reflexivity; try discriminate.
    + cbn [map]. unfold zoned2 at 2. cbn [fst snd]. rewrite (zoned_key tz k' Hk'). reflexivity.
    + intros m' H. injection H as <-. constructor; [exact Hk'|exact Hm].
    + rewrite IH. destruct (vref_put m k v); cbn [rmap rbind map]; try reflexivity.
      unfold zoned2 at 2. cbn [fst snd]. rewrite (zoned_key tz k' Hk'). reflexivity.
    + intros m' H. destruct (vref_put m k v) as [x| |]; try discriminate. injection H as <-.
      constructor; [exact Hk'|]. apply IH'. reflexivity.
Qed.

Definition map_loop (f g : nat -> res value) :=
  fix loop (js : list nat) (m : list (value * value)) : res (list (value * value)) :=
    match js with
    | [] => Ok m
    | j :: js' => do k <- f j; do v <- g j; do m' <- vref_insert m k v; loop js' m'
    end.

Lemma zoned_hash tz k : value_ref_hashable (zoned tz k) = value_ref_hashable k.
Proof. destruct k; reflexivity. Qed.

Lemma zoned_loop tz (f g f' g' : nat -> res value) js :
  (forall j, In j js -> f' j = rmap (zoned tz) (f j)) ->
  (forall j, In j js -> g' j = rmap (zoned tz) (g j)) -> forall m,
  Forall (fun kv => value_ref_hashable (fst kv) = true) m ->
  map_loop f' g' js (map (zoned2 tz) m) = rmap (map (zoned2 tz)) (map_loop f g js m).
Proof.
  induction js as [|j js IH]; intros Hf Hg m Hm; [reflexivity|]. cbn [map_loop].
  rewrite Hf, Hg by (left; reflexivity).
  destruct (f j) as [k|e|p]; cbn [rmap rbind]; try reflexivity.
  destruct (g j) as [v|e|p]; cbn [rmap rbind]; try reflexivity.
  unfold vref_insert. rewrite zoned_hash. destruct (value_ref_hashable k) eqn:Hk; [|reflexivity].
  destruct (zoned_put tz k v m Hk Hm) as [-> H']. destruct (vref_put m k v) as [m'|e|p]; cbn [rmap rbind]; try reflexivity.
  apply IH; [intros i Hi; apply Hf; right; exact Hi|intros i Hi; apply Hg; right; exact Hi|]. apply H'. reflexivity.
Qed.

Lemma mapM_zoned tz (f f' : nat -> res value) js :
  (forall j, In j js -> f' j = rmap (zoned tz) (f j)) ->
  mapM f' js = rmap (map (zoned tz)) (mapM f js).
Proof.
  induction js as [|j js IH]; intros H; [reflexivity|]. cbn [mapM].
  rewrite H by (left; reflexivity). rewrite IH by (intros i Hi; apply H; right; exact Hi).
  destruct (f j); cbn [rmap rbind]; try reflexivity. destruct (mapM f js); reflexivity.
Qed.

(** ** Offsets *)
Lemma mapM_index {A} (l : list A) n a : a + n <= length l -> mapM (index l) (seq a n) = Ok (firstn n (skipn a l)).
Proof.
  revert a. induction n as [|n IH]; intros a H; [reflexivity|]. cbn [seq mapM].
  unfold index at 1. destruct (nth_error l a) as [x|] eqn:E; [|apply nth_error_None in E; lia].
  cbn [or_panic rbind]. rewrite IH by lia. cbn [rbind].
  assert (skipn a l = x :: skipn (S a) l) as ->; [|reflexivity].
  clear -E. revert l E. induction a as [|a IH]; intros l E; destruct l; try discriminate.
  - injection E as ->. reflexivity.
  - apply IH. exact E.
Qed.

Lemma climbs_firstn l n : forall a, climbs a l -> climbs a (firstn n l).
Proof.
  revert l. induction n as [|n IH]; intros l a H; [exact I|]. destruct l as [|b l]; [exact I|].
  destruct H as [H1 H2]. split; [exact H1|]. apply IH, H2.
Qed.

Lemma last_firstn_le l n : climbs 0 l -> (last (firstn n l) 0 <= last l 0)%N.
Proof.
  intros H. destruct (firstn n l) as [|x k] eqn:E using rev_ind; [cbn; lia|]. rewrite last_snoc.
  assert (In x l) as I0. { rewrite <- (firstn_skipn n l), E. apply in_or_app. left. apply in_or_app. right. left. reflexivity. }
  apply In_nth_error in I0. destruct I0 as [i Hi]. apply (climbs_nth l 0%N i x H Hi).
Qed.

Lemma offsets_bound l : climbs 0 l -> (last l 0 < 2 ^ 64)%N -> Forall (fun x => x < 2 ^ 64)%N l.
Proof.
  intros H B. apply Forall_forall. intros x Hx. apply In_nth_error in Hx. destruct Hx as [i Hi].
  pose proof (climbs_nth l 0%N i x H Hi). lia.
Qed.

Lemma row_bounds_firstn offs n i : i < n -> row_bounds (firstn n offs) i = row_bounds offs i.
Proof.
  intros H. unfold row_bounds, index. rewrite nth_error_firstn by exact H. destruct i; [reflexivity|].
  rewrite nth_error_firstn by lia. reflexivity.
Qed.

Lemma read_offsets_ok (offs : list N) n r : climbs 0 offs -> (last offs 0 < 2 ^ 64)%N ->
  (8 * lenN offs <= isize_max)%N -> n = lenN offs ->
  run (read_offsets n) (concat (map put_u64 offs) ++ r) = Ok ((offs, last offs 0%N), r).
Proof.
  intros C B L ->. unfold read_offsets. rewrite run_bind, image_u64, run_read_vecN.
  - cbn [run]. rewrite to_of_N. reflexivity.
  - eapply Forall_impl; [|apply (offsets_bound offs C B)]. intros x Hx. cbn beta in Hx.
    apply scalar_u_ok; [reflexivity|discriminate|]. change (2 ^ (8 * Z.of_nat (width U64)))%Z with (Z.of_N (2 ^ 64)). lia.
  - reflexivity.
  - change (N.of_nat (width U64)) with 8%N. lia.
Qed.

Lemma run_read_u64 n r : (n < 2 ^ 64)%N -> run read_u64 (put_u64 n ++ r) = Ok (n, r).
Proof.
  intros H. unfold read_u64, put_u64. rewrite run_bind, run_read_scalar.
  - cbn [run]. rewrite N2Z.id. reflexivity.
  - apply scalar_u_ok; [reflexivity|discriminate|]. change (2 ^ (8 * Z.of_nat (width U64)))%Z with (Z.of_N (2 ^ 64)). lia.
Qed.

(** ** Types of sound columns *)
Lemma plain_sound c : sound c -> plain_type (ctype c) = ctype c.
Proof.
  induction c; cbn [sound ctype plain_type]; intros H; try contradiction; try reflexivity.
  - destruct k; reflexivity.
  - rewrite IHc by tauto. reflexivity.
  - rewrite IHc by tauto. reflexivity.
  - rewrite IHc1, IHc2 by tauto. reflexivity.
  - rewrite IHc by tauto. reflexivity.
  - rewrite IHc by tauto. reflexivity.
  - tauto.
Qed.

Lemma sound_len c : sound c -> exists n, clen c = Ok n.
Proof.
  induction c; cbn [sound clen]; intros H; try contradiction; try (eexists; reflexivity).
  - destruct H as [H _]. destruct (N.eqb_spec n 0); [contradiction|]. eexists. reflexivity.
  - destruct H as (_ & -> & _). cbn. rewrite Nat.eqb_refl. eexists. reflexivity.
  - auto.
Qed.

Section Send.
Variable tz_known : bytes -> bool.
Variable tz : bytes.

(** What arrives can be iterated over if what was sent could. *)
Definition intact (c c' : col) : Prop :=
  (SpecIter.tidy c -> SpecIter.tidy c') /\ (forall d, SpecIter.lends d c -> SpecIter.lends d c') /\
  (Iter.has_accessor c = true -> Iter.has_accessor c' = true).

Definition sends (c : col) (n : nat) : Prop := forall a b, a <= b <= n -> a = 0 \/ flat c = true ->
  exists bs c', save c a b = Ok bs /\ (delivers tz c c' a (b - a) /\ intact c c') /\
    forall fuel r, enough fuel (ctype c) ->
      run (load_data tz_known fuel (type_name (ctype c)) (N.of_nat (b - a)) tz) (bs ++ r) = Ok (c', r).

(** A vector of elements. *)
Lemma send_list {A} (l : list A) c s (enc : A -> Z) (dec : Z -> A) (mk : list A -> col) (g g' : A -> value) :
  c = mk l -> (forall l', clen (mk l') = Ok (length l')) ->
  (forall l', ctype (mk l') = ctype c) ->
  (forall l' a b, save (mk l') a b = do x <- cut l' a b; Ok (image s (map enc x))) ->
  (forall x, dec (enc x) = x) -> Forall (fun x => scalar_ok s (enc x) = true) l ->
  (lenN l * N.of_nat (width s) <= isize_max)%N ->
  (exists mk' : list A -> col, (forall l', clen (mk' l') = Ok (length l')) /\
    (forall l', ctype (mk' l') = ctype c) /\
    (forall l', intact c (mk' l')) /\
    (forall l' i, at_ (mk' l') i = do x <- index l' i; Ok (g' x)) /\
    (forall l' i, at_ (mk l') i = do x <- index l' i; Ok (g x)) /\
    (forall x, g' x = zoned tz (g x)) /\
    forall fuel n r, enough fuel (ctype c) ->
      run (load_data tz_known fuel (type_name (ctype c)) n tz) r =
      run (let! l := read_vec s n in Ret (mk' (map dec l))) r) ->
  sends c (length l).
Proof.
  intros -> Hlen Htype Hsave Hdec Hok Hb (mk' & Hlen' & Htype' & Hint & Hat' & Hat & Hg & Hload) a b Hab _.
  rewrite Hsave, cut_ok by lia. cbn [rbind]. do 2 eexists. split; [reflexivity|]. split.
  2: { intros fuel r F. rewrite Hload by exact F. rewrite run_bind, run_read_vec.
       - cbn [run]. rewrite map_map. rewrite (map_ext _ (fun x => x)), map_id by exact Hdec. reflexivity.
       - apply Forall_map, sub_Forall, Hok.
       - unfold lenN. rewrite map_length, sub_length by lia. reflexivity.
       - unfold lenN in *. rewrite map_length, sub_length by lia. nia. }
  split; [|apply Hint]. unfold delivers. rewrite Htype', Hlen', sub_length by lia. split; [reflexivity|]. split; [reflexivity|].
  intros i Hi. rewrite Hat', Hat, index_sub by exact Hi.
  destruct (index l (a + i)); cbn [rbind rmap]; try reflexivity. rewrite Hg. reflexivity.
Qed.

Lemma fuel_S fuel t : enough fuel t -> exists f, fuel = S f.
Proof. unfold enough. destruct fuel; [lia|eauto]. Qed.

Ltac load_step :=
  match goal with F : enough ?fuel ?t |- context [load_data _ ?fuel] =>
    let f := fresh "f" in destruct (fuel_S _ _ F) as [f ->];
    cbn [load_data]; rewrite (classify_name tz_known) by assumption; cbn [ctype] in *; cbn [lift pbind kind_of] end.

Lemma mod_rows (L w : nat) : w <> 0 -> Nat.modulo L w = 0 -> L = (L / w) * w.
Proof. intros H E. pose proof (Nat.div_mod L w H). lia. Qed.

Theorem send_column c : sound c -> nameable tz_known (ctype c) ->
  exists n, clen c = Ok n /\ sends c n.
Proof.
  induction c; cbn [sound]; intros H N; try contradiction.
  - destruct H as [H B]. exists (length zs). split; [reflexivity|].
    apply (send_list zs _ s (fun z => z) (fun z => z) (CVec s) (VNum s) (VNum s)); auto.
    + intros l a b. cbn. destruct (cut l a b); cbn; try reflexivity. rewrite map_id. reflexivity.
    + exists (CVec s). repeat split; auto. intros fuel n r F. load_step.
      rewrite !run_bind. destruct (run (read_vec s n) r) as [[x y]|e|p]; try reflexivity. rewrite map_id. reflexivity.
  - destruct H as [H B]. exists (length l). split; [reflexivity|]. intros a b Hab _. cbn [save].
    destruct (Nat.ltb_spec b a); [lia|]. fold (sub l a b).
    destruct (enc_strings (sub l a b) (sub_Forall _ _ _ _ H)) as (parts & E & R). rewrite E. cbn [rbind].
    exists (concat parts), (CString (sub l a b)). split; [reflexivity|]. split.
    + split; [|repeat split; auto]. split; [reflexivity|]. split; [cbn; rewrite sub_length by lia; reflexivity|].
      intros i Hi. cbn [at_]. rewrite index_sub by exact Hi. destruct (index l (a + i)); reflexivity.
    + intros fuel r F. cbn [ctype] in *. load_step. rewrite run_bind, R; [reflexivity| |].
      * unfold lenN in B. lia.
      * rewrite sub_length by lia. lia.
  - destruct H as (H0 & Hm & B). cbn [clen]. destruct (N.eqb_spec n 0); [contradiction|].
    exists (length buf / N.to_nat n). split; [reflexivity|].
    assert (N.to_nat n <> 0) as H1 by lia. pose proof (mod_rows _ _ H1 Hm) as E.
    set (k := length buf / N.to_nat n) in *. set (w := N.to_nat n) in *.
    intros a b Hab _. cbn [save]. fold w. rewrite cut_ok by nia. 
    assert (length (sub buf (a * w) (b * w)) = (b - a) * w) as L by (rewrite sub_length by nia; nia).
    exists (sub buf (a * w) (b * w)), (CFixed n (sub buf (a * w) (b * w))). split; [reflexivity|]. split.
    + split; [|split; [intros _; split; [assumption|fold w; rewrite L; apply Nat.mod_mul, H1]|split; auto]]. split; [reflexivity|]. split.
      * cbn. destruct (N.eqb_spec n 0); [contradiction|]. fold w. rewrite L, Nat.div_mul by exact H1. reflexivity.
      * intros i Hi. cbn [at_]. fold w. rewrite cut_sub by nia.
        replace (a * w + i * w) with ((a + i) * w) by nia.
        replace (a * w + (i * w + w)) with ((a + i) * w + w) by nia.
        destruct (cut buf ((a + i) * w) ((a + i) * w + w)); reflexivity.
    + intros fuel r F. load_step. assert ((N.of_nat (b - a) * n <= isize_max)%N) as B1.
      { unfold lenN in B. fold w in E. assert (N.of_nat (b - a) * n = N.of_nat ((b - a) * w))%N as -> by lia. nia. }
      rewrite run_bind, run_mul_usize by (pose proof isize_lt; lia). rewrite run_bind, run_alloc by lia.
      rewrite run_bind. destruct (run_fixed_rows n (N.of_nat (b - a)) (sub buf (a * w) (b * w)) r) as (rows & R & C).
      { rewrite L. fold w. lia. }
      rewrite R, C. reflexivity.
  - destruct H as [H B]. exists (length l). split; [reflexivity|].
    apply (send_list l _ U16 Z.of_N Z.to_N (fun l => CDate l tz0) VDate VDate); auto.
    + intros x. apply N2Z.id.
    + eapply Forall_impl; [|exact H]. intros x Hx. cbn beta in Hx. apply scalar_u_ok; [reflexivity|discriminate|].
      change (2 ^ (8 * Z.of_nat (width U16)))%Z with (Z.of_N (2 ^ 16)). lia.
    + change (N.of_nat (width U16)) with 2%N. lia.
    + exists (fun l => CDate l tz). repeat split; auto. intros fuel n r F. load_step. reflexivity.
  - destruct H as [H B]. exists (length l). split; [reflexivity|].
    apply (send_list l _ U32 Z.of_N Z.to_N (fun l => CDateTime l tz0) (fun t => VDateTime t tz0) (fun t => VDateTime t tz)); auto.
    + intros x. apply N2Z.id.
    + eapply Forall_impl; [|exact H]. intros x Hx. cbn beta in Hx. apply scalar_u_ok; [reflexivity|discriminate|].
      change (2 ^ (8 * Z.of_nat (width U32)))%Z with (Z.of_N (2 ^ 32)). lia.
    + change (N.of_nat (width U32)) with 4%N. lia.
    + exists (fun l => CDateTime l tz). repeat split; auto. intros fuel n r F. load_step. reflexivity.
  - destruct H as (Hm & B). cbn [clen].
    exists (length buf / ip_size k). split; [reflexivity|].
    assert (ip_size k <> 0) as H1 by (destruct k; discriminate). pose proof (mod_rows _ _ H1 Hm) as E.
    set (n := length buf / ip_size k) in *. remember (ip_size k) as w eqn:Ew.
    intros a b Hab _. cbn [save]. rewrite <- Ew. rewrite cut_ok by nia.
    assert (length (sub buf (a * w) (b * w)) = (b - a) * w) as L by (rewrite sub_length by nia; nia).
    exists (sub buf (a * w) (b * w)), (CIp k (sub buf (a * w) (b * w))). split; [reflexivity|]. split.
    + split; [|split; [intros _; cbn; rewrite <- Ew, L; apply Nat.mod_mul, H1|split; auto]]. split; [reflexivity|]. split.
      * cbn. rewrite <- Ew, L, Nat.div_mul by exact H1. reflexivity.
      * intros i Hi. cbn [at_]. rewrite <- Ew. rewrite cut_sub by nia.
        replace (a * w + i * w) with ((a + i) * w) by nia.
        replace (a * w + (i + 1) * w) with ((a + i + 1) * w) by nia.
        destruct (cut buf ((a + i) * w) ((a + i + 1) * w)); destruct k; reflexivity.
    + intros fuel r F. load_step. assert (N.of_nat (b - a) * N.of_nat w <= isize_max)%N as B1 by (unfold lenN in B; nia).
      assert (forall r', run (let! n := mul_usize (N.of_nat (b - a)) (N.of_nat (ip_size k)) in
          let! _ := alloc n in Get n (fun l => Ret (CIp k l))) (sub buf (a * w) (b * w) ++ r') =
          Ok (CIp k (sub buf (a * w) (b * w)), r')) as R.
      { intros r'. rewrite <- Ew, run_bind, run_mul_usize by (pose proof isize_lt; lia).
        rewrite run_bind, run_alloc by lia. cbv beta iota. rewrite run_get by (unfold lenN; lia). reflexivity. }
      destruct k; cbn [ip_type kind_of]; apply R.
  - destruct H as (H & HL & B). cbn [ctype nameable] in N. destruct N as [N NN].
    destruct (IHc H N) as (n & Hn & S). rewrite HL in Hn. injection Hn as <-.
    exists (length nulls). cbn [clen]. rewrite HL. cbn [rbind]. rewrite Nat.eqb_refl. split; [reflexivity|].
    intros a b Hab Hf. destruct (S a b Hab Hf) as (bs & c' & E & ((D1 & D2 & D3) & DI) & R).
    cbn [save]. rewrite cut_ok by lia. cbn [rbind]. rewrite E. cbn [rbind].
    exists (sub nulls a b ++ bs), (CNullable c' (sub nulls a b)). split; [reflexivity|]. split.
    + split.
      2: { destruct DI as (I1 & I2 & _). split; [|split; [intros d; apply I2|discriminate]].
           cbn [SpecIter.tidy]. intros (T1 & T2 & T3). split; [auto|]. split; [rewrite D2, sub_length by lia; reflexivity|].
           apply sub_Forall, T3. }
      split; [cbn; congruence|]. split.
      * cbn. rewrite D2. cbn. rewrite sub_length, Nat.eqb_refl by lia. reflexivity.
      * intros i Hi. cbn [at_]. rewrite index_sub by exact Hi.
        destruct (index nulls (a + i)) as [f| |]; cbn [rbind rmap]; try reflexivity.
        destruct (f =? 1)%N; [rewrite D1; reflexivity|]. rewrite D3 by exact Hi.
        destruct (at_ c (a + i)); reflexivity.
    + intros fuel r F. assert (nameable tz_known (TNullable (ctype c))) as N' by (split; assumption). load_step.
      cbn [ctype] in F. rewrite run_bind, run_alloc by (unfold lenN in B; lia). cbv beta iota. rewrite <- app_assoc.
      rewrite run_get by (unfold lenN; rewrite sub_length by lia; reflexivity).
      rewrite run_bind, R by (apply enough_nullable, F). reflexivity.
  - destruct H as (H & HL & C & B & B8). cbn [ctype nameable] in N.
    destruct (IHc H N) as (n & Hn & S). rewrite HL in Hn. injection Hn as <-.
    exists (length offs). split; [reflexivity|]. intros a b Hab Hf. destruct Hf as [->|Hf]; [|discriminate].
    rewrite Nat.sub_0_r. cbn [save]. unfold save_offsets. rewrite mapM_index by lia. cbn [rbind skipn fst snd].
    rewrite Nat.sub_0_r. set (o := firstn b offs).
    assert (length o = b) as Lo by (unfold o; rewrite firstn_length; lia).
    pose proof (last_firstn_le offs b C) as LE. fold o in LE.
    destruct (S 0 (N.to_nat (last o 0%N)) ltac:(lia) (or_introl eq_refl)) as (bs & c' & E & ((D1 & D2 & D3) & DI) & R).
    rewrite E. cbn [rbind]. exists (concat (map put_u64 o) ++ bs), (CArray c' o). split; [reflexivity|]. split.
    + split.
      2: { destruct DI as (I1 & I2 & _). split; [|split; [intros d; apply I2|discriminate]].
           cbn [SpecIter.tidy]. intros (T1 & T2 & T3). split; [auto|]. split; [rewrite D2; f_equal; lia|].
           apply climbs_firstn, C. }
      split; [cbn; congruence|]. split; [cbn; congruence|]. intros i Hi. cbn [at_ Nat.add].
      assert (row_bounds o i = row_bounds offs i) as E1 by (apply row_bounds_firstn; exact Hi). rewrite E1.
      destruct (row_bounds offs i) as [[s e]| |] eqn:Eb; cbn [rbind rmap]; try reflexivity. cbn [fst snd].
      pose proof (row_bounds_le o i s e (climbs_firstn offs b 0%N C) E1) as Hse.
      rewrite (mapM_zoned tz (at_ c)).
      * destruct (mapM (at_ c) (seq s (e - s))); cbn; try reflexivity. rewrite D1. reflexivity.
      * intros j Hj. apply in_seq in Hj. apply D3. lia.
    + intros fuel r F. assert (nameable tz_known (TArray (ctype c))) as N' by exact N. load_step.
      rewrite <- app_assoc, run_bind, read_offsets_ok.
      * cbn [snd fst]. rewrite run_bind.
        replace (last o 0%N) with (N.of_nat (N.to_nat (last o 0%N) - 0)) at 1 by lia.
        rewrite R by (apply enough_array, F). reflexivity.
      * apply climbs_firstn, C.
      * lia.
      * unfold lenN in *. lia.
      * unfold lenN. lia.
  - destruct H as (H1 & H2 & HL1 & HL2 & C & B & B8). cbn [ctype nameable] in N. destruct N as (N1 & NU & N2).
    destruct (IHc1 H1 N1) as (n1 & Hn1 & S1). rewrite HL1 in Hn1. injection Hn1 as <-.
    destruct (IHc2 H2 N2) as (n2 & Hn2 & S2). rewrite HL2 in Hn2. injection Hn2 as <-.
    exists (length offs). split; [reflexivity|]. intros a b Hab Hf. destruct Hf as [->|Hf]; [|discriminate].
    rewrite Nat.sub_0_r. cbn [save]. unfold save_offsets. rewrite mapM_index by lia. cbn [rbind skipn fst snd].
    rewrite Nat.sub_0_r. set (o := firstn b offs).
    assert (length o = b) as Lo by (unfold o; rewrite firstn_length; lia).
    pose proof (last_firstn_le offs b C) as LE. fold o in LE.
    destruct (S1 0 (N.to_nat (last o 0%N)) ltac:(lia) (or_introl eq_refl)) as (bs1 & k' & E1 & ((D1 & D2 & D3) & DI) & R1).
    destruct (S2 0 (N.to_nat (last o 0%N)) ltac:(lia) (or_introl eq_refl)) as (bs2 & v' & E2 & ((F1 & F2 & F3) & FI) & R2).
    rewrite E1, E2. cbn [rbind]. exists (concat (map put_u64 o) ++ bs1 ++ bs2), (CMap k' v' o). split; [reflexivity|]. split.
    + split.
      2: { destruct DI as (I1 & I2 & _), FI as (J1 & J2 & _).
           split; [|split; [intros d [X Y]; split; [apply I2, X|apply J2, Y]|discriminate]].
           cbn [SpecIter.tidy]. intros (T1 & T2 & T3 & T4 & T5). split; [auto|]. split; [auto|].
           split; [rewrite D2; f_equal; lia|]. split; [rewrite F2; f_equal; lia|]. apply climbs_firstn, C. }
      split; [cbn; congruence|]. split; [cbn; congruence|]. intros i Hi. cbn [at_ Nat.add].
      assert (row_bounds o i = row_bounds offs i) as E3 by (apply row_bounds_firstn; exact Hi). rewrite E3.
      destruct (row_bounds offs i) as [[s e]| |] eqn:Eb; cbn [rbind rmap]; try reflexivity. cbn [fst snd].
      pose proof (row_bounds_le o i s e (climbs_firstn offs b 0%N C) E3) as Hse.
      pose proof (zoned_loop tz (at_ c1) (at_ c2) (at_ k') (at_ v') (seq s (e - s))) as Z.
      specialize (Z ltac:(intros j Hj; apply in_seq in Hj; apply D3; lia)).
      specialize (Z ltac:(intros j Hj; apply in_seq in Hj; apply F3; lia) [] ltac:(constructor)).
      cbn [map] in Z. fold (map_loop (at_ k') (at_ v')). fold (map_loop (at_ c1) (at_ c2)). rewrite Z.
      destruct (map_loop (at_ c1) (at_ c2) (seq s (e - s)) []); cbn [rmap rbind zoned]; try reflexivity.
      rewrite D1, F1. reflexivity.
    + intros fuel r F. assert (nameable tz_known (TMap (ctype c1) (ctype c2))) as N' by (cbn; auto). load_step.
      cbn [ctype] in F. apply enough_map in F. destruct F as [Fk Fv].
      rewrite <- app_assoc, run_bind, read_offsets_ok.
      * cbn [snd fst]. rewrite <- app_assoc. rewrite run_bind.
        replace (last o 0%N) with (N.of_nat (N.to_nat (last o 0%N) - 0)) by lia.
        rewrite R1 by exact Fk. rewrite run_bind, R2 by exact Fv. reflexivity.
      * apply climbs_firstn, C.
      * lia.
      * unfold lenN in *. lia.
      * unfold lenN. lia.
  - destruct H as (Hp & H & B). exists (length l). split; [reflexivity|].
    apply (send_list l _ (nb_scalar nb) (fun z => z) (fun z => z) (fun l => CDecimal l p s nb)
             (fun z => VDecimal (mk_decimal z nb p s)) (fun z => VDecimal (mk_decimal z nb p s))); auto.
    + intros l' a b. cbn. destruct (cut l' a b); cbn; try reflexivity. rewrite map_id. reflexivity.
    + destruct nb; cbn; lia.
    + exists (fun l => CDecimal l p s nb). repeat split; auto. intros fuel n r F. load_step.
      assert ((if (p <=? 9)%N then N32 else N64) = nb) as ->.
      { cbn [ctype nameable] in N. unfold from_precision in Hp.
        destruct (N.leb_spec p 9); repeat match goal with H : (if ?b then _ else _) = _ |- _ => destruct b eqn:?; try discriminate end;
          try (injection Hp as <-); try reflexivity; lia. }
      rewrite !run_bind. destruct (run (read_vec (nb_scalar nb) n) r) as [[x y]|e|q]; try reflexivity.
      rewrite map_id. reflexivity.
  - destruct H as [H B]. exists (length l). split; [reflexivity|].
    apply (send_list l _ I8 (fun z => z) (fun z => z) (CEnum8 vals) (VEnum8 vals) (VEnum8 vals)); auto.
    + intros l' a b. cbn. destruct (cut l' a b); cbn; try reflexivity. rewrite map_id. reflexivity.
    + change (N.of_nat (width I8)) with 1%N. lia.
    + exists (CEnum8 vals). repeat split; auto. intros fuel n r F. load_step.
      rewrite !run_bind. destruct (run (read_vec I8 n) r) as [[x y]|e|p]; try reflexivity. rewrite map_id. reflexivity.
  - destruct H as [H B]. exists (length l). split; [reflexivity|].
    apply (send_list l _ I16 (fun z => z) (fun z => z) (CEnum16 vals) (VEnum16 vals) (VEnum16 vals)); auto.
    + intros l' a b. cbn. destruct (cut l' a b); cbn; try reflexivity. rewrite map_id. reflexivity.
    + change (N.of_nat (width I16)) with 2%N. lia.
    + exists (CEnum16 vals). repeat split; auto. intros fuel n r F. load_step.
      rewrite !run_bind. destruct (run (read_vec I16 n) r) as [[x y]|e|p]; try reflexivity. rewrite map_id. reflexivity.
  - cbn [ctype nameable] in N. destruct N as [N NO]. destruct (IHc H N) as (n & Hn & S).
    exists n. split; [exact Hn|]. intros a b Hab Hf. destruct (S a b Hab Hf) as (bs & c' & E & ((D1 & D2 & D3) & DI) & R).
    exists bs, (CAgg f c'). split; [exact E|]. split.
    + split; [|destruct DI as (I1 & I2 & _); split; [exact I1|split; [intros d; apply I2|discriminate]]].
      split; [cbn; congruence|]. split; [exact D2|]. exact D3.
    + intros fuel r F. assert (nameable tz_known (TAgg f (ctype c))) as N' by (split; assumption). load_step.
      rewrite run_bind, R; [reflexivity|]. eapply enough_agg. exact F.
  - destruct H as (H & B & n & Hn & Bn & Hi). cbn [ctype nameable] in N.
    destruct (IHc H N) as (n' & Hn' & S). rewrite Hn in Hn'. injection Hn' as <-.
    exists (length idx). split; [reflexivity|]. intros a b Hab _.
    assert (nameable tz_known (TLowCardinality (ctype c))) as N' by exact N.
    destruct (Nat.eq_dec a b) as [->|Hne].
    + cbn [save]. rewrite Nat.eqb_refl, Nat.sub_diag.
      assert (exists c', ctype c' = ctype c /\ (clen c' = Ok 0 /\ intact c c') /\ forall fuel r, enough fuel (ctype c) ->
         run (load_data tz_known fuel (type_name (ctype c)) 0 tz) r = Ok (c', r)) as (c' & T' & (L' & I1 & I2 & I3) & R').
      { destruct (S 0 0 ltac:(lia) (or_introl eq_refl)) as (bs & c' & E & ((D1 & D2 & D3) & DI) & R). change (N.of_nat (0 - 0)) with 0%N in R.
        assert (bs = []) as ->.
        { specialize (R (Datatypes.S (List.length (type_name (ctype c)))) []). 
          destruct (load_none tz_known tz (ctype c) (Datatypes.S (List.length (type_name (ctype c)))) (bs ++ []) N) as (c1 & R1).
          { unfold enough. lia. }
          rewrite R in R1 by (unfold enough; lia). injection R1 as _ R1. rewrite app_nil_r in R1. congruence. }
        exists c'. split; [exact D1|]. split; [auto|]. intros fuel r F. apply (R fuel r F). }
      exists [], (CLow c' X8 [] None). split; [reflexivity|]. split.
      * split.
        2: { split; [|split; [|discriminate]].
             - cbn [SpecIter.tidy]. intros (T1 & _). split; [auto|]. exists 0. split; [exact L'|constructor].
             - cbn [SpecIter.lends]. intros d [X Y]. auto. }
        split; [cbn; congruence|]. split; [reflexivity|]. intros i Hlt. lia.
      * intros fuel r F. change (N.of_nat 0) with 0%N. load_step. unfold load_low. cbn [N.eqb].
        cbn [app]. rewrite run_bind, R' by (apply enough_low, F). rewrite run_bind, read_vec_0. reflexivity.
    + cbn [save]. destruct (Nat.eqb_spec a b); [contradiction|]. rewrite Hn. cbn [rbind].
      destruct (S 0 n ltac:(lia) (or_introl eq_refl)) as (bs & c' & E & ((D1 & D2 & D3) & DI) & R). rewrite Nat.sub_0_r in *.
      rewrite E. cbn [rbind]. destruct (Nat.ltb_spec b a); [lia|]. rewrite cut_ok by lia. cbn [rbind].
      do 2 eexists. split; [reflexivity|].
      assert (Forall (fun x => scalar_ok (ix_scalar ix) (Z.of_N x) = true) (sub idx a b)) as Hs.
      { apply sub_Forall. eapply Forall_impl; [|exact Hi]. intros x [_ Hx]. cbn beta in Hx.
        apply scalar_u_ok; [destruct ix; reflexivity|destruct ix; discriminate|].
        assert (2 ^ (8 * Z.of_nat (width (ix_scalar ix))) = Z.of_N (ix_max ix + 1))%Z as -> by (destruct ix; reflexivity). lia. }
      split.
      2: { intros fuel r F. load_step. unfold load_low.
           destruct (N.eqb_spec (N.of_nat (b - a)) 0); [lia|].
           rewrite <- !app_assoc. rewrite run_bind, run_read_u64 by reflexivity. cbv iota beta.
           change (negb (1 =? 1)%N) with false. cbv iota.
           assert (ix_flags ix < 2 ^ 64)%N as Bf by (destruct ix; reflexivity).
           rewrite run_bind, run_read_u64 by exact Bf.
           assert (ix_of_flags (ix_flags ix) = Some ix) as -> by (destruct ix; reflexivity).
           assert (negb (N.land (ix_flags ix) 256 =? 0)%N = false) as -> by (destruct ix; reflexivity).
           assert ((N.land (ix_flags ix) 512 =? 0)%N = false) as -> by (destruct ix; reflexivity).
           rewrite run_bind, run_read_u64 by exact Bn.
           rewrite run_bind, R by (apply enough_low, F).
           rewrite run_bind, run_read_u64 by (unfold lenN in B; pose proof isize_lt; lia).
           rewrite run_bind, run_read_vecN.
           - rewrite to_of_N, N.eqb_refl. cbn [run]. reflexivity.
           - exact Hs.
           - unfold lenN. rewrite sub_length by lia. reflexivity.
           - unfold lenN in *. rewrite sub_length by lia. destruct ix; cbn; lia. }
      split.
      2: { destruct DI as (I1 & I2 & I3). split; [|split; [|discriminate]].
           - cbn [SpecIter.tidy]. intros (T1 & _). split; [auto|]. exists n. split; [exact D2|].
             apply sub_Forall. eapply Forall_impl; [|exact Hi]. intros x [X _]. exact X.
           - cbn [SpecIter.lends]. intros d [X Y]. auto. }
      split; [cbn; congruence|]. split; [cbn; rewrite sub_length by lia; reflexivity|].
      intros i Hlt. cbn [at_]. rewrite index_sub by exact Hlt.
      unfold index. destruct (nth_error idx (a + i)) as [j|] eqn:Ej; [|reflexivity]. cbn [or_panic rbind].
      rewrite D3; [reflexivity|]. rewrite Forall_forall in Hi. apply nth_error_In in Ej. apply (Hi j Ej).
  - destruct H as (H & Hf & Hab & n & Hn & Hbn). cbn [ctype] in N.
    destruct (IHc H N) as (n' & Hn' & S). rewrite Hn in Hn'. injection Hn' as <-.
    exists (b - a). split; [reflexivity|]. intros x y Hxy Hf'. cbn [save ctype] in *.
    replace (Nat.min b (a + y)) with (a + y) by lia.
    destruct (S (a + x) (a + y)) as (bs & c' & E & ((D1 & D2 & D3) & DI) & R).
    + lia.
    + destruct Hf' as [->|Hf']; [|right; exact Hf']. destruct Hf as [->|Hf]; [left; reflexivity|right; exact Hf].
    + replace (a + y - (a + x)) with (y - x) in * by lia. exists bs, c'. split; [exact E|]. split; [|exact R].
      split; [|destruct DI as (I1 & _); split; [exact I1|split; [intros d []|discriminate]]].
      split; [exact D1|]. split; [exact D2|]. intros i Hi. cbn [at_].
      destruct (Nat.leb_spec (b - a) (x + i)); [lia|]. rewrite D3 by exact Hi. f_equal. f_equal. lia.
Qed.
End Send.
