(** Columns in the server's format are read as the cells they hold. *)
From Verif Require Import Base Bytes Reader Wire Types Text TypeNames Columns.
From Verif Require Import SpecWire SpecPackets SpecColumns SpecTypes SpecNative.
From Verif Require Import ReaderProofs WireProofs PushProofs PacketsProofs TypeNamesProofs ServerNamesProofs LoadTypeProofs SendProofs.
Open Scope list_scope.
Open Scope nat_scope.

(** ** Lists *)
Lemma all2_length {A B} (R : A -> B -> Prop) l m : Forall2 R l m -> length l = length m.
Proof. induction 1; cbn; congruence. Qed.
Lemma all2_nth {A B} (R : A -> B -> Prop) l m i x : Forall2 R l m -> nth_error l i = Some x ->
  exists y, nth_error m i = Some y /\ R x y.
Proof.
  intros F. revert i. induction F as [|a b l m H F IH]; intros i E; [destruct i; discriminate E|].
  destruct i as [|i]; [injection E as <-; exists b; auto|apply IH, E].
Qed.
Lemma nth_map {A B} (f : A -> B) l i v : nth_error (map f l) i = Some v -> exists x, nth_error l i = Some x /\ f x = v.
Proof. rewrite nth_error_map. destruct (nth_error l i) as [x|]; [|discriminate]. intros [= <-]. eauto. Qed.
Lemma chunks_parts w (parts : list bytes) r : Forall (fun b => length b = w) parts ->
  chunks w (length parts) (concat parts ++ r) = parts.
Proof.
  induction 1 as [|b parts H F IH]; [reflexivity|]. cbn [length chunks concat]. rewrite <- app_assoc.
  rewrite firstn_app, skipn_app, H, Nat.sub_diag, firstn_O, app_nil_r, <- H, firstn_all, skipn_all. cbn [skipn app]. rewrite H, IH. reflexivity.
Qed.
Lemma parts_length w (parts : list bytes) : Forall (fun b => length b = w) parts -> length (concat parts) = length parts * w.
Proof. induction 1 as [|b parts H F IH]; [reflexivity|]. cbn [concat length]. rewrite app_length, IH, H. reflexivity. Qed.

(** ** Vectors *)
Lemma run_vec_parts s parts n r : Forall (fun b => length b = width s) parts -> n = lenN parts ->
  (lenN (concat parts) <= isize_max)%N ->
  run (read_vec s n) (concat parts ++ r) = Ok (map (raw_scalar s) parts, r).
Proof.
  intros F -> B. pose proof (parts_length _ _ F) as L. unfold read_vec.
  assert (E : (lenN parts * N.of_nat (width s) = lenN (concat parts))%N) by (unfold lenN; rewrite L, Nat2N.inj_mul; reflexivity).
  rewrite E, run_bind, run_alloc by exact B. cbv beta iota. rewrite run_get by reflexivity.
  cbn [run]. unfold lenN. rewrite Nat2N.id.
  rewrite <- (app_nil_r (concat parts)), chunks_parts by exact F. reflexivity.
Qed.

Lemma raw_number s z b : number s z b -> raw_scalar s b = z.
Proof.
  intros (B & L & H).
  assert (G : forall w, 0 < w -> (- 2 ^ (8 * Z.of_nat w - 1) <= z < 2 ^ (8 * Z.of_nat w - 1))%Z /\
     positional b = (z mod 2 ^ (8 * Z.of_nat w))%Z -> to_signed w (le_dec b) = z).
  { intros w Hw [R P]. rewrite <- (N2Z.id (le_dec b)), le_dec_positional, P.
    apply (to_signed_unsigned w z Hw R). }
  destruct s; cbn [is_signed] in H; unfold raw_scalar, unmarshal; cbn [is_signed];
    rewrite ?le_dec_positional; try exact H; try (apply G; [cbn; lia|exact H]).
  destruct b as [|x [|y b]]; try discriminate L. cbn in *. lia.
Qed.
Lemma raw_fixed s n b : is_signed s = false -> s <> SBool -> fixed_of (width s) n b -> raw_scalar s b = Z.of_N n.
Proof.
  intros U NB (B & L & P). destruct s; try discriminate U; try congruence; unfold raw_scalar, unmarshal; cbn [is_signed];
    rewrite le_dec_positional; exact P.
Qed.

(** A column that keeps a vector of numbers. *)
Lemma vec_holds (mk : list Z -> col) (f : Z -> value) zs :
  (forall l, clen (mk l) = Ok (length l)) -> (forall l i, at_ (mk l) i = do z <- index l i; Ok (f z)) ->
  holds (mk zs) (map f zs).
Proof.
  intros L A. split; [rewrite L, map_length; reflexivity|]. intros i v E. rewrite A. unfold index.
  rewrite nth_error_map in E. destruct (nth_error zs i); [|discriminate E]. injection E as <-. reflexivity.
Qed.
Lemma vec_cells s (mk : list Z -> col) (f : Z -> value) (cell : value -> bytes -> Prop) vs bs r :
  (forall v b, cell v b -> length b = width s /\ v = f (raw_scalar s b)) ->
  cells cell vs bs -> (lenN bs <= isize_max)%N ->
  (forall l, clen (mk l) = Ok (length l)) -> (forall l i, at_ (mk l) i = do z <- index l i; Ok (f z)) ->
  exists zs, run (let! l := read_vec s (lenN vs) in Ret (mk l)) (bs ++ r) = Ok (mk zs, r) /\ holds (mk zs) vs.
Proof.
  intros C (parts & -> & F) B L A. exists (map (raw_scalar s) parts). split.
  - rewrite run_bind, run_vec_parts; [reflexivity| | |exact B].
    + clear -C F. induction F as [|v b vs parts H F IH]; constructor; [apply (C v b H)|exact IH].
    + unfold lenN. rewrite (all2_length _ _ _ F). reflexivity.
  - replace vs with (map f (map (raw_scalar s) parts)); [apply vec_holds; assumption|].
    clear -C F. induction F as [|v b vs parts H F IH]; [reflexivity|]. cbn [map]. rewrite IH. f_equal.
    symmetry. apply (C v b H).
Qed.

(** ** Flat buffers of rows of one size *)
Lemma buffer_at (parts : list bytes) w i b : Forall (fun x => length x = w) parts -> nth_error parts i = Some b ->
  cut (concat parts) (i * w) (i * w + w) = Ok b.
Proof.
  intros F E. assert (i < length parts) as I by (apply nth_error_Some; congruence).
  pose proof (parts_length _ _ F) as L. rewrite cut_ok by nia. f_equal. unfold sub.
  replace (i * w + w - i * w) with w by lia.
  clear L. revert i E I. induction F as [|x parts H F IH]; intros i E I; [destruct i; discriminate E|].
  cbn [concat]. destruct i as [|i].
  - injection E as ->. cbn [Nat.mul skipn]. rewrite firstn_app, H, Nat.sub_diag, firstn_O, app_nil_r, <- H. apply firstn_all.
  - rewrite skipn_app, H. replace (S i * w - w) with (i * w) by lia.
    rewrite skipn_all2 by lia. cbn [app nth_error length] in *. apply IH; [exact E|lia].
Qed.

(** ** Offsets *)
Lemma ends_climb rows : forall a, climbs a (ends a rows).
Proof. induction rows as [|n rows IH]; intros a; [exact I|]. cbn [ends climbs]. split; [lia|apply IH]. Qed.
Lemma ends_length rows : forall a, length (ends a rows) = length rows.
Proof. induction rows as [|n rows IH]; intros a; [reflexivity|]. cbn [ends length]. rewrite IH. reflexivity. Qed.
Lemma ends_last {A} (rows : list (list A)) : forall a, last (ends a (map (@length A) rows)) a = (a + lenN (concat rows))%N.
Proof.
  induction rows as [|x rows IH]; intros a; [cbn [map ends last concat]; unfold lenN; cbn [length]; lia|]. cbn [map ends concat].
  specialize (IH (a + N.of_nat (length x))%N).
  assert (G : forall b l, last (b :: l) a = last l b).
  { clear. intros b l. revert b. induction l as [|c l IH]; intros b; [reflexivity|]. cbn [last] in *.
    destruct l; [reflexivity|]. apply IH. }
  rewrite G, IH. unfold lenN. rewrite app_length. lia.
Qed.
Lemma ends_bounds {A} (rows : list (list A)) i row : nth_error rows i = Some row ->
  exists s, row_bounds (ends 0 (map (@length A) rows)) i = Ok (s, s + length row) /\
    forall j x, nth_error row j = Some x -> nth_error (concat rows) (s + j) = Some x.
Proof.
  assert (G : forall rows a i row, nth_error rows i = Some row -> exists s,
    nth_error (a :: ends a (map (@length A) rows)) i = Some (a + N.of_nat s)%N /\
    nth_error (ends a (map (@length A) rows)) i = Some (a + N.of_nat (s + length row))%N /\
    forall j x, nth_error row j = Some x -> nth_error (concat rows) (s + j) = Some x).
  { clear. induction rows as [|x rows IH]; intros a i row E; [destruct i; discriminate E|].
    destruct i as [|i].
    - injection E as ->. exists 0. cbn [map ends nth_error concat Nat.add]. split; [f_equal; lia|]. split; [reflexivity|].
      intros j y H. rewrite nth_error_app1; [exact H|]. apply nth_error_Some. congruence.
    - destruct (IH (a + N.of_nat (length x))%N i row E) as (s & H1 & H2 & H3). exists (length x + s).
      cbn [map ends nth_error concat] in *. split; [rewrite H1; f_equal; lia|]. split; [rewrite H2; f_equal; lia|].
      intros j y H. rewrite nth_error_app2 by lia. replace (length x + s + j - length x) with (s + j) by lia. apply H3, H. }
  intros E. destruct (G rows 0%N i row E) as (s & H1 & H2 & H3). exists s. split; [|exact H3].
  unfold row_bounds, index.
  assert (match i with 0 => Ok 0%N | S j => or_panic PIndex (nth_error (ends 0 (map (@length A) rows)) j) end = Ok (N.of_nat s)) as ->.
  { destruct i as [|j]; cbn [nth_error] in H1; [injection H1 as H1; f_equal; lia|rewrite H1; cbn [or_panic]; f_equal; lia]. }
  cbn [rbind]. rewrite H2. cbn [or_panic rbind]. destruct (N.ltb_spec (0 + N.of_nat (s + length row)) (N.of_nat s))%N; [lia|].
  f_equal. f_equal; lia.
Qed.
Lemma run_offsets {A} (rows : list (list A)) bs n r : offsets (map (@length A) rows) bs -> n = lenN rows ->
  (lenN bs <= isize_max)%N ->
  run (read_offsets n) (bs ++ r) = Ok ((ends 0 (map (@length A) rows), lenN (concat rows)), r).
Proof.
  intros (parts & -> & F) -> B. unfold read_offsets.
  pose proof (all2_length _ _ _ F) as L. rewrite ends_length, map_length in L.
  rewrite run_bind, run_vec_parts.
  - cbn [run]. assert (map Z.to_N (map (raw_scalar U64) parts) = ends 0 (map (@length A) rows)) as ->.
    { clear -F. induction F as [|n b l parts H F IH]; [reflexivity|]. cbn [map]. rewrite IH, (raw_fixed U64 n b); auto; [|discriminate].
      rewrite N2Z.id. reflexivity. }
    rewrite ends_last. reflexivity.
  - clear -F. induction F as [|n b l parts H F IH]; constructor; [apply H|exact IH].
  - unfold lenN. rewrite L. reflexivity.
  - exact B.
Qed.
Lemma mapM_rows {A} (f : nat -> res A) (row : list A) s : (forall j x, nth_error row j = Some x -> f (s + j) = Ok x) ->
  mapM f (seq s (length row)) = Ok row.
Proof.
  revert s. induction row as [|x row IH]; intros s H; [reflexivity|]. cbn [length seq mapM].
  pose proof (H 0 x eq_refl) as E. rewrite Nat.add_0_r in E. rewrite E. cbn [rbind].
  rewrite IH; [reflexivity|]. intros j y Hj. replace (S s + j) with (s + S j) by lia. apply H, Hj.
Qed.

Section Load.
Variable tz_known : bytes -> bool.
Variables tz zone : bytes.

Definition loads (n : bytes) (t : sqltype) (vs : list value) (bs : bytes) : Prop :=
  forall fuel r, length n < fuel ->
    exists c, run (load_data tz_known fuel n (lenN vs) tz) (bs ++ r) = Ok (c, r) /\ ctype c = t /\ holds c vs.

Ltac load_step S N U K :=
  match goal with F : length ?n < ?fuel |- _ =>
    let f := fresh "f" in destruct fuel as [|f]; [lia|];
    let k := fresh "k" in let C := fresh "C" in let Hk := fresh "Hk" in
    destruct (named_classify tz_known tz zone _ _ S N U K) as (k & C & Hk);
    cbn [load_data]; rewrite C; cbn [lift pbind]; clear C; cbn [kind_fits kind_of] in Hk end.

Lemma number_cell s (f : Z -> value) v b : (exists z, v = f z /\ number s z b) -> length b = width s /\ v = f (raw_scalar s b).
Proof. intros (z & -> & H). split; [apply H|]. rewrite (raw_number _ _ _ H). reflexivity. Qed.
Lemma fixed_cell s (f : N -> value) v b : is_signed s = false -> s <> SBool ->
  (exists n, v = f n /\ fixed_of (width s) n b) -> length b = width s /\ v = f (Z.to_N (raw_scalar s b)).
Proof. intros U B (n & -> & H). split; [apply H|]. rewrite (raw_fixed _ _ _ U B H), N2Z.id. reflexivity. Qed.

Lemma load_strings vs bs r : cells (fun v b => exists s, v = VString s /\ text_of s b) vs bs ->
  (80 * lenN bs <= isize_max)%N ->
  exists l, run (read_strings (lenN vs)) (bs ++ r) = Ok (l, r) /\ vs = map VString l.
Proof.
  intros (parts & -> & F) B.
  assert (L : length vs <= length (concat parts)).
  { clear -F. induction F as [|v b vs parts (s & -> & _ & l & V & ->) F IH]; [reflexivity|]. cbn [length concat].
    rewrite !app_length. destruct V as (V & _). destruct l; [destruct V|]. cbn [length]. lia. }
  assert (M : (80 * lenN vs <= isize_max)%N) by (unfold lenN in *; lia).
  unfold read_strings. rewrite run_bind, run_alloc by lia. cbv beta iota. rewrite prepeatN_nat.
  unfold lenN at 1. rewrite Nat2N.id. remember (lenN vs) as size eqn:Es. clear Es L B.
  induction F as [|v b vs parts (s & -> & T & l & V & ->) F (ss & IH & ->)]; [exists []; auto|].
  exists (s :: ss). split; [|reflexivity]. cbn [length prepeat concat]. rewrite <- !app_assoc.
  rewrite !run_bind, (read_varint_of _ _ _ V). rewrite run_bind, run_mul_usize by (pose proof isize_lt; lia).
  rewrite run_bind, run_alloc by lia. cbv beta iota. rewrite run_get by reflexivity. cbn [run].
  rewrite run_bind, IH. reflexivity.
Qed.

Lemma buffer_cells w (mkv : bytes -> value) vs bs : cells (fun v b => v = mkv b /\ length b = w) vs bs ->
  exists parts, bs = concat parts /\ Forall (fun b => length b = w) parts /\ vs = map mkv parts.
Proof.
  intros (parts & -> & F). exists parts. split; [reflexivity|].
  induction F as [|v b vs parts [-> H] F [IH1 IH2]]; [auto|]. split; [constructor; assumption|]. cbn [map]. rewrite IH2. reflexivity.
Qed.

Lemma load_ip k vs bs r : cells (fun v b => v = ip_value k b /\ length b = ip_size k) vs bs ->
  (lenN bs <= isize_max)%N ->
  run (let! n := mul_usize (lenN vs) (N.of_nat (ip_size k)) in let! _ := alloc n in Get n (fun l => Ret (CIp k l))) (bs ++ r) =
    Ok (CIp k bs, r) /\ holds (CIp k bs) vs.
Proof.
  intros C B. destruct (buffer_cells _ _ _ _ C) as (parts & -> & F & ->). pose proof (parts_length _ _ F) as L.
  assert (Hk : ip_size k <> 0) by (destruct k; discriminate).
  assert (E : (lenN (map (ip_value k) parts) * N.of_nat (ip_size k) = lenN (concat parts))%N)
    by (unfold lenN; rewrite map_length, L, Nat2N.inj_mul; reflexivity).
  split.
  - rewrite run_bind, run_mul_usize by (pose proof isize_lt; lia). rewrite E, run_bind, run_alloc by exact B. cbv beta iota.
    rewrite run_get by reflexivity. reflexivity.
  - split; [cbn [clen]; rewrite L, Nat.div_mul, map_length by exact Hk; reflexivity|].
    intros i v H. apply nth_map in H as (b & Eb & <-).
    cbn [at_]. replace ((i + 1) * ip_size k) with (i * ip_size k + ip_size k) by lia.
    rewrite (buffer_at _ _ _ _ F Eb). reflexivity.
Qed.

Lemma zip_nth {A B C} (f : A -> B -> C) l m i v : nth_error (zip f l m) i = Some v ->
  exists a b, nth_error l i = Some a /\ nth_error m i = Some b /\ v = f a b.
Proof.
  revert m i. induction l as [|a l IH]; intros [|b m] i H; try (destruct i; discriminate H).
  destruct i as [|i]; [injection H as <-; exists a, b; auto|exact (IH m i H)].
Qed.
Lemma zip_length {A B C} (f : A -> B -> C) l m : length l = length m -> length (zip f l m) = length m.
Proof. revert m. induction l as [|a l IH]; intros [|b m] H; try discriminate H; [reflexivity|]. cbn. rewrite IH; [reflexivity|]. injection H as H. exact H. Qed.

Theorem native_loads t : unquoted zone -> tz_known zone = true ->
  nameable tz_known t -> plain_type t = t -> no_dictionary t -> no_empty_rows t ->
  forall n vs bs, server_name tz zone t n -> native zone t vs bs -> (80 * lenN bs <= isize_max)%N -> loads n t vs bs.
Proof.
  intros U K. induction t as [sc| |n| |[|p z|]| | | |t IH|t IH|t IH|p sc|vals|vals|f t IH|k IHk v IHv]; intros N P D Z nm vs bs S H B fuel r F;
    assert (B1 : (lenN bs <= isize_max)%N) by lia; cbn [native] in H.
  - load_step S N U K. rewrite Hk; clear Hk. destruct (vec_cells sc (CVec sc) (VNum sc) _ vs bs r (number_cell sc (VNum sc)) H B1) as (zs & R & Hs); try reflexivity.
    exists (CVec sc zs). auto.
  - load_step S N U K. rewrite Hk; clear Hk. destruct (load_strings _ _ r H B) as (l & R & ->). exists (CString l). rewrite run_bind, R. split; [reflexivity|].
    split; [reflexivity|]. split; [cbn [clen]; rewrite map_length; reflexivity|]. intros i v E. cbn [at_]. unfold index.
    apply nth_map in E as (x & -> & <-). reflexivity.
  - load_step S N U K. rewrite Hk; clear Hk. cbn [no_empty_rows] in Z.
    assert (C : cells (fun v b => v = VString b /\ length b = N.to_nat n) vs bs).
    { destruct H as (parts & E & G). exists parts. split; [exact E|]. clear -G. induction G as [|v b vs parts [E L] G IH]; constructor; [|exact IH].
      split; [exact E|]. unfold lenN in L. lia. }
    destruct (buffer_cells _ _ _ _ C) as (parts & -> & Fp & ->). pose proof (parts_length _ _ Fp) as L.
    assert (E : (lenN (map VString parts) * n = lenN (concat parts))%N) by (unfold lenN; rewrite map_length, L; lia).
    exists (CFixed n (concat parts)). split.
    + rewrite run_bind, run_mul_usize by (pose proof isize_lt; lia). rewrite E, run_bind, run_alloc by exact B1. cbv beta iota.
      destruct (run_fixed_rows n (lenN (map VString parts)) (concat parts) r) as (rows & R & Er).
      { unfold lenN. rewrite Nat2N.id, map_length. exact L. }
      rewrite run_bind, R, Er. reflexivity.
    + split; [reflexivity|]. split.
      * cbn [clen]. destruct (N.eqb_spec n 0); [contradiction|]. rewrite L, Nat.div_mul, map_length by lia. reflexivity.
      * intros i v Ev. apply nth_map in Ev as (b & Eb & <-).
        cbn [at_]. rewrite (buffer_at _ _ _ _ Fp Eb). reflexivity.
  - load_step S N U K. rewrite Hk; clear Hk. destruct (vec_cells U16 (fun l => CDate (map Z.to_N l) tz) (fun z => VDate (Z.to_N z)) _ vs bs r
      (fun v b => fixed_cell U16 VDate v b eq_refl ltac:(discriminate)) H B1) as (zs & R & Hs).
    + intros l. cbn [clen]. rewrite map_length. reflexivity.
    + intros l i. cbn [at_]. unfold index. rewrite nth_error_map. destruct (nth_error l i); reflexivity.
    + eexists. split; [exact R|]. auto.
  - load_step S N U K. destruct Hk as (o & -> & G). rewrite G. cbn [pbind].
    destruct (vec_cells U32 (fun l => CDateTime (map Z.to_N l) zone) (fun z => VDateTime (Z.to_N z) zone) _ vs bs r
      (fun v b => fixed_cell U32 (fun s => VDateTime s zone) v b eq_refl ltac:(discriminate)) H B1) as (zs & R & Hs).
    + intros l. cbn [clen]. rewrite map_length. reflexivity.
    + intros l i. cbn [at_]. unfold index. rewrite nth_error_map. destruct (nth_error l i); reflexivity.
    + eexists. split; [exact R|]. auto.
  - load_step S N U K. destruct Hk as (o & -> & G). rewrite G. cbn [pbind].
    destruct (vec_cells I64 (fun l => CDateTime64 l p z) (fun x => VDateTime64 x p z) _ vs bs r
      (number_cell I64 (fun x => VDateTime64 x p z)) H B1) as (zs & R & Hs); try reflexivity.
    eexists. split; [exact R|]. auto.
  - discriminate P.
  - load_step S N U K. rewrite Hk; clear Hk. destruct (load_ip IpV4 vs bs r H B1) as [R Hs]. eexists. split; [exact R|]. auto.
  - load_step S N U K. rewrite Hk; clear Hk. destruct (load_ip IpV6 vs bs r H B1) as [R Hs]. eexists. split; [exact R|]. auto.
  - load_step S N U K. rewrite Hk; clear Hk. destruct (load_ip IpUuid vs bs r H B1) as [R Hs]. eexists. split; [exact R|]. auto.
  - destruct H as (nulls & ws & body & -> & Hn & L & ->). load_step S N U K. destruct Hk as (m & -> & Sm & Lq). destruct N as [N NN].
    cbn [plain_type] in P. injection P as P.
    set (marks := map (fun n : bool => if n then 1%N else 0%N) nulls) in *.
    assert (Lm : length marks = length ws) by (unfold marks; rewrite map_length; exact L).
    unfold lenN in B. rewrite app_length in B.
    destruct (IH N P D Z m ws body Sm Hn ltac:(unfold lenN; lia) f r ltac:(lia)) as (c & R & T & [Hl Ha]).
    exists (CNullable c marks).
    assert (E : lenN (zip (marked t) nulls ws) = lenN ws) by (unfold lenN; rewrite zip_length by exact L; reflexivity).
    rewrite E. split.
    + rewrite run_bind, run_alloc by (unfold lenN in *; lia). cbv beta iota. rewrite <- app_assoc.
      rewrite run_get by (unfold lenN; rewrite Lm; reflexivity). rewrite run_bind, R. reflexivity.
    + split; [cbn [ctype]; rewrite T; reflexivity|]. split.
      * cbn [clen]. rewrite Hl. cbn [rbind]. rewrite Lm, Nat.eqb_refl. rewrite zip_length by exact L. reflexivity.
      * intros i v Ev. destruct (zip_nth _ _ _ _ _ Ev) as (a & b & Ea & Eb & ->). cbn [at_]. unfold index, marks.
        rewrite nth_error_map, Ea. cbn [option_map or_panic rbind]. destruct a; cbn [marked N.eqb Pos.eqb]; [rewrite T; reflexivity|].
        rewrite (Ha i b Eb). reflexivity.
  - destruct H as (rows & offs & body & -> & Ho & Hn & ->). load_step S N U K. destruct Hk as (m & -> & Sm & Lm). cbn [plain_type] in P. injection P as P.
    unfold lenN in B. rewrite app_length in B.
    destruct (IH N P D Z m (concat rows) body Sm Hn ltac:(unfold lenN; lia) f r ltac:(lia)) as (c & R & T & [Hl Ha]).
    exists (CArray c (ends 0 (map (@length value) rows))).
    assert (E : lenN (map (VArray t) rows) = lenN rows) by (unfold lenN; rewrite map_length; reflexivity). rewrite E. split.
    + rewrite <- app_assoc, run_bind, (run_offsets rows offs _ _ Ho eq_refl) by (unfold lenN in *; lia). cbn [fst snd].
      rewrite run_bind, R. reflexivity.
    + split; [cbn [ctype]; rewrite T; reflexivity|]. split; [cbn [clen]; rewrite ends_length, !map_length; reflexivity|].
      intros i v Ev. apply nth_map in Ev as (row & Er & <-).
      destruct (ends_bounds _ _ _ Er) as (s & Eb & Hs). cbn [at_]. rewrite Eb. cbn [rbind fst snd].
      replace (s + length row - s) with (length row) by lia.
      rewrite (mapM_rows (at_ c) row s); [cbn [rbind]; rewrite T; reflexivity|]. intros j x Hj. apply Ha, Hs, Hj.
  - contradiction D.
  - load_step S N U K. rewrite Hk; clear Hk. cbn [nameable] in N.
    assert (E : match (if (p <=? 9)%N then N32 else N64) with N32 => I32 | N64 => I64 end = nb_scalar (if (p <=? 9)%N then N32 else N64))
      by (destruct (p <=? 9)%N; reflexivity).
    rewrite E in H. set (w := if (p <=? 9)%N then N32 else N64) in *.
    destruct (vec_cells (nb_scalar w) (fun l => CDecimal l p sc w) (fun z => VDecimal (mk_decimal z w p sc)) _ vs bs r
      (number_cell (nb_scalar w) (fun z => VDecimal (mk_decimal z w p sc))) H B1) as (zs & R & Hs); try reflexivity.
    eexists. split; [exact R|]. auto.
  - load_step S N U K. rewrite Hk; clear Hk. destruct (vec_cells I8 (CEnum8 vals) (VEnum8 vals) _ vs bs r (number_cell I8 (VEnum8 vals)) H B1) as (zs & R & Hs); try reflexivity.
    eexists. split; [exact R|]. auto.
  - load_step S N U K. rewrite Hk; clear Hk. destruct (vec_cells I16 (CEnum16 vals) (VEnum16 vals) _ vs bs r (number_cell I16 (VEnum16 vals)) H B1) as (zs & R & Hs); try reflexivity.
    eexists. split; [exact R|]. auto.
  - load_step S N U K. destruct Hk as (m & -> & Sm & Lm). destruct N as [N NO]. cbn [plain_type] in P. injection P as P.
    destruct (IH N P D Z m vs bs Sm H B f0 r ltac:(lia)) as (c & R & T & Hs).
    exists (CAgg f c). rewrite run_bind, R. split; [reflexivity|]. split; [cbn [ctype]; rewrite T; reflexivity|]. exact Hs.
  - destruct H as (rows & offs & ks & xs & -> & Ho & Hk & Hv & Hd & ->). load_step S N U K. destruct Hk0 as (m & l & -> & Sk & Sv & Lk & Lv). destruct N as (Nk & NU & Nv).
    cbn [plain_type] in P. injection P as Pk Pv. destruct D as [Dk Dv], Z as [Zk Zv].
    unfold lenN in B. rewrite !app_length in B. 
    destruct (IHk Nk Pk Dk Zk m _ ks Sk Hk ltac:(unfold lenN; lia) f (xs ++ r) ltac:(lia)) as (ck & Rk & Tk & [Hlk Hak]).
    destruct (IHv Nv Pv Dv Zv l _ xs Sv Hv ltac:(unfold lenN; lia) f r ltac:(lia)) as (cv & Rv & Tv & [Hlv Hav]).
    unfold lenN in Rk, Rv. rewrite map_length in Rk, Rv.
    exists (CMap ck cv (ends 0 (map (@length (value * value)) rows))).
    assert (E : lenN (map (VMap k v) rows) = lenN rows) by (unfold lenN; rewrite map_length; reflexivity). rewrite E. split.
    + rewrite <- !app_assoc, run_bind, (run_offsets rows offs _ _ Ho eq_refl) by (unfold lenN in *; lia). cbn [fst snd].
      unfold lenN. rewrite run_bind, Rk, run_bind, Rv. reflexivity.
    + split; [cbn [ctype]; rewrite Tk, Tv; reflexivity|]. split; [cbn [clen]; rewrite ends_length, !map_length; reflexivity|].
      intros i x Ex. apply nth_map in Ex as (row & Er & <-).
      destruct (ends_bounds _ _ _ Er) as (s & Eb & Hs). cbn [at_]. rewrite Eb. cbn [rbind fst snd].
      replace (s + length row - s) with (length row) by lia.
      fold (PushProofs.map_loop (at_ ck) (at_ cv)). rewrite (map_loop_ok (at_ ck) (at_ cv) row s []).
      * cbn [rbind app]. rewrite Tk, Tv. reflexivity.
      * cbn [app]. rewrite Forall_forall in Hd. apply Hd, (nth_error_In _ _ Er).
      * intros j a b Hj. specialize (Hs j (a, b) Hj). split; [apply Hak|apply Hav]; rewrite nth_error_map, Hs; reflexivity.
Qed.

(** ** Columns *)
Lemma native_none t : no_dictionary t -> native zone t [] [].
Proof.
  induction t as [sc| |n| |[|p z|]| | | |t IH|t IH|t IH|p sc|vals|vals|f t IH|k IHk v IHv]; intros D; cbn [native];
    try (exists []; split; [reflexivity|constructor]).
  - exists [], [], []. auto.
  - exists [], [], []. repeat split; auto. exists []. split; [reflexivity|constructor].
  - contradiction D.
  - apply IH, D.
  - exists [], [], [], []. destruct D. repeat split; auto. exists []. split; [reflexivity|constructor].
Qed.
Lemma native_low i vs bs : match i with TNullable _ => False | _ => True end -> native zone (TLowCardinality i) vs bs ->
  exists ds body, native zone i ds body /\ dictionary body ds (entry ds) vs bs.
Proof. intros NN H. destruct i; try contradiction NN; exact H. Qed.
Lemma run_u64_of n l r : fixed_of 8 n l -> run read_u64 (l ++ r) = Ok (n, r).
Proof.
  intros (B & L & V). unfold read_u64, read_scalar. rewrite run_bind, run_get by (unfold lenN; rewrite L; reflexivity).
  cbn [run unmarshal is_signed]. rewrite le_dec_positional, V, N2Z.id. reflexivity.
Qed.
Definition ix_of (x : numbering) : ixtype := match x with Num8 => X8 | Num16 => X16 | Num32 => X32 | Num64 => X64 end.

Theorem column_loads t n vs bs r : unquoted zone -> tz_known zone = true -> server_name tz zone t n -> nameable tz_known t -> plain_type t = t -> plain_dictionary t -> no_empty_rows t ->
  native_column zone t vs bs -> (80 * lenN bs <= isize_max)%N ->
  exists c, run (load_column tz_known n (lenN vs) tz) (bs ++ r) = Ok (c, r) /\ ctype c = t /\ holds c vs.
Proof.
  intros U K S N P D Z H B. unfold load_column. set (fuel := Datatypes.S (List.length n)).
  assert (F : length n < fuel) by (unfold fuel; lia). clearbody fuel.
  assert (Plain : no_dictionary t -> exists c, run (load_data tz_known fuel n (lenN vs) tz) (bs ++ r) = Ok (c, r) /\ ctype c = t /\ holds c vs).
  { clear D. intros D. apply native_loads; try assumption; []. destruct vs as [|v vs]; [cbn in H; subst bs; apply native_none, D|].
    destruct H as (heads & body & -> & Hh & Hb).
    assert (versions t = 0) as E.
    { clear -D. induction t; try reflexivity; try (apply IHt, D); try contradiction D.
      cbn [versions]. destruct D. rewrite IHt1, IHt2 by assumption. reflexivity. }
    rewrite E in Hh. inversion Hh. subst heads. exact Hb. }
  destruct t as [sc| |w| |d| | | |t|t|t|p sc|vals|vals|f t|k v]; try (apply Plain, D). clear Plain.
  cbn [plain_dictionary] in D. destruct D as [D NN]. pose proof N as N0. cbn [nameable] in N0.
  cbn [plain_type] in P. injection P as P. cbn [no_empty_rows] in Z.
  load_step S N U K. destruct Hk as (m & -> & Sm & Lm). assert (Fm : length m < f) by lia. unfold load_low.
  destruct vs as [|v0 vs0].
  - cbn in H. subst bs. change (lenN (@nil value) =? 0)%N with true. cbv iota.
    destruct (native_loads t U K N0 P D Z m [] [] Sm (native_none t D) ltac:(vm_compute; discriminate) f r Fm) as (c & R & T & Hc).
    change (lenN (@nil value)) with 0%N in R. exists (CLow c X8 [] None).
    rewrite run_bind, R, run_bind, read_vec_0. split; [reflexivity|]. split; [cbn [ctype]; rewrite T; reflexivity|].
    split; [reflexivity|]. intros i v E. destruct i; discriminate E.
  - remember (v0 :: vs0) as vs eqn:Evs. assert (Hvs : native_column zone (TLowCardinality t) vs bs = (exists heads body, bs = concat heads ++ body /\
      Forall2 (fixed_of 8) (repeat 1%N 1) heads /\ native zone (TLowCardinality t) vs body)) by (rewrite Evs; reflexivity).
    rewrite Hvs in H. clear Hvs. destruct H as (heads & body & -> & Hh & Hb).
    destruct (N.eqb_spec (lenN vs) 0) as [E0|_]; [rewrite Evs in E0; discriminate E0|].
    inversion Hh as [|a h l hs Hone Hnil]. inversion Hnil. subst. clear Hnil Hh. cbn [concat] in *. rewrite app_nil_r in *.
    destruct (native_low _ _ _ NN Hb) as (ds & dict & Hd & x & js & flags & count & rows & parts & -> & Hf & Hcnt & Hr & Hp & Hv).
    remember (v0 :: vs0) as vs eqn:Evs. clear Evs Hb.
    rewrite <- !app_assoc. rewrite run_bind, (run_u64_of _ _ _ Hone). cbn [N.eqb Pos.eqb negb].
    rewrite run_bind, (run_u64_of _ _ _ Hf).
    assert (E1 : (0x600 + numbering_code x = ix_flags (ix_of x))%N) by (destruct x; reflexivity). rewrite E1.
    assert (ix_of_flags (ix_flags (ix_of x)) = Some (ix_of x)) as -> by (destruct x; reflexivity).
    assert (negb (N.land (ix_flags (ix_of x)) 256 =? 0)%N = false) as -> by (destruct x; reflexivity).
    assert ((N.land (ix_flags (ix_of x)) 512 =? 0)%N = false) as -> by (destruct x; reflexivity).
    rewrite run_bind, (run_u64_of _ _ _ Hcnt).
    unfold lenN in B. rewrite !app_length in B.
    destruct (native_loads t U K N0 P D Z m ds dict Sm Hd ltac:(unfold lenN; lia) f (rows ++ concat parts ++ r) Fm) as (c & R & T & [Hl Ha]).
    rewrite run_bind, R, run_bind, (run_u64_of _ _ _ Hr).
    assert (Lp : length parts = length vs) by (etransitivity; [symmetry; exact (all2_length _ _ _ Hp)|exact (all2_length _ _ _ Hv)]).
    assert (Ew : numbering_width x = width (ix_scalar (ix_of x))) by (destruct x; reflexivity). rewrite Ew in Hp.
    rewrite run_bind, run_vec_parts.
    + rewrite N.eqb_refl. cbn [run].
      assert (map Z.to_N (map (raw_scalar (ix_scalar (ix_of x))) parts) = js) as ->.
      { clear -Hp. induction Hp as [|n b l parts H Hp IH]; [reflexivity|]. cbn [map]. rewrite IH.
        rewrite (raw_fixed _ n b); [rewrite N2Z.id; reflexivity|destruct x; reflexivity|destruct x; discriminate|exact H]. }
      eexists. split; [reflexivity|]. split; [cbn [ctype]; rewrite T; reflexivity|].
      split; [cbn [clen]; rewrite (all2_length _ _ _ Hv); reflexivity|].
      intros i v E. cbn [at_]. unfold index.
      assert (exists j, nth_error js i = Some j /\ entry ds j v) as (j & Ej & Hj).
      { clear -Hv E. revert i E. induction Hv as [|j w js vs H Hv IH]; intros i E; [destruct i; discriminate E|].
        destruct i as [|i]; [injection E as ->; exists j; auto|apply IH, E]. }
      rewrite Ej. cbn [or_panic rbind]. apply Ha, Hj.
    + clear -Hp. induction Hp as [|n b l parts H Hp IH]; constructor; [apply H|exact IH].
    + unfold lenN. f_equal. symmetry. exact Lp.
    + unfold lenN. lia.
Qed.
End Load.
