(** Which panics reading a column or a block can end in. *)
From Coq Require Import String Lia.
From Verif Require Import Base Bytes Utf8 Utf8Proofs Reader ReaderProofs Wire WireProofs Types Text TypeNames Decimal DateTime Values Columns Casts Block
  BlockProofs Compress Packets SpecWire SpecTypes SpecNames Utf8SliceProofs NamesProofs TypeNamesProofs.
From Verif Require LoadTypeProofs.
Open Scope list_scope. Open Scope nat_scope.

Definition calm {A} (Q : panic -> Prop) (m : P A) : Prop := forall s p, run m s = Panic p -> Q p.
Local Transparent read_u8.
Section Calm.
Variable Q : panic -> Prop.
Lemma calm_ret A (a : A) : calm Q (Ret a). Proof. intros s p H. discriminate H. Qed.
Lemma calm_fail A e : calm Q (@Fail A e). Proof. intros s p H. discriminate H. Qed.
Lemma calm_crash A p : Q p -> calm Q (@Crash A p). Proof. intros H s q E. injection E as <-. exact H. Qed.
Lemma calm_get A n (k : bytes -> P A) : (forall l, calm Q (k l)) -> calm Q (Get n k).
Proof. intros H s p E. cbn [run] in E. destruct (_ <=? _)%N; [|discriminate]. eapply H, E. Qed.
Lemma calm_bind A B (m : P A) (f : A -> P B) : calm Q m -> (forall a, calm Q (f a)) -> calm Q (pbind m f).
Proof. intros H K s p E. rewrite run_bind in E. destruct (run m s) as [[a r]|e|q] eqn:R; [eapply K, E|discriminate|]. injection E as <-. eapply H, R. Qed.
Lemma calm_repeat_pos A (m : P A) n : calm Q m -> calm Q (prepeat_pos n m).
Proof.
  intros H. induction n as [n IH|n IH|]; cbn [prepeat_pos].
  - apply calm_bind; [exact H|intros x]. apply calm_bind; [exact IH|intros y]. apply calm_bind; [exact IH|intros z]. apply calm_ret.
  - apply calm_bind; [exact IH|intros y]. apply calm_bind; [exact IH|intros z]. apply calm_ret.
  - apply calm_bind; [exact H|intros x]. apply calm_ret.
Qed.
Lemma calm_repeat A (m : P A) n : calm Q m -> calm Q (prepeatN n m).
Proof. intros H. destruct n; [apply calm_ret|apply calm_repeat_pos, H]. Qed.
Lemma calm_fold_pos S (f : S -> P S) n : (forall s, calm Q (f s)) -> forall s, calm Q (pfold_pos n f s).
Proof.
  intros H. induction n as [n IH|n IH|]; intros s; cbn [pfold_pos].
  - apply calm_bind; [apply H|intros x]. apply calm_bind; [apply IH|intros y]. apply IH.
  - apply calm_bind; [apply IH|intros y]. apply IH.
  - apply H.
Qed.
Lemma calm_fold S (f : S -> P S) n s : (forall s, calm Q (f s)) -> calm Q (pfoldN n f s).
Proof. intros H. destruct n; [apply calm_ret|apply calm_fold_pos, H]. Qed.
Lemma calm_alloc n : Q PCapacity -> calm Q (alloc n).
Proof. intros H. unfold alloc. destruct (_ <=? _)%N; [apply calm_ret|apply calm_crash, H]. Qed.
Lemma calm_mul a b : Q PArith -> calm Q (mul_usize a b).
Proof. intros H. unfold mul_usize. destruct (_ <? _)%N; [apply calm_ret|apply calm_crash, H]. Qed.
Lemma calm_scalar t : calm Q (read_scalar t).
Proof. apply calm_get. intros. apply calm_ret. Qed.
Lemma calm_u64 : calm Q read_u64.
Proof. apply calm_bind; [apply calm_scalar|intros; apply calm_ret]. Qed.
Lemma calm_vec t n : Q PCapacity -> calm Q (read_vec t n).
Proof. intros H. apply calm_bind; [apply calm_alloc, H|intros; apply calm_get; intros; apply calm_ret]. Qed.
Lemma calm_offsets n : Q PCapacity -> calm Q (read_offsets n).
Proof. intros H. apply calm_bind; [apply calm_vec, H|intros; apply calm_ret]. Qed.
Lemma calm_varint_loop : Q PArith -> forall fuel x s i, (s = 7 * i)%N -> (11 <= N.of_nat fuel + i)%N -> (i <= 10)%N -> calm Q (read_uvarint_loop fuel x s i).
Proof.
  intros H. induction fuel as [|fuel IH]; intros x s i E L B; [exfalso; cbn in L; lia|]. cbn [read_uvarint_loop].
  apply calm_bind; [unfold read_u8; apply calm_bind; [apply calm_scalar|intros; apply calm_ret]|intros b].
  destruct (b <? 128)%N.
  - destruct (_ || _); [apply calm_fail|]. apply calm_bind; [|intros; apply calm_ret].
    unfold shl64. destruct (_ <? _)%N; [apply calm_ret|apply calm_crash, H].
  - unfold shl64. destruct (N.ltb_spec s 64) as [S|S]; [|cbn [lift pbind]; apply calm_crash, H].
    cbn [lift pbind]. apply IH; lia.
Qed.
Lemma calm_varint : Q PArith -> calm Q read_uvarint.
Proof. intros H. apply (calm_varint_loop H); [reflexivity|discriminate|discriminate]. Qed.
Lemma calm_string : Q PArith -> Q PCapacity -> calm Q read_string.
Proof.
  intros H K. unfold read_string. apply calm_bind; [apply calm_varint, H|intros n]. apply calm_bind; [apply calm_alloc, K|intros _].
  apply calm_get. intros l. destruct (utf8_valid l); [apply calm_ret|apply calm_fail].
Qed.
Lemma calm_strings n : Q PArith -> Q PCapacity -> calm Q (read_strings n).
Proof.
  intros H K. unfold read_strings. apply calm_bind; [apply calm_alloc, K|intros _]. apply calm_repeat.
  apply calm_bind; [apply calm_varint, H|intros k]. apply calm_bind; [apply calm_mul, H|intros m]. apply calm_bind; [apply calm_alloc, K|intros _].
  apply calm_get. intros. apply calm_ret.
Qed.
Lemma calm_zone known o tz : calm Q (get_timezone known o tz).
Proof. unfold get_timezone. destruct o; [destruct (known _); [apply calm_ret|apply calm_fail]|apply calm_ret]. Qed.
Lemma calm_low load n : Q PCapacity -> Q PAssert -> (forall k, calm Q (load k)) -> calm Q (load_low load n).
Proof.
  intros H K L. unfold load_low. destruct (_ =? _)%N.
  - apply calm_bind; [apply L|intros c]. apply calm_bind; [apply calm_vec, H|intros; apply calm_ret].
  - apply calm_bind; [apply calm_u64|intros v]. destruct (negb _); [apply calm_fail|]. apply calm_bind; [apply calm_u64|intros fl].
    destruct (ix_of_flags fl); [|apply calm_fail]. destruct (negb _); [apply calm_fail|]. destruct (_ =? _)%N; [apply calm_fail|].
    apply calm_bind; [apply calm_u64|intros cn]. apply calm_bind; [apply L|intros c]. apply calm_bind; [apply calm_u64|intros kn].
    apply calm_bind; [apply calm_vec, H|intros idx]. destruct (_ =? _)%N; [apply calm_ret|apply calm_crash, K].
Qed.
(** Loading a column of any name: the condition on its name may be lost on the way down only if
    index panics are allowed. *)
Lemma calm_load known (good : bytes -> Prop) :
  Q PArith -> Q PCapacity -> Q PAssert ->
  (forall s p, good s -> classify s = Panic p -> Q p) ->
  (forall s k i, good s -> classify s = Ok (Some k) -> In i (nested k) -> good i) ->
  forall fuel name size tz, good name -> length name < fuel -> calm Q (load_data known fuel name size tz).
Proof.
  intros QA QC QS GP GI. induction fuel as [|fuel IH]; intros name size tz G L; [lia|]. cbn [load_data].
  pose proof (classify_any name) as C.
  destruct (classify name) as [[k|]|e|p] eqn:E; cbn [lift pbind]; [|apply calm_fail|apply calm_fail|apply calm_crash, (GP name), E; exact G].
  assert (forall i n, In i (nested k) -> calm Q (load_data known fuel i n tz)) as R.
  { intros i n I. apply IH; [exact (GI name k i G E I)|]. cbn [shrinks] in C. rewrite Forall_forall in C. specialize (C i I). lia. }
  assert (forall A (x : A), calm Q (Ret x)) as RR by (intros; apply calm_ret).
  destruct k; cbn [nested] in R.
  - apply calm_bind; [apply calm_vec, QC|auto].
  - apply calm_bind; [apply calm_strings; assumption|auto].
  - apply calm_bind; [apply calm_vec, QC|auto].
  - apply calm_bind; [apply calm_mul, QA|intros n]. apply calm_bind; [apply calm_alloc, QC|intros _]. apply calm_get. auto.
  - apply calm_bind; [apply calm_alloc, QC|intros _]. apply calm_get. intros l. apply calm_bind; [apply R; left; reflexivity|auto].
  - apply calm_bind; [apply calm_mul, QA|intros m]. apply calm_bind; [apply calm_alloc, QC|intros _]. apply calm_bind; [|auto].
    apply calm_repeat, calm_get. auto.
  - apply calm_bind; [apply calm_offsets, QC|intros ol]. apply calm_bind; [apply R; left; reflexivity|auto].
  - apply calm_bind; [apply calm_offsets, QC|intros ol]. apply calm_bind; [apply R; left; reflexivity|intros c].
    apply calm_bind; [apply R; right; left; reflexivity|auto].
  - apply calm_bind; [apply calm_vec, QC|auto].
  - apply calm_bind; [apply calm_vec, QC|auto].
  - apply calm_bind; [apply calm_vec, QC|auto].
  - apply calm_bind; [apply calm_zone|intros z]. apply calm_bind; [apply calm_vec, QC|auto].
  - apply calm_bind; [apply calm_zone|intros z]. apply calm_bind; [apply calm_vec, QC|auto].
  - apply calm_bind; [apply R; left; reflexivity|auto].
  - apply calm_low; [exact QC|exact QS|]. intros n. apply R. left. reflexivity.
Qed.
End Calm.

(** ** Empty columns *)
Definition harmless {A} (m : P A) : Prop := forall s, (exists a, run m s = Ok (a, s)) \/ (exists e, run m s = Err e).
Lemma harmless_ret A (a : A) : harmless (Ret a). Proof. intros s. left. exists a. reflexivity. Qed.
Lemma harmless_bind A B (m : P A) (f : A -> P B) : harmless m -> (forall a s, run m s = Ok (a, s) -> harmless (f a)) -> harmless (pbind m f).
Proof.
  intros H K s. rewrite run_bind. destruct (H s) as [[a E]|[e E]]; rewrite E; [apply (K a s E)|right; eauto].
Qed.
Lemma harmless_vec t : harmless (read_vec t 0).
Proof. intros s. left. exists []. apply LoadTypeProofs.read_vec_0. Qed.
Lemma harmless_zone known o tz : harmless (get_timezone known o tz).
Proof. unfold get_timezone. destruct o; [|apply harmless_ret]. destruct (known _); [apply harmless_ret|]. intros s. right. eexists. reflexivity. Qed.
Lemma offsets_0 s : run (read_offsets 0) s = Ok (([], 0%N), s).
Proof. apply LoadTypeProofs.read_offsets_0. Qed.
Lemma harmless_load known (good : bytes -> Prop) :
  (forall s p, good s -> classify s = Panic p -> False) ->
  (forall s k i, good s -> classify s = Ok (Some k) -> In i (nested k) -> good i) ->
  forall fuel name tz, good name -> length name < fuel -> harmless (load_data known fuel name 0 tz).
Proof.
  intros GP GI. induction fuel as [|fuel IH]; intros name tz G L; [lia|]. cbn [load_data].
  pose proof (classify_any name) as C.
  destruct (classify name) as [[k|]|e|p] eqn:E; cbn [lift pbind];
    [|intros s; right; eexists; reflexivity|intros s; right; eexists; reflexivity|exfalso; exact (GP name p G E)].
  assert (forall i, In i (nested k) -> harmless (load_data known fuel i 0 tz)) as R.
  { intros i I. apply IH; [exact (GI name k i G E I)|]. cbn [shrinks] in C. rewrite Forall_forall in C. specialize (C i I). lia. }
  assert (forall A (x : A), harmless (Ret x)) as RR by (intros; apply harmless_ret).
  assert (forall A t (f : list Z -> A), harmless (let! l := read_vec t 0 in Ret (f l))) as RV.
  { intros A t f. apply harmless_bind; [apply harmless_vec|auto]. }
  destruct k; cbn [nested] in R; try apply RV.
  - intros s. left. eexists. reflexivity.
  - intros s. left. apply LoadTypeProofs.load_ip_0.
  - change (alloc 0) with (Ret tt). cbn [pbind]. intros s. cbn [run]. destruct (N.leb_spec 0 (lenN s)) as [_|B]; [|lia]. cbn [N.to_nat firstn skipn].
    apply harmless_bind; [apply R; left; reflexivity|auto].
  - intros s. left. eexists. reflexivity.
  - apply harmless_bind; [intros s; left; eexists; apply offsets_0|]. intros a s H. rewrite offsets_0 in H. injection H as <-. cbn [snd fst].
    apply harmless_bind; [apply R; left; reflexivity|auto].
  - apply harmless_bind; [intros s; left; eexists; apply offsets_0|]. intros a s H. rewrite offsets_0 in H. injection H as <-. cbn [snd fst].
    apply harmless_bind; [apply R; left; reflexivity|intros c _ _]. apply harmless_bind; [apply R; right; left; reflexivity|auto].
  - apply harmless_bind; [apply harmless_zone|intros z _ _]. apply RV.
  - apply harmless_bind; [apply harmless_zone|intros z _ _]. apply RV.
  - apply harmless_bind; [apply R; left; reflexivity|auto].
  - unfold load_low. cbn [N.eqb]. apply harmless_bind; [apply R; left; reflexivity|intros c _ _]. apply RV.
Qed.

(** ** Whole blocks and messages *)
Lemma clen_panics : forall c p, clen c = Panic p -> p = PArith \/ p = PAssert.
Proof.
  fix IH 1. intros c p H.
  destruct c; cbn [clen] in H; try discriminate H; try (exact (IH _ _ H)).
  - destruct (_ =? _)%N; [injection H as <-; auto|discriminate].
  - destruct (clen c) as [m|e|q] eqn:E; cbn [rbind] in H; [|discriminate|injection H as <-; exact (IH _ _ E)].
    destruct (_ =? _); [discriminate|injection H as <-; auto].
  - destruct (clen c) as [m|e|q] eqn:E; cbn [rbind] in H; [|discriminate|injection H as <-; exact (IH _ _ E)].
    match type of H with context [?f cs] => set (sum := f) in H end.
    assert (forall q, sum cs = Panic q -> q = PArith \/ q = PAssert) as S.
    { clear H. induction cs as [|x cs IHc]; intros q H; [discriminate H|]. cbn in H. destruct (clen x) as [n|e|q'] eqn:Ex; cbn [rbind] in H;
        [|discriminate|injection H as <-; exact (IH _ _ Ex)]. fold sum in H. destruct (sum cs) as [n'|e|q'] eqn:Es; cbn [rbind] in H; [discriminate|discriminate|].
      injection H as <-. exact (IHc _ eq_refl). }
    destruct (sum cs) as [n|e|q] eqn:Es; cbn [rbind] in H; [discriminate|discriminate|]. injection H as <-. exact (S _ eq_refl).
Qed.
Lemma run_shorter {A} (m : P A) : forall s a r, run m s = Ok (a, r) -> length r <= length s.
Proof.
  induction m as [x|e|p|n k IH]; intros s a r H; cbn [run] in H; [injection H as _ <-; lia|discriminate|discriminate|].
  destruct (_ <=? _)%N; [|discriminate]. apply IH in H. rewrite skipn_length in H. lia.
Qed.
Lemma byte_shorter s a r : run read_u8 s = Ok (a, r) -> length r < length s.
Proof.
  unfold read_u8, read_scalar. cbn [pbind run]. change (N.of_nat (width U8)) with 1%N. destruct (N.leb_spec 1 (lenN s)) as [L|L]; [|discriminate].
  intros H. apply (f_equal (fun o => match o with Ok (_, t) => length t | _ => 0 end)) in H. cbv beta iota in H. rewrite <- H, skipn_length. unfold lenN in L. lia.
Qed.
Lemma varint_shorter s a r : run read_uvarint s = Ok (a, r) -> length r < length s.
Proof.
  unfold read_uvarint. change 12 with (S 11). cbn [read_uvarint_loop]. intros H. rewrite run_bind in H.
  destruct (run read_u8 s) as [[b t]|e|p] eqn:E; [|discriminate|discriminate]. apply byte_shorter in E. apply run_shorter in H. lia.
Qed.
Lemma info_panics s p : (lenN s < 2 ^ 64)%N -> run read_info s = Panic p -> p = PArith.
Proof.
  intros L. unfold read_info. revert p. apply (ploop_inv info_step (fun _ _ => True) (fun o => forall p, o = Panic p -> p = PArith)); [|exact I|exact L].
  intros i inp _. unfold info_step. rewrite run_bind.
  destruct (run read_uvarint inp) as [[tag r]|e|q] eqn:E; [|discriminate|].
  - apply varint_shorter in E. destruct (_ =? _)%N; [|destruct (_ =? _)%N].
    + rewrite run_bind. destruct (run (read_scalar SBool) r) as [[z t]|e|q] eqn:F; [|discriminate|].
      * apply run_shorter in F. cbn [run]. split; [exact I|lia].
      * exact (False_ind _ (calm_scalar (fun _ => False) SBool r q F)).
    + rewrite run_bind. destruct (run (read_scalar I32) r) as [[z t]|e|q] eqn:F; [|discriminate|].
      * apply run_shorter in F. cbn [run]. split; [exact I|lia].
      * exact (False_ind _ (calm_scalar (fun _ => False) I32 r q F)).
    + destruct (_ =? _)%N; [discriminate|discriminate].
  - intros p H. injection H as <-. apply (calm_varint (fun p => p = PArith) eq_refl inp q E).
Qed.

Definition message_panic (p : panic) : Prop := In p [PIndex; PCapacity; PArith; PAssert; PExplicit].
Lemma calm_any known name size tz : calm message_panic (load_column known name size tz).
Proof.
  unfold load_column. apply (calm_load message_panic known (fun _ => True)); try (cbn; tauto); [|lia].
  intros s p _ E. pose proof (classify_any s) as C. rewrite E in C. cbn in C. subst p. cbn. tauto.
Qed.
Lemma calm_append b x : calm message_panic (lift (append_column b x)).
Proof.
  assert (forall c p, clen c = Panic p -> message_panic p) as L by (intros c p H; destruct (clen_panics _ _ H) as [-> | ->]; cbn; tauto).
  unfold append_column. destruct (clen (snd x)) as [n|e|p] eqn:E; cbn [rbind lift]; [|apply calm_fail|apply calm_crash, (L _ _ E)].
  destruct (b_cols b) as [|c cs] eqn:B; [apply calm_ret|]. unfold row_count. rewrite B. destruct c as [m c].
  destruct (clen c) as [k|e|p] eqn:F; cbn [rbind lift]; [|apply calm_fail|apply calm_crash, (L _ _ F)].
  destruct (_ =? _); [apply calm_ret|apply calm_crash; cbn; tauto].
Qed.
Lemma calm_column known size tz : calm message_panic (read_column known size tz).
Proof.
  unfold read_column. apply calm_bind; [apply calm_string; cbn; tauto|intros n]. apply calm_bind; [apply calm_string; cbn; tauto|intros t].
  apply calm_bind; [apply calm_any|intros c]. apply calm_ret.
Qed.
Lemma calm_columns known tz i : calm message_panic
  (let! ncols := read_uvarint in let! nrows := read_uvarint in
   pfoldN ncols (fun b => let! c := read_column known nrows tz in lift (append_column b c)) (mk_block i [])).
Proof.
  apply calm_bind; [apply calm_varint; cbn; tauto|intros nc]. apply calm_bind; [apply calm_varint; cbn; tauto|intros nr].
  apply calm_fold. intros b. apply calm_bind; [apply calm_column|intros c; apply calm_append].
Qed.
Definition columns_of known tz i : P block :=
  let! ncols := read_uvarint in let! nrows := read_uvarint in
  pfoldN ncols (fun b => let! c := read_column known nrows tz in lift (append_column b c)) (mk_block i []).
Lemma raw_load_eq known tz : raw_load known tz = pbind read_info (columns_of known tz).
Proof. reflexivity. Qed.
Lemma block_panics known tz s p : (lenN s < 2 ^ 64)%N -> run (raw_load known tz) s = Panic p -> message_panic p.
Proof.
  intros B. rewrite raw_load_eq, run_bind. destruct (run read_info s) as [[i r]|e|q] eqn:E; intros H; [|discriminate|].
  - exact (calm_columns known tz i r p H).
  - injection H as <-. rewrite (info_panics _ _ B E). cbn. tauto.
Qed.
Lemma calm_skip (Q : panic -> Prop) : Q PArith -> Q PCapacity -> calm Q skip_string.
Proof.
  intros A C. unfold skip_string. apply calm_bind; [apply calm_varint, A|intros n]. destruct (_ <=? _)%N; [apply calm_get; intros; apply calm_ret|].
  apply calm_bind; [apply calm_alloc, C|intros _]. apply calm_get. intros. apply calm_ret.
Qed.
Definition text_panic (p : panic) : Prop := p = PArith \/ p = PCapacity.
Lemma calm_server known : calm text_panic (parse_server_info known).
Proof.
  assert (calm text_panic read_uvarint) as V by (apply calm_varint; left; reflexivity).
  assert (calm text_panic read_string) as S by (apply calm_string; [left|right]; reflexivity).
  unfold parse_server_info. apply calm_bind; [exact S|intros n]. do 3 (apply calm_bind; [exact V|intros ?]).
  apply calm_bind. { destruct (_ <=? _)%N; [|apply calm_ret]. apply calm_bind; [exact S|intros z]. destruct (known z); [apply calm_ret|apply calm_fail]. }
  intros z. apply calm_bind; [destruct (_ <=? _)%N; [exact S|apply calm_ret]|intros d].
  apply calm_bind; [destruct (_ <=? _)%N; [exact V|apply calm_ret]|intros pt]. apply calm_ret.
Qed.
Lemma calm_bool (Q : panic -> Prop) : calm Q read_bool.
Proof. apply calm_bind; [apply calm_scalar|intros; apply calm_ret]. Qed.
Lemma packet_panics lz known i s p : ti_compress i = false -> (lenN s < 2 ^ 64)%N -> run (parse_packet lz known i) s = Panic p ->
  text_panic p \/ message_panic p /\ exists k r, run read_uvarint s = Ok (k, r) /\ In k [1; 7; 8]%N.
Proof.
  intros C B. unfold parse_packet. rewrite run_bind.
  assert (calm text_panic read_uvarint) as V by (apply calm_varint; left; reflexivity).
  assert (calm text_panic read_string) as S by (apply calm_string; [left|right]; reflexivity).
  destruct (run read_uvarint s) as [[k r]|e|q] eqn:E; intros H; [|discriminate|injection H as <-; left; apply (V s q E)].
  destruct (k =? 0)%N. { left. exact (calm_server known r p H). }
  destruct (k =? 4)%N; [discriminate|].
  destruct (k =? 3)%N.
  { left. revert r E H. assert (calm text_panic (parse_progress (ti_revision i))) as G; [|intros r _ H; exact (G r p H)].
    unfold parse_progress. do 2 (apply calm_bind; [exact V|intros ?]). apply calm_bind; [destruct (_ <=? _)%N; [exact V|apply calm_ret]|intros t].
    apply calm_bind; [|intros w; apply calm_ret]. destruct (_ <=? _)%N; [|apply calm_ret]. do 2 (apply calm_bind; [exact V|intros ?]). apply calm_ret. }
  destruct (k =? 6)%N.
  { left. revert r E H. assert (calm text_panic parse_profile_info) as G; [|intros r _ H; exact (G r p H)].
    unfold parse_profile_info. do 3 (apply calm_bind; [exact V|intros ?]). apply calm_bind; [apply calm_bool|intros ?].
    apply calm_bind; [exact V|intros ?]. apply calm_bind; [apply calm_bool|intros ?]. apply calm_ret. }
  destruct (k =? 11)%N.
  { left. revert r E H. assert (calm text_panic parse_table_columns) as G; [|intros r _ H; exact (G r p H)].
    unfold parse_table_columns. do 2 (apply calm_bind; [exact S|intros ?]). apply calm_ret. }
  destruct (k =? 2)%N.
  { left. revert r E H. assert (calm text_panic parse_exception) as G; [|intros r _ H; exact (G r p H)].
    unfold parse_exception. apply calm_bind; [apply calm_scalar|intros ?]. do 3 (apply calm_bind; [exact S|intros ?]). apply calm_ret. }
  destruct ((k =? 1)%N || (k =? 7)%N || (k =? 8)%N) eqn:K.
  2:{ destruct (k =? 5)%N; discriminate. }
  right. assert (In k [1; 7; 8]%N) as I.
  { apply Bool.orb_true_iff in K as [K|K]; [apply Bool.orb_true_iff in K as [K|K]|]; apply N.eqb_eq in K; subst k; cbn; tauto. }
  split; [|exists k, r; auto]. unfold parse_block in H. destruct (ti_timezone i) as [tz|]; [|discriminate].
  rewrite run_bind in H. destruct (run skip_string r) as [[u t]|e|q] eqn:F; [|discriminate|].
  - assert (load_block lz known tz (ti_compress i) = raw_load known tz) as L by (rewrite C; reflexivity). rewrite L, run_bind in H.
    destruct (run (raw_load known tz) t) as [[b w]|e|q] eqn:G; [discriminate|discriminate|]. injection H as <-.
    apply (block_panics known tz t q); [|exact G]. apply varint_shorter in E. apply run_shorter in F. unfold lenN in *. lia.
  - injection H as <-. apply (calm_skip message_panic) in F; [exact F|cbn; tauto|cbn; tauto].
Qed.

(** ** Columns of cells of one size *)
Definition sound_rows (size : N) (m : P col) : Prop :=
  calm (fun _ => False) m /\ forall s c r, run m s = Ok (c, r) -> clen c = Ok (N.to_nat size).
Lemma chunks_len w n : forall l, length (chunks w n l) = n.
Proof. induction n as [|n IH]; intros l; [reflexivity|]. cbn [chunks length]. rewrite IH. reflexivity. Qed.
Lemma vec_rows t size f : (size * N.of_nat (width t) <= isize_max)%N -> (forall l, length l = N.to_nat size -> clen (f l) = Ok (N.to_nat size)) ->
  sound_rows size (let! l := read_vec t size in Ret (f l)).
Proof.
  intros B F. assert (read_vec t size = Get (size * N.of_nat (width t)) (fun l => Ret (map (raw_scalar t) (chunks (width t) (N.to_nat size) l)))) as E.
  { unfold read_vec, alloc. rewrite (proj2 (N.leb_le _ _) B). reflexivity. }
  rewrite E. cbn [pbind]. split; [apply calm_get; intros; apply calm_ret|]. intros s c r H. cbn [run] in H. destruct (_ <=? _)%N; [|discriminate].
  injection H as <- _. apply F. rewrite map_length. apply chunks_len.
Qed.
Lemma ip_rows k size : (size * N.of_nat (ip_size k) <= isize_max)%N ->
  sound_rows size (let! n := mul_usize size (N.of_nat (ip_size k)) in let! _ := alloc n in Get n (fun l => Ret (CIp k l))).
Proof.
  intros B. assert (mul_usize size (N.of_nat (ip_size k)) = Ret (size * N.of_nat (ip_size k))%N) as ->.
  { unfold mul_usize. rewrite (proj2 (N.ltb_lt _ _)); [reflexivity|]. unfold isize_max in B. lia. }
  cbn [pbind]. assert (alloc (size * N.of_nat (ip_size k)) = Ret tt) as ->.
  { unfold alloc. rewrite (proj2 (N.leb_le _ _) B). reflexivity. }
  cbn [pbind]. split; [apply calm_get; intros; apply calm_ret|]. intros s c r H. cbn [run] in H. destruct (N.leb_spec (size * N.of_nat (ip_size k)) (lenN s)) as [L|]; [|discriminate].
  injection H as <- _. cbn [clen]. f_equal. rewrite firstn_length, Nat.min_l by (unfold lenN in L; lia).
  rewrite N2Nat.inj_mul, Nat2N.id. apply Nat.div_mul. destruct k; discriminate.
Qed.
Lemma repeat_get n size s l r : run (prepeatN size (Get n (fun l => Ret l))) s = Ok (l, r) -> length (concat l) = N.to_nat size * N.to_nat n.
Proof.
  rewrite prepeatN_nat. generalize (N.to_nat size) as k. intros k. revert s l r. induction k as [|k IH]; intros s l r H; cbn [prepeat] in H.
  - injection H as <- _. reflexivity.
  - cbn [pbind run] in H. destruct (N.leb_spec n (lenN s)) as [L|]; [|discriminate]. rewrite run_bind in H.
    destruct (run (prepeat k _) _) as [[xs t]|e|p] eqn:E; [|discriminate|discriminate]. injection H as <- _. cbn [concat]. rewrite app_length, (IH _ _ _ E), firstn_length.
    unfold lenN in L. cbn [Nat.mul]. lia.
Qed.
Lemma fixed_rows n size : (n <> 0)%N -> (size * n <= isize_max)%N ->
  sound_rows size (let! m := mul_usize size n in let! _ := alloc m in let! rows := prepeatN size (Get n (fun l => Ret l)) in Ret (CFixed n (concat rows))).
Proof.
  intros P B. assert (mul_usize size n = Ret (size * n)%N) as ->.
  { unfold mul_usize. rewrite (proj2 (N.ltb_lt _ _)); [reflexivity|]. unfold isize_max in B. lia. }
  cbn [pbind]. assert (alloc (size * n) = Ret tt) as ->.
  { unfold alloc. rewrite (proj2 (N.leb_le _ _) B). reflexivity. }
  cbn [pbind]. split.
  - apply calm_bind; [apply calm_repeat, calm_get; intros; apply calm_ret|intros; apply calm_ret].
  - intros s c r H. rewrite run_bind in H. destruct (run (prepeatN _ _) _) as [[xs t]|e|p] eqn:E; [|discriminate|discriminate].
    apply repeat_get in E. injection H as <- _. cbn [clen]. destruct (N.eqb_spec n 0) as [Z|_]; [lia|]. rewrite E. f_equal. apply Nat.div_mul. lia.
Qed.
Lemma load_sized known tz t : forall fuel size w, nameable known t -> LoadTypeProofs.enough fuel t -> cell_size t = Some w -> (size * w <= isize_max)%N ->
  sound_rows size (load_data known fuel (type_name t) size tz).
Proof.
  induction t as [sc| |n| |[|p z|]| | | |t IH|t IH|t IH|p sc|vals|vals|f t IH|k IHk v IHv];
    intros fuel size w N L W B; destruct fuel as [|fuel]; try (unfold LoadTypeProofs.enough in L; lia); try discriminate W;
    cbn [load_data]; rewrite (classify_name known) by exact N;
    cbn [lift pbind kind_of]; cbn [nameable cell_size] in *; try (injection W as <-).
  - apply vec_rows; [exact B|]. intros l E. cbn [clen]. rewrite E. reflexivity.
  - destruct (N.eqb_spec n 0) as [|P]; [discriminate|]. injection W as <-. apply fixed_rows; assumption.
  - apply vec_rows; [exact B|]. intros l E. cbn [clen]. rewrite map_length, E. reflexivity.
  - cbn [get_timezone pbind]. apply vec_rows; [exact B|]. intros l E. cbn [clen]. rewrite map_length, E. reflexivity.
  - cbn [get_timezone]. destruct N as (_ & _ & ->). cbn [pbind]. apply vec_rows; [exact B|]. intros l E. cbn [clen]. rewrite E. reflexivity.
  - cbn [get_timezone pbind]. apply vec_rows; [exact B|]. intros l E. cbn [clen]. rewrite map_length, E. reflexivity.
  - apply (ip_rows IpV4), B.
  - apply (ip_rows IpV6), B.
  - apply (ip_rows IpUuid), B.
  - destruct (cell_size t) as [v|] eqn:V; [|discriminate]. injection W as <-.
    assert (alloc size = Ret tt) as ->. { unfold alloc. rewrite (proj2 (N.leb_le _ _)); [reflexivity|]. unfold isize_max in *. nia. }
    cbn [pbind]. destruct (IH fuel size v (proj1 N) (LoadTypeProofs.enough_nullable _ _ L) eq_refl) as [C R]; [nia|]. split.
    + apply calm_get. intros l. apply calm_bind; [exact C|intros; apply calm_ret].
    + intros s c r H. cbn [run] in H. destruct (N.leb_spec size (lenN s)) as [Q|]; [|discriminate]. rewrite run_bind in H.
      destruct (run (load_data known fuel (type_name t) size tz) _) as [[ic ir]|e|q] eqn:E; [|discriminate|discriminate]. injection H as <- _. cbn [clen].
      rewrite (R _ _ _ E). cbn [rbind]. rewrite firstn_length, Nat.min_l, Nat.eqb_refl by (unfold lenN in Q; lia). reflexivity.
  - apply vec_rows; [destruct (p <=? 9)%N; exact B|]. intros l E. cbn [clen]. rewrite E. reflexivity.
  - apply vec_rows; [exact B|]. intros l E. cbn [clen]. rewrite E. reflexivity.
  - apply vec_rows; [exact B|]. intros l E. cbn [clen]. rewrite E. reflexivity.
Qed.
