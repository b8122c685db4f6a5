(** Blocks on the wire, and pieces of blocks. *)
From Verif Require Import Base Bytes Utf8 Reader Wire Types Text TypeNames Decimal DateTime Values Columns Casts Block.
From Verif Require Import SpecWire SpecColumns SpecTypes SpecBlock ReaderProofs Utf8Proofs WireProofs PushProofs.
From Verif Require Import TypeNamesProofs LoadTypeProofs SendProofs.
Open Scope nat_scope.

(** ** Headers *)
Lemma four_bytes_marshal z : marshal I32 z = four_bytes z.
Proof.
  unfold marshal, four_bytes. change (width I32) with 4. cbn [le_enc]. unfold to_unsigned.
  change (8 * Z.of_nat 4)%Z with 32%Z. set (u := Z.to_N (z mod 2 ^ 32)).
  assert (u < 4294967296)%N. { pose proof (Z.mod_pos_bound z (2 ^ 32) eq_refl). change (2 ^ 32)%Z with 4294967296%Z in *. lia. }
  rewrite !N.div_div by lia. repeat (f_equal; try lia).
Qed.

Lemma one_byte_varint t r : (t < 128)%N -> run read_uvarint (t :: r) = Ok (t, r).
Proof.
  intros H. change (t :: r) with ([t] ++ r).
  rewrite run_read_uvarint; [|cbn; lia|cbn; lia|cbn [varint_value]; lia].
  cbn [varint_value]. f_equal. f_equal. lia.
Qed.
Lemma one_byte_enc t : (t < 128)%N -> enc_uvarint t = Ok [t].
Proof.
  intros H. destruct (enc_uvarint_ok t) as (l & E & V & W & _ & _ & _ & S); [lia|]. rewrite E. f_equal.
  assert (length l <= 1) as L. { apply (S [t]); [cbn; lia|cbn [varint_value]; lia]. }
  destruct l as [|b [|c l]]; [contradiction| |cbn in L; lia]. cbn in V, W. f_equal. lia.
Qed.

Lemma info_field f i r : field_ok f ->
  run (info_step i) (field_bytes f ++ r) = Ok (inl (fields_info [f] i), r).
Proof.
  intros H. unfold info_step. rewrite run_bind. destruct f as [b|z]; cbn [field_bytes field_ok] in *.
  - cbn [app]. rewrite one_byte_varint by lia. change (1 =? 1)%N with true. cbv iota.
    rewrite run_bind. unfold read_scalar. change (b :: r) with ([b] ++ r). rewrite run_get by reflexivity.
    cbn [run unmarshal hd]. f_equal. f_equal. cbn [fields_info]. destruct (b =? 0)%N; reflexivity.
  - cbn [app]. rewrite one_byte_varint by lia. change (2 =? 1)%N with false. change (2 =? 2)%N with true. cbv iota.
    rewrite run_bind, <- four_bytes_marshal, run_read_scalar; [reflexivity|].
    unfold scalar_ok. change (8 * Z.of_nat (width I32) - 1)%Z with 31%Z. lia.
Qed.

Lemma info_fields fs i r : Forall field_ok fs ->
  run (iter_nat info_step (S (length fs)) i) (concat (map field_bytes fs) ++ 0%N :: r) =
  Ok (inr (fields_info fs i), r).
Proof.
  intros H. revert i. induction H as [|f fs Hf Hfs IH]; intros i.
  - cbn [length map concat app]. cbn [iter_nat]. rewrite run_bind. unfold info_step at 1.
    rewrite run_bind, one_byte_varint by reflexivity. change (0 =? 1)%N with false.
    change (0 =? 2)%N with false. change (0 =? 0)%N with true. cbn [run]. reflexivity.
  - cbn [length map concat]. rewrite <- app_assoc.
    change (iter_nat info_step (S (S (length fs))) i) with
      (let! x := info_step i in match x with inl s' => iter_nat info_step (S (length fs)) s' | inr a => Ret (inr a) end).
    rewrite run_bind, info_field by exact Hf. rewrite IH. f_equal. f_equal. f_equal. destruct f; reflexivity.
Qed.

Lemma read_fields fs r : Forall field_ok fs -> (lenN fs < 2 ^ 64)%N ->
  run read_info (concat (map field_bytes fs) ++ 0%N :: r) = Ok (fields_info fs info_default, r).
Proof.
  intros H L. unfold read_info. apply (ploop_ok info_step (S (length fs))).
  - apply info_fields, H.
  - unfold lenN in L. lia.
Qed.

Lemma read_unknown fs tag tb r : Forall field_ok fs -> (lenN fs < 2 ^ 64)%N -> (2 < tag < 2 ^ 64)%N ->
  enc_uvarint tag = Ok tb ->
  run read_info (concat (map field_bytes fs) ++ tb ++ r) = Err (EUnknownPacket tag).
Proof.
  intros H L [T1 T2] E. unfold read_info. apply (ploop_err info_step (S (length fs))).
  - destruct (enc_uvarint_ok tag T2) as (l & E' & _ & _ & _ & _ & R & _). rewrite E in E'. injection E' as <-.
    generalize info_default. clear L. induction H as [|f fs Hf Hfs IH]; intros i.
    + cbn [length map concat app iter_nat]. rewrite run_bind. unfold info_step at 1. rewrite run_bind, R.
      destruct (N.eqb_spec tag 1); [lia|]. destruct (N.eqb_spec tag 2); [lia|]. destruct (N.eqb_spec tag 0); [lia|].
      reflexivity.
    + cbn [length map concat]. rewrite <- app_assoc. cbn [iter_nat]. rewrite run_bind, info_field by exact Hf.
      exact (IH _).
  - unfold lenN in L. lia.
Qed.

Lemma write_info_fields i : (- 2 ^ 31 <= bi_bucket i < 2 ^ 31)%Z ->
  let fs := [FOverflows (if bi_overflows i then 1 else 0); FBucket (bi_bucket i)] in
  write_info i = Ok (concat (map field_bytes fs) ++ [0%N]) /\ Forall field_ok fs /\
  fields_info fs info_default = i.
Proof.
  intros H fs. split; [|split].
  - unfold write_info. rewrite !one_byte_enc by reflexivity. cbn [rbind]. rewrite four_bytes_marshal.
    destruct i as [[|] z]; reflexivity.
  - repeat constructor; cbn; [destruct (bi_overflows i); lia|exact (proj1 H)|exact (proj2 H)].
  - destruct i as [[|] z]; reflexivity.
Qed.

Lemma run_write_info i : (- 2 ^ 31 <= bi_bucket i < 2 ^ 31)%Z ->
  exists bs, write_info i = Ok bs /\ forall r, run read_info (bs ++ r) = Ok (i, r).
Proof.
  intros H. destruct (write_info_fields i H) as (E & F & V). eexists. split; [exact E|].
  intros r. rewrite <- app_assoc. etransitivity; [apply (read_fields _ r F); reflexivity|]. rewrite V. reflexivity.
Qed.

(** ** Counted loops with a state *)
Fixpoint pfold {S} (n : nat) (f : S -> P S) (s : S) : P S :=
  match n with O => Ret s | Datatypes.S n' => let! s' := f s in pfold n' f s' end.

Lemma pfold_add {S} (f : S -> P S) n m s inp :
  run (pfold (n + m) f s) inp = run (let! s' := pfold n f s in pfold m f s') inp.
Proof.
  revert s inp. induction n as [|n IH]; intros s inp; [reflexivity|]. cbn [Nat.add pfold].
  rewrite !run_bind. destruct (run (f s) inp) as [[s' r]|e|q]; try reflexivity.
  rewrite IH, run_bind. reflexivity.
Qed.

Lemma pfold_pos_nat {S} (f : S -> P S) n : forall s inp, run (pfold_pos n f s) inp = run (pfold (Pos.to_nat n) f s) inp.
Proof.
  induction n as [n IH|n IH|]; intros s inp.
  - replace (Pos.to_nat n~1) with (1 + (Pos.to_nat n + Pos.to_nat n)) by lia. cbn [pfold_pos Nat.add pfold].
    rewrite !run_bind. destruct (run (f s) inp) as [[s' r]|e|q]; try reflexivity.
    rewrite pfold_add, !run_bind, IH. destruct (run (pfold (Pos.to_nat n) f s') r) as [[s2 r2]|e|q]; try reflexivity. apply IH.
  - replace (Pos.to_nat n~0) with (Pos.to_nat n + Pos.to_nat n) by lia. cbn [pfold_pos].
    rewrite pfold_add, !run_bind, IH. destruct (run (pfold (Pos.to_nat n) f s) inp) as [[s2 r2]|e|q]; try reflexivity. apply IH.
  - change (Pos.to_nat 1) with 1. cbn [pfold_pos pfold]. rewrite run_bind.
    destruct (run (f s) inp) as [[s' r]|e|q]; reflexivity.
Qed.
Lemma pfoldN_nat {S} (f : S -> P S) n s inp : run (pfoldN n f s) inp = run (pfold (N.to_nat n) f s) inp.
Proof. destruct n; [reflexivity|]. apply pfold_pos_nat. Qed.

Section Wire.
Variable tz_known : bytes -> bool.
Variable tz : bytes.

Lemma run_write_column n x : column_ok tz_known n x ->
  exists bs c', write_column x = Ok bs /\ (delivers tz (snd x) c' 0 n /\ intact (snd x) c') /\
    forall r, run (read_column tz_known (N.of_nat n) tz) (bs ++ r) = Ok ((fst x, c'), r).
Proof.
  intros (U & L & S & Hn & N & TU & TL).
  destruct (enc_string_read _ L) as (e1 & E1 & R1). destruct (enc_string_read _ TL) as (e2 & E2 & R2).
  destruct (send_column tz_known tz (snd x) S N) as (n' & Hn' & Snd). rewrite Hn in Hn'. injection Hn' as <-.
  destruct (Snd 0 n ltac:(lia) (or_introl eq_refl)) as (d & c' & E3 & D & R3). rewrite Nat.sub_0_r in *.
  unfold write_column. rewrite E1, E2, Hn. cbn [rbind]. rewrite E3. cbn [rbind]. exists (e1 ++ e2 ++ d), c'. split; [reflexivity|].
  split; [exact D|]. intros r. unfold read_column. rewrite <- !app_assoc.
  rewrite run_bind. destruct (R1 (e2 ++ d ++ r)) as (_ & _ & ->).
  rewrite (proj2 (utf8_valid_spec _) U). rewrite run_bind. destruct (R2 (d ++ r)) as (_ & _ & ->).
  rewrite (proj2 (utf8_valid_spec _) TU). rewrite run_bind. unfold load_column.
  rewrite R3 by (unfold enough; lia). reflexivity.
Qed.

Lemma run_write_columns n (xs : list column) : Forall (column_ok tz_known n) xs ->
  exists parts ys, mapM write_column xs = Ok parts /\
    Forall2 (fun x x' => fst x' = fst x /\ delivers tz (snd x) (snd x') 0 n /\ intact (snd x) (snd x')) xs ys /\
    forall info done r, Forall (fun x => clen (snd x) = Ok n) done ->
      run (pfold (length xs) (fun b => let! c := read_column tz_known (N.of_nat n) tz in lift (append_column b c))
            (mk_block info done)) (concat parts ++ r) = Ok (mk_block info (done ++ ys), r).
Proof.
  induction 1 as [|x xs Hx Hxs IH].
  - exists [], []. split; [reflexivity|]. split; [constructor|]. intros info done r _. cbn. rewrite app_nil_r. reflexivity.
  - destruct (run_write_column n x Hx) as (bs & c' & E & [D DI] & R). destruct IH as (parts & ys & E' & F & R').
    exists (bs :: parts), ((fst x, c') :: ys). cbn [mapM]. rewrite E, E'. split; [reflexivity|].
    split; [constructor; [split; [reflexivity|split; [exact D|exact DI]]|exact F]|]. intros info done r Hd.
    cbn [length pfold concat]. rewrite <- app_assoc, run_bind, run_bind, R.
    assert (append_column (mk_block info done) (fst x, c') = Ok (mk_block info (done ++ [(fst x, c')]))) as A.
    { unfold append_column, row_count. cbn [snd b_cols b_info]. rewrite (proj1 (proj2 D)). cbn [rbind].
      destruct done as [|[n0 c0] done]; [reflexivity|]. inversion Hd as [|? ? H0 _]. cbn [snd] in H0. rewrite H0.
      cbn [rbind]. rewrite Nat.eqb_refl. reflexivity. }
    rewrite A. cbn [lift run]. rewrite R'.
    + rewrite <- app_assoc. reflexivity.
    + apply Forall_app. split; [exact Hd|]. constructor; [exact (proj1 (proj2 D))|constructor].
Qed.

Lemma Forall2_impl {A B} (P Q : A -> B -> Prop) xs ys : (forall x y, P x y -> Q x y) -> Forall2 P xs ys -> Forall2 Q xs ys.
Proof. intros H F. induction F; constructor; auto. Qed.

Theorem run_write_block_intact n b : block_ok tz_known n b -> (b_cols b = [] -> n = 0) ->
  exists bs b', write_block b = Ok bs /\ (same_block tz n b b' /\ Forall2 (fun x x' => fst x' = fst x /\ intact (snd x) (snd x')) (b_cols b) (b_cols b')) /\
    forall r, run (raw_load tz_known tz) (bs ++ r) = Ok (b', r).
Proof.
  intros (HB & HN & HC & HF) H0. destruct (run_write_info _ HB) as (i & Ei & Ri).
  destruct (enc_uvarint_ok _ HC) as (nc & Ec & _ & _ & _ & _ & Rc & _).
  destruct (enc_uvarint_ok _ HN) as (nr & Er & _ & _ & _ & _ & Rr & _).
  destruct (run_write_columns n _ HF) as (parts & ys & E & F & R).
  assert (row_count b = Ok n) as RC.
  { unfold row_count. destruct (b_cols b) as [|[n0 c0] cs]; [rewrite H0 by reflexivity; reflexivity|].
    inversion HF as [|? ? HX _]. apply HX. }
  unfold write_block. rewrite Ei, Ec, RC. cbn [rbind]. rewrite Er, E. cbn [rbind].
  exists (i ++ nc ++ nr ++ concat parts), (mk_block (b_info b) ys). split; [reflexivity|].
  split; [|].
  { split; [split; [reflexivity|]|]; cbn [b_cols]; (eapply Forall2_impl; [|exact F]); intros x y (A1 & A2 & A3); auto. }
  intros r. unfold raw_load. rewrite <- !app_assoc.
  rewrite run_bind, Ri, run_bind, Rc, run_bind, Rr, pfoldN_nat.
  unfold lenN. rewrite Nat2N.id. rewrite R by constructor. reflexivity.
Qed.
Theorem run_write_block n b : block_ok tz_known n b -> (b_cols b = [] -> n = 0) ->
  exists bs b', write_block b = Ok bs /\ same_block tz n b b' /\
    forall r, run (raw_load tz_known tz) (bs ++ r) = Ok (b', r).
Proof.
  intros H H0. destruct (run_write_block_intact n b H H0) as (bs & b' & E & [S _] & R). eauto.
Qed.
End Wire.

(** ** Pieces of a block *)
Lemma slice_columns_ok cs a k : forall acc, Forall (fun x => clen (snd x) = Ok k) (b_cols acc) ->
  slice_columns cs a (a + k) acc =
  Ok (mk_block (b_info acc) (b_cols acc ++ map (fun x => (fst x, CChunk (snd x) a (a + k))) cs)).
Proof.
  induction cs as [|[n c] cs IH]; intros acc H; cbn [slice_columns map].
  - rewrite app_nil_r. destruct acc; reflexivity.
  - assert (append_column acc (n, CChunk c a (a + k)) = Ok (mk_block (b_info acc) (b_cols acc ++ [(n, CChunk c a (a + k))]))) as ->.
    { unfold append_column, row_count. cbn [snd clen rbind]. destruct (b_cols acc) as [|[n0 c0] cs0]; [reflexivity|].
      inversion H as [|? ? H0 _]. cbn [snd] in H0. rewrite H0. cbn [rbind].
      replace (a + k - a) with k by lia. rewrite Nat.eqb_refl. reflexivity. }
    cbn [rbind]. rewrite IH.
    + cbn [b_info b_cols fst snd]. rewrite <- app_assoc. reflexivity.
    + cbn [b_cols]. apply Forall_app. split; [exact H|]. constructor; [|constructor]. cbn. f_equal. lia.
Qed.

Lemma slice_piece b a k m : rectangular m b -> a + k <= m ->
  piece_of b a k (mk_block info_default (map (fun x => (fst x, CChunk (snd x) a (a + k))) (b_cols b))).
Proof.
  intros _ H. unfold piece_of. cbn [b_cols]. induction (b_cols b) as [|x xs IH]; [constructor|].
  cbn [map]. constructor; [|exact IH]. cbn [fst snd ctype clen]. repeat split; [f_equal; lia|].
  intros i Hi. cbn [at_]. destruct (Nat.leb_spec (a + k - a) i); [lia|]. f_equal. lia.
Qed.

(** The sizes of the pieces: [n] each, and the rest. *)
Fixpoint pieces (fuel n pos m : nat) : list (nat * nat) :=
  match fuel with
  | O => []
  | S fuel' =>
      if m <=? pos then [] else let k := Nat.min n (m - pos) in (pos, k) :: pieces fuel' n (pos + k) m
  end.

Lemma chunk_pieces n m b : 0 < n -> 0 < m -> rectangular m b -> b_cols b <> [] ->
  forall fuel pos, m - pos < fuel ->
  exists ps, chunk_all fuel n b pos = Ok ps /\
    Forall2 (fun ak p => piece_of b (fst ak) (snd ak) p) (pieces fuel n pos m) ps.
Proof.
  intros Hn Hm Hr Hne. assert (row_count b = Ok m) as RC.
  { unfold row_count. unfold rectangular in Hr. destruct (b_cols b) as [|[x c] cs]; [congruence|].
    inversion Hr as [|? ? H0 _]. exact H0. }
  induction fuel as [|fuel IH]; intros pos Hf; [lia|]. cbn [chunk_all pieces].
  unfold chunk_next. rewrite RC. cbn [rbind]. destruct (Nat.eqb_spec m 0); [lia|]. cbn [andb].
  destruct (Nat.leb_spec m pos).
  - cbn [rbind]. exists []. split; [reflexivity|constructor].
  - rewrite slice_columns_ok by constructor. cbn [rbind app b_cols b_info block_default].
    set (k := Nat.min n (m - pos)). destruct (IH (pos + k) ltac:(lia)) as (ps & E & F). rewrite E. cbn [rbind].
    eexists. split; [reflexivity|]. constructor; [|exact F]. cbn [fst snd].
    apply (slice_piece b pos k m Hr). lia.
Qed.

Lemma pieces_spec n m : 0 < n -> forall fuel pos, m - pos < fuel ->
  (forall i a k, nth_error (pieces fuel n pos m) i = Some (a, k) ->
     a = pos + i * n /\ k = Nat.min n (m - a) /\ a < m) /\
  length (pieces fuel n pos m) = (m - pos + n - 1) / n.
Proof.
  intros Hn. induction fuel as [|fuel IH]; intros pos Hf; [lia|]. cbn [pieces].
  destruct (Nat.leb_spec m pos) as [L|L].
  - split; [intros [|i]; discriminate|]. cbn [length]. symmetry. apply Nat.div_small. lia.
  - destruct (IH (pos + Nat.min n (m - pos)) ltac:(lia)) as [I1 I2]. split.
    + intros [|i] a k; cbn [nth_error]; intros H.
      * injection H as <- <-. lia.
      * destruct (I1 i a k H) as (A & B & C). destruct (Nat.le_gt_cases n (m - pos)) as [Q|Q].
        -- rewrite Nat.min_l in * by lia. split; [nia|]. auto.
        -- exfalso. nia.
    + cbn [length]. rewrite I2. destruct (Nat.le_gt_cases n (m - pos)) as [Q|Q].
      * rewrite Nat.min_l by lia. replace (m - pos + n - 1) with ((m - (pos + n) + n - 1) + 1 * n) by lia.
        rewrite Nat.div_add by lia. lia.
      * rewrite Nat.min_r by lia. replace (m - (pos + (m - pos)) + n - 1) with (n - 1) by lia.
        rewrite (Nat.div_small (n - 1) n) by lia.
        replace (m - pos + n - 1) with ((m - pos - 1) + 1 * n) by lia. rewrite Nat.div_add by lia.
        rewrite Nat.div_small by lia. reflexivity.
Qed.
