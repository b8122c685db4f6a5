(** Properties C09, C10, C11. *)
From Coq Require Import String.
From Verif Require Import Base Bytes Utf8 Reader Wire SpecWire CityHash Types Text TypeNames Values Columns Casts Block Compress.
From Verif Require Import SpecColumns SpecTypes SpecBlock SpecCompress ReaderProofs WireProofs BlockProofs CompressProofs PropBlocks.
Open Scope list_scope. Open Scope nat_scope.

Section Compressed.
Variable lz4_compress : bytes -> bytes.
Variable lz4_decompress : bytes -> N -> option bytes.

(** C09. A parse over frames gives what it gives over the bytes they carry, and leaves the frames
    it did not come to; if it used all the data, it used all the frames. *)
Theorem c09_transparent A (p : P A) ps fs r a rest :
  Forall2 (carries lz4_decompress) ps fs -> Forall (fun d => d <> []) ps ->
  (lenN (concat ps) < 2 ^ 64)%N -> run p (concat ps) = Ok (a, rest) ->
  exists i unread, run (through lz4_decompress p []) (concat fs ++ r) = Ok (a, concat (skipn i fs) ++ r) /\
    rest = unread ++ concat (skipn i ps) /\ (rest = [] -> i = length fs).
Proof.
  intros F NE L R. pose proof (through_ok lz4_decompress p [] ps fs r F NE L) as H.
  cbn [app] in H. rewrite R in H. destruct H as (i & cur & H & V & I).
  exists i, cur. split; [exact H|]. split; [exact V|]. intros ->.
  symmetry in V. apply app_eq_nil in V. destruct V as [_ V].
  assert (Z : skipn i ps = []).
  { pose proof (Forall_skipn _ i ps NE) as N1. destruct (skipn i ps) as [|d l]; [reflexivity|].
    inversion N1; subst. cbn in V. apply app_eq_nil in V. tauto. }
  apply (f_equal (@length _)) in Z. rewrite skipn_length in Z. cbn in Z.
  pose proof (Forall2_length _ _ _ F). lia.
Qed.

(** So are errors and panics of the parse. *)
Theorem c09_errors A (p : P A) ps fs r :
  Forall2 (carries lz4_decompress) ps fs -> Forall (fun d => d <> []) ps -> (lenN (concat ps) < 2 ^ 64)%N ->
  (forall e, e <> EWouldBlock -> run p (concat ps) = Err e ->
     run (through lz4_decompress p []) (concat fs ++ r) = Err e) /\
  (forall q, run p (concat ps) = Panic q -> run (through lz4_decompress p []) (concat fs ++ r) = Panic q).
Proof.
  intros F NE L. pose proof (through_ok lz4_decompress p [] ps fs r F NE L) as H. cbn [app] in H.
  split; [intros e Ne R|intros q R]; rewrite R in H; [destruct e; congruence|exact H].
Qed.

(** A block written with compression on is read back as in C08. The premises say that LZ4
    gives back what it compressed and that the sizes are within the protocol's limits. *)
Theorem c09_block tz_known tz n b plain :
  block_ok tz_known n b -> (b_cols b = [] -> n = 0) -> write_block b = Ok plain ->
  bytes_ok (lz4_compress plain) -> lz4_decompress (lz4_compress plain) (lenN plain) = Some plain ->
  (9 + lenN (lz4_compress plain) <= 2 ^ 30)%N -> (lenN plain < 2 ^ 31)%N ->
  exists bs b', write_block_as lz4_compress true b = Ok bs /\ same_block tz n b b' /\
    forall r, run (load_block lz4_decompress tz_known tz true) (bs ++ r) = Ok (b', r).
Proof.
  intros OK Z W B D Lc Lp.
  destruct (c08_blocks_partial tz_known tz n b OK Z) as (bs & b' & W' & S & R).
  rewrite W in W'. injection W' as <-.
  exists (compress_frame lz4_compress plain), b'.
  split; [unfold write_block_as; rewrite W; reflexivity|]. split; [exact S|]. intros r.
  pose proof (frame_written lz4_decompress lz4_compress plain B Lc Lp D) as C.
  assert (NE : plain <> []).
  { unfold write_block in W. destruct (write_info (b_info b)) as [i| |] eqn:E; try discriminate W.
    unfold write_info in E. vm_compute (enc_uvarint 1) in E. cbn [rbind] in E.
    destruct (enc_uvarint 2); try discriminate E. cbn [rbind] in E.
    destruct (enc_uvarint 0); try discriminate E. cbn [rbind] in E. injection E as <-.
    cbn [rbind] in W. destruct (enc_uvarint (lenN (b_cols b))); try discriminate W. cbn [rbind] in W.
    destruct (row_count b); try discriminate W. cbn [rbind] in W.
    destruct (enc_uvarint (N.of_nat _)); try discriminate W. cbn [rbind] in W.
    destruct (mapM write_column (b_cols b)); try discriminate W. cbn [rbind] in W.
    injection W as <-. discriminate. }
  destruct (c09_transparent _ (raw_load tz_known tz) [plain] [compress_frame lz4_compress plain] r b' [])
    as (i & u & H & _ & I).
  - constructor; [exact C|constructor].
  - constructor; [exact NE|constructor].
  - cbn [concat]. rewrite app_nil_r. lia.
  - cbn [concat]. rewrite app_nil_r. specialize (R []). rewrite app_nil_r in R. exact R.
  - rewrite (I eq_refl) in H. cbn [concat] in H. rewrite app_nil_r in H. exact H.
Qed.

(** C10. What is handed out came from a frame at the front of the input whose checksum, method and size
    are right, and is what its body decompresses to (filled up with zeros to the announced size). *)
Theorem c10_data_is_checked s d r : bytes_ok s -> run (read_frame lz4_decompress) s = Ok (d, r) ->
  exists f body original x, s = f ++ r /\ frame_parts f body original /\
    lz4_decompress body original = Some x /\ d = firstn (N.to_nat original) x ++ repeat 0%N (N.to_nat original - length x).
Proof. exact (frame_checked lz4_decompress s d r). Qed.

(** So for a whole parse: its result is that of a parse of checked data. *)
Theorem c10_parse_is_checked A (p : P A) s a r : bytes_ok s ->
  run (through lz4_decompress p []) s = Ok (a, r) ->
  exists ds fs rest, s = concat fs ++ r /\ run p (concat ds) = Ok (a, rest) /\
    Forall2 (fun d f => exists body original x, frame_parts f body original /\
      lz4_decompress body original = Some x /\
      d = firstn (N.to_nat original) x ++ repeat 0%N (N.to_nat original - length x)) ds fs.
Proof.
  intros B H. destruct (through_checked lz4_decompress p [] s a r B H) as (ds & fs & rest & E & F & R).
  exists ds, fs, rest. auto.
Qed.

(** And a frame with a wrong method, a size above the limit or a wrong checksum is an error, as soon as
    it is complete. *)
Theorem c10_corrupt_is_error lo hi m c o body r :
  length lo = 8 -> length hi = 8 -> length c = 4 -> length o = 4 -> bytes_ok c -> bytes_ok o ->
  m <> 130%N \/ (2 ^ 30 < positional c)%Z \/
    (Z.of_nat (length body) = Z.max 0 (positional c - 9) /\
     let h := city_hash_128 ([130%N] ++ c ++ o ++ body) in
     positional lo <> Z.of_N (fst h) \/ positional hi <> Z.of_N (snd h)) ->
  run (read_frame lz4_decompress) (lo ++ hi ++ [m] ++ c ++ o ++ body ++ r) = Err EOther.
Proof.
  intros Llo Lhi Lc Lo Bc Bo H.
  rewrite (read_frame_head lz4_decompress _ lo hi m c o (body ++ r)) by (reflexivity || assumption).
  destruct (N.eqb_spec m 130) as [->|]; [|reflexivity]. cbn [negb].
  destruct H as [H|H]; [congruence|].
  destruct (N.ltb_spec max_compressed (le_dec c)) as [|M]; [reflexivity|].
  rewrite <- le_dec_positional in H. change max_compressed with (2 ^ 30)%N in M.
  destruct H as [H|[Lb H]]; [lia|].
  replace (le_dec c - 9)%N with (lenN body) by (unfold lenN; lia).
  rewrite (proj2 (N.ltb_ge _ _)) by (unfold lenN; rewrite app_length; lia).
  rewrite firstn_lenN_app. cbv zeta in H |- *.
  destruct (Z.eqb_spec (Z.of_N (fst (city_hash_128 ([130%N] ++ c ++ o ++ body)))) (positional lo));
    [|reflexivity].
  destruct (Z.eqb_spec (Z.of_N (snd (city_hash_128 ([130%N] ++ c ++ o ++ body)))) (positional hi));
    [|reflexivity].
  exfalso. destruct H; congruence.
Qed.

(** C11, the part that holds. Reading a frame panics only in one case: the announced size is less
    than the nine bytes it includes, and the checksum is right all the same. It asks for more data
    only if the announced size exceeds what is there. *)
Theorem c11_frame_partial s : bytes_ok s ->
  match run (read_frame lz4_decompress) s with
  | Panic q => q = PArith /\
      exists lo hi c o rest, s = lo ++ hi ++ [130%N] ++ c ++ o ++ rest /\
        length lo = 8 /\ length hi = 8 /\ length c = 4 /\ length o = 4 /\ (positional c < 9)%Z
  | Err EWouldBlock => length s < 25 \/
      exists lo hi m c o rest, s = lo ++ hi ++ [m] ++ c ++ o ++ rest /\
        length lo = 8 /\ length hi = 8 /\ length c = 4 /\ length o = 4 /\
        (9 + Z.of_nat (length rest) < positional c)%Z
  | Err e => e = EOther
  | Ok _ => True
  end.
Proof.
  intros B. destruct (run (read_frame lz4_decompress) s) as [x|e|q] eqn:R; [exact I| |].
  2:{ destruct (frame_panic lz4_decompress s q B R) as (-> & lo & hi & c & o & rest & H). split; [reflexivity|].
      exists lo, hi, c, o, rest. tauto. }
  destruct (frame_cases lz4_decompress s B) as [[L [E|E]]|(lo & hi & m & c & o & rest & Es & L1 & L2 & L3 & L4 & Bc & Bo)].
  - rewrite E in R. injection R as <-. auto.
  - rewrite E in R. injection R as <-. reflexivity.
  - rewrite (read_frame_head lz4_decompress _ _ _ _ _ _ _ Es) in R by assumption.
    destruct (negb (m =? 130)%N); [injection R as <-; reflexivity|].
    destruct (max_compressed <? le_dec c)%N; [injection R as <-; reflexivity|].
    destruct (N.ltb_spec (lenN rest) (le_dec c - 9)) as [Lr|Lr].
    + injection R as <-. right. exists lo, hi, m, c, o, rest.
      repeat (split; [assumption|]). rewrite <- le_dec_positional. unfold lenN in Lr. lia.
    + cbv zeta in R. destruct (negb _) in R; [injection R as <-; reflexivity|].
      destruct (le_dec c <? 9)%N; [discriminate R|].
      destruct (2 ^ 31 <=? le_dec o)%N; [injection R as <-; reflexivity|].
      destruct (lz4_decompress _ _); [discriminate R|injection R as <-; reflexivity].
Qed.
End Compressed.

Print Assumptions c09_transparent.
Print Assumptions c09_errors.
Print Assumptions c09_block.
Print Assumptions c10_data_is_checked.
Print Assumptions c10_parse_is_checked.
Print Assumptions c10_corrupt_is_error.
Print Assumptions c11_frame_partial.

(** The vector of src/types/block/compressed.rs 128-147, with the reference decoder of
    SpecCompress.v in the place of LZ4. *)
Example test_vector :
  run (read_frame lz4_decode)
    [245; 5; 222; 235; 225; 158; 59; 108; 225; 31; 65; 215; 66; 66; 36; 92; 130; 34; 0; 0; 0; 23; 0; 0; 0; 240;
     8; 1; 0; 2; 255; 255; 255; 255; 0; 1; 1; 1; 115; 6; 83; 116; 114; 105; 110; 103; 3; 97; 98; 99]%N =
  Ok ([1; 0; 2; 255; 255; 255; 255; 0; 1; 1; 1; 115; 6; 83; 116; 114; 105; 110; 103; 3; 97; 98; 99]%N, []).
Proof. vm_compute. reflexivity. Qed.

(** A match that overlaps its own output, and back. *)
Example decoder_case : lz4_decode [34; 7; 8; 2; 0; 16; 9]%N 100 = Some [7; 8; 7; 8; 7; 8; 7; 8; 9]%N.
Proof. vm_compute. reflexivity. Qed.

(** The sample block of PropBlocks.v in three frames that cut its fields, and in one written by the
    client. *)
Definition sample_plain : bytes := match write_block sample_block with Ok l => l | _ => [] end.
Definition sample_pieces : list bytes :=
  [firstn 3 sample_plain; firstn 40 (skipn 3 sample_plain); skipn 43 sample_plain].
Lemma sample_carried : Forall2 (carries lz4_decode) sample_pieces (map (compress_frame lz4_store) sample_pieces).
Proof.
  assert (H : Forall (fun d => forallb (fun b => (b <? 256)%N) (lz4_store d) = true /\
      (9 + lenN (lz4_store d) <= 2 ^ 30)%N /\ (lenN d < 2 ^ 31)%N /\
      lz4_decode (lz4_store d) (lenN d) = Some d) sample_pieces).
  { repeat constructor; vm_compute; first [reflexivity|discriminate]. }
  induction H as [|d l (B & Lc & Ld & D) H IH]; constructor; [|exact IH].
  apply frame_written; try assumption.
  apply Forall_forall. intros b Hb. rewrite forallb_forall in B. apply N.ltb_lt. auto.
Qed.
Example c09_case :
  Forall (fun d => d <> []) sample_pieces /\ (lenN (concat sample_pieces) < 2 ^ 64)%N /\
  exists b, run (raw_load (fun _ => true) (str "UTC")) (concat sample_pieces) = Ok (b, []) /\
    run (load_block lz4_decode (fun _ => true) (str "UTC") true)
      (concat (map (compress_frame lz4_store) sample_pieces) ++ [1; 2]%N) = Ok (b, [1; 2]%N) /\
    write_block_as lz4_store true sample_block = Ok (compress_frame lz4_store sample_plain) /\
    run (load_block lz4_decode (fun _ => true) (str "UTC") true) (compress_frame lz4_store sample_plain) = Ok (b, []) /\
    block_eq sample_block b = Ok true.
Proof.
  split; [repeat constructor; vm_compute; discriminate|]. split; [vm_compute; reflexivity|].
  eexists. split; [vm_compute; reflexivity|]. do 3 (split; [vm_compute; reflexivity|]). vm_compute; reflexivity.
Qed.
Example c09_block_case :
  let plain := sample_plain in
  write_block sample_block = Ok plain /\ bytes_ok (lz4_store plain) /\
  lz4_decode (lz4_store plain) (lenN plain) = Some plain /\
  (9 + lenN (lz4_store plain) <= 2 ^ 30)%N /\ (lenN plain < 2 ^ 31)%N.
Proof.
  cbv zeta. split; [vm_compute; reflexivity|]. split.
  - apply Forall_forall. intros b Hb. apply N.ltb_lt.
    assert (B : forallb (fun b => (b <? 256)%N) (lz4_store sample_plain) = true) by (vm_compute; reflexivity).
    rewrite forallb_forall in B. auto.
  - repeat split; vm_compute; first [reflexivity|discriminate].
Qed.

(** A parse error behind a frame boundary, and one flipped bit. *)
Example c10_case :
  run (through lz4_decode read_info []) (concat (map (compress_frame lz4_store) [[1; 1]; [7]]%N)) = Err (EUnknownPacket 7) /\
  run read_info [1; 1; 7]%N = Err (EUnknownPacket 7) /\
  run (read_frame lz4_decode) (compress_frame lz4_store [1; 2; 3]%N) = Ok ([1; 2; 3]%N, []) /\
  let f := compress_frame lz4_store [1; 2; 3]%N in
  Forall (fun i => run (read_frame lz4_decode)
      (firstn i f ++ [N.lxor (nth i f 0%N) 1] ++ skipn (S i) f) = Err EOther) (seq 0 17 ++ seq 21 8).
Proof.
  do 3 (split; [vm_compute; reflexivity|]). cbv zeta.
  apply Forall_forall. intros i Hi.
  assert (B : forallb (fun i => match run (read_frame lz4_decode)
      (firstn i (compress_frame lz4_store [1; 2; 3]%N) ++
       [N.lxor (nth i (compress_frame lz4_store [1; 2; 3]%N) 0%N) 1] ++
       skipn (S i) (compress_frame lz4_store [1; 2; 3]%N)) with Err EOther => true | _ => false end)
    (seq 0 17 ++ seq 21 8) = true) by (vm_compute; reflexivity).
  rewrite forallb_forall in B. specialize (B i Hi).
  destruct (run _ _) as [|[]|]; congruence.
Qed.

(** C11 is false of the code, twice. A frame whose announced size does not even cover its own head,
    with the right checksum, makes [compressed - 9] overflow. *)
Theorem c11_short_frame_refuted : forall lz4_decompress,
  exists s, bytes_ok s /\ length s = 25 /\ run (read_frame lz4_decompress) s = Panic PArith.
Proof.
  intros lz4.
  exists (marshal U64 (Z.of_N (fst (city_hash_128 [130; 8; 0; 0; 0; 1; 0; 0; 0]%N))) ++
          marshal U64 (Z.of_N (snd (city_hash_128 [130; 8; 0; 0; 0; 1; 0; 0; 0]%N))) ++ [130; 8; 0; 0; 0; 1; 0; 0; 0]%N).
  split; [|split; vm_compute; reflexivity].
  repeat (apply bytes_ok_app; split); try apply marshal_bytes.
  repeat constructor.
Qed.
Print Assumptions c11_short_frame_refuted.

(** And a well-formed frame that carries no data makes the client ask for more data, and go on asking
    whatever follows: the packet is never read. *)
Theorem c11_empty_frame_refuted :
  exists f, carries lz4_decode [] f /\
    forall A n (k : bytes -> P A) r, (n <> 0)%N -> run (through lz4_decode (Get n k) []) (f ++ r) = Err EWouldBlock.
Proof.
  assert (C : carries lz4_decode [] (compress_frame lz4_store [])).
  { apply frame_written; try (vm_compute; first [reflexivity|discriminate]). repeat constructor. }
  exists (compress_frame lz4_store []). split; [exact C|]. intros A n k r Hn.
  assert (T : through lz4_decode (Get n k) [] =
    pbind (gather lz4_decode n []) (fun x => through lz4_decode (k (fst x)) (snd x))) by reflexivity.
  rewrite T, run_bind. clear T.
  assert (G : gather lz4_decode n [] = ploop (gather_step lz4_decode n) ([], [])) by reflexivity.
  rewrite G. clear G.
  rewrite (ploop_err _ 1 _ _ EWouldBlock); [reflexivity| |vm_compute; discriminate].
  cbn [iter_nat]. rewrite run_bind. unfold gather_step.
  rewrite (proj2 (N.leb_gt _ _)) by (change (lenN []) with 0%N; lia).
  rewrite run_bind, run_via_io, (frame_read_back lz4_decode [] _ r C). reflexivity.
Qed.
Print Assumptions c11_empty_frame_refuted.
