(** C84: a block written with compression is read back, or is not written. *)
From Coq Require Import String.
From Verif Require Import Base Bytes Utf8 Reader Wire SpecWire CityHash Types Text TypeNames Values Columns Casts Block Compress.
From Verif Require Import SpecCompress ReaderProofs WireProofs BlockProofs CompressProofs PropCompress.
Open Scope list_scope. Open Scope nat_scope.

(** LZ4_MAX_INPUT_SIZE of lz4.h: LZ4_compressBound gives 0 for more, and LZ4_compress_default then
    produces nothing. The length is given to it as an i32 (block/mod.rs 341), so that this is known of
    lengths below 2^32 only. *)
Definition lz4_max : N := 0x7E000000.

Lemma app_same {A} (a b c d : list A) : a ++ b = c ++ d -> length a = length c -> a = c /\ b = d.
Proof.
  revert c. induction a as [|x a IH]; intros [|y c] E L; try discriminate L; [auto|].
  injection E as -> E. injection L as L. destruct (IH c E L) as [-> ->]. auto.
Qed.

(** What a frame at the front of the input says of its sizes and body. *)
Lemma front_frame lo hi c o rest f body original after :
  lo ++ hi ++ [130%N] ++ c ++ o ++ rest = f ++ after ->
  length lo = 8 -> length hi = 8 -> length c = 4 -> length o = 4 -> frame_parts f body original ->
  positional c = (9 + Z.of_nat (length body))%Z /\ (positional c <= 2 ^ 30)%Z /\ positional o = Z.of_N original.
Proof.
  intros E L1 L2 L3 L4 (lo' & hi' & c' & o' & -> & M1 & M2 & M3 & M4 & P1 & P2 & P3 & _).
  rewrite <- !app_assoc in E. apply app_same in E as [_ E]; [|lia]. apply app_same in E as [_ E]; [|lia].
  apply app_same in E as [_ E]; [|reflexivity]. apply app_same in E as [-> E]; [|lia]. apply app_same in E as [-> E]; [|lia].
  auto.
Qed.

Section Frames.
Variable lz4_compress : bytes -> bytes.
Variable lz4_decompress : bytes -> N -> option bytes.
Variable tz_known : bytes -> bool.
Notation load tz := (load_block lz4_decompress tz_known tz true).

Lemma load_nothing tz : forall x, run (raw_load tz_known tz) [] <> Ok x.
Proof. intros x. unfold raw_load. rewrite run_bind. vm_compute. discriminate. Qed.

Lemma load_through tz : load tz = through lz4_decompress (raw_load tz_known tz) [].
Proof. reflexivity. Qed.
Lemma load_front tz s b r : bytes_ok s -> run (load tz) s = Ok (b, r) ->
  exists f body original x after, s = f ++ after /\ frame_parts f body original /\ lz4_decompress body original = Some x.
Proof.
  intros B R. rewrite load_through in R. destruct (c10_parse_is_checked lz4_decompress _ (raw_load tz_known tz) s b r B R) as (ds & fs & rest & -> & Rp & F).
  destruct F as [|d f ds fs (body & original & x & F1 & F2 & _) F]; [exfalso; rewrite concat_nil in Rp; exact (load_nothing tz (b, rest) Rp)|].
  exists f, body, original, x, (concat fs ++ r). cbn [concat]. rewrite <- app_assoc. auto.
Qed.

Lemma written_parts plain r : exists lo hi,
  compress_frame lz4_compress plain ++ r =
    lo ++ hi ++ [130%N] ++ marshal U32 (Z.of_N ((9 + lenN (lz4_compress plain)) mod 2 ^ 32)) ++
      marshal U32 (Z.of_N (lenN plain mod 2 ^ 32)) ++ lz4_compress plain ++ r /\ length lo = 8 /\ length hi = 8.
Proof.
  unfold compress_frame. cbv zeta. match goal with |- context [city_hash_128 ?x] => generalize (city_hash_128 x) end. intros h.
  exists (marshal U64 (Z.of_N (fst h))), (marshal U64 (Z.of_N (snd h))).
  unfold frame_head. rewrite <- !app_assoc, <- app_comm_cons, <- !app_assoc.
  split; [reflexivity|]. rewrite !marshal_length. auto.
Qed.
Lemma size_read n : (n < 2 ^ 32)%N -> positional (marshal U32 (Z.of_N n)) = Z.of_N n.
Proof. intros H. apply (positional_marshal_u lz4_decompress U32 n eq_refl); [discriminate|exact H]. Qed.
Lemma written_bytes plain r : bytes_ok (lz4_compress plain) -> bytes_ok r -> bytes_ok (compress_frame lz4_compress plain ++ r).
Proof.
  intros B R. unfold compress_frame. cbv zeta. unfold frame_head. rewrite !bytes_ok_app.
  repeat split; try apply marshal_bytes; try assumption. constructor; [reflexivity|]. apply bytes_ok_app. split; apply marshal_bytes.
Qed.

(** A block that comes to more than LZ4 takes is written as a frame of 25 bytes that says how long
    the block is and holds nothing of it. Nothing reports this. *)
Theorem c84_lost_refuted tz b plain :
  (forall s, (lz4_max < lenN s < 2 ^ 32)%N -> lz4_compress s = []) -> (forall n, lz4_decompress [] n = None) ->
  write_block b = Ok plain -> (lz4_max < lenN plain < 2 ^ 32)%N ->
  exists bs, write_block_as lz4_compress true b = Ok bs /\ length bs = 25 /\
    forall r b' r', bytes_ok r -> run (load tz) (bs ++ r) <> Ok (b', r').
Proof.
  intros Lc Ld W L. pose proof (Lc plain L) as Z. clear L.
  exists (compress_frame lz4_compress plain). split; [unfold write_block_as; rewrite W; reflexivity|].
  split.
  - unfold compress_frame. rewrite Z. cbv zeta. rewrite !app_length, !marshal_length. unfold frame_head. cbn [length].
    rewrite app_length, !marshal_length. reflexivity.
  - intros r b' r' Br R. apply load_front in R as (f & body & original & x & after & E & F & D);
      [|apply written_bytes; [rewrite Z; constructor|exact Br]].
    destruct (written_parts plain r) as (lo & hi & E' & L1 & L2). rewrite E' in E.
    apply (front_frame _ _ _ _ _ _ _ _ _ E) in F as (F & _); try apply marshal_length; try assumption.
    rewrite Z in F. change (lenN (@nil N)) with 0%N in F. rewrite size_read in F by reflexivity.
    change ((9 + 0) mod 2 ^ 32)%N with 9%N in F. destruct body as [|y body]; [|cbn [length] in F; lia].
    rewrite Ld in D. discriminate D.
Qed.

(** One that LZ4 takes, but whose frame is above the reader's limit of 1 GB, is written too. *)
Theorem c84_too_big_refuted tz b plain :
  bytes_ok (lz4_compress plain) -> write_block b = Ok plain ->
  (2 ^ 30 < 9 + lenN (lz4_compress plain) < 2 ^ 32)%N ->
  exists bs, write_block_as lz4_compress true b = Ok bs /\
    forall r b' r', bytes_ok r -> run (load tz) (bs ++ r) <> Ok (b', r').
Proof.
  intros B W L. exists (compress_frame lz4_compress plain). split; [unfold write_block_as; rewrite W; reflexivity|].
  intros r b' r' Br R. apply load_front in R as (f & body & original & x & after & E & F & D); [|apply written_bytes; assumption].
  destruct (written_parts plain r) as (lo & hi & E' & L1 & L2). rewrite E' in E.
  apply (front_frame _ _ _ _ _ _ _ _ _ E) in F as (_ & F & _); try apply marshal_length; try assumption.
  rewrite N.mod_small in F by lia. rewrite size_read in F by lia. lia.
Qed.
End Frames.
Print Assumptions c84_lost_refuted.
Print Assumptions c84_too_big_refuted.

(** There are such blocks: one string of any length. *)
Definition one_string (s : bytes) : block := mk_block info_default [(str "a", CString [s])].
Definition around (n m : N) : Prop := (n <= m <= n + 100)%N.
Lemma one_string_written s : (lenN s < 2 ^ 63)%N -> exists plain, write_block (one_string s) = Ok plain /\ around (lenN s) (lenN plain).
Proof.
  intros L. destruct (enc_uvarint_ok (lenN s)) as (l & El & _ & _ & Hl & _); [etransitivity; [exact L|reflexivity]|].
  assert (E : enc_string s = Ok (l ++ s)) by (unfold enc_string; rewrite El; reflexivity).
  assert (S : save (CString [s]) 0 1 = Ok (l ++ s)).
  { cbn -[enc_string]. rewrite E. cbn. rewrite app_nil_r. reflexivity. }
  assert (C : exists h, write_column (str "a", CString [s]) = Ok (h ++ l ++ s) /\ length h = 9).
  { unfold write_column. cbn [fst snd clen length ctype].
    replace (enc_string (str "a")) with (Ok [1%N; 97%N]) by reflexivity.
    replace (enc_string (type_name TString)) with (Ok (6%N :: str "String")) by reflexivity.
    cbn [rbind]. rewrite S. cbn [rbind]. eexists. rewrite app_assoc. split; reflexivity. }
  destruct C as (h & C & Hh).
  destruct (write_info info_default) as [i|e|q] eqn:I; [|discriminate I|discriminate I].
  assert (Hi : length i = 8) by (vm_compute in I; injection I as <-; reflexivity).
  destruct (enc_uvarint 1) as [n|e|q] eqn:U; [|discriminate U|discriminate U].
  assert (Hn : length n = 1) by (vm_compute in U; injection U as <-; reflexivity).
  unfold write_block, one_string. cbn [b_info b_cols]. rewrite I. cbn [rbind].
  match goal with |- context [enc_uvarint (lenN ?x)] => change (lenN x) with 1%N end. rewrite U. cbn [rbind row_count b_cols snd clen length].
  change (N.of_nat 1) with 1%N. rewrite U. cbn [rbind mapM].
  match goal with |- context [write_column ?x] => replace (write_column x) with (Ok (h ++ l ++ s)) by (symmetry; exact C) end.
  cbn [rbind rmap]. eexists. split; [reflexivity|].
  unfold around, lenN. rewrite !app_length. cbn [concat]. rewrite !app_length. cbn [length]. lia.
Qed.
Lemma any_length n : exists s, lenN s = n /\ bytes_ok s.
Proof.
  exists (repeat 0%N (N.to_nat n)). split; [unfold lenN; rewrite repeat_length; apply N2Nat.id|].
  apply Forall_forall. intros x H. apply repeat_spec in H as ->. reflexivity.
Qed.
Theorem c84_case : exists b plain, write_block b = Ok plain /\ (lz4_max < lenN plain < 2 ^ 32)%N.
Proof.
  destruct (any_length (1 + lz4_max)) as (s & L & _). destruct (one_string_written s) as (plain & W & G).
  - rewrite L. reflexivity.
  - exists (one_string s), plain. split; [exact W|]. unfold around in G. rewrite L in G. unfold lz4_max in *. lia.
Qed.
Print Assumptions c84_case.
(** With a codec that stores the bytes unchanged, the frame of the same block is above 1 GB. *)
Theorem c84_case_big : exists b plain, write_block b = Ok plain /\ (2 ^ 30 < 9 + lenN plain < 2 ^ 32)%N.
Proof.
  destruct (any_length (2 ^ 30)) as (s & L & _). destruct (one_string_written s) as (plain & W & G).
  - rewrite L. reflexivity.
  - exists (one_string s), plain. split; [exact W|]. unfold around in G. rewrite L in G. lia.
Qed.
