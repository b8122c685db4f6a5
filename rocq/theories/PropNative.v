(** C86: a server's columns, blocks and messages are read as the cells the server put there. *)
From Coq Require Import String.
From Verif Require Import Base Bytes Reader Wire Text Types TypeNames Columns Block Compress Packets.
From Verif Require Import SpecWire SpecPackets SpecBlock SpecColumns SpecTypes SpecCompress SpecNative.
From Verif Require Import SpecNum Utf8Proofs ReaderProofs WireProofs CompressProofs PacketsProofs BlockProofs NativeProofs PropCompress PropBlocks PropPackets.
Open Scope list_scope.
Open Scope nat_scope.

Section Read.
Variable lz4_decompress : bytes -> N -> option bytes.
Variable tz_known : bytes -> bool.
Variable tz : bytes.

(** The columns covered: of a type with a name the client knows, without low-cardinality columns
    inside of others and without nullable dictionaries (c86_array_low_refuted and
    c86_low_nullable_refuted below are about those), without strings of fixed length 0. *)
Definition covered (x : sent_column) : Prop :=
  server_name tz (sc_zone x) (sc_type x) (sc_type_name x) /\ nameable tz_known (sc_type x) /\
  unquoted (sc_zone x) /\ tz_known (sc_zone x) = true /\
  plain_type (sc_type x) = sc_type x /\ plain_dictionary (sc_type x) /\ no_empty_rows (sc_type x).

Theorem c86_column_partial x bs r : covered x ->
  native_column (sc_zone x) (sc_type x) (sc_cells x) bs -> (80 * lenN bs <= isize_max)%N ->
  exists c, run (load_column tz_known (sc_type_name x) (lenN (sc_cells x)) tz) (bs ++ r) = Ok (c, r) /\
    ctype c = sc_type x /\ holds c (sc_cells x).
Proof. intros (S & N & U & K & P & D & Z) H B. exact (column_loads tz_known tz _ _ _ _ _ r U K S N P D Z H B). Qed.

(** The block read has the columns sent. *)
Definition shows (b : block) (fs : list field) (xs : list sent_column) : Prop :=
  b_info b = fields_info fs info_default /\
  Forall2 (fun x y => fst y = sc_name x /\ ctype (snd y) = sc_type x /\ holds (snd y) (sc_cells x)) xs (b_cols b).

Lemma fields_cons p ps l : fields (p :: ps) l -> exists a b, l = a ++ b /\ p a /\ fields ps b.
Proof. auto. Qed.
Lemma fields_app ps qs l : fields (ps ++ qs) l -> exists a b, l = a ++ b /\ fields ps a /\ fields qs b.
Proof.
  revert l. induction ps as [|p ps IH]; intros l H; [exists [], l; repeat split; exact H|].
  destruct H as (a & b & -> & Ha & Hb). destruct (IH _ Hb) as (c & d & -> & Hc & Hd).
  exists (a ++ c), d. rewrite <- app_assoc. split; [reflexivity|]. split; [|exact Hd]. exists a, c. auto.
Qed.

Lemma columns_read rows xs : Forall covered xs -> Forall (fun x => length (sc_cells x) = rows) xs ->
  forall l info done r, fields (flat_map column_layout xs) l -> (80 * lenN l <= isize_max)%N ->
    Forall (fun y : column => clen (snd y) = Ok rows) done ->
    exists ys, run (pfold (length xs) (fun b => let! c := read_column tz_known (N.of_nat rows) tz in lift (append_column b c))
        (mk_block info done)) (l ++ r) = Ok (mk_block info (done ++ ys), r) /\
      Forall2 (fun x (y : column) => fst y = sc_name x /\ ctype (snd y) = sc_type x /\ holds (snd y) (sc_cells x)) xs ys.
Proof.
  induction 1 as [|x xs Hx Hxs IH]; intros R l info done r H B Hd.
  - cbn in H. subst l. exists []. rewrite app_nil_r. split; [reflexivity|constructor].
  - inversion R as [|? ? Rx Rxs]; subst. cbn [flat_map] in H. apply fields_app in H as (a & b & -> & Ha & Hb).
    destruct Ha as (n & a1 & -> & Hn & t & a2 & -> & Ht & cs & a3 & -> & Hc & E0). cbn in E0. subst a3. rewrite app_nil_r in *.
    unfold lenN in B. rewrite !app_length in B.
    destruct (c86_column_partial x cs (b ++ r) Hx Hc ltac:(unfold lenN; lia)) as (c & Rc & T & Hl).
    destruct (IH Rxs b info (done ++ [(sc_name x, c)]) r Hb ltac:(unfold lenN; lia)) as (ys & Ry & F).
    { apply Forall_app. split; [exact Hd|]. constructor; [exact (proj1 Hl)|constructor]. }
    exists ((sc_name x, c) :: ys). split; [|constructor; [split; [reflexivity|split; assumption]|exact F]].
    assert (Q : run (read_column tz_known (N.of_nat (length (sc_cells x))) tz) (n ++ t ++ cs ++ b ++ r) = Ok ((sc_name x, c), b ++ r)).
    { unfold read_column. rewrite run_bind, (read_utext_of _ _ _ Hn), run_bind, (read_utext_of _ _ _ Ht), run_bind.
      unfold lenN in Rc. rewrite Rc. reflexivity. }
    cbn [length pfold]. rewrite <- !app_assoc, run_bind, run_bind, Q.
    assert (append_column (mk_block info done) (sc_name x, c) = Ok (mk_block info (done ++ [(sc_name x, c)]))) as A.
    { unfold append_column, row_count. cbn [snd b_cols b_info]. rewrite (proj1 Hl). cbn [rbind].
      destruct done as [|[n0 c0] done]; [reflexivity|]. inversion Hd as [|? ? H0 _]. cbn [snd] in H0. rewrite H0.
      cbn [rbind]. rewrite Nat.eqb_refl. reflexivity. }
    rewrite A. cbn [lift run]. rewrite Ry. rewrite <- app_assoc. reflexivity.
Qed.

Theorem c86_block_partial fs rows xs l r : Forall field_ok fs -> (lenN fs < 2 ^ 64)%N ->
  Forall covered xs -> Forall (fun x => length (sc_cells x) = rows) xs ->
  fields (block_layout fs rows xs) l -> (80 * lenN l <= isize_max)%N ->
  exists b, run (raw_load tz_known tz) (l ++ r) = Ok (b, r) /\ shows b fs xs.
Proof.
  intros F L C R H B. unfold block_layout in H. cbn [app] in H.
  destruct H as (i & l1 & -> & <- & n & l2 & -> & Hn & m & l3 & -> & Hm & H).
  unfold lenN in B. rewrite !app_length in B.
  destruct (columns_read rows xs C R l3 (fields_info fs info_default) [] r H ltac:(unfold lenN; lia) (Forall_nil _)) as (ys & Ry & G).
  exists (mk_block (fields_info fs info_default) ys). split; [|split; [reflexivity|exact G]].
  unfold raw_load. rewrite <- !app_assoc. cbn [app]. rewrite run_bind, (c07_fields fs _ F L).
  rewrite run_bind, (read_varint_of _ _ _ Hn), run_bind, (read_varint_of _ _ _ Hm), pfoldN_nat.
  unfold lenN. rewrite Nat2N.id. exact Ry.
Qed.

(** Messages with a block (data, totals, extremes), plain or cut into compressed frames. *)
Definition travels (compress : bool) (block body : bytes) : Prop :=
  if compress then exists ps frames, block = concat ps /\ body = concat frames /\
                     Forall (fun p => p <> []) ps /\ Forall2 (carries lz4_decompress) ps frames
  else body = block.

Theorem c86_message_partial i k table fs rows xs block body l r :
  In k [1; 7; 8]%N -> ti_timezone i = Some tz ->
  Forall field_ok fs -> (lenN fs < 2 ^ 64)%N -> Forall covered xs -> Forall (fun x => length (sc_cells x) = rows) xs ->
  fields (block_layout fs rows xs) block -> (80 * lenN block <= isize_max)%N ->
  travels (ti_compress i) block body -> fields (data_layout k table (eq body)) l ->
  exists b, run (parse_packet lz4_decompress tz_known i) (l ++ r) = Ok (PkBlock b, r) /\ shows b fs xs.
Proof.
  intros K T F L C R H B V D. pose proof (c06_data lz4_decompress tz_known i k table body l r K D) as P. rewrite T in P.
  unfold travels in V. destruct (ti_compress i).
  - destruct V as (ps & frames & -> & -> & NE & Cs).
    destruct (c86_block_partial fs rows xs _ [] F L C R H B) as (b & Rb & S). rewrite app_nil_r in Rb.
    exists b. split; [|exact S]. apply P. unfold load_block.
    destruct (c09_transparent lz4_store lz4_decompress _ _ ps frames r b [] Cs NE ltac:(pose proof isize_lt; lia) Rb) as (j & u & E & _ & J).
    rewrite E, (J eq_refl), skipn_all. reflexivity.
  - subst body. destruct (c86_block_partial fs rows xs _ r F L C R H B) as (b & Rb & S). exists b. split; [|exact S]. apply P, Rb.
Qed.
End Read.
Print Assumptions c86_column_partial.
Print Assumptions c86_block_partial.
Print Assumptions c86_message_partial.

(** ** Refuted: dictionaries inside of arrays, and nullable dictionaries *)

Lemma fixed_small w n : (n < 256)%N -> (0 < w) -> fixed_of w n (n :: repeat 0%N (w - 1)).
Proof.
  intros L W. split; [|split].
  - constructor; [exact L|]. apply Forall_forall. intros x H. apply repeat_spec in H. subst. reflexivity.
  - cbn [length]. rewrite repeat_length. lia.
  - assert (Z0 : forall k, positional (repeat 0%N k) = 0%Z) by (induction k as [|k IH]; [reflexivity|]; cbn [repeat positional]; rewrite IH; reflexivity).
    cbn [positional]. rewrite Z0. lia.
Qed.

(** An array of a low-cardinality column: the server sends the version of the dictionary before the
    offsets of the rows; the client expects it after them, takes the version for the end of the first
    row and the end of a row for the version. Here the row is ['a', 'a']. *)
Definition array_low_type : sqltype := TArray (TLowCardinality TString).
Definition array_low_cells : list value := [VArray (TLowCardinality TString) [VString [97%N]; VString [97%N]]].
Definition eight (n : N) : bytes := n :: repeat 0%N 7.
Definition array_low_bytes : bytes :=
  eight 1 ++ eight 2 ++ (0%N :: 6%N :: repeat 0%N 6) ++ eight 2 ++ [0; 1; 97]%N ++ eight 2 ++ [1; 1]%N.

Lemma flags_fixed : fixed_of 8 0x600 (0%N :: 6%N :: repeat 0%N 6).
Proof. split; [repeat constructor|]. split; reflexivity. Qed.
Lemma two_strings : native [] TString [VString []; VString [97%N]] [0; 1; 97]%N.
Proof.
  exists [[0%N]; [1; 97]%N]. split; [reflexivity|].
  repeat constructor; eexists; (split; [reflexivity|]).
  - exact (text_small [] eq_refl).
  - exact (text_small [97%N] eq_refl).
Qed.

Theorem c86_array_low_refuted :
  native_column [] array_low_type array_low_cells array_low_bytes /\
  server_name [] [] array_low_type (str "Array(LowCardinality(String))") /\
  forall tz_known tz r, run (load_column tz_known (str "Array(LowCardinality(String))") 1 tz) (array_low_bytes ++ r) = Err EOther.
Proof.
  split; [|split].
  - exists [eight 1], (skipn 8 array_low_bytes). split; [reflexivity|].
    split; [constructor; [exact (fixed_small 8 1 eq_refl ltac:(lia))|constructor]|].
    cbn [native array_low_type].
    exists [[VString [97%N]; VString [97%N]]], (eight 2), (skipn 16 array_low_bytes). split; [reflexivity|].
    split; [exists [eight 2]; split; [reflexivity|]; constructor; [exact (fixed_small 8 2 eq_refl ltac:(lia))|constructor]|].
    split; [|reflexivity]. cbn [concat app].
    exists [VString []; VString [97%N]], [0; 1; 97]%N. split; [exact two_strings|].
    exists Num8, [1; 1]%N, (0%N :: 6%N :: repeat 0%N 6), (eight 2), (eight 2), [[1%N]; [1%N]].
    split; [reflexivity|]. split; [exact flags_fixed|]. split; [exact (fixed_small 8 2 eq_refl ltac:(lia))|].
    split; [exact (fixed_small 8 2 eq_refl ltac:(lia))|]. split; [|repeat constructor].
    repeat constructor; exact (fixed_small 1 1 eq_refl ltac:(lia)).
  - exact (sn_array [] [] _ _ (sn_low [] [] _ _ (sn_string [] []))).
  - intros tz_known tz r. apply run_extend_err; [vm_compute; reflexivity|discriminate].
Qed.
Print Assumptions c86_array_low_refuted.

(** A nullable low-cardinality column: the server's dictionary is one of plain values with 0 for null;
    the client expects null marks in it. The column [NULL, 'a'] is complete and the client waits for
    more; of [NULL, '\0\0'] it makes an empty string where the null was. *)
Definition low_null_type : sqltype := TLowCardinality (TNullable TString).
Definition low_null_cells (s : bytes) : list value := [VNull TString; VSome (VString s)].
Definition low_null_bytes (s : bytes) : bytes :=
  eight 1 ++ (0%N :: 6%N :: repeat 0%N 6) ++ eight 2 ++ (0%N :: lenN s :: s) ++ eight 2 ++ [0; 1]%N.

Lemma low_null_sent s : (lenN s < 128)%N -> native_column [] low_null_type (low_null_cells s) (low_null_bytes s).
Proof.
  intros L. exists [eight 1], (skipn 8 (low_null_bytes s)). split; [reflexivity|].
  split; [constructor; [exact (fixed_small 8 1 eq_refl ltac:(lia))|constructor]|].
  cbn [native low_null_type]. exists [VString []; VString s], (0%N :: lenN s :: s). split.
  - exists [[0%N]; lenN s :: s]. split; [cbn [concat app]; rewrite app_nil_r; reflexivity|].
    repeat constructor; eexists; (split; [reflexivity|]).
    + exact (text_small [] eq_refl).
    + exact (text_small s L).
  - exists Num8, [0; 1]%N, (0%N :: 6%N :: repeat 0%N 6), (eight 2), (eight 2), [[0%N]; [1%N]].
    split; [reflexivity|]. split; [exact flags_fixed|]. split; [exact (fixed_small 8 2 eq_refl ltac:(lia))|].
    split; [exact (fixed_small 8 2 eq_refl ltac:(lia))|].
    split; [constructor; [exact (fixed_small 1 0 eq_refl ltac:(lia))|]; constructor; [exact (fixed_small 1 1 eq_refl ltac:(lia))|constructor]|].
    constructor; [reflexivity|]. constructor; [|constructor]. exists (VString s). split; reflexivity.
Qed.

Theorem c86_low_nullable_refuted :
  native_column [] low_null_type (low_null_cells [97%N]) (low_null_bytes [97%N]) /\
  native_column [] low_null_type (low_null_cells [0; 0]%N) (low_null_bytes [0; 0]%N) /\
  server_name [] [] low_null_type (str "LowCardinality(Nullable(String))") /\
  forall tz_known tz,
    run (load_column tz_known (str "LowCardinality(Nullable(String))") 2 tz) (low_null_bytes [97%N]) = Err EWouldBlock /\
    exists c, run (load_column tz_known (str "LowCardinality(Nullable(String))") 2 tz) (low_null_bytes [0; 0]%N) = Ok (c, []) /\
      at_ c 0 = Ok (VSome (VString [])).
Proof.
  split; [apply low_null_sent; reflexivity|]. split; [apply low_null_sent; reflexivity|].
  split; [exact (sn_low [] [] _ _ (sn_nullable [] [] _ _ (sn_string [] [])))|]. intros tz_known tz. split; [vm_compute; reflexivity|].
  eexists. split; [vm_compute; reflexivity|]. reflexivity.
Qed.
Print Assumptions c86_low_nullable_refuted.

(** ** Cases *)

(** Two rows of Array(Nullable(UInt8)): [1, NULL] and []; and two of an enum, as a server names it. *)
Definition array_sent : sent_column :=
  mk_sent_column (str "a") (TArray (TNullable (TNum U8))) (str "UTC") (str "Array(Nullable(UInt8))")
    [VArray (TNullable (TNum U8)) [VSome (VNum U8 1); VNull (TNum U8)]; VArray (TNullable (TNum U8)) []].
Definition array_sent_bytes : bytes := eight 2 ++ eight 2 ++ [0; 1; 1; 0]%N.
Definition enum_sent_vals : list (bytes * Z) := [([120%N], (-1)%Z); (str "yy", 12%Z)].
Definition enum_sent : sent_column :=
  mk_sent_column (str "e") (TEnum8 enum_sent_vals) (str "UTC") (str "Enum8('x' = -1, 'yy' = 12)")
    [VEnum8 enum_sent_vals 12; VEnum8 enum_sent_vals (-1)].
Definition time_sent : sent_column :=
  mk_sent_column (str "t") (TDateTime DateTime32) (str "Asia/Tokyo") (str "DateTime('Asia/Tokyo')")
    [VDateTime 1 (str "Asia/Tokyo"); VDateTime 256 (str "Asia/Tokyo")].
Definition low_sent : sent_column :=
  mk_sent_column (str "l") (TLowCardinality TString) (str "UTC") (str "LowCardinality(String)")
    [VString [97%N]; VString []].
Definition low_sent_bytes : bytes :=
  eight 1 ++ (0%N :: 6%N :: repeat 0%N 6) ++ eight 2 ++ [0; 1; 97]%N ++ eight 2 ++ [1; 0]%N.
Definition sent_block : bytes :=
  [1; 0; 2; 255; 255; 255; 255; 0; 4; 2]%N ++
  [1; 97; 22]%N ++ str "Array(Nullable(UInt8))" ++ array_sent_bytes ++
  [1; 101; 26]%N ++ str "Enum8('x' = -1, 'yy' = 12)" ++ [12; 255]%N ++
  [1; 116; 22]%N ++ str "DateTime('Asia/Tokyo')" ++ [1; 0; 0; 0; 0; 1; 0; 0]%N ++
  [1; 108; 22]%N ++ str "LowCardinality(String)" ++ low_sent_bytes.

Ltac ascii_text := split; [apply utf8_valid_spec; vm_compute; reflexivity|
  match goal with |- text_of ?s _ => exact (text_small s eq_refl) end].
Lemma one_digit n : (n < 10)%N -> digits_text n [(48 + n)%N].
Proof.
  intros L. exists [n]. split; [reflexivity|]. split; [repeat constructor; exact L|]. split; [unfold dec_value; cbn; lia|].
  split; [discriminate|]. reflexivity.
Qed.

Lemma array_sent_native : native_column (str "UTC") (sc_type array_sent) (sc_cells array_sent) array_sent_bytes.
Proof.
  exists [], array_sent_bytes. split; [reflexivity|]. split; [constructor|].
  exists [[VSome (VNum U8 1); VNull (TNum U8)]; []], (eight 2 ++ eight 2), [0; 1; 1; 0]%N. split; [reflexivity|].
  split; [|split; [|reflexivity]].
  - exists [eight 2; eight 2]. split; [reflexivity|]. repeat constructor; exact (fixed_small 8 2 eq_refl ltac:(lia)).
  - exists [false; true], [VNum U8 1; VNum U8 0], [1; 0]%N. split; [reflexivity|]. split; [|split; reflexivity].
    exists [[1%N]; [0%N]]. split; [reflexivity|]. repeat constructor; eexists; (split; [reflexivity|]); repeat constructor.
Qed.
Lemma enum_sent_native : native_column (str "UTC") (sc_type enum_sent) (sc_cells enum_sent) [12; 255]%N.
Proof.
  exists [], [12; 255]%N. split; [reflexivity|]. split; [constructor|].
  exists [[12%N]; [255%N]]. split; [reflexivity|].
  constructor; [exists 12%Z|constructor; [exists (-1)%Z|constructor]]; (split; [reflexivity|]);
    (split; [repeat constructor|]; split; [reflexivity|]; vm_compute; intuition congruence).
Qed.
Lemma time_sent_native : native_column (str "Asia/Tokyo") (sc_type time_sent) (sc_cells time_sent) [1; 0; 0; 0; 0; 1; 0; 0]%N.
Proof.
  exists [], [1; 0; 0; 0; 0; 1; 0; 0]%N. split; [reflexivity|]. split; [constructor|].
  exists [[1; 0; 0; 0]%N; [0; 1; 0; 0]%N]. split; [reflexivity|].
  constructor; [exists 1%N|constructor; [exists 256%N|constructor]]; (split; [reflexivity|]);
    (split; [repeat constructor|]; split; reflexivity).
Qed.
Lemma low_sent_native : native_column (str "UTC") (sc_type low_sent) (sc_cells low_sent) low_sent_bytes.
Proof.
  exists [eight 1], (skipn 8 low_sent_bytes). split; [reflexivity|].
  split; [constructor; [exact (fixed_small 8 1 eq_refl ltac:(lia))|constructor]|].
  exists [VString []; VString [97%N]], [0; 1; 97]%N. split; [exact two_strings|].
  exists Num8, [1; 0]%N, (0%N :: 6%N :: repeat 0%N 6), (eight 2), (eight 2), [[1%N]; [0%N]].
  split; [reflexivity|]. split; [exact flags_fixed|]. split; [exact (fixed_small 8 2 eq_refl ltac:(lia))|].
  split; [exact (fixed_small 8 2 eq_refl ltac:(lia))|]. split; [|repeat constructor].
  constructor; [exact (fixed_small 1 1 eq_refl ltac:(lia))|]. constructor; [exact (fixed_small 1 0 eq_refl ltac:(lia))|constructor].
Qed.

Lemma sent_covered : Forall (covered (fun _ => true) (str "UTC")) [array_sent; enum_sent; time_sent; low_sent].
Proof.
  assert (U : forall s, forallb (fun b => negb (b =? 39)%N && negb (b =? 92)%N) s = true -> unquoted s).
  { intros s H. apply Forall_forall. intros b I. rewrite forallb_forall in H. specialize (H b I). lia. }
  constructor; [|constructor; [|constructor; [|constructor; [|constructor]]]].
  - split; [exact (sn_array _ _ _ _ (sn_nullable _ _ _ _ (sn_num _ _ U8)))|].
    repeat (split; [first [exact I|reflexivity|apply U; reflexivity|repeat split]|]); cbn; auto.
  - split.
    + apply (sn_enum8 _ _ enum_sent_vals [str "'x' = -1"; str "'yy' = 12"]).
      constructor; [exists [49%N]; split; [exact (one_digit 1 eq_refl)|reflexivity]|].
      constructor; [|constructor]. exists [49; 50]%N. split; [|reflexivity].
      exists [1; 2]%N. split; [reflexivity|]. split; [repeat constructor|]. split; [reflexivity|]. split; [discriminate|]. cbn. discriminate.
    + split.
      { split; [discriminate|]. repeat constructor; cbn; try lia; discriminate. }
      repeat (split; [first [exact I|reflexivity|apply U; reflexivity]|]); cbn; auto.
  - split; [exact (sn_zoned (str "UTC") (str "Asia/Tokyo"))|].
    repeat (split; [first [exact I|reflexivity|apply U; reflexivity]|]); cbn; auto.
  - split; [exact (sn_low _ _ _ _ (sn_string _ _))|].
    repeat (split; [first [exact I|reflexivity|apply U; reflexivity|repeat split]|]); cbn; auto.
Qed.

Example c86_case :
  fields (block_layout [FOverflows 0; FBucket (-1)] 2 [array_sent; enum_sent; time_sent; low_sent]) sent_block /\
  (exists b, run (parse_packet lz4_decode (fun _ => true) (mk_tinfo (Some (str "UTC")) 54423 false)) ([1; 0]%N ++ sent_block ++ [5%N]) =
      Ok (PkBlock b, [5%N]) /\ shows b [FOverflows 0; FBucket (-1)] [array_sent; enum_sent; time_sent; low_sent]) /\
  exists b, run (parse_packet lz4_decode (fun _ => true) (mk_tinfo (Some (str "UTC")) 54423 true))
              ([1; 0]%N ++ compress_frame lz4_store sent_block ++ [5%N]) =
      Ok (PkBlock b, [5%N]) /\ shows b [FOverflows 0; FBucket (-1)] [array_sent; enum_sent; time_sent; low_sent].
Proof.
  assert (F : fields (block_layout [FOverflows 0; FBucket (-1)] 2 [array_sent; enum_sent; time_sent; low_sent]) sent_block).
  { unfold block_layout. cbn [flat_map column_layout app].
    exists [1; 0; 2; 255; 255; 255; 255; 0]%N. eexists. split; [reflexivity|]. split; [reflexivity|].
    exists [4%N]. eexists. split; [reflexivity|]. split; [exact (varint_small 4 eq_refl)|].
    exists [2%N]. eexists. split; [reflexivity|]. split; [exact (varint_small 2 eq_refl)|].
    exists [1; 97]%N. eexists. split; [reflexivity|]. split; [ascii_text|].
    exists (22%N :: str "Array(Nullable(UInt8))"). eexists. split; [reflexivity|]. split; [ascii_text|].
    exists array_sent_bytes. eexists. split; [reflexivity|]. split; [exact array_sent_native|].
    exists [1; 101]%N. eexists. split; [reflexivity|]. split; [ascii_text|].
    exists (26%N :: str "Enum8('x' = -1, 'yy' = 12)"). eexists. split; [reflexivity|]. split; [ascii_text|].
    exists [12; 255]%N. eexists. split; [reflexivity|]. split; [exact enum_sent_native|].
    exists [1; 116]%N. eexists. split; [reflexivity|]. split; [ascii_text|].
    exists (22%N :: str "DateTime('Asia/Tokyo')"). eexists. split; [reflexivity|]. split; [ascii_text|].
    exists [1; 0; 0; 0; 0; 1; 0; 0]%N. eexists. split; [reflexivity|]. split; [exact time_sent_native|].
    exists [1; 108]%N. eexists. split; [reflexivity|]. split; [ascii_text|].
    exists (22%N :: str "LowCardinality(String)"). eexists. split; [reflexivity|]. split; [ascii_text|].
    exists low_sent_bytes. exists []. split; [reflexivity|]. split; [exact low_sent_native|]. reflexivity. }
  assert (FS : Forall field_ok [FOverflows 0; FBucket (-1)]) by (repeat constructor; cbn; lia).
  assert (R : Forall (fun x => length (sc_cells x) = 2) [array_sent; enum_sent; time_sent; low_sent]) by (repeat constructor).
  assert (B : (80 * lenN sent_block <= isize_max)%N) by (vm_compute; discriminate).
  split; [exact F|]. split.
  - apply (c86_message_partial lz4_decode (fun _ => true) (str "UTC") (mk_tinfo (Some (str "UTC")) 54423 false) 1 []
      [FOverflows 0; FBucket (-1)] 2 [array_sent; enum_sent; time_sent; low_sent] sent_block sent_block ([1; 0]%N ++ sent_block) [5%N]);
      try assumption; try reflexivity; [left; reflexivity|exact sent_covered|].
    exists [1%N]. eexists. split; [reflexivity|]. split; [exact (varint_small 1 eq_refl)|].
    exists [0%N]. eexists. split; [reflexivity|]. split; [exact (text_small [] eq_refl)|].
    exists sent_block, []. split; [rewrite app_nil_r; reflexivity|]. split; reflexivity.
  - rewrite app_assoc.
    apply (c86_message_partial lz4_decode (fun _ => true) (str "UTC") (mk_tinfo (Some (str "UTC")) 54423 true) 1 []
      [FOverflows 0; FBucket (-1)] 2 [array_sent; enum_sent; time_sent; low_sent] sent_block (compress_frame lz4_store sent_block)
      ([1; 0]%N ++ compress_frame lz4_store sent_block) [5%N]);
      try assumption; try reflexivity; [left; reflexivity|exact sent_covered| |].
    + exists [sent_block], [compress_frame lz4_store sent_block]. split; [cbn [concat]; rewrite app_nil_r; reflexivity|].
      split; [cbn [concat]; rewrite app_nil_r; reflexivity|]. split; [constructor; [discriminate|constructor]|].
      constructor; [|constructor]. apply frame_written; try (vm_compute; first [reflexivity|discriminate]).
      vm_compute. repeat constructor.
    + exists [1%N]. eexists. split; [reflexivity|]. split; [exact (varint_small 1 eq_refl)|].
      exists [0%N]. eexists. split; [reflexivity|]. split; [exact (text_small [] eq_refl)|].
      exists (compress_frame lz4_store sent_block), []. split; [rewrite app_nil_r; reflexivity|]. split; reflexivity.
Qed.
