(** C05, C06, C29: messages from and to the server. *)
From Coq Require Import String.
From Verif Require Import Base Bytes Utf8 Reader Wire Types Text TypeNames Columns Casts Block CityHash Compress Packets
  ReaderProofs SpecNum SpecWire SpecCompress SpecPackets WireProofs TextProofs Utf8Proofs CompressProofs PacketsProofs.
Open Scope list_scope.
Open Scope nat_scope.

Section Messages.
Variable lz4_decompress : bytes -> N -> option bytes.
Variable tz_known : bytes -> bool.
Notation parse := (parse_packet lz4_decompress tz_known).

(** ** C05 *)

(** A message is read from exactly its own bytes [u]: on every strict prefix more data is asked
    for, and what follows the message does not matter. *)
Theorem c05_prefix i input packet rest :
  run (parse i) input = Ok (packet, rest) ->
  exists u, input = u ++ rest /\ u <> [] /\
    (forall v w, u = v ++ w -> w <> [] -> run (parse i) v = Err EWouldBlock) /\
    (forall rest', run (parse i) (u ++ rest') = Ok (packet, rest')).
Proof.
  intros H. destruct (run_consumes _ _ _ _ H) as [u ->]. exists u. split; [reflexivity|].
  assert (N : u <> []).
  { intros ->. assert (G : parse i = parse i) by reflexivity. unfold parse_packet at 2 in G.
    pose proof (run_app_invariant _ [] rest [] packet H) as H'. cbn [app] in H'.
    unfold parse_packet in H'. rewrite run_bind in H'.
    assert (E : run read_uvarint [] = Err EWouldBlock) by (vm_compute; reflexivity).
    rewrite E in H'. discriminate. }
  split; [exact N|]. split.
  - intros v w E W. apply (run_strict_prefix _ u rest packet v w H E W).
  - intros rest'. apply (run_app_invariant _ u rest rest' packet H).
Qed.

(** The other direction: what is not yet a message stays so only as long as more data can make a
    difference; an error or a panic is not undone by further bytes. *)
Theorem c05_errors_are_final i input :
  (forall e, run (parse i) input = Err e -> e <> EWouldBlock -> forall more, run (parse i) (input ++ more) = Err e) /\
  (forall p, run (parse i) input = Panic p -> forall more, run (parse i) (input ++ more) = Panic p).
Proof.
  split; intros x H; intros; [apply run_extend_err; assumption|apply run_extend_panic; assumption].
Qed.

(** ** C06 *)

Ltac next H a b E := destruct H as (a & b & -> & E & H); rewrite <- ?app_assoc.
Ltac step L := rewrite run_bind, L; cbv beta iota.

Lemma number i n l b r : varint_of n l -> run (parse i) ((l ++ b) ++ r) =
  run (if (n =? 0)%N then parse_server_info tz_known
  else if (n =? 4)%N then Ret PkPong
  else if (n =? 3)%N then parse_progress (ti_revision i)
  else if (n =? 6)%N then parse_profile_info
  else if (n =? 11)%N then parse_table_columns
  else if (n =? 2)%N then parse_exception
  else if (n =? 1)%N || (n =? 7)%N || (n =? 8)%N then parse_block lz4_decompress tz_known i
  else if (n =? 5)%N then Ret PkEof
  else Fail (EUnknownPacket n)) (b ++ r).
Proof. intros V. rewrite <- app_assoc. unfold parse_packet. step (read_varint_of n l (b ++ r) V). reflexivity. Qed.

Lemma since_fields gate revision p ps l :
  fields (since gate revision p ++ ps) l ->
  if (gate <=? revision)%N then exists a b, l = a ++ b /\ p a /\ fields ps b else fields ps l.
Proof. unfold since. destruct (gate <=? revision)%N; cbn [app fields]; auto. Qed.

Lemma hello_read i name major minor revision zone display patch l r :
  fields (hello_layout name major minor revision zone display patch) l ->
  run (parse i) (l ++ r) =
    if (54058 <=? revision)%N && negb (tz_known zone) then Err EIo
    else Ok (PkHello (mk_server_info name revision minor major
                        (if (54058 <=? revision)%N then zone else str "UTC")
                        (if (54372 <=? revision)%N then display else [])
                        (if (54401 <=? revision)%N then patch else 0%N)), r).
Proof.
  unfold hello_layout. cbn [app fields]. intros (a & b & -> & Ha & H). rewrite (number i 0 _ _ _ Ha).
  change (if (0 =? 0)%N then parse_server_info tz_known else _) with (parse_server_info tz_known).
  unfold parse_server_info.
  destruct H as (n & b1 & -> & Hn & H). rewrite <- app_assoc. step (read_utext_of _ _ (b1 ++ r) Hn).
  destruct H as (ma & b2 & -> & Hma & H). rewrite <- app_assoc. step (read_varint_of _ _ (b2 ++ r) Hma).
  destruct H as (mi & b3 & -> & Hmi & H). rewrite <- app_assoc. step (read_varint_of _ _ (b3 ++ r) Hmi).
  destruct H as (re & b4 & -> & Hre & H). rewrite <- app_assoc. step (read_varint_of _ _ (b4 ++ r) Hre).
  change rev_timezone with 54058%N. change rev_display_name with 54372%N. change rev_patch with 54401%N.
  apply since_fields in H. destruct (54058 <=? revision)%N eqn:E1.
  - destruct H as (z & b5 & -> & Hz & H). rewrite <- app_assoc.
    rewrite run_bind, run_bind, (read_utext_of _ _ (b5 ++ r) Hz). cbv beta iota.
    destruct (tz_known zone); cbn [andb negb]; [|reflexivity].
    cbn [run]. apply since_fields in H. destruct (54372 <=? revision)%N eqn:E2.
    + destruct H as (d & b6 & -> & Hd & H). rewrite <- app_assoc. step (read_utext_of _ _ (b6 ++ r) Hd).
      unfold since in H. destruct (54401 <=? revision)%N eqn:E3.
      * apply (proj1 (fields_one _ _)) in H. step (read_varint_of _ _ r H). reflexivity.
      * cbn [fields] in H. subst b6. reflexivity.
    + unfold since in H. destruct (54401 <=? revision)%N eqn:E3.
      * apply N.leb_gt in E2. apply N.leb_le in E3. lia.
      * cbn [fields] in H. subst b5. reflexivity.
  - apply N.leb_gt in E1. cbn [andb].
    unfold since in H. rewrite (proj2 (N.leb_gt 54372 revision)) in * by lia.
    rewrite (proj2 (N.leb_gt 54401 revision)) in * by lia. cbn [app fields] in H. subst b4. reflexivity.
Qed.

(** The server's greeting. Time zone, display name and patch level are read iff the revision has
    them; UTC, nothing and zero stand for them otherwise. *)
Theorem c06_hello i name major minor revision zone display patch l r :
  fields (hello_layout name major minor revision zone display patch) l ->
  ((54058 <= revision)%N -> tz_known zone = true) ->
  run (parse i) (l ++ r) =
    Ok (PkHello (mk_server_info name revision minor major
                   (if (54058 <=? revision)%N then zone else str "UTC")
                   (if (54372 <=? revision)%N then display else [])
                   (if (54401 <=? revision)%N then patch else 0%N)), r).
Proof.
  intros H K. rewrite (hello_read _ _ _ _ _ _ _ _ _ _ H).
  destruct (54058 <=? revision)%N eqn:E; [|reflexivity].
  apply N.leb_le in E. rewrite (K E). reflexivity.
Qed.
(** A zone that the client does not know is an error. *)
Theorem c06_hello_unknown_zone i name major minor revision zone display patch l r :
  fields (hello_layout name major minor revision zone display patch) l ->
  (54058 <= revision)%N -> tz_known zone = false -> run (parse i) (l ++ r) = Err EIo.
Proof.
  intros H R K. rewrite (hello_read _ _ _ _ _ _ _ _ _ _ H), K.
  apply N.leb_le in R. rewrite R. reflexivity.
Qed.

Theorem c06_exception i code name message stack l r :
  fields (exception_layout code name message stack) l ->
  run (parse i) (l ++ r) = Ok (PkException (mk_server_error code name message stack), r).
Proof.
  unfold exception_layout. cbn [fields]. intros (a & b & -> & Ha & H). rewrite (number i 2 _ _ _ Ha).
  change (if (2 =? 0)%N then _ else _) with parse_exception. unfold parse_exception.
  destruct H as (n & b1 & -> & Hn & H). rewrite <- app_assoc. step (read_fixed_of _ _ (b1 ++ r) Hn).
  destruct H as (ma & b2 & -> & Hma & H). rewrite <- app_assoc. step (read_utext_of _ _ (b2 ++ r) Hma).
  destruct H as (mi & b3 & -> & Hmi & H). rewrite <- app_assoc. step (read_utext_of _ _ (b3 ++ r) Hmi).
  destruct H as (re & b4 & -> & Hre & ->). rewrite <- app_assoc. step (read_utext_of _ _ ([] ++ r) Hre).
  rewrite N2Z.id. reflexivity.
Qed.

Theorem c06_progress i rows bytes total written_rows written_bytes l r :
  fields (progress_layout (ti_revision i) rows bytes total written_rows written_bytes) l ->
  run (parse i) (l ++ r) =
    Ok (PkProgress (mk_progress rows bytes
                      (if (51554 <=? ti_revision i)%N then total else 0%N)
                      (if (54420 <=? ti_revision i)%N then written_rows else 0%N)
                      (if (54420 <=? ti_revision i)%N then written_bytes else 0%N)), r).
Proof.
  unfold progress_layout. cbn [app fields]. intros (a & b & -> & Ha & H). rewrite (number i 3 _ _ _ Ha).
  change (if (3 =? 0)%N then _ else _) with (parse_progress (ti_revision i)). unfold parse_progress.
  destruct H as (n & b1 & -> & Hn & H). rewrite <- app_assoc. step (read_varint_of _ _ (b1 ++ r) Hn).
  destruct H as (ma & b2 & -> & Hma & H). rewrite <- app_assoc. step (read_varint_of _ _ (b2 ++ r) Hma).
  change rev_total_rows with 51554%N. change rev_write_info with 54420%N.
  apply since_fields in H. destruct (51554 <=? ti_revision i)%N eqn:E1.
  - destruct H as (t & b3 & -> & Ht & H). rewrite <- app_assoc. step (read_varint_of _ _ (b3 ++ r) Ht).
    unfold since in H. destruct (54420 <=? ti_revision i)%N; cbn [app fields] in H.
    + destruct H as (x & b4 & -> & Hx & y & b5 & -> & Hy & ->). rewrite <- !app_assoc.
      rewrite run_bind. rewrite run_bind. rewrite (read_varint_of _ _ _ Hx). cbv beta iota.
      rewrite run_bind, (read_varint_of _ _ _ Hy). reflexivity.
    + subst b3. reflexivity.
  - apply N.leb_gt in E1. unfold since in H.
    rewrite (proj2 (N.leb_gt 54420 (ti_revision i))) in * by lia.
    cbn [app fields] in H. subst b2. reflexivity.
Qed.

Theorem c06_profile i rows blocks bytes applied before calculated l r :
  fields (profile_layout rows blocks bytes applied before calculated) l ->
  run (parse i) (l ++ r) = Ok (PkProfile (mk_profile rows bytes blocks applied before calculated), r).
Proof.
  unfold profile_layout. cbn [fields]. intros (a & b & -> & Ha & H). rewrite (number i 6 _ _ _ Ha).
  change (if (6 =? 0)%N then _ else _) with parse_profile_info. unfold parse_profile_info.
  destruct H as (n & b1 & -> & Hn & H). rewrite <- app_assoc. step (read_varint_of _ _ (b1 ++ r) Hn).
  destruct H as (c & b2 & -> & Hc & H). rewrite <- app_assoc. step (read_varint_of _ _ (b2 ++ r) Hc).
  destruct H as (d & b3 & -> & Hd & H). rewrite <- app_assoc. step (read_varint_of _ _ (b3 ++ r) Hd).
  destruct H as (e & b4 & -> & He & H). rewrite <- app_assoc. step (read_flag_of _ _ (b4 ++ r) He).
  destruct H as (f & b5 & -> & Hf & H). rewrite <- app_assoc. step (read_varint_of _ _ (b5 ++ r) Hf).
  destruct H as (g & b6 & -> & Hg & ->). rewrite <- app_assoc. step (read_flag_of _ _ ([] ++ r) Hg).
  reflexivity.
Qed.

Theorem c06_table_columns i table columns l r :
  fields (table_columns_layout table columns) l ->
  run (parse i) (l ++ r) = Ok (PkTableColumns table columns, r).
Proof.
  unfold table_columns_layout. cbn [fields]. intros (a & b & -> & Ha & H). rewrite (number i 11 _ _ _ Ha).
  change (if (11 =? 0)%N then _ else _) with parse_table_columns. unfold parse_table_columns.
  destruct H as (n & b1 & -> & Hn & H). rewrite <- app_assoc. step (read_utext_of _ _ (b1 ++ r) Hn).
  destruct H as (c & b2 & -> & Hc & ->). rewrite <- app_assoc. step (read_utext_of _ _ ([] ++ r) Hc).
  reflexivity.
Qed.

Theorem c06_pong_and_end i l r :
  (fields pong_layout l -> run (parse i) (l ++ r) = Ok (PkPong, r)) /\
  (fields end_layout l -> run (parse i) (l ++ r) = Ok (PkEof, r)).
Proof.
  unfold pong_layout, end_layout. cbn [fields].
  split; intros (a & b & -> & Ha & ->); [rewrite (number i 4 _ _ _ Ha)|rewrite (number i 5 _ _ _ Ha)]; reflexivity.
Qed.

(** Data, totals and extremes: the table's name is passed over and the rest is the block as C08 and
    C09 read it. Before the server's greeting they are an error. *)
Theorem c06_data i k table block l r :
  In k [1; 7; 8]%N -> fields (data_layout k table (eq block)) l ->
  match ti_timezone i with
  | None => run (parse i) (l ++ r) = Err EUnexpectedPacket
  | Some zone =>
      forall b, run (load_block lz4_decompress tz_known zone (ti_compress i)) (block ++ r) = Ok (b, r) ->
      run (parse i) (l ++ r) = Ok (PkBlock b, r)
  end.
Proof.
  intros K. unfold data_layout. cbn [fields]. intros (a & b & -> & Ha & t & b1 & -> & Ht & x & y & -> & <- & ->).
  rewrite (number i k _ _ _ Ha).
  assert (E : (if (k =? 0)%N then parse_server_info tz_known
  else if (k =? 4)%N then Ret PkPong
  else if (k =? 3)%N then parse_progress (ti_revision i)
  else if (k =? 6)%N then parse_profile_info
  else if (k =? 11)%N then parse_table_columns
  else if (k =? 2)%N then parse_exception
  else if (k =? 1)%N || (k =? 7)%N || (k =? 8)%N then parse_block lz4_decompress tz_known i
  else if (k =? 5)%N then Ret PkEof
  else Fail (EUnknownPacket k)) = parse_block lz4_decompress tz_known i).
  { destruct K as [<-|[<-|[<-|[]]]]; reflexivity. }
  rewrite E. unfold parse_block. destruct (ti_timezone i) as [zone|]; [|reflexivity].
  intros blk H. rewrite <- !app_assoc. step (skip_text_of _ _ (block ++ [] ++ r) Ht). cbn [app].
  rewrite run_bind, H. reflexivity.
Qed.

(** Any other number is an error. *)
Theorem c06_unknown i k l r :
  varint_of k l -> ~ In k [0; 1; 2; 3; 4; 5; 6; 7; 8; 11]%N -> run (parse i) (l ++ r) = Err (EUnknownPacket k).
Proof.
  intros V K. pose proof (number i k l [] r V) as E. rewrite app_nil_r in E. cbn [app] in E. rewrite E.
  cbn [In] in K.
  repeat (rewrite (proj2 (N.eqb_neq k _)) by (intros ->; apply K; tauto)). reflexivity.
Qed.
End Messages.

(** ** C29 *)

Section Commands.
Variable lz4_decompress : bytes -> N -> option bytes.
Variable lz4_compress : bytes -> bytes.
Variable show_float : Z -> bytes.

Lemma encodes_number n : (n < 2 ^ 64)%N -> exists t, digits_text n t /\ print_N n = t /\ fits t.
Proof.
  intros H. destruct (digits_of_spec n) as (A & B & C & E & D).
  exists (print_N n). split; [|split; [reflexivity|]].
  - exists (digits_of n). rewrite print_N_map. repeat split; auto. intros Z.
    destruct (N.eqb_spec n 0) as [->|]; [rewrite E by reflexivity; reflexivity|].
    exfalso. apply D; [lia|]. destruct (digits_of n); [congruence|exact Z].
  - unfold fits. pose proof (print_N_size n H). lia.
Qed.

Lemma setting_encoded as_text x : setting_fits show_float x -> fst x <> [] ->
  exists s, setting_sent show_float as_text x s /\
    Forall2 encodes ((if as_text then new_setting show_float else old_setting show_float) x) (setting_layout s).
Proof.
  destruct x as [n [v im]]. intros (F & G) NE. cbn [fst snd sv_value sv_important] in *. destruct as_text.
  - assert (T : exists w, value_sent show_float true v (VText w) /\ show_setting show_float v = w /\ fits w).
    { destruct v as [s|b|k|f]; cbn [value_sent show_setting] in *.
      - exists s. auto.
      - eexists. split; [reflexivity|]. split; [reflexivity|]. destruct b; vm_compute; discriminate.
      - destruct (encodes_number k G) as (t & A & B & C). exists t. split; [|auto]. exists t. auto.
      - exists (show_float f). auto. }
    destruct T as (w & A & B & C). exists (mk_sent n (Some im) (VText w)).
    split; [repeat split; assumption|]. unfold new_setting, setting_layout. cbn [fst snd sv_value sv_important
      ss_name ss_flag ss_value opt app]. rewrite B.
    constructor; [apply encodes_text, F|]. constructor; [apply encodes_flag|].
    constructor; [apply encodes_text, C|]. constructor.
  - exists (mk_sent n None match v with
                           | SString s => VText s
                           | SBoolean b => VNumber (if b then 1 else 0)
                           | SUInt k => VNumber k
                           | SFloat f => VText (show_float f)
                           end).
    split; [split; [reflexivity|]; split; [reflexivity|]; destruct v; reflexivity|].
    unfold old_setting, setting_layout. cbn [fst snd sv_value sv_important ss_name ss_flag ss_value opt app].
    constructor; [apply encodes_text, F|]. constructor; [|constructor].
    destruct v as [s|b|k|f]; [apply encodes_text, G|apply encodes_varint; destruct b; lia|apply encodes_varint, G|
      apply encodes_text, G].
Qed.

Lemma settings_encoded as_text l : Forall (setting_fits show_float) l -> Forall (fun x => fst x <> []) l ->
  exists ss, Forall2 (setting_sent show_float as_text) l ss /\
    Forall2 encodes (serialize_settings show_float as_text l) (flat_map setting_layout ss ++ [text_of []]).
Proof.
  unfold serialize_settings. induction l as [|x l IH]; intros F G.
  - exists []. split; [constructor|]. cbn [flat_map app]. constructor; [|constructor].
    apply encodes_text. vm_compute. discriminate.
  - inversion F as [|? ? F1 F2]; inversion G as [|? ? G1 G2]; subst.
    destruct (setting_encoded as_text x F1 G1) as (s & A & B). destruct (IH F2 G2) as (ss & C & D).
    exists (s :: ss). split; [constructor; assumption|]. cbn [flat_map]. rewrite <- !app_assoc.
    apply Forall2_app; assumption.
Qed.

Definition the_client (c : context) (id : bytes) : client_fields :=
  mk_client_fields 1 [] id (str "[::ffff:127.0.0.1]:0") 1 (cx_hostname c) (cx_hostname c)
    (str "Rust SQLDriver") 1 1 54429
    (if (54060 <=? cx_revision c)%N then Some [] else None)
    (if (54401 <=? cx_revision c)%N then Some 0%N else None).

Lemma client_encoded c id : fits (cx_hostname c) -> fits id ->
  Forall2 encodes
    ([enc_uvarint 1; enc_string []; enc_string id; enc_string (str "[::ffff:127.0.0.1]:0");
      enc_uvarint 1; enc_string (cx_hostname c); enc_string (cx_hostname c)] ++ client_info ++
     (if (rev_quota_key <=? cx_revision c)%N then [enc_string []] else []) ++
     (if (rev_patch <=? cx_revision c)%N then [enc_uvarint 0] else []))
    (client_layout (the_client c id)).
Proof.
  intros Hh Hi. unfold the_client, client_layout, client_info.
  cbn [qc_kind qc_initial_user qc_initial_id qc_address qc_interface qc_os_user qc_hostname qc_client qc_major
       qc_minor qc_revision qc_quota_key qc_patch app].
  change rev_quota_key with 54060%N. change rev_patch with 54401%N. change client_name with (str "Rust SQLDriver").
  assert (X : forall s, fits s -> encodes (enc_string s) (text_of s)) by (intros; apply encodes_text; assumption).
  assert (X0 : fits []) by (vm_compute; discriminate).
  constructor; [apply encodes_varint; lia|]. constructor; [apply X, X0|]. constructor; [apply X, Hi|].
  constructor; [apply X; vm_compute; discriminate|]. constructor; [apply encodes_varint; lia|].
  constructor; [apply X, Hh|]. constructor; [apply X, Hh|]. constructor; [apply X; vm_compute; discriminate|].
  do 3 (constructor; [apply encodes_varint; lia|]).
  apply Forall2_app.
  - destruct (54060 <=? cx_revision c)%N; cbn [opt]; constructor; [apply X, X0|constructor].
  - destruct (54401 <=? cx_revision c)%N; cbn [opt]; constructor; [apply encodes_varint; lia|constructor].
Qed.

(** What follows the query: the data message of an empty block, plain or in one frame. *)
Definition empty_data (compressed : bool) (l : bytes) : Prop :=
  fields (data_layout 2 [] (fun d => if compressed then carries lz4_decompress empty_block_bytes d
                                     else d = empty_block_bytes)) l.

Lemma empty_data_sent compressed :
  (compressed = true -> bytes_ok (lz4_compress empty_block_bytes) /\
     lz4_decompress (lz4_compress empty_block_bytes) (lenN empty_block_bytes) = Some empty_block_bytes /\
     (9 + lenN (lz4_compress empty_block_bytes) <= 2 ^ 30)%N) ->
  exists d, send_data lz4_compress compressed block_default = Ok d /\ empty_data compressed d.
Proof.
  intros L. unfold send_data.
  destruct (encodes_varint 2 ltac:(lia)) as (a & -> & A).
  destruct (encodes_text [] ltac:(vm_compute; discriminate)) as (t & -> & T).
  assert (W : write_block block_default = Ok empty_block_bytes) by (vm_compute; reflexivity).
  unfold write_block_as, empty_data, data_layout. rewrite W. cbn [rbind]. destruct compressed.
  - destruct (L eq_refl) as (B & D & S). eexists. split; [reflexivity|]. cbn [fields].
    eexists _, _. split; [reflexivity|]. split; [exact A|]. eexists _, _. split; [reflexivity|].
    split; [exact T|]. eexists _, []. rewrite app_nil_r. split; [reflexivity|]. split; [|reflexivity].
    apply frame_written; auto. vm_compute. reflexivity.
  - eexists. split; [reflexivity|]. cbn [fields].
    eexists _, _. split; [reflexivity|]. split; [exact A|]. eexists _, _. split; [reflexivity|].
    split; [exact T|]. eexists _, []. rewrite app_nil_r. auto.
Qed.

(** A server of any revision that has the client's fields reads from the bytes of the query exactly
    one message: the query text, the compression flag and the settings as asked for, and after it
    the data message of an empty block. Missing for the full property: the id ([c29_query_id_refuted]),
    a setting without a name ([c29_empty_name_refuted]) and older servers
    ([c29_old_server_refuted]). *)
Theorem c29_query_partial q c o numeric :
  cx_options c = Ok o -> (54032 <= cx_revision c)%N ->
  fits (q_sql q) -> fits (q_id q) -> fits (cx_hostname c) ->
  Forall (setting_fits show_float) (o_settings o) -> Forall (fun x => fst x <> []) (o_settings o) ->
  (forall x, In x (o_settings o) -> numeric (fst x) = is_numeric (sv_value (snd x))) ->
  (o_compression o = true -> bytes_ok (lz4_compress empty_block_bytes) /\
     lz4_decompress (lz4_compress empty_block_bytes) (lenN empty_block_bytes) = Some empty_block_bytes /\
     (9 + lenN (lz4_compress empty_block_bytes) <= 2 ^ 30)%N) ->
  exists bs m d,
    encode_command lz4_compress show_float (CmdQuery q c) = Ok bs /\
    reads_query (cx_revision c) numeric bs m d /\
    (forall m' d', reads_query (cx_revision c) numeric bs m' d' -> m' = m /\ d' = d) /\
    qm_id m = [] /\ qm_sql m = q_sql q /\ qm_compression m = (if o_compression o then 1 else 0)%N /\ qm_stage m = 2%N /\
    Forall2 (setting_sent show_float (54429 <=? cx_revision c)%N) (o_settings o) (qm_settings m) /\
    (exists cl, qm_client m = Some cl /\ qc_initial_id cl = q_id q /\ qc_hostname cl = cx_hostname c) /\
    empty_data (o_compression o) d.
Proof.
  intros EO R Fs Fi Fh SF SN NUM L.
  destruct (settings_encoded (54429 <=? cx_revision c)%N _ SF SN) as (ss & SS & SE).
  destruct (empty_data_sent (o_compression o) L) as (d & Ed & D).
  pose (m := mk_query_message [] (Some (the_client c (q_id q))) ss 2 (if o_compression o then 1 else 0) (q_sql q)).
  assert (E : Forall2 encodes
    ([enc_uvarint 1; enc_string []] ++
     ([enc_uvarint 1; enc_string []; enc_string (q_id q); enc_string (str "[::ffff:127.0.0.1]:0");
      enc_uvarint 1; enc_string (cx_hostname c); enc_string (cx_hostname c)] ++ client_info ++
     (if (rev_quota_key <=? cx_revision c)%N then [enc_string []] else []) ++
     (if (rev_patch <=? cx_revision c)%N then [enc_uvarint 0] else [])) ++
     serialize_settings show_float (54429 <=? cx_revision c)%N (o_settings o) ++
     [enc_uvarint 2; enc_uvarint (if o_compression o then 1 else 0); enc_string (q_sql q)])
    (query_layout m)).
  { unfold query_layout. unfold m. cbn [qm_id qm_client qm_settings qm_stage qm_compression qm_sql].
    apply (Forall2_app (l1 := [enc_uvarint 1; enc_string []])).
    - constructor; [apply encodes_varint; lia|]. constructor; [|constructor]. apply encodes_text. vm_compute. discriminate.
    - apply Forall2_app; [apply client_encoded; assumption|].
      rewrite (app_assoc _ [text_of []]). apply Forall2_app; [exact SE|].
      constructor; [apply encodes_varint; lia|]. constructor; [apply encodes_varint; destruct (o_compression o); lia|].
      constructor; [apply encodes_text, Fs|constructor]. }
  destruct (seqR_fields _ _ E) as (u & Eu & U).
  assert (RQ : reads_query (cx_revision c) numeric (u ++ d) m d).
  { split; [|exists u; split; [reflexivity|exact U]]. unfold m. split; [|split].
    - cbn [qm_client is_some]. symmetry. apply N.leb_le. exact R.
    - cbn [qm_client]. intros cl [= <-]. unfold the_client. cbn [qc_quota_key qc_patch].
      destruct (54060 <=? cx_revision c)%N, (54401 <=? cx_revision c)%N; auto.
    - cbn [qm_settings]. clear -SS SN NUM. induction SS as [|x s l ss (A & B & C) SS IH]; [constructor|].
      inversion SN as [|? ? N1 N2]; subst. constructor.
      + split; [rewrite A; exact N1|]. split.
        * rewrite B. destruct (54429 <=? cx_revision c)%N; reflexivity.
        * rewrite A, (NUM x (or_introl eq_refl)). destruct (54429 <=? cx_revision c)%N;
          destruct (sv_value (snd x)) as [z|b|k|f]; cbn [value_sent] in C;
          repeat match goal with H : exists _, _ |- _ => destruct H as (? & ? & H) end; rewrite C; reflexivity.
      + apply IH; [exact N2|]. intros y Hy. apply NUM. right. exact Hy. }
  exists (u ++ d), m, d. split; [|split; [exact RQ|]].
  - cbn [encode_command]. unfold encode_query. rewrite EO. cbn [rbind].
    change rev_settings_as_strings with 54429%N.
    match goal with |- seqR ?x = _ =>
      replace x with
       ((([enc_uvarint 1; enc_string []] ++
     ([enc_uvarint 1; enc_string []; enc_string (q_id q); enc_string (str "[::ffff:127.0.0.1]:0");
      enc_uvarint 1; enc_string (cx_hostname c); enc_string (cx_hostname c)] ++ client_info ++
     (if (rev_quota_key <=? cx_revision c)%N then [enc_string []] else []) ++
     (if (rev_patch <=? cx_revision c)%N then [enc_uvarint 0] else [])) ++
     serialize_settings show_float (54429 <=? cx_revision c)%N (o_settings o) ++
     [enc_uvarint 2; enc_uvarint (if o_compression o then 1 else 0); enc_string (q_sql q)]))
         ++ [send_data lz4_compress (o_compression o) block_default]) end.
    + rewrite seqR_app, Eu. cbn [rbind seqR]. rewrite Ed. cbn [rbind]. rewrite app_nil_r. reflexivity.
    + rewrite <- !app_assoc. reflexivity.
  - split; [|do 4 (split; [reflexivity|]); split; [exact SS|split; [|exact D]]].
    + intros m' d' H. destruct (reads_query_unique _ _ _ _ _ _ _ H RQ) as [-> ->]. auto.
    + eexists. split; [reflexivity|]. split; reflexivity.
Qed.

(** The client's greeting. *)
Theorem c29_hello c o :
  cx_options c = Ok o -> fits (o_database o) -> fits (o_username o) -> fits (o_password o) ->
  exists bs, encode_command lz4_compress show_float (CmdHello c) = Ok bs /\
    fields (client_hello_layout (str "Rust SQLDriver") 1 1 54429 (o_database o) (o_username o) (o_password o)) bs.
Proof.
  intros EO A B C. cbn [encode_command]. unfold encode_hello. rewrite EO. cbn [rbind].
  apply seqR_fields. unfold client_hello_layout, client_info. cbn [app].
  change client_name with (str "Rust SQLDriver").
  constructor; [apply encodes_varint; lia|]. constructor; [apply encodes_text; vm_compute; discriminate|].
  do 3 (constructor; [apply encodes_varint; lia|]).
  do 3 (constructor; [apply encodes_text; assumption|]). constructor.
Qed.

(** A union is its parts one after the other. *)
Theorem c29_union a b :
  forall x y, encode_command lz4_compress show_float a = Ok x -> encode_command lz4_compress show_float b = Ok y ->
  encode_command lz4_compress show_float (CmdUnion a b) = Ok (x ++ y).
Proof. intros x y A B. cbn [encode_command]. rewrite A, B. reflexivity. Qed.
End Commands.

(** For the examples: fields of small concrete messages. *)
Lemma varint_small n : (n < 128)%N -> varint_of n [n].
Proof.
  intros H. split; [exact H|]. split; [cbn; lia|]. split; [|lia]. cbn [varint_value]. rewrite N.mod_small; lia.
Qed.
Lemma text_small s : (lenN s < 128)%N -> text_of s (lenN s :: s).
Proof.
  intros H. assert (M : (128 <= isize_max)%N) by (vm_compute; discriminate).
  split; [lia|]. exists [lenN s]. split; [apply varint_small, H|reflexivity].
Qed.
Lemma eat (p : bytes -> Prop) k ps l : p (firstn k l) -> fields ps (skipn k l) -> fields (p :: ps) l.
Proof. intros A B. exists (firstn k l), (skipn k l). rewrite firstn_skipn. auto. Qed.
Lemma eat_varint n ps l : hd 999%N l = n -> (n < 128)%N -> fields ps (skipn 1 l) -> fields (varint_of n :: ps) l.
Proof.
  intros E H F. destruct l as [|b l]; cbn [hd] in E; subst n; [lia|].
  apply (eat _ 1); [apply varint_small, H|exact F].
Qed.
Lemma eat_text s ps l : firstn (S (length s)) l = lenN s :: s -> (lenN s < 128)%N ->
  fields ps (skipn (S (length s)) l) -> fields (text_of s :: ps) l.
Proof. intros E H F. apply (eat _ (S (length s))); [rewrite E; apply text_small, H|exact F]. Qed.
Lemma eat_utext s ps l : firstn (S (length s)) l = lenN s :: s -> (lenN s < 128)%N -> utf8_valid s = true ->
  fields ps (skipn (S (length s)) l) -> fields (utext_of s :: ps) l.
Proof.
  intros E H U F. apply (eat _ (S (length s))); [rewrite E|exact F].
  split; [apply utf8_valid_spec, U|apply text_small, H].
Qed.
Lemma eat_varint3 n ps l :
  (match firstn 3 l with [a; b; c] => (128 <=? a) && (a <? 256) && (128 <=? b) && (b <? 256) && (c <? 128)
     && (n =? a - 128 + 128 * (b - 128) + 16384 * c) | _ => false end)%N = true ->
  fields ps (skipn 3 l) -> fields (varint_of n :: ps) l.
Proof.
  intros E F. apply (eat _ 3); [|exact F]. destruct (firstn 3 l) as [|a [|b [|c [|]]]]; try discriminate E.
  rewrite !andb_true_iff in E. destruct E as [[[[[A A'] B] B'] C] D].
  apply N.leb_le in A, B. apply N.ltb_lt in A', B', C. apply N.eqb_eq in D.
  split; [cbn [is_varint]; repeat split; lia|]. split; [cbn [length]; lia|]. cbn [varint_value].
  replace (a mod 128)%N with (a - 128)%N by (rewrite (N.mod_unique a 128 1 (a - 128)); lia).
  replace (b mod 128)%N with (b - 128)%N by (rewrite (N.mod_unique b 128 1 (b - 128)); lia).
  rewrite (N.mod_small c) by lia. split; lia.
Qed.
Ltac reduce_bytes := match goal with |- fields _ ?x => let y := eval vm_compute in x in change x with y end.
Ltac eat := repeat first
  [ apply eat_varint; [reflexivity|reflexivity|reduce_bytes]
  | apply eat_varint3; [reflexivity|reduce_bytes]
  | apply eat_text; [reflexivity|reflexivity|reduce_bytes]
  | apply eat_utext; [reflexivity|reflexivity|reflexivity|reduce_bytes]
  | reflexivity ].

(** ** What C29 is not *)

Definition sample_options (settings : list (bytes * setting_value)) : moptions :=
  mk_moptions (str "default") (str "default") [] false settings.
Definition sample_context (revision : N) (settings : list (bytes * setting_value)) : context :=
  mk_context revision (str "box") (Ok (sample_options settings)).
Definition encoded (q : query) (c : context) : bytes :=
  match encode_command (fun l => l) (fun _ => []) (CmdQuery q c) with Ok l => l | _ => [] end.

(** The id given with [Query::id] is not the id that the server reads for the query: that field is
    empty. (The id is sent as that of the initial query, which a server replaces for a query that
    comes from a client.) *)
Theorem c29_query_id_refuted :
  exists q c bs m d, q_id q = str "my-id" /\ encode_command (fun l => l) (fun _ => []) (CmdQuery q c) = Ok bs /\
    reads_query (cx_revision c) (fun _ => false) bs m d /\
    forall m' d', reads_query (cx_revision c) (fun _ => false) bs m' d' -> qm_id m' <> q_id q.
Proof.
  destruct (c29_query_partial (fun l _ => Some l) (fun l => l) (fun _ => []) (mk_query (str "SELECT 1") (str "my-id"))
    (sample_context 54429 []) (sample_options []) (fun _ => false)) as (bs & m & d & E & R & U & I & _).
  { reflexivity. }
  { vm_compute. discriminate. }
  1-3: vm_compute; discriminate.
  1-2: constructor.
  { intros x []. }
  { discriminate. }
  exists (mk_query (str "SELECT 1") (str "my-id")), (sample_context 54429 []), bs, m, d.
  split; [reflexivity|]. split; [exact E|]. split; [exact R|].
  intros m' d' R'. destruct (U m' d' R') as [-> _]. rewrite I. discriminate.
Qed.

(** A setting whose name is empty ends the settings: the server takes its value, which may come
    from the connection URL, for the query. *)
Theorem c29_empty_name_refuted :
  exists q c bs m d, encode_command (fun l => l) (fun _ => []) (CmdQuery q c) = Ok bs /\
    reads_query (cx_revision c) (fun _ => false) bs m d /\
    q_sql q = str "SELECT 1" /\ qm_sql m = str "DROP TABLE t".
Proof.
  pose (c := sample_context 54429 [(@nil N, mk_setting (SString (12%N :: str "DROP TABLE t")) false)]).
  pose (m := mk_query_message [] (Some (the_client c [])) [] 0 13 (str "DROP TABLE t")).
  exists (mk_query (str "SELECT 1") []), c.
  exists (encoded (mk_query (str "SELECT 1") []) c), m, (skipn 73 (encoded (mk_query (str "SELECT 1") []) c)).
  split; [vm_compute; reflexivity|]. split; [|split; reflexivity].
  split.
  - split; [reflexivity|]. split; [|constructor]. intros cl [= <-]. split; reflexivity.
  - exists (firstn 73 (encoded (mk_query (str "SELECT 1") []) c)). split; [symmetry; apply firstn_skipn|].
    unfold m, the_client, query_layout, client_layout. cbn [qm_id qm_client qm_settings qm_stage qm_compression qm_sql
      qc_kind qc_initial_user qc_initial_id qc_address qc_interface qc_os_user qc_hostname qc_client qc_major
      qc_minor qc_revision qc_quota_key qc_patch app].
    change (54060 <=? cx_revision c)%N with true. change (54401 <=? cx_revision c)%N with true.
    cbn [opt app flat_map].
    match goal with |- fields _ ?x => let y := eval vm_compute in x in change x with y end.
    eat.
Qed.

(** A server that does not have the client's fields (before revision 54032) takes them for
    settings: it never reads a message without settings, although none were given. *)
Theorem c29_old_server_refuted :
  exists q c bs, encode_command (fun l => l) (fun _ => []) (CmdQuery q c) = Ok bs /\ cx_revision c = 54031%N /\
    (exists o, cx_options c = Ok o /\ o_settings o = []) /\
    forall numeric m d, reads_query 54031 numeric bs m d -> qm_settings m <> [].
Proof.
  exists (mk_query (str "SELECT 1") []), (sample_context 54031 []).
  exists (encoded (mk_query (str "SELECT 1") []) (sample_context 54031 [])).
  split; [vm_compute; reflexivity|]. split; [reflexivity|].
  split; [exists (sample_options []); split; reflexivity|].
  intros numeric m d ((C & _ & _) & u & E & F) S.
  destruct m as [i cl ss st co sq]. cbn [qm_client qm_settings] in C, S. subst ss.
  destruct cl as [cl|]; [discriminate C|]. unfold query_layout in F.
  cbn [qm_id qm_client qm_settings qm_stage qm_compression qm_sql app flat_map fields] in F.
  destruct F as (a & u1 & -> & A & b & u2 & -> & B & x & u3 & -> & X & _).
  rewrite <- !app_assoc in E.
  match type of E with ?l = _ => let y := eval vm_compute in l in change l with y in E end.
  match type of E with 1%N :: ?l = _ =>
    destruct (varint_free 1%N 1%N [1%N] a l (b ++ x ++ u3 ++ d) (varint_small 1 eq_refl) A E) as [_ E1] end.
  match type of E1 with 0%N :: ?l = _ =>
    destruct (text_free [] i [0%N] b l (x ++ u3 ++ d) (text_small [] eq_refl) B E1) as [_ E2] end.
  match type of E2 with 1%N :: 0%N :: ?l = _ =>
    destruct (text_free [0%N] [] [1%N; 0%N] x l (u3 ++ d) (text_small [0%N] eq_refl) X E2) as [E3 _] end.
  discriminate E3.
Qed.

Print Assumptions c05_prefix.
Print Assumptions c05_errors_are_final.
Print Assumptions c06_hello.
Print Assumptions c06_hello_unknown_zone.
Print Assumptions c06_exception.
Print Assumptions c06_progress.
Print Assumptions c06_profile.
Print Assumptions c06_table_columns.
Print Assumptions c06_pong_and_end.
Print Assumptions c06_data.
Print Assumptions c06_unknown.
Print Assumptions c29_query_partial.
Print Assumptions c29_hello.
Print Assumptions c29_union.
Print Assumptions c29_query_id_refuted.
Print Assumptions c29_empty_name_refuted.
Print Assumptions c29_old_server_refuted.

(** ** Cases *)

Definition sample_info (revision : N) : tinfo := mk_tinfo (Some (str "UTC")) revision false.
Notation parse0 i := (parse_packet lz4_decode (fun _ => true) i).

(** A greeting at the newest revision that is gated on, cut after 20 bytes, with one number in a
    form that is longer than needed. *)
Definition sample_hello : bytes :=
  [128; 0; 10]%N ++ str "ClickHouse" ++ [20; 3; 0xBD; 0xA9; 3]%N ++ [3%N] ++ str "UTC" ++ [2; 104; 49; 7]%N.
Example c06_hello_case :
  fields (hello_layout (str "ClickHouse") 20 3 54461 (str "UTC") [104; 49]%N 7) sample_hello /\
  run (parse0 (mk_tinfo None 0 false)) (sample_hello ++ [4%N]) =
    Ok (PkHello (mk_server_info (str "ClickHouse") 54461 3 20 (str "UTC") [104; 49]%N 7), [4%N]) /\
  run (parse0 (mk_tinfo None 0 false)) (firstn 20 sample_hello) = Err EWouldBlock.
Proof.
  split; [|split; vm_compute; reflexivity].
  unfold hello_layout, since. cbn [N.leb N.compare Pos.compare Pos.compare_cont app].
  apply (eat _ 2); [|reduce_bytes; eat].
  vm_compute (firstn 2 sample_hello). split; [cbn [is_varint]; lia|]. split; [cbn [length]; lia|]. split; reflexivity.
Qed.
Example c06_old_hello_case :
  run (parse0 (mk_tinfo None 0 false)) ([0; 1; 65; 1; 1; 10]%N ++ [3%N]) =
    Ok (PkHello (mk_server_info [65%N] 10 1 1 (str "UTC") [] 0), [3%N]).
Proof. vm_compute. reflexivity. Qed.
Example c06_exception_case :
  fields (exception_layout 60 [69%N] [70%N] []) [2; 60; 0; 0; 0; 1; 69; 1; 70; 0]%N.
Proof.
  unfold exception_layout. apply eat_varint; [reflexivity|reflexivity|]. cbn [skipn].
  apply (eat _ 4); [|cbn [skipn]; eat].
  split; [repeat constructor|]. split; reflexivity.
Qed.
Example c06_progress_case :
  fields (progress_layout 54420 1 2 3 4 5) [3; 1; 2; 3; 4; 5]%N /\
  fields (progress_layout 54419 1 2 3 4 5) [3; 1; 2; 3]%N /\
  fields (progress_layout 51553 1 2 3 4 5) [3; 1; 2]%N /\
  run (parse0 (sample_info 54419)) [3; 1; 2; 3; 4; 5]%N = Ok (PkProgress (mk_progress 1 2 3 0 0), [4; 5]%N).
Proof. split; [|split; [|split; [|vm_compute; reflexivity]]]; unfold progress_layout, since; cbn [app N.leb N.compare Pos.compare Pos.compare_cont]; eat. Qed.
Example c06_profile_case : fields (profile_layout 1 2 3 true 4 false) [6; 1; 2; 3; 1; 4; 0]%N.
Proof.
  unfold profile_layout. eat. apply (eat _ 1); [reflexivity|cbn [skipn]]. eat.
  apply (eat _ 1); [reflexivity|cbn [skipn]]. eat.
Qed.
Example c06_other_cases :
  fields (table_columns_layout [65%N] []) [11; 1; 65; 0]%N /\ fields pong_layout [4%N] /\ fields end_layout [5%N] /\
  fields (data_layout 7 [65%N] (eq empty_block_bytes)) ([7; 1; 65]%N ++ empty_block_bytes) /\
  run (parse0 (sample_info 54429)) ([7; 1; 65]%N ++ empty_block_bytes ++ [9%N]) = Ok (PkBlock block_default, [9%N]) /\
  run (parse0 (sample_info 54429)) [9%N] = Err (EUnknownPacket 9) /\
  run (parse0 (mk_tinfo None 54429 false)) ([1; 0]%N ++ empty_block_bytes) = Err EUnexpectedPacket.
Proof.
  split; [unfold table_columns_layout; eat|]. split; [unfold pong_layout; eat|]. split; [unfold end_layout; eat|].
  split; [|repeat split; vm_compute; reflexivity].
  unfold data_layout. eat. apply (eat _ 10); [reflexivity|reflexivity].
Qed.

(** All four kinds of settings, on both sides of revision 54429, compressed and plain. *)
Definition sample_settings : list (bytes * setting_value) :=
  [(str "max_threads", mk_setting (SUInt 300) true); (str "readonly", mk_setting (SBoolean true) false);
   (str "format", mk_setting (SString (str "CSV")) true); (str "ratio", mk_setting (SFloat 5) false)].
Definition sample_numeric (s : bytes) : bool :=
  (lenN s =? 11)%N || (lenN s =? 8)%N.
Example c29_case :
  let o := sample_options sample_settings in
  Forall (setting_fits (fun _ => str "0.5")) (o_settings o) /\ Forall (fun x => fst x <> []) (o_settings o) /\
  (forall x, In x (o_settings o) -> sample_numeric (fst x) = is_numeric (sv_value (snd x))) /\
  bytes_ok (lz4_store empty_block_bytes) /\
  lz4_decode (lz4_store empty_block_bytes) (lenN empty_block_bytes) = Some empty_block_bytes /\
  (9 + lenN (lz4_store empty_block_bytes) <= 2 ^ 30)%N.
Proof.
  cbv zeta. split; [|split; [|split; [|split; [|split]]]].
  - repeat constructor; vm_compute; first [discriminate|reflexivity].
  - repeat constructor; discriminate.
  - intros x [<-|[<-|[<-|[<-|[]]]]]; reflexivity.
  - repeat constructor.
  - vm_compute. reflexivity.
  - vm_compute. discriminate.
Qed.
Example c29_bytes :
  encode_command lz4_store (fun _ => str "0.5") (CmdQuery (mk_query [113%N] [105%N])
    (mk_context 54428 [104%N] (Ok (sample_options (firstn 2 sample_settings))))) =
  Ok ([1; 0; 1; 0; 1; 105; 20]%N ++ str "[::ffff:127.0.0.1]:0" ++ [1; 1; 104; 1; 104; 14]%N ++ str "Rust SQLDriver" ++
      [1; 1; 157; 169; 3; 0; 0; 11]%N ++ str "max_threads" ++ [172; 2; 8]%N ++ str "readonly" ++ [1; 0; 2; 0; 1; 113]%N ++
      [2; 0]%N ++ empty_block_bytes).
Proof. vm_compute. reflexivity. Qed.
