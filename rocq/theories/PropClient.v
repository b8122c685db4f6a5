(** C30 to C33, C39, C53: what operations on a client do, whatever the server sends. *)
From Coq Require Import String.
From Verif Require Import Base Bytes Utf8 Reader Wire Types Text Values Columns Block Casts Compress Packets Client
  SpecWire SpecBlock SpecCompress SpecClient Utf8Proofs ClientProofs PropBlocks.
Open Scope list_scope.
Open Scope nat_scope.

(** ** C30 *)
Section Names.
Variable numeric_beyond : bytes -> bool.
Notation column_name_to_string := (column_name_to_string numeric_beyond).

Lemma encode_high c : (128 <= c)%N -> Forall (fun b => (128 <= b)%N) (utf8_encode c).
Proof.
  intros H. unfold utf8_encode. rewrite (proj2 (N.ltb_ge c 128)) by exact H.
  destruct (c <? 2048)%N; [repeat constructor; lia|]. destruct (c <? 65536)%N; repeat constructor; lia.
Qed.
Lemma first_char_encode c s : unicode_scalar c -> first_char (utf8_encode c ++ s) = (utf8_encode c, s).
Proof.
  intros [H _]. unfold utf8_encode.
  destruct (N.ltb_spec c 128) as [A|A].
  { cbn [app first_char]. rewrite (proj2 (N.ltb_lt c 128)) by exact A. reflexivity. }
  destruct (N.ltb_spec c 2048) as [B|B].
  { assert (c / 64 < 32)%N by (apply N.div_lt_upper_bound; lia).
    cbn [app first_char]. rewrite (proj2 (N.ltb_ge (192 + c / 64) 128)), (proj2 (N.ltb_lt (192 + c / 64) 224)) by lia. reflexivity. }
  destruct (N.ltb_spec c 65536) as [C|C].
  { assert (c / 4096 < 16)%N by (apply N.div_lt_upper_bound; lia).
    cbn [app first_char].
    rewrite (proj2 (N.ltb_ge (224 + c / 4096) 128)), (proj2 (N.ltb_ge (224 + c / 4096) 224)), (proj2 (N.ltb_lt (224 + c / 4096) 240)) by lia.
    reflexivity. }
  cbn [app first_char].
  rewrite (proj2 (N.ltb_ge (240 + c / 262144) 128)), (proj2 (N.ltb_ge (240 + c / 262144) 224)), (proj2 (N.ltb_ge (240 + c / 262144) 240)) by lia.
  reflexivity.
Qed.
Lemma encode_length c : 1 <= length (utf8_encode c).
Proof. unfold utf8_encode. destruct (_ <? _)%N; [cbn; lia|]. destruct (_ <? _)%N; [cbn; lia|]. destruct (_ <? _)%N; cbn; lia. Qed.

Lemma numeric_bare cs : Forall unicode_scalar cs -> forall n,
  length (concat (map utf8_encode cs)) <= n -> all_numeric numeric_beyond n (concat (map utf8_encode cs)) = true ->
  Forall (fun b => (48 <= b <= 57)%N \/ (128 <= b)%N) (concat (map utf8_encode cs)).
Proof.
  induction 1 as [|c cs Hc F IH]; intros n Hn H; [constructor|].
  cbn [map concat] in *. rewrite app_length in Hn. pose proof (encode_length c) as L.
  destruct n as [|n]; [lia|]. cbn [all_numeric] in H.
  destruct (utf8_encode c ++ concat (map utf8_encode cs)) as [|b l] eqn:E.
  { rewrite <- E. destruct (utf8_encode c); [cbn in L; lia|discriminate E]. }
  rewrite <- E in *. rewrite first_char_encode in H by exact Hc. apply andb_true_iff in H. destruct H as [H1 H2].
  apply Forall_app. split; [|apply (IH n); [lia|exact H2]].
  destruct (N.ltb_spec c 128) as [A|A].
  - unfold utf8_encode in *. rewrite (proj2 (N.ltb_lt c 128)) in * by exact A.
    assert (G : char_numeric numeric_beyond [c] = is_digit c)
      by (unfold char_numeric; destruct c as [|q]; [reflexivity|]; repeat (destruct q as [q|q|]; try reflexivity)).
    rewrite G in H1. unfold is_digit in H1.
    apply andb_true_iff in H1. destruct H1 as [X Y]. apply N.leb_le in X, Y. constructor; [left; lia|constructor].
  - eapply Forall_impl; [|apply (encode_high c A)]. intros x Hx. right. exact Hx.
Qed.

(** One name: it is quoted and holds no backtick, or it is bare and holds nothing that is special
    in SQL; a name with a backtick is refused. *)
Lemma name_cases s : is_utf8 s ->
  (exists piece, column_name_to_string s = Ok piece /\ (quoted_name s piece \/ bare_name s piece)) \/
  (In 96%N s /\ column_name_to_string s = Err EOther).
Proof.
  intros (cs & F & ->). unfold Client.column_name_to_string.
  destruct (all_numeric numeric_beyond (length (concat (map utf8_encode cs))) (concat (map utf8_encode cs))) eqn:A.
  - left. eexists. split; [reflexivity|]. right. split; [reflexivity|]. eapply numeric_bare; eauto.
  - destruct (existsb (N.eqb 96) (concat (map utf8_encode cs))) eqn:X.
    + right. split; [|reflexivity]. apply existsb_exists in X. destruct X as (x & I & E). apply N.eqb_eq in E. subst. exact I.
    + left. eexists. split; [reflexivity|]. left. split; [reflexivity|]. intros I.
      assert (existsb (N.eqb 96) (concat (map utf8_encode cs)) = true) by (apply existsb_exists; exists 96%N; auto).
      congruence.
Qed.
Lemma bare_no_backtick s piece : bare_name s piece -> ~ In 96%N s.
Proof. intros [_ F] I. rewrite Forall_forall in F. destruct (F _ I); lia. Qed.

(** The statement that is sent: each name between backticks that it cannot end, or bare without
    any character that means something in SQL; and an error when a name holds a backtick. Missing
    for the full property: names of other characters than digits are left bare too, and so is the
    empty name ([c30_bare_refuted]). *)
Theorem c30_names_partial table b : Forall (fun x => is_utf8 (fst x)) (b_cols b) ->
  (Forall (fun x => ~ In 96%N (fst x)) (b_cols b) ->
   exists pieces, Forall2 (fun x p => quoted_name (fst x) p \/ bare_name (fst x) p) (b_cols b) pieces /\
     make_query numeric_beyond table b =
       Ok (mk_query (str "INSERT INTO " ++ q_sql table ++ str " (" ++ concat_sep (str ", ") pieces ++ str ") VALUES") (q_id table))) /\
  (Exists (fun x => In 96%N (fst x)) (b_cols b) -> make_query numeric_beyond table b = Err EOther).
Proof.
  intros U. unfold make_query. split.
  - intros N.
    assert (H : exists pieces, mapM (fun x => column_name_to_string (fst x)) (b_cols b) = Ok pieces /\
      Forall2 (fun x p => quoted_name (fst x) p \/ bare_name (fst x) p) (b_cols b) pieces).
    { induction (b_cols b) as [|x xs IH]; [exists []; split; [reflexivity|constructor]|].
      inversion_clear U as [|? ? U1 U2]. inversion_clear N as [|? ? N1 N2].
      destruct (IH U2 N2) as (ps & E & F). destruct (name_cases (fst x) U1) as [(p & Ep & Q)|[I _]]; [|contradiction].
      exists (p :: ps). cbn [mapM]. rewrite Ep. cbn [rbind]. rewrite E. split; [reflexivity|]. constructor; assumption. }
    destruct H as (ps & E & F). exists ps. rewrite E. auto.
  - intros X.
    assert (mapM (fun x => column_name_to_string (fst x)) (b_cols b) = Err EOther) as ->; [|reflexivity].
    induction (b_cols b) as [|x xs IH]; [inversion X|]. inversion_clear U as [|? ? U1 U2]. cbn [mapM].
    destruct (name_cases (fst x) U1) as [(p & Ep & Q)|[I ->]]; [|reflexivity]. rewrite Ep. cbn [rbind].
    inversion_clear X as [? ? X1|? ? X2]; [|rewrite IH by assumption; reflexivity].
    destruct Q as [[_ Q]|Q]; [contradiction|]. apply bare_no_backtick in Q. contradiction.
Qed.

(** Nothing is sent then: the handle is as before. *)
Theorem c30_nothing_sent lz4_compress show_float p4 p6 server fresh opts fuel table b k :
  Forall (fun x => is_utf8 (fst x)) (b_cols b) -> Exists (fun x => In 96%N (fst x)) (b_cols b) ->
  insert lz4_compress show_float p4 p6 server fresh opts numeric_beyond fuel table b k = (Err EOther, k).
Proof. intros U X. unfold insert. rewrite (proj2 (c30_names_partial table b U) X). reflexivity. Qed.
End Names.

(** The character for one half, and no character at all, are no digits, but are left bare. *)
Theorem c30_bare_refuted numeric_beyond :
  column_name_to_string numeric_beyond [194; 189]%N = Ok [194; 189]%N /\ utf8_encode 0xBD = [194; 189]%N /\
  column_name_to_string numeric_beyond [] = Ok [].
Proof. repeat split. Qed.

(** A server takes a backslash before the closing backtick for an escape, so the name goes on
    behind it: here up to the backtick that opens the second name, whose text is then outside of
    the quotes. *)
Theorem c30_backslash_refuted numeric_beyond :
  let second := str ") SELECT 1 --" in
  let b := mk_block info_default [(str "a\", CString []); (second, CString [])] in
  exists q rest name, make_query numeric_beyond (mk_query (str "t") []) b = Ok q /\
    q_sql q = str "INSERT INTO t (`" ++ rest /\
    read_quoted rest = Some (name, second ++ str "`) VALUES").
Proof.
  cbv zeta. exists (mk_query (str "INSERT INTO t (`a\`, `) SELECT 1 --`) VALUES") []), (str "a\`, `) SELECT 1 --`) VALUES"), (str "a`, ").
  repeat split; vm_compute; reflexivity.
Qed.

Print Assumptions c30_names_partial.
Print Assumptions c30_nothing_sent.
Print Assumptions c30_bare_refuted.
Print Assumptions c30_backslash_refuted.

Example c30_case :
  let b := mk_block info_default [(str "id", CString []); (str "42", CString []); ([207; 128]%N, CString [])] in
  make_query (fun _ => false) (mk_query (str "t") (str "x")) b =
    Ok (mk_query (str "INSERT INTO t (`id`, 42, `" ++ [207; 128]%N ++ str "`) VALUES") (str "x")) /\
  Forall (fun x => is_utf8 (fst x)) (b_cols b) /\
  make_query (fun _ => false) (mk_query (str "t") (str "x")) (mk_block info_default [(str "i`d", CString [])]) = Err EOther.
Proof.
  cbv zeta. split; [vm_compute; reflexivity|]. split; [|vm_compute; reflexivity].
  repeat (apply Forall_cons; [apply utf8_valid_spec; reflexivity|]). apply Forall_nil.
Qed.

(** ** C31 *)
Section Query.
Variable lz4_compress : bytes -> bytes.
Variable show_float : Z -> bytes.
Variable parse_ipv4 parse_ipv6 : bytes -> option bytes.
Variable server : nat -> list cmd -> reply.
Variable fresh : nat -> res client.
Variable opts : copts.
Notation stream_blocks := (stream_blocks lz4_compress show_float server fresh opts).
Notation drive_blocks := (drive_blocks lz4_compress show_float server).
Notation fetch_all := (fetch_all lz4_compress show_float server fresh opts).
Notation execute := (execute lz4_compress show_float server fresh opts).
Notation ping := (ping lz4_compress show_float server).

(** The server answers this query, on this connection, with these messages; part of them may come
    only after the client has waited. *)
Definition answers (c : conn) (m : cmd) (ps : list packet) : Prop :=
  exists now late bs, encode_command lz4_compress show_float m = Ok bs /\
    server (cn_id c) (cn_log c ++ [m]) = RAnswers now late false /\ now ++ late = map Ok ps.

(** A stream polled to its end delivers the blocks with columns, without the first block if that
    is to be skipped, and then ends; the handle is then ready for the next query. *)
Theorem c31_query fuel skip q k c ps n :
  ready k c -> pings server opts c -> 1 <= fuel -> length ps + 3 <= n -> Forall in_response ps ->
  answers (checked opts c) (CmdQuery q (k_context k)) (ps ++ [PkEof]) ->
  exists s k1, stream_blocks fuel skip q k = (Ok s, k1) /\
  exists s2 k2, drive_blocks n s k1 = (map Ok (delivered skip ps), Some SEnd, s2, k2) /\
    ready k2 (said (checked opts c) (CmdQuery q (k_context k))) /\ k_context k2 = k_context k /\
    drop_stream s2 k2 = (Ok tt, k2).
Proof.
  intros R Pi Hf Hn F (now & late & bs & E & S & Er).
  rewrite (stream_ready lz4_compress show_float server fresh opts fuel skip q k c Hf R Pi).
  do 2 eexists. split; [reflexivity|]. pose proof R as (P & I & Id).
  set (m := CmdQuery q (k_context k)) in *.
  pose proof (flush_one lz4_compress show_float server (checked opts c) m now late false bs (checked_idle opts c Id) E S) as Fl.
  destruct n as [|n]; [lia|]. rewrite (drive_asking lz4_compress show_float server n _ _ _ _ _ Fl).
  set (c1 := mk_conn _ _ _ _ _ _ _) in *. set (k1 := set_inner (set_pool k BDetached) None).
  destruct (drive_response lz4_compress show_float server (Datatypes.S n) ps c1 0 skip k1 [Ok PkEof]) as (c2 & i2 & n2 & D & D1 & D2 & D3 & D4 & D5 & D6 & D7 & _); auto.
  { cbn [c1 cn_late]. destruct late; cbn [length]; lia. }
  { cbn [c1 cn_in cn_late]. rewrite Er, map_app. reflexivity. }
  rewrite D, drive_S, poll_reading by (reflexivity || assumption). rewrite D1. cbn [scan].
  do 2 eexists. split; [rewrite app_nil_r; unfold remaining, delivered; cbn [Nat.eqb]; rewrite andb_true_r; reflexivity|].
  split; [|split; [reflexivity|reflexivity]].
  split; [reflexivity|]. split; [|apply said_idle].
  cbn [set_pool set_inner k_inner]. f_equal. unfold said, set_in. rewrite D2, D3, D4, D5, D6, D7. reflexivity.
Qed.

(** A server's exception is the last item, after the blocks before it. *)
Theorem c31_exception fuel skip q k c ps e n :
  ready k c -> pings server opts c -> 1 <= fuel -> length ps + 4 <= n -> Forall in_response ps ->
  answers (checked opts c) (CmdQuery q (k_context k)) (ps ++ [PkException e]) ->
  exists s k1, stream_blocks fuel skip q k = (Ok s, k1) /\
  exists s2 k2, drive_blocks n s k1 = (map Ok (delivered skip ps) ++ [Err (EServer e)], Some SEnd, s2, k2) /\
    drop_stream s2 k2 = (Ok tt, k2) /\ k_inner k2 = None /\ k_pool k2 = BDetached.
Proof.
  intros R Pi Hf Hn F (now & late & bs & E & S & Er).
  rewrite (stream_ready lz4_compress show_float server fresh opts fuel skip q k c Hf R Pi).
  do 2 eexists. split; [reflexivity|]. pose proof R as (P & I & Id).
  set (m := CmdQuery q (k_context k)) in *.
  pose proof (flush_one lz4_compress show_float server (checked opts c) m now late false bs (checked_idle opts c Id) E S) as Fl.
  destruct n as [|n]; [lia|]. rewrite (drive_asking lz4_compress show_float server n _ _ _ _ _ Fl).
  set (c1 := mk_conn _ _ _ _ _ _ _) in *. set (k1 := set_inner (set_pool k BDetached) None).
  destruct (drive_response lz4_compress show_float server (Datatypes.S n) ps c1 0 skip k1 [Ok (PkException e)]) as (c2 & i2 & n2 & D & D1 & D2 & D3 & D4 & D5 & D6 & D7 & D8); auto.
  { cbn [c1 cn_late]. destruct late; cbn [length]; lia. }
  { cbn [c1 cn_in cn_late]. rewrite Er, map_app. reflexivity. }
  rewrite D, drive_S, poll_reading by (reflexivity || assumption). rewrite D1. cbn [scan].
  destruct n2 as [|n2]; [destruct (cn_late c1); lia|]. rewrite drive_S.
  do 2 eexists. split; [unfold remaining, delivered; cbn [Nat.eqb]; rewrite andb_true_r; reflexivity|].
  repeat split.
Qed.

(** [fetch_all] when the whole response is there in time: the blocks with columns put together,
    or the server's exception. *)
Theorem c31_fetch_all fuel q k c ps bs :
  ready k c -> pings server opts c -> 1 <= fuel -> Forall in_response ps ->
  encode_command lz4_compress show_float (CmdQuery q (k_context k)) = Ok bs ->
  server (cn_id (checked opts c)) (cn_log (checked opts c) ++ [CmdQuery q (k_context k)]) = RAnswers (map Ok ps ++ [Ok PkEof]) [] false ->
  exists k2, fetch_all fuel q k = (block_concat (with_columns (blocks_of ps)), k2) /\
    ready k2 (said (checked opts c) (CmdQuery q (k_context k))) /\ k_context k2 = k_context k.
Proof.
  intros R Pi Hf F E S. unfold Client.fetch_all.
  rewrite (stream_ready lz4_compress show_float server fresh opts fuel false q k c Hf R Pi). pose proof R as (P & I & Id).
  set (m := CmdQuery q (k_context k)) in *.
  pose proof (flush_one lz4_compress show_float server (checked opts c) m _ _ false bs (checked_idle opts c Id) E S) as Fl.
  assert (Len : stream_fuel lz4_compress show_float server (bs_inner (asking (checked opts c) m false)) = 4 + length ps).
  { unfold stream_fuel, asking, call. cbn [bs_inner ps_inner set_queue cn_queue]. fold (set_queue (checked opts c) (cn_queue (checked opts c) ++ [m])).
    rewrite Fl. cbn [snd cn_in]. rewrite app_length, map_length. cbn [length]. lia. }
  rewrite Len.
  rewrite (collect_asking lz4_compress show_float server _ _ _ _ _ _ Fl).
  match goal with |- context [reading ?x 0 false] => set (c1 := x) in * end.
  set (k1 := set_inner (set_pool k BDetached) None).
  destruct (collect_response lz4_compress show_float server (Datatypes.S (4 + length ps)) ps c1 0 k1 [] PkEof []) as (s' & k' & H1 & H2 & H3); auto; [lia|].
  rewrite H2, H1. exists k'. split; [cbn [rbind app]; reflexivity|]. rewrite H3.
  split; [|reflexivity]. split; [reflexivity|]. split; [reflexivity|apply said_idle].
Qed.

(** What the property asks for after an exception does not hold: the connection is gone, and with
    the check before a query switched on the next operation panics. *)
Lemma detached_panics fuel k : co_ping opts = true -> k_pool k = BDetached ->
  before lz4_compress show_float server fresh opts fuel k = (Panic PUnreachable, set_pool k BNone).
Proof. intros Co P. unfold before, check_connection, detach. rewrite Co, P. reflexivity. Qed.

Theorem c31_exception_refuted fuel skip q k c ps e n :
  co_ping opts = true ->
  ready k c -> pings server opts c -> 1 <= fuel -> length ps + 4 <= n -> Forall in_response ps ->
  answers (checked opts c) (CmdQuery q (k_context k)) (ps ++ [PkException e]) ->
  exists s k1 l s2 k2, stream_blocks fuel skip q k = (Ok s, k1) /\
    drive_blocks n s k1 = (l, Some SEnd, s2, k2) /\ drop_stream s2 k2 = (Ok tt, k2) /\
    forall fuel' q', fst (execute fuel' q' k2) = Panic PUnreachable /\
      fst (fetch_all fuel' q' k2) = Panic PUnreachable /\
      forall skip', fst (stream_blocks fuel' skip' q' k2) = Panic PUnreachable.
Proof.
  intros Co R Pi Hf Hn F A.
  destruct (c31_exception fuel skip q k c ps e n R Pi Hf Hn F A) as (s & k1 & E1 & s2 & k2 & E2 & E3 & E4 & E5).
  do 5 eexists. split; [exact E1|]. split; [exact E2|]. split; [exact E3|].
  intros fuel' q'. pose proof (detached_panics fuel' k2 Co E5) as X.
  unfold Client.execute, Client.fetch_all, Client.stream_blocks. rewrite X. auto.
Qed.

(** A response without a block that has columns, as that of a statement that returns nothing,
    makes [fetch_all] panic. *)
Theorem c31_fetch_all_refuted fuel q k c ps bs :
  ready k c -> pings server opts c -> 1 <= fuel -> Forall in_response ps -> with_columns (blocks_of ps) = [] ->
  encode_command lz4_compress show_float (CmdQuery q (k_context k)) = Ok bs ->
  server (cn_id (checked opts c)) (cn_log (checked opts c) ++ [CmdQuery q (k_context k)]) = RAnswers (map Ok ps ++ [Ok PkEof]) [] false ->
  fst (fetch_all fuel q k) = Panic PUnwrap.
Proof.
  intros R Pi Hf F W E S. destruct (c31_fetch_all fuel q k c ps bs R Pi Hf F E S) as (k2 & -> & _). rewrite W. reflexivity.
Qed.

(** [execute] waits for the end of the response, whatever blocks come. *)
Lemma feed_execute c ps : forall h l, Forall in_response ps ->
  feed on_execute false c (map Ok ps ++ l) h = feed on_execute false c l h.
Proof.
  induction ps as [|p ps IH]; intros h l F; [reflexivity|]. inversion_clear F as [|? ? Hp F'].
  destruct p; try contradiction; cbn [map app feed carries on_execute andb]; apply IH; exact F'.
Qed.
Theorem c31_execute fuel q k c ps bs :
  ready k c -> pings server opts c -> 1 <= fuel -> Forall in_response ps ->
  encode_command lz4_compress show_float (CmdQuery q (k_context k)) = Ok bs ->
  (server (cn_id (checked opts c)) (cn_log (checked opts c) ++ [CmdQuery q (k_context k)]) = RAnswers (map Ok ps ++ [Ok PkEof]) [] false ->
   exists k2, execute fuel q k = (Ok tt, k2) /\ ready k2 (said (checked opts c) (CmdQuery q (k_context k))) /\ k_context k2 = k_context k) /\
  (forall e l late closes,
   server (cn_id (checked opts c)) (cn_log (checked opts c) ++ [CmdQuery q (k_context k)]) = RAnswers (map Ok ps ++ Ok (PkException e) :: l) late closes ->
   exists k2, execute fuel q k = (Err (EServer e), k2) /\ k_inner k2 = None /\ k_pool k2 = BAttached).
Proof.
  intros R Pi Hf F E. pose proof R as (P & I & Id). unfold Client.execute.
  rewrite (before_ready lz4_compress show_float server fresh opts fuel k c Hf R Pi).
  unfold get_inner. cbn [set_inner k_inner rbind]. rewrite clear_idle by (apply checked_idle; exact Id). cbn [rbind].
  rewrite drain_false. split.
  - intros S. rewrite (flush_one lz4_compress show_float server _ _ _ _ _ bs (checked_idle opts c Id) E S).
    cbn [cn_in]. rewrite feed_execute by exact F. cbn [feed carries on_execute rbind or_panic].
    eexists. split; [reflexivity|]. split; [|reflexivity]. split; [exact P|]. split; [reflexivity|apply said_idle].
  - intros e l late closes S. rewrite (flush_one lz4_compress show_float server _ _ _ _ _ bs (checked_idle opts c Id) E S).
    cbn [cn_in]. rewrite feed_execute by exact F. cbn [feed carries on_execute rbind].
    eexists. split; [reflexivity|]. split; [reflexivity|exact P].
Qed.

(** ** C32 *)

(** A stream that is dropped before it has ended leaves either no connection or one that is
    marked. *)
Theorem c32_dropped fuel skip q k n s k1 l s2 k2 k3 :
  stream_blocks fuel skip q k = (Ok s, k1) -> drive_blocks n s k1 = (l, None, s2, k2) ->
  drop_stream s2 k2 = (Ok tt, k3) ->
  forall c, k_inner k3 = Some c -> cn_inconsistent c = true /\ k_pool k3 = BAttached.
Proof.
  intros E1 E2 E3 c Ec. unfold Client.stream_blocks in E1.
  destruct (before lz4_compress show_float server fresh opts fuel k) as [[x|x|x] ka]; try discriminate E1.
  destruct (detach ka) as [[y|y|y] kb]; try discriminate E1.
  destruct (get_inner kb) as [c0|y0|y0]; try discriminate E1. injection E1 as <- <-.
  pose proof (drive_no_conn lz4_compress show_float server n
    (mk_bstream (call c0 (CmdQuery q (k_context kb))) Reading 0 skip) (set_inner kb None) eq_refl) as X.
  rewrite E2 in X. unfold drop_stream in E3. destruct (bs_state s2).
  - destruct (reattach k2) as [[z|z|z] k'] eqn:Er; try discriminate E3.
    assert (k_inner k' = None) as Hk.
    { unfold reattach, attach in Er. destruct (k_pool k2); injection Er; intros; subst; try exact X; discriminate. }
    assert (k_pool k' = BAttached) as Hb.
    { unfold reattach, attach in Er. destruct (k_pool k2) eqn:Hp; injection Er; intros; subst; try exact Hp; reflexivity || discriminate. }
    destruct (ps_inner (bs_inner s2)) as [ci|]; injection E3 as <-.
    + cbn [set_inner k_inner] in Ec. injection Ec as <-. split; [reflexivity|exact Hb].
    + congruence.
  - injection E3 as <-. congruence.
  - injection E3 as <-. congruence.
Qed.

Lemma flush_sends : forall q c c', sends lz4_compress show_float server (set_queue c []) q c' -> 
  flush lz4_compress show_float server (set_queue c q) q = (Ok tt, c').
Proof.
  induction q as [|m q IH]; intros c c' H; cbn [flush].
  - inversion H; subst. reflexivity.
  - inversion H as [|? ? ? ? bs now late closes E Cl S H']; subst.
    unfold deliver. cbn [set_queue cn_id cn_log cn_in cn_late cn_closed cn_inconsistent] in *. rewrite E, S, Cl.
    specialize (IH (mk_conn (cn_id c) (cn_in c ++ cn_late c ++ now) late closes q (cn_log c ++ [m]) (cn_inconsistent c)) c' H').
    exact IH.
Qed.
Lemma sends_keeps q : forall c c', sends lz4_compress show_float server c q c' ->
  cn_id c' = cn_id c /\ cn_inconsistent c' = cn_inconsistent c.
Proof.
  induction q as [|m q IH]; intros c c' H; inversion H; subst; [auto|].
  match goal with X : sends _ _ _ _ _ _ |- _ => apply IH in X; exact X end.
Qed.
Lemma sends_queue q : forall c c', sends lz4_compress show_float server c q c' -> cn_queue c = [] -> cn_queue c' = [].
Proof.
  induction q as [|m q IH]; intros c c' H Q; inversion H; subst; [auto|].
  match goal with X : sends _ _ _ _ _ _ |- _ => apply IH in X; [exact X|reflexivity] end.
Qed.
Lemma feed_clear c body : forall h l, Forall in_flight body ->
  feed on_clear false c (map Ok body ++ l) h = feed on_clear false c l h.
Proof.
  induction body as [|p ps IH]; intros h l F; [reflexivity|]. inversion_clear F as [|? ? Hp F'].
  destruct p; try contradiction; cbn [map app feed carries on_clear andb]; apply IH; exact F'.
Qed.
Lemma clear_winds_down c c' : winds_down lz4_compress show_float server c c' ->
  clear lz4_compress show_float server c = Ok c'.
Proof.
  intros (Inc & c1 & body & S & E & F & L & Cl & ->). unfold clear. rewrite Inc. cbn [negb].
  rewrite drain_false. rewrite (flush_sends _ c c1 S). rewrite E, feed_clear by exact F.
  cbn [feed carries on_clear rbind or_panic]. unfold set_inconsistent, set_in. cbn [cn_id cn_in cn_late cn_closed cn_queue cn_log].
  destruct (sends_keeps _ _ _ S) as [-> _]. rewrite L, Cl, (sends_queue _ _ _ S eq_refl). reflexivity.
Qed.

(** The next operation is the same as on a connection on which the rest of the abandoned query
    has been received and nothing is under way. Missing for the full property: a query with the
    check switched off ([c32_refuted]), and an exception of the abandoned query
    ([c32_exception_refuted]). *)
Theorem c32_next_partial numeric_beyond k c c' :
  k_inner k = Some c -> k_pool k = BAttached -> winds_down lz4_compress show_float server c c' ->
  let k' := set_inner k (Some c') in
  idle c' /\ ping k = ping k' /\
  forall fuel, 1 <= fuel ->
  (forall q, execute fuel q k = execute fuel q k') /\
  (forall t b q, make_query numeric_beyond t b = Ok q ->
     insert lz4_compress show_float parse_ipv4 parse_ipv6 server fresh opts numeric_beyond fuel t b k =
     insert lz4_compress show_float parse_ipv4 parse_ipv6 server fresh opts numeric_beyond fuel t b k') /\
  (co_ping opts = true -> forall q,
     fetch_all fuel q k = fetch_all fuel q k' /\ forall skip, stream_blocks fuel skip q k = stream_blocks fuel skip q k').
Proof.
  intros Ek Ep W k'. pose proof (clear_winds_down _ _ W) as Hc.
  assert (Id : idle c') by (destruct W as (_ & c1 & body & _ & _ & _ & _ & _ & ->); repeat split).
  assert (Hc' : clear lz4_compress show_float server c' = Ok c') by (apply clear_idle; exact Id).
  assert (Hp : forall kk, k_inner kk = Some c -> ping kk = ping (set_inner kk (Some c'))).
  { intros kk E. unfold Client.ping, get_inner. rewrite E. cbn [set_inner k_inner rbind]. rewrite Hc, Hc'. reflexivity. }
  assert (Hb : co_ping opts = true -> forall fuel, 1 <= fuel ->
    before lz4_compress show_float server fresh opts fuel k = before lz4_compress show_float server fresh opts fuel k').
  { intros Co fuel Hf. destruct fuel as [|n]; [lia|].
    unfold before, check_connection, detach. rewrite Co. cbn [k' set_inner k_pool]. rewrite Ep.
    cbn [retry_guard]. rewrite (Hp (set_pool k BDetached)) by exact Ek. reflexivity. }
  split; [exact Id|]. split; [apply Hp; exact Ek|]. intros fuel Hf. split; [|split].
  - intros q. unfold Client.execute. change (k_context k') with (k_context k). destruct (co_ping opts) eqn:Co.
    + rewrite (Hb eq_refl fuel Hf). reflexivity.
    + unfold before. rewrite Co. unfold get_inner. rewrite Ek. cbn [k' set_inner k_inner rbind]. rewrite Hc, Hc'. reflexivity.
  - intros t b q Q. unfold insert. rewrite Q. unfold insert_. change (k_context k') with (k_context k). destruct (co_ping opts) eqn:Co.
    + rewrite (Hb eq_refl fuel Hf). reflexivity.
    + unfold before. rewrite Co. unfold get_inner. rewrite Ek. cbn [k' set_inner k_inner rbind]. rewrite Hc, Hc'. reflexivity.
  - intros Co q. unfold Client.fetch_all, Client.stream_blocks. rewrite (Hb Co fuel Hf). auto.
Qed.

(** An exception of the abandoned query makes the next operation fail with it. *)
Theorem c32_exception_refuted k c c1 body e l :
  k_inner k = Some c -> cn_inconsistent c = true ->
  sends lz4_compress show_float server (set_queue c []) (cn_queue c ++ [CmdCancel]) c1 ->
  cn_in c1 = map Ok body ++ Ok (PkException e) :: l -> Forall in_flight body ->
  ping k = (Err (EServer e), set_inner k None).
Proof.
  intros Ek Inc S E F. unfold Client.ping, get_inner. rewrite Ek. cbn [rbind]. unfold clear. rewrite Inc. cbn [negb].
  rewrite drain_false, (flush_sends _ c c1 S), E, feed_clear by exact F. reflexivity.
Qed.

(** ** C33 *)
Lemma drive_broken n : forall s k, bs_state s = Broken -> drive_blocks n s k = (repeat (Err EOther) n, None, s, k).
Proof.
  induction n as [|n IH]; intros s k H; [reflexivity|]. rewrite drive_S. unfold poll_stream. cbn [poll_blocks]. rewrite H.
  rewrite IH by exact H. reflexivity.
Qed.

(** A query whose response is cut off anywhere: the blocks that came, then an error, and an error
    at each further poll. Missing for the full property: the other operations panic
    ([c33_execute_refuted], [c33_insert_refuted], [c33_hello_refuted], [c33_clear_refuted]). *)
Theorem c33_query_partial fuel skip q k c ps now late bs n :
  ready k c -> pings server opts c -> 1 <= fuel -> length ps + 3 <= n -> Forall in_response ps ->
  encode_command lz4_compress show_float (CmdQuery q (k_context k)) = Ok bs ->
  server (cn_id (checked opts c)) (cn_log (checked opts c) ++ [CmdQuery q (k_context k)]) = RAnswers now late true ->
  now ++ late = map Ok ps ->
  exists s k1, stream_blocks fuel skip q k = (Ok s, k1) /\
  exists m s2, drive_blocks n s k1 = (map Ok (delivered skip ps) ++ Err EIo :: repeat (Err EOther) m, None, s2, k1) /\
    drop_stream s2 k1 = (Ok tt, k1).
Proof.
  intros R Pi Hf Hn F E S Er.
  rewrite (stream_ready lz4_compress show_float server fresh opts fuel skip q k c Hf R Pi).
  do 2 eexists. split; [reflexivity|]. pose proof R as (P & I & Id).
  set (m := CmdQuery q (k_context k)) in *.
  pose proof (flush_one lz4_compress show_float server (checked opts c) m now late true bs (checked_idle opts c Id) E S) as Fl.
  destruct n as [|n]; [lia|]. rewrite (drive_asking lz4_compress show_float server n _ _ _ _ _ Fl).
  set (c1 := mk_conn _ _ _ _ _ _ _) in *. set (k1 := set_inner (set_pool k BDetached) None).
  destruct (drive_response lz4_compress show_float server (Datatypes.S n) ps c1 0 skip k1 []) as (c2 & i2 & n2 & D & D1 & D2 & D3 & D4 & D5 & D6 & D7 & D8); auto.
  { cbn [c1 cn_late]. destruct late; cbn [length]; lia. }
  { cbn [c1 cn_in cn_late]. rewrite app_nil_r. exact Er. }
  rewrite D, drive_S, poll_reading by (reflexivity || assumption). rewrite D1. cbn [scan]. rewrite D2, D3. cbn [c1 cn_closed].
  rewrite drive_broken by reflexivity.
  do 2 eexists. split; [unfold remaining, delivered; cbn [Nat.eqb]; rewrite andb_true_r; reflexivity|]. reflexivity.
Qed.

(** A check of an idle connection. *)
Theorem c33_ping_partial k c ps :
  k_inner k = Some c -> idle c -> server (cn_id c) (cn_log c ++ [CmdPing]) = RAnswers (map Ok ps) [] true ->
  ~ In PkPong ps -> exists e, ping k = (Err e, set_inner k None).
Proof.
  intros Ek Id S N. unfold Client.ping, get_inner. rewrite Ek. cbn [rbind]. rewrite clear_idle by exact Id. cbn [rbind].
  destruct (encode_ping_ok lz4_compress show_float) as (bs & Eb).
  rewrite drain_false, (flush_one lz4_compress show_float server _ _ _ _ _ bs Id Eb S). cbn [cn_in].
  destruct ps as [|p ps]; cbn [map feed cn_late cn_closed rbind]; [eauto|].
  destruct p; try (eexists; reflexivity). exfalso. apply N. left. reflexivity.
Qed.

(** [execute] panics wherever its response is cut off. *)
Theorem c33_execute_refuted fuel q k c ps bs :
  ready k c -> pings server opts c -> 1 <= fuel -> Forall in_response ps ->
  encode_command lz4_compress show_float (CmdQuery q (k_context k)) = Ok bs ->
  server (cn_id (checked opts c)) (cn_log (checked opts c) ++ [CmdQuery q (k_context k)]) = RAnswers (map Ok ps) [] true ->
  fst (execute fuel q k) = Panic PUnwrap.
Proof.
  intros R Pi Hf F E S. pose proof R as (P & I & Id). unfold Client.execute.
  rewrite (before_ready lz4_compress show_float server fresh opts fuel k c Hf R Pi).
  unfold get_inner. cbn [set_inner k_inner rbind]. rewrite clear_idle by (apply checked_idle; exact Id). cbn [rbind].
  rewrite drain_false, (flush_one lz4_compress show_float server _ _ _ _ _ bs (checked_idle opts c Id) E S).
  cbn [cn_in]. rewrite <- (app_nil_r (map Ok ps)), feed_execute by exact F. reflexivity.
Qed.

Lemma feed_read_block c ps : forall a l, Forall describes_columns ps ->
  feed on_read_block true c (map Ok ps ++ l) a = feed on_read_block true c l a.
Proof.
  induction ps as [|p ps IH]; intros a l F; [reflexivity|]. inversion_clear F as [|? ? Hp F'].
  destruct p; try contradiction; cbn [map app feed carries on_read_block andb is_block]; apply IH; exact F'.
Qed.
Theorem c33_insert_refuted fuel q b k c ps bs :
  ready k c -> pings server opts c -> 1 <= fuel -> Forall describes_columns ps ->
  encode_command lz4_compress show_float (CmdQuery q (k_context k)) = Ok bs ->
  server (cn_id (checked opts c)) (cn_log (checked opts c) ++ [CmdQuery q (k_context k)]) = RAnswers (map Ok ps) [] true ->
  fst (insert_ lz4_compress show_float parse_ipv4 parse_ipv6 server fresh opts fuel q b k) = Panic PUnwrap.
Proof.
  intros R Pi Hf F E S. pose proof R as (P & I & Id). unfold insert_.
  rewrite (before_ready lz4_compress show_float server fresh opts fuel k c Hf R Pi).
  unfold get_inner. cbn [set_inner k_inner rbind]. rewrite clear_idle by (apply checked_idle; exact Id). cbn [rbind].
  unfold send_insert_query, read_block.
  rewrite drain_call, (flush_one lz4_compress show_float server _ _ _ _ _ bs (checked_idle opts c Id) E S).
  cbn [cn_in]. rewrite <- (app_nil_r (map Ok ps)), feed_read_block by exact F. reflexivity.
Qed.

Theorem c33_hello_refuted k c bs :
  k_inner k = Some c -> idle c -> encode_command lz4_compress show_float (CmdHello (k_context k)) = Ok bs ->
  server (cn_id c) (cn_log c ++ [CmdHello (k_context k)]) = RAnswers [] [] true ->
  fst (hello lz4_compress show_float server k) = Panic PUnwrap.
Proof.
  intros Ek Id E S. unfold hello. rewrite Ek.
  rewrite drain_false, (flush_one lz4_compress show_float server _ _ _ _ _ bs Id E S). reflexivity.
Qed.

(** What is left of an abandoned query is cut off: the next check panics. *)
Theorem c33_clear_refuted k c c1 body :
  k_inner k = Some c -> cn_inconsistent c = true ->
  sends lz4_compress show_float server (set_queue c []) (cn_queue c ++ [CmdCancel]) c1 ->
  cn_in c1 = map Ok body -> Forall in_flight body -> cn_late c1 = [] -> cn_closed c1 = true ->
  fst (ping k) = Panic PUnwrap.
Proof.
  intros Ek Inc S E F L Cl. unfold Client.ping, get_inner. rewrite Ek. cbn [rbind]. unfold clear. rewrite Inc. cbn [negb].
  rewrite drain_false, (flush_sends _ c c1 S), E, <- (app_nil_r (map Ok body)), feed_clear by exact F.
  cbn [feed]. rewrite L, Cl. reflexivity.
Qed.

(** ** C38 *)
Notation retry_guard := (retry_guard lz4_compress show_float server fresh opts).
Lemma ping_none k : k_inner k = None -> ping k = (Err EBroken, set_inner k None).
Proof. intros E. unfold Client.ping, get_inner. rewrite E. reflexivity. Qed.
Lemma retry_down : (forall n, exists e, fresh n = Err e) -> forall fuel attempt k, co_retries opts - attempt + 1 <= fuel ->
  attempt <= co_retries opts ->
  exists e k', retry_guard fuel attempt true k = (Err e, k') /\ k_pool k' = k_pool k /\ k_inner k' = k_inner k /\
    k_tries k' = k_tries k + (co_retries opts - attempt) + 1.
Proof.
  intros D. induction fuel as [|n IH]; intros attempt k Hf Ha; [lia|]. cbn [Client.retry_guard].
  unfold reconnect. destruct (D (k_tries k)) as (e & ->). destruct (Nat.leb_spec (co_retries opts) attempt) as [L|L].
  - do 2 eexists. split; [reflexivity|]. cbn [k_pool k_inner k_tries]. repeat split; lia.
  - destruct (IH (S attempt) (mk_client (k_inner k) (k_context k) (k_pool k) (S (k_tries k)))) as (e' & k' & H1 & H2 & H3 & H4); [lia|lia|].
    exists e', k'. split; [exact H1|]. split; [exact H2|]. split; [exact H3|]. cbn [k_tries] in H4. lia.
Qed.

(** The server cannot be reached: after one check and so many attempts to reconnect, the error is
    reported. [co_retries] + 1 attempts are made if it is not 0. Missing for the full property: a
    server that accepts connections on which the check fails ([c38_refuted]). *)
Theorem c38_partial fuel k :
  k_pool k = BAttached -> (forall n, exists e, fresh n = Err e) -> co_retries opts + 2 <= fuel ->
  (exists e, ping (set_pool k BDetached) = (Err e, set_inner (set_pool k BDetached) None)) ->
  exists e k', check_connection lz4_compress show_float server fresh opts fuel k = (Err e, k') /\
    k_tries k' = k_tries k + (if co_retries opts =? 0 then 0 else co_retries opts + 1) /\
    k_pool k' = BDetached /\ k_inner k' = None.
Proof.
  intros P D Hf (e & Hp). unfold check_connection, detach. rewrite P. destruct fuel as [|n]; [lia|]. cbn [Client.retry_guard].
  rewrite Hp. destruct (Nat.leb_spec (co_retries opts) 0) as [L|L].
  - do 2 eexists. split; [reflexivity|]. rewrite (proj2 (Nat.eqb_eq (co_retries opts) 0)) by lia. cbn [set_pool set_inner k_tries k_pool k_inner]. repeat split; lia.
  - rewrite (proj2 (Nat.eqb_neq (co_retries opts) 0)) by lia. unfold reconnect. cbn [set_pool set_inner k_tries k_pool k_inner k_context].
    destruct (D (k_tries k)) as (e' & ->).
    destruct (retry_down D n 1 (mk_client None (k_context k) BDetached (S (k_tries k)))) as (e2 & k' & H1 & H2 & H3 & H4); [lia|lia|].
    rewrite H1. do 2 eexists. split; [reflexivity|]. cbn [k_tries k_pool k_inner] in *. repeat split; auto; lia.
Qed.

(** Whatever number of retries is set, a server that takes connections but fails the check is
    tried without end: no fuel is enough, and each step opens a further connection. *)
Theorem c38_refuted :
  1 <= co_retries opts ->
  (forall n, exists k c e now late closes, fresh n = Ok k /\ k_inner k = Some c /\ idle c /\
     server (cn_id c) (cn_log c ++ [CmdPing]) = RAnswers (Ok (PkException e) :: now) late closes) ->
  forall fuel k, (exists e, ping k = (Err e, set_inner k None)) ->
  exists k', retry_guard fuel 0 false k = (Panic PFuel, k') /\ k_tries k' = k_tries k + fuel.
Proof.
  intros Hr H. induction fuel as [|n IH]; intros k (e & Hp).
  - exists k. split; [reflexivity|lia].
  - cbn [Client.retry_guard]. rewrite Hp, (proj2 (Nat.leb_gt (co_retries opts) 0)) by lia.
    unfold reconnect. cbn [set_inner k_tries k_inner k_context k_pool].
    destruct (H (k_tries k)) as (kn & c & e' & now & late & closes & -> & Ec & Id & S).
    destruct (IH (mk_client (k_inner kn) (k_context kn) (k_pool kn) (Datatypes.S (k_tries k)))) as (k' & E & T).
    { exists (EServer e'). unfold Client.ping, get_inner. cbn [k_inner]. rewrite Ec. cbn [rbind].
      rewrite clear_idle by exact Id. cbn [rbind]. destruct (encode_ping_ok lz4_compress show_float) as (bs & Eb).
      rewrite drain_false, (flush_one lz4_compress show_float server _ _ _ _ _ bs Id Eb S). reflexivity. }
    exists k'. split; [exact E|]. cbn [k_tries] in T. lia.
Qed.

(** ** C39 *)

(** The server cannot be reached: a first [execute] reports the error, each further one panics. *)
Theorem c39_unreachable_refuted fuel q k :
  co_ping opts = true -> k_pool k = BAttached -> k_inner k = None -> (forall n, exists e, fresh n = Err e) ->
  co_retries opts + 2 <= fuel ->
  exists e k', execute fuel q k = (Err e, k') /\
    forall fuel' q', fst (execute fuel' q' k') = Panic PUnreachable /\ fst (fetch_all fuel' q' k') = Panic PUnreachable.
Proof.
  intros Co P I D Hf.
  destruct (c38_partial fuel k P D Hf) as (e & k' & E & _ & P' & _).
  { exists EBroken. apply ping_none. exact I. }
  exists e, k'. unfold Client.execute at 1. unfold before. rewrite Co, E. split; [reflexivity|].
  intros fuel' q'. pose proof (detached_panics fuel' k' Co P') as X.
  unfold Client.execute, Client.fetch_all, Client.stream_blocks. rewrite X. auto.
Qed.

(** A query on a handle that no pool has given out panics, unless the check is switched off. *)
Theorem c39_no_pool_refuted fuel q k :
  k_pool k = BNone -> fst (fetch_all fuel q k) = Panic PUnreachable /\
  forall skip, fst (stream_blocks fuel skip q k) = Panic PUnreachable.
Proof.
  intros P. unfold Client.fetch_all, Client.stream_blocks, before, check_connection.
  destruct (co_ping opts); unfold detach; rewrite P; auto.
Qed.

(** An operation that fails after its check leaves a handle without a connection, still bound to
    its pool: the next one then reports that, or with the check on goes on with a new connection. *)
Theorem c39_partial fuel q k k1 e k2 :
  before lz4_compress show_float server fresh opts fuel k = (Ok tt, k1) -> execute fuel q k = (Err e, k2) ->
  k_inner k2 = None /\ k_pool k2 = k_pool k1 /\ k_context k2 = k_context k1 /\
  ping k2 = (Err EBroken, k2) /\
  (co_ping opts = false -> forall fuel' q', execute fuel' q' k2 = (Err EBroken, k2)) /\
  (co_ping opts = true -> k_pool k2 = BAttached -> 1 <= co_retries opts ->
   forall fuel' nk c q' bs ps, 2 <= fuel' ->
     fresh (k_tries k2) = Ok nk -> ready nk c -> pings server opts c ->
     encode_command lz4_compress show_float (CmdQuery q' (k_context k2)) = Ok bs -> Forall in_response ps ->
     server (cn_id c) (cn_log c ++ [CmdPing; CmdQuery q' (k_context k2)]) = RAnswers (map Ok ps ++ [Ok PkEof]) [] false ->
     exists k3, execute fuel' q' k2 = (Ok tt, k3) /\ ready k3 (said (said c CmdPing) (CmdQuery q' (k_context k2)))).
Proof.
  intros B X. unfold Client.execute in X. rewrite B in X.
  match type of X with match ?x with _ => _ end = _ => destruct x as [t|e'|p] end; try discriminate X.
  injection X as -> <-. split; [reflexivity|]. split; [reflexivity|]. split; [reflexivity|].
  split; [rewrite ping_none by reflexivity; destruct k1; reflexivity|]. split.
  - intros Co fuel' q'. unfold Client.execute, before. rewrite Co. unfold get_inner. cbn [set_inner k_inner rbind]. destruct k1; reflexivity.
  - intros Co P Hr fuel' nk c q' bs ps Hf Fr R Pi E F S. change (k_context (set_inner k1 None)) with (k_context k1) in *. pose proof R as (Pn & In & Id).
    unfold Client.execute, before. rewrite Co. unfold check_connection, detach. rewrite P.
    destruct fuel' as [|[|n]]; [lia|lia|]. cbn [Client.retry_guard]. rewrite ping_none by reflexivity.
    rewrite (proj2 (Nat.leb_gt (co_retries opts) 0)) by lia. unfold reconnect. cbn [set_pool set_inner k_tries k_pool k_inner k_context].
    cbn [set_inner k_tries] in Fr. rewrite Fr.
    rewrite (ping_idle lz4_compress show_float server _ c) by (assumption || apply (Pi Co)). cbn [set_inner k_pool k_inner k_context k_tries]. rewrite Pn.
    unfold get_inner. cbn [set_inner k_inner rbind]. rewrite clear_idle by apply said_idle. cbn [rbind].
    assert (S' : server (cn_id (said c CmdPing)) (cn_log (said c CmdPing) ++ [CmdQuery q' (k_context k1)]) = RAnswers (map Ok ps ++ [Ok PkEof]) [] false).
    { cbn [said cn_id cn_log]. rewrite <- app_assoc. exact S. }
    rewrite drain_false, (flush_one lz4_compress show_float server _ _ _ _ _ bs (said_idle c CmdPing) E S').
    cbn [cn_in]. rewrite feed_execute by exact F. cbn [feed carries on_execute rbind or_panic].
    eexists. split; [reflexivity|]. split; [reflexivity|]. split; [reflexivity|apply said_idle].
Qed.

(** ** C53 *)

(** The server goes along: it answers each statement with a description of the columns and each
    piece with the end. [h] is its first description. *)
Definition goes_along (c : conn) (cx : context) (q : query) (h : block) (pieces : list block) : Prop :=
  forall pre p post, pieces = pre ++ p :: post ->
  (exists bs, encode_command lz4_compress show_float (CmdQuery q cx) = Ok bs) /\
  (exists bs, encode_command lz4_compress show_float (CmdUnion (CmdData p cx) (CmdData block_default cx)) = Ok bs) /\
  (exists ps h', Forall describes_columns ps /\ (pre = [] -> h' = h) /\
     server (cn_id c) (cn_log c ++ insert_commands cx q pre ++ [CmdQuery q cx]) = RAnswers (map Ok ps ++ [Ok (PkBlock h')]) [] false) /\
  (exists ps, Forall describes_columns ps /\ server (cn_id c) (cn_log c ++ insert_commands cx q (pre ++ [p])) = RAnswers (map Ok ps ++ [Ok PkEof]) [] false).

Lemma send_insert_query_ok c cx q ps h bs : idle c -> Forall describes_columns ps ->
  encode_command lz4_compress show_float (CmdQuery q cx) = Ok bs ->
  server (cn_id c) (cn_log c ++ [CmdQuery q cx]) = RAnswers (map Ok ps ++ [Ok (PkBlock h)]) [] false ->
  send_insert_query lz4_compress show_float server c cx q = Ok (said c (CmdQuery q cx), h).
Proof.
  intros Id F E S. unfold send_insert_query, read_block.
  rewrite drain_call, (flush_one lz4_compress show_float server _ _ _ _ _ bs Id E S).
  cbn [cn_in]. rewrite feed_read_block by exact F. reflexivity.
Qed.
Lemma insert_block_ok c cx p ps bs : idle c -> Forall describes_columns ps ->
  encode_command lz4_compress show_float (CmdUnion (CmdData p cx) (CmdData block_default cx)) = Ok bs ->
  server (cn_id c) (cn_log c ++ [CmdUnion (CmdData p cx) (CmdData block_default cx)]) = RAnswers (map Ok ps ++ [Ok PkEof]) [] false ->
  insert_block lz4_compress show_float server c cx p = Ok (said c (CmdUnion (CmdData p cx) (CmdData block_default cx))).
Proof.
  intros Id F E S. unfold insert_block, read_block.
  rewrite drain_call, (flush_one lz4_compress show_float server _ _ _ _ _ bs Id E S).
  cbn [cn_in]. rewrite feed_read_block by exact F. reflexivity.
Qed.
Lemma insert_commands_app cx q a b : insert_commands cx q (a ++ b) = insert_commands cx q a ++ insert_commands cx q b.
Proof. apply flat_map_app. Qed.

Lemma insert_tail_ok cx q h pieces c0 : goes_along c0 cx q h pieces -> forall post pre c, pieces = pre ++ post ->
  idle c -> cn_id c = cn_id c0 -> cn_log c = cn_log c0 ++ insert_commands cx q pre ->
  exists c', insert_tail lz4_compress show_float server c cx q post = Ok c' /\ idle c' /\ cn_id c' = cn_id c0 /\
    cn_log c' = cn_log c0 ++ insert_commands cx q pieces.
Proof.
  intros G. induction post as [|p post IH]; intros pre c Ep Id Hi Hl; cbn [insert_tail].
  - rewrite app_nil_r in Ep. subst pre. eauto.
  - destruct (G pre p post Ep) as ((bs & E1) & (bs2 & E2) & (ps & h' & F & _ & S1) & (ps2 & F2 & S2)).
    rewrite (send_insert_query_ok c cx q ps h' bs) by (assumption || (rewrite Hi, Hl, <- app_assoc; exact S1)).
    cbn [rbind fst].
    rewrite (insert_block_ok _ cx p ps2 bs2) by (first [assumption | apply said_idle |
      cbn [said cn_id cn_log]; rewrite Hi, Hl, insert_commands_app in *; rewrite <- !app_assoc; exact S2]).
    cbn [rbind].
    apply (IH (pre ++ [p])).
    + rewrite <- app_assoc. exact Ep.
    + apply said_idle.
    + exact Hi.
    + cbn [said cn_log]. rewrite Hl, insert_commands_app, <- !app_assoc. reflexivity.
Qed.

Lemma insert_chunks fuel q b k c h b' pieces :
  ready k c -> pings server opts c -> 1 <= fuel ->
  block_cast parse_ipv4 parse_ipv6 b h = Ok b' -> block_chunks insert_block_size b' = Ok pieces -> pieces <> [] ->
  goes_along (checked opts c) (k_context k) q h pieces ->
  exists k2 c2, insert_ lz4_compress show_float parse_ipv4 parse_ipv6 server fresh opts fuel q b k = (Ok tt, k2) /\
    ready k2 c2 /\ cn_id c2 = cn_id c /\ k_context k2 = k_context k /\
    cn_log c2 = cn_log (checked opts c) ++ insert_commands (k_context k) q pieces.
Proof.
  intros R Pi Hf Ca Ch Ne G. pose proof R as (P & I & Id).
  unfold insert_. rewrite (before_ready lz4_compress show_float server fresh opts fuel k c Hf R Pi).
  unfold get_inner. cbn [set_inner k_inner rbind]. pose proof (checked_idle opts c Id) as Id1.
  rewrite clear_idle by exact Id1. cbn [rbind].
  destruct pieces as [|p0 l]; [congruence|].
  destruct (G [] p0 l eq_refl) as ((bs & E1) & (bs2 & E2) & (ps & h' & F & Hh & S1) & (ps2 & F2 & S2)).
  specialize (Hh eq_refl). subst h'.
  rewrite (send_insert_query_ok _ (k_context k) q ps h bs Id1 F E1 S1). cbn [rbind snd fst]. rewrite Ca. cbn [rbind]. rewrite Ch. cbn [rbind].
  rewrite (insert_block_ok _ (k_context k) p0 ps2 bs2) by (first [assumption | apply said_idle |
      cbn [said cn_id cn_log]; rewrite <- app_assoc; exact S2]).
  cbn [rbind].
  destruct (insert_tail_ok (k_context k) q h (p0 :: l) (checked opts c) G l [p0]
    (said (said (checked opts c) (CmdQuery q (k_context k))) (CmdUnion (CmdData p0 (k_context k)) (CmdData block_default (k_context k)))))
    as (c' & E & Id' & Hi' & Hl').
  - reflexivity.
  - apply said_idle.
  - reflexivity.
  - cbn [said cn_log insert_commands flat_map app]. rewrite <- app_assoc. reflexivity.
  - rewrite E. do 2 eexists. split; [reflexivity|]. split; [split; [exact P|]; split; [reflexivity|exact Id']|].
    rewrite Hi'. split; [apply checked_id|]. split; [reflexivity|exact Hl'].
Qed.

(** An insert on a connection in step sends, for each piece of the block as cast to the columns the
    server describes, the statement and then the piece and an empty block; the pieces are the rows of
    that block in order, none left out and none twice (C12 says so of [block_chunks]). *)
Theorem c53_insert fuel q b k c h b' m :
  ready k c -> pings server opts c -> 1 <= fuel ->
  block_cast parse_ipv4 parse_ipv6 b h = Ok b' -> rectangular m b' -> (b_cols b' = [] -> m = 0) ->
  exists pieces, 
    (m = 0 -> pieces = [block_default]) /\
    (0 < m -> length pieces = (m + insert_block_size - 1) / insert_block_size /\
       forall i p, nth_error pieces i = Some p ->
         i * insert_block_size < m /\ piece_of b' (i * insert_block_size) (Nat.min insert_block_size (m - i * insert_block_size)) p) /\
    (goes_along (checked opts c) (k_context k) q h pieces ->
     exists k2 c2, insert_ lz4_compress show_float parse_ipv4 parse_ipv6 server fresh opts fuel q b k = (Ok tt, k2) /\
       ready k2 c2 /\ cn_id c2 = cn_id c /\
       cn_log c2 = cn_log (checked opts c) ++ insert_commands (k_context k) q pieces).
Proof.
  intros R Pi Hf Ca Re H0.
  assert (Hn : 0 < insert_block_size) by (unfold insert_block_size; lia).
  destruct (c12_pieces insert_block_size m b' Hn Re H0) as (pieces & Ch & Z & Pc).
  exists pieces. split; [exact Z|]. split; [exact Pc|]. intros G.
  assert (Ne : pieces <> []).
  { intros ->. destruct (Nat.eq_dec m 0) as [Hm|Hm]; [specialize (Z Hm); discriminate Z|].
    destruct (Pc ltac:(lia)) as [L _]. cbn [length] in L.
    assert (1 <= (m + insert_block_size - 1) / insert_block_size); [|lia].
    apply Nat.div_le_lower_bound; lia. }
  destruct (insert_chunks fuel q b k c h b' pieces R Pi Hf Ca Ch Ne G) as (k2 & c2 & A1 & A2 & A3 & _ & A4). eauto 6.
Qed.

(** A server that reports progress during an insert makes it fail. *)
Theorem c53_progress_refuted fuel q b k c bs p l late closes :
  ready k c -> pings server opts c -> 1 <= fuel ->
  encode_command lz4_compress show_float (CmdQuery q (k_context k)) = Ok bs ->
  server (cn_id (checked opts c)) (cn_log (checked opts c) ++ [CmdQuery q (k_context k)]) = RAnswers (Ok (PkProgress p) :: l) late closes ->
  fst (insert_ lz4_compress show_float parse_ipv4 parse_ipv6 server fresh opts fuel q b k) = Err EUnexpectedPacket.
Proof.
  intros R Pi Hf E S. pose proof R as (P & I & Id). unfold insert_.
  rewrite (before_ready lz4_compress show_float server fresh opts fuel k c Hf R Pi).
  unfold get_inner. cbn [set_inner k_inner rbind]. rewrite clear_idle by (apply checked_idle; exact Id). cbn [rbind].
  unfold send_insert_query, read_block.
  rewrite drain_call, (flush_one lz4_compress show_float server _ _ _ _ _ bs (checked_idle opts c Id) E S). reflexivity.
Qed.
End Query.

Print Assumptions c31_query.
Print Assumptions c31_exception.
Print Assumptions c31_fetch_all.
Print Assumptions c31_execute.
Print Assumptions c31_exception_refuted.
Print Assumptions c31_fetch_all_refuted.
Print Assumptions c32_dropped.
Print Assumptions c32_next_partial.
Print Assumptions c32_exception_refuted.
Print Assumptions c33_query_partial.
Print Assumptions c33_ping_partial.
Print Assumptions c33_execute_refuted.
Print Assumptions c33_insert_refuted.
Print Assumptions c33_hello_refuted.
Print Assumptions c33_clear_refuted.
Print Assumptions c38_partial.
Print Assumptions c38_refuted.
Print Assumptions c39_unreachable_refuted.
Print Assumptions c39_no_pool_refuted.
Print Assumptions c39_partial.
Print Assumptions c53_insert.
Print Assumptions c53_progress_refuted.

(** ** A server to try it with *)
Definition ex_context : context := mk_context 54428 (str "h") (Ok (mk_moptions (str "d") (str "u") (str "p") false [])).
Definition ex_lz4 (s : bytes) : bytes := s.
Definition ex_show (_ : Z) : bytes := [].
Definition ex_parse (_ : bytes) : option bytes := None.
Definition ex_conn : conn := mk_conn 7 [] [] false [] [CmdHello ex_context] false.
Definition ex_client : client := mk_client (Some ex_conn) ex_context BAttached 0.
Definition ex_opts : copts := mk_copts true 3.
Definition ex_header : block := mk_block info_default [(str "a", CString [])].
Definition ex_block : block := mk_block info_default [(str "a", CString [str "x"; str "y"])].
Definition ex_progress : packet := PkProgress (mk_progress 1 1 1 0 0).
Definition ex_exception : server_error := mk_server_error 60 (str "DB::Exception") (str "no such table") [].
Definition ex_response : list packet :=
  [PkBlock ex_header; ex_progress; PkBlock ex_block; PkBlock block_default; ex_progress; PkBlock ex_block].
Definition ex_query : query := mk_query (str "SELECT a FROM t") [].
Definition ex_fresh (_ : nat) : res client := Err EIo.

Definition ex_server (answer : list (res packet) * list (res packet) * bool) (_ : nat) (log : list cmd) : reply :=
  match last log CmdPing with
  | CmdPing => RAnswers [Ok PkPong] [] false
  | CmdQuery _ _ => let '(now, late, closes) := answer in RAnswers now late closes
  | CmdCancel => RAnswers [Ok (PkBlock ex_block); Ok PkEof] [] false
  | CmdHello _ => RAnswers [] [] true
  | _ => RAnswers [Ok PkEof] [] false
  end.
Definition ex_late : list (res packet) * list (res packet) * bool :=
  (map Ok (firstn 4 ex_response), map Ok (skipn 4 ex_response) ++ [Ok PkEof], false).

Lemma ex_encodes : exists bs, encode_command ex_lz4 ex_show (CmdQuery ex_query ex_context) = Ok bs.
Proof. eexists. vm_compute. reflexivity. Qed.

Example c31_case :
  ready ex_client ex_conn /\ pings (ex_server ex_late) ex_opts ex_conn /\ Forall in_response ex_response /\
  answers ex_lz4 ex_show (ex_server ex_late) (checked ex_opts ex_conn) (CmdQuery ex_query ex_context) (ex_response ++ [PkEof]) /\
  delivered true ex_response = [ex_block; ex_block].
Proof.
  split; [repeat split|]. split; [intros _; reflexivity|]. split; [repeat constructor|]. split; [|reflexivity].
  destruct ex_encodes as (bs & E). do 3 eexists. split; [exact E|]. split; reflexivity.
Qed.
Example c31_exception_case :
  let sv := ex_server (map Ok (firstn 3 ex_response), [Ok (PkException ex_exception)], false) in
  answers ex_lz4 ex_show sv (checked ex_opts ex_conn) (CmdQuery ex_query ex_context) (firstn 3 ex_response ++ [PkException ex_exception]).
Proof. cbv zeta. destruct ex_encodes as (bs & E). do 3 eexists. split; [exact E|]. split; reflexivity. Qed.
Example c31_fetch_all_case :
  let sv := ex_server (map Ok ex_response ++ [Ok PkEof], [], false) in
  fst (fetch_all ex_lz4 ex_show sv ex_fresh ex_opts 5 ex_query ex_client) =
    Ok (mk_block info_default [(str "a", CConcat (CString []) [CString [str "x"; str "y"]; CString [str "x"; str "y"]])]) /\
  sv 7 (cn_log (checked ex_opts ex_conn) ++ [CmdQuery ex_query ex_context]) = RAnswers (map Ok ex_response ++ [Ok PkEof]) [] false.
Proof. cbv zeta. split; vm_compute; reflexivity. Qed.

(** The rows of an abandoned query come with the next one when the check is off: the second
    stream delivers the first query's block and ends, and its own block is never seen. *)
Definition ex_other : block := mk_block info_default [(str "b", CString [str "z"])].
Definition ex_two (_ : nat) (log : list cmd) : reply :=
  match last log CmdPing with
  | CmdPing => RAnswers [Ok PkPong] [] false
  | CmdQuery q _ =>
      if bytes_eqb (q_sql q) (q_sql ex_query) then RAnswers (map (fun b => Ok (PkBlock b)) [ex_header; ex_block; ex_block; ex_block] ++ [Ok PkEof]) [] false
      else RAnswers [Ok (PkBlock (mk_block info_default [(str "b", CString [])])); Ok (PkBlock ex_other); Ok PkEof] [] false
  | CmdCancel => RAnswers [] [] false
  | _ => RAnswers [] [] true
  end.
Definition abandon (opts : copts) (second : query) : option (list (res block) * option streamed) :=
  match stream_blocks ex_lz4 ex_show ex_two ex_fresh opts 5 true ex_query ex_client with
  | (Ok s, k1) =>
      match drive_blocks ex_lz4 ex_show ex_two 1 s k1 with
      | (_, None, s2, k2) =>
          match drop_stream s2 k2 with
          | (Ok _, k3) =>
              match stream_blocks ex_lz4 ex_show ex_two ex_fresh opts 5 true second k3 with
              | (Ok s', k4) => let '(l, e, _, _) := drive_blocks ex_lz4 ex_show ex_two 10 s' k4 in Some (l, e)
              | _ => None
              end
          | _ => None
          end
      | _ => None
      end
  | _ => None
  end.
Theorem c32_refuted :
  abandon (mk_copts false 3) (mk_query (str "SELECT b FROM u") []) = Some ([Ok ex_block], Some SEnd) /\
  abandon (mk_copts true 3) (mk_query (str "SELECT b FROM u") []) = Some ([Ok ex_other], Some SEnd).
Proof. split; vm_compute; reflexivity. Qed.
Print Assumptions c32_refuted.

(** An abandoned query's connection, with a message here, one late and a command still queued. *)
Definition ex_abandoned : conn :=
  mk_conn 7 [Ok (PkBlock ex_block)] [Ok ex_progress] false [CmdQuery ex_query ex_context] [CmdHello ex_context] true.
Example c32_case :
  winds_down ex_lz4 ex_show (ex_server ([Ok (PkBlock ex_block)], [], false)) ex_abandoned
    (mk_conn 7 [] [] false [] [CmdHello ex_context; CmdQuery ex_query ex_context; CmdCancel] false).
Proof.
  split; [reflexivity|]. eexists _, [PkBlock ex_block; ex_progress; PkBlock ex_block; PkBlock ex_block].
  destruct ex_encodes as (bs & E). split.
  - cbn [app ex_abandoned cn_queue cn_id cn_in cn_late cn_closed cn_log cn_inconsistent].
    eapply sends_cons; [exact E|reflexivity|reflexivity|]. eapply sends_cons; [reflexivity|reflexivity|reflexivity|].
    apply sends_nil.
  - split; [reflexivity|]. split; [repeat constructor|]. repeat split.
Qed.
Example c32_exception_case :
  exists c1, sends ex_lz4 ex_show (fun _ _ => RAnswers [Ok (PkException ex_exception)] [] false)
    (mk_conn 7 [Ok (PkBlock ex_block)] [] false [] [CmdHello ex_context] true) [CmdCancel] c1 /\
  cn_in c1 = map Ok [PkBlock ex_block] ++ [Ok (PkException ex_exception)].
Proof. eexists. split; [eapply sends_cons; [reflexivity|reflexivity|reflexivity|apply sends_nil]|reflexivity]. Qed.

Example c33_case :
  let sv := ex_server (map Ok (firstn 4 ex_response), [], true) in
  sv (cn_id (checked ex_opts ex_conn)) (cn_log (checked ex_opts ex_conn) ++ [CmdQuery ex_query ex_context]) =
    RAnswers (map Ok (firstn 4 ex_response)) [] true /\
  Forall in_response (firstn 4 ex_response) /\
  fst (execute ex_lz4 ex_show sv ex_fresh ex_opts 5 ex_query ex_client) = Panic PUnwrap /\
  fst (fetch_all ex_lz4 ex_show sv ex_fresh ex_opts 5 ex_query ex_client) = Err EIo.
Proof. cbv zeta. split; [reflexivity|]. split; [repeat constructor|]. split; vm_compute; reflexivity. Qed.
Example c33_clear_case :
  exists c1, sends ex_lz4 ex_show (fun _ _ => RAnswers [Ok ex_progress] [] true)
    (mk_conn 7 [Ok (PkBlock ex_block)] [] false [] [CmdHello ex_context] true) [CmdCancel] c1 /\
  cn_in c1 = map Ok [PkBlock ex_block; ex_progress] /\ cn_late c1 = [] /\ cn_closed c1 = true.
Proof.
  eexists. split; [eapply sends_cons; [reflexivity|reflexivity|reflexivity|apply sends_nil]|]. repeat split.
Qed.
Example c33_insert_case :
  fst (insert ex_lz4 ex_show ex_parse ex_parse (ex_server ([Ok (PkTableColumns [] [])], [], true)) ex_fresh ex_opts (fun _ => false) 5
         (mk_query (str "t") []) ex_block ex_client) = Panic PUnwrap.
Proof. vm_compute. reflexivity. Qed.

(** The server is gone: its connection answers the check by closing, and no other can be had. *)
Definition ex_gone (_ : nat) (_ : list cmd) : reply := RAnswers [] [] true.
Example c38_case :
  ping ex_lz4 ex_show ex_gone (set_pool ex_client BDetached) = (Err EBroken, set_inner (set_pool ex_client BDetached) None) /\
  (let (r, k) := check_connection ex_lz4 ex_show ex_gone ex_fresh ex_opts 10 ex_client in (r, k_tries k)) = (Err EIo, 4).
Proof. split; vm_compute; reflexivity. Qed.
(** A server that refuses every command. *)
Example c38_refuted_case :
  let sv := fun (_ : nat) (_ : list cmd) => RAnswers [Ok (PkException ex_exception)] [] false in
  let fresh := fun _ : nat => Ok ex_client in
  1 <= co_retries ex_opts /\
  (forall n, exists k c e now late closes, fresh n = Ok k /\ k_inner k = Some c /\ idle c /\
     sv (cn_id c) (cn_log c ++ [CmdPing]) = RAnswers (Ok (PkException e) :: now) late closes) /\
  ping ex_lz4 ex_show sv ex_client = (Err (EServer ex_exception), set_inner ex_client None).
Proof.
  cbv zeta. split; [cbn; lia|]. split; [|reflexivity]. intros n. exists ex_client, ex_conn, ex_exception, [], [], false.
  repeat split.
Qed.

Example c39_case :
  let sv := ex_server ([Ok (PkException ex_exception)], [], false) in
  exists k1 k2, before ex_lz4 ex_show sv ex_fresh ex_opts 5 ex_client = (Ok tt, k1) /\
    execute ex_lz4 ex_show sv ex_fresh ex_opts 5 ex_query ex_client = (Err (EServer ex_exception), k2) /\
    k_pool k2 = BAttached.
Proof. cbv zeta. do 2 eexists. split; [reflexivity|]. split; [vm_compute; reflexivity|reflexivity]. Qed.

(** An insert of a block of strings into a column of another type. *)
Definition ex_insert_header : block := mk_block info_default [(str "a", CFixed 2 [])].
Example c53_case :
  let sv := ex_server ([Ok (PkTableColumns [] []); Ok (PkBlock ex_insert_header)], [], false) in
  let b' := mk_block info_default [(str "a", CFixedAdapter (CString [str "x"; str "y"]) 2)] in
  let piece := mk_block info_default [(str "a", CChunk (CFixedAdapter (CString [str "x"; str "y"]) 2) 0 2)] in
  block_cast ex_parse ex_parse ex_block ex_insert_header = Ok b' /\ rectangular 2 b' /\
  goes_along ex_lz4 ex_show sv (checked ex_opts ex_conn) ex_context ex_query ex_insert_header [piece] /\
  match insert_ ex_lz4 ex_show ex_parse ex_parse sv ex_fresh ex_opts 5 ex_query ex_block ex_client with
  | (Ok _, k) => option_map cn_log (k_inner k) =
      Some [CmdHello ex_context; CmdPing; CmdQuery ex_query ex_context; CmdUnion (CmdData piece ex_context) (CmdData block_default ex_context)]
  | _ => False
  end.
Proof.
  cbv zeta. split; [vm_compute; reflexivity|]. split; [repeat constructor|]. split; [|vm_compute; reflexivity].
  intros pre p post E. destruct pre as [|x pre]; [|destruct pre; discriminate E]. injection E as <- <-.
  split; [apply ex_encodes|]. split; [eexists; vm_compute; reflexivity|]. split.
  - exists [PkTableColumns [] []], ex_insert_header. split; [repeat constructor|]. split; reflexivity.
  - exists []. split; [constructor|]. reflexivity.
Qed.
