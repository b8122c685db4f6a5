(** Properties C67 and C68: rows. *)
From Coq Require Import String.
From Verif Require Import Base Bytes Utf8 Reader Wire Types Text TypeNames Decimal DateTime Values Columns SpecColumns Block SpecTypes SpecBlock.
From Verif Require Import FromSql SpecFromSql ToSql SpecToSql Packets Client SpecClient Rows SpecRows.
From Verif Require Import PushProofs BlockProofs BlockOpsProofs ColumnFromProofs ToSqlProofs ClientProofs ConcatProofs PropBlocks PropConcat PropClient RowsProofs RowsConcatProofs.
Open Scope list_scope. Open Scope nat_scope.

(** * C67: the rows of a block *)

(** C67. The iterator gives one row for every row of the block, in order, and then nothing. The
    [i]-th has a cell for every column: its name, its type and its value are those of row [i] of
    the column, also by name, when it is the first of that name; another name is an error. *)
Theorem c67_rows : forall b n, row_count b = Ok n ->
  exists rs, (forall l, iterates (block_rows b) l <-> l = rs) /\ length rs = n /\
  forall i r, nth_error rs i = Some r ->
    row_len r = length (b_cols b) /\ row_is_empty r = false /\
    (forall j name c, nth_error (b_cols b) j = Some (name, c) ->
       row_name r (ByPos j) = Ok name /\ row_type r (ByPos j) = Ok (ctype c) /\
       (forall t, row_get t r (ByPos j) = (do v <- at_ c i; from_sql t v)) /\
       ((forall j' y, j' < j -> nth_error (b_cols b) j' = Some y -> fst y <> name) ->
          row_name r (ByName name) = Ok name /\ row_type r (ByName name) = Ok (ctype c) /\
          forall t, row_get t r (ByName name) = (do v <- at_ c i; from_sql t v))) /\
    (forall s, ~ In s (map fst (b_cols b)) ->
       row_name r (ByName s) = Err EOutOfRange /\ row_type r (ByName s) = Err EOutOfRange /\
       forall t, row_get t r (ByName s) = Err EOutOfRange).
Proof.
  intros b n R. exists (rows_upto b n). pose proof (iterates_from b n R n 0 eq_refl) as IT.
  split; [|split].
  - intros l. split; [|intros ->; exact IT]. intros H. exact (iterates_one _ _ H _ IT).
  - unfold rows_upto. rewrite map_length, seq_length. reflexivity.
  - intros i r H.
    assert (r = mk_row i b /\ i < n) as [-> Hi].
    { assert (i < n) as Hi by (rewrite <- (seq_length n 0), <- (map_length (fun i => mk_row i b)); apply nth_error_Some; unfold rows_upto in H; congruence).
      split; [|exact Hi]. unfold rows_upto in H. rewrite nth_error_map in H.
      rewrite (nth_error_nth' _ 0) in H by (rewrite seq_length; exact Hi). rewrite seq_nth in H by exact Hi. injection H as <-. reflexivity. }
    unfold row_len, row_is_empty, row_len, row_name, row_type, row_get, get, get_cell. cbn [w_block w_index].
    split; [reflexivity|]. split; [|split].
    + unfold row_count in R. destruct (b_cols b); [injection R as <-; lia|reflexivity].
    + intros j name c Hj. rewrite (c25_by_position_partial b j _ Hj). cbn [rbind fst snd]. repeat split; auto.
      all: pose proof (c25_by_name b name) as Q; destruct (get_column b (ByName name)) as [x|e|p]; [|destruct Q as [_ Q]; destruct Q; exact (in_map fst _ _ (nth_error_In _ _ Hj))|contradiction Q].
      all: destruct Q as (i' & Q1 & Q2 & Q3).
      all: assert (i' = j) as -> by (destruct (Nat.lt_trichotomy i' j) as [L|[L|L]]; [destruct (H0 i' x L Q1 Q2)|exact L|destruct (Q3 j _ L Hj eq_refl)]).
      all: pose proof (eq_trans (eq_sym Q1) Hj) as Q; injection Q as ->; reflexivity.
    + intros s Hs. pose proof (c25_by_name b s) as Q. destruct (get_column b (ByName s)) as [x|e|p]; [|destruct Q as [-> _]; repeat split|contradiction Q].
      destruct Q as (i' & Q1 & Q2 & _). destruct Hs. rewrite <- Q2. exact (in_map fst _ _ (nth_error_In _ _ Q1)).
Qed.
Print Assumptions c67_rows.

(** C67 with C55: rows of Rust values that were pushed come back as the rows of the iteration, in
    order and each with its values. *)
Theorem c67_pushed : forall fs rows, fs <> [] -> NoDup (map fst fs) -> (total rows < 2 ^ 64)%N ->
  Forall (Forall2 (fun f x => typed (snd f) x /\ room (snd f) x) fs) rows ->
  (forall r r', In r rows -> In r' rows -> Forall2 one_kind r r') ->
  exists vrows b rs, mapM (row_fields fs) rows = Ok vrows /\ push_rows vrows block_default = Ok b /\
    iterates (block_rows b) rs /\
    Forall2 (fun row r => forall j k w x, nth_error fs j = Some (k, w) -> nth_error row j = Some x ->
      row_get (rust w) r (ByPos j) = Ok (kept w x) /\ row_get (rust w) r (ByName k) = Ok (kept w x)) rows rs.
Proof.
  intros fs rows NE D B F K. destruct (rows_good fs rows D B F K) as (vrows & b & A1 & A2 & A3 & A4).
  exists vrows, b, (rows_upto b (length rows)). split; [exact A1|]. split; [exact A2|].
  assert (row_count b = Ok (length rows)) as R.
  { destruct rows as [|row0 rows]; [cbn [mapM] in A1; injection A1 as <-; injection A2 as <-; reflexivity|].
    pose proof F as F'. apply Forall_cons_iff in F'. destruct F' as [F0 _].
    destruct F0 as [|[k w] x fs' row' [T _] F0]; [congruence|].
    destruct (A4 0 _ 0 k w x eq_refl eq_refl eq_refl) as (c & C1 & C2 & _).
    unfold row_count. destruct (b_cols b) as [|[k' c'] cs]; [discriminate C1|]. injection C1 as -> ->. exact C2. }
  split; [exact (iterates_from b _ R _ 0 eq_refl)|].
  assert (N : rows <> [] -> NoDup (map fst (b_cols b))) by (intros H; rewrite (A3 H); exact D).
  assert (forall i row, nth_error rows i = Some row -> forall j k w x, nth_error fs j = Some (k, w) -> nth_error row j = Some x ->
      row_get (rust w) (mk_row i b) (ByPos j) = Ok (kept w x) /\ row_get (rust w) (mk_row i b) (ByName k) = Ok (kept w x)) as G.
  { intros i row Hi j k w x Hj Hx. destruct (A4 i row j k w x Hi Hj Hx) as (c & C1 & C2 & u & U1 & U2).
    destruct (named_column b j k c) as [G1 G2]; [apply N; intros ->; destruct i; discriminate Hi|exact C1|].
    unfold row_get, get, get_cell. cbn [w_block w_index]. rewrite G1, G2. cbn [rbind snd]. rewrite U1. auto. }
  clear - G. unfold rows_upto.
  assert (forall rs i, (forall j row, nth_error rs j = Some row -> nth_error rows (i + j) = Some row) ->
    Forall2 (fun row r => forall j k w x, nth_error fs j = Some (k, w) -> nth_error row j = Some x ->
      row_get (rust w) r (ByPos j) = Ok (kept w x) /\ row_get (rust w) r (ByName k) = Ok (kept w x)) rs (map (fun j => mk_row j b) (seq i (length rs)))) as X.
  { induction rs as [|row rs IH]; intros i H; cbn [length seq map]; constructor.
    - apply (G i). rewrite <- (Nat.add_0_r i) at 1. apply (H 0). reflexivity.
    - apply IH. intros j row' Hj. rewrite Nat.add_succ_comm. exact (H (S j) row' Hj). }
  apply (X rows 0). intros j row Hj. exact Hj.
Qed.
Print Assumptions c67_pushed.

Example c67_case :
  let b := mk_block info_default [(str "x", CVec U8 [7; 8]%Z); (str "y", CString [[65]; []]%N)] in
  row_count b = Ok 2 /\
  exists r0 r1, iterates (block_rows b) [r0; r1] /\
    row_get (RNum U8) r1 (ByName (str "x")) = Ok (XNum U8 8) /\ row_get RStr r0 (ByPos 1) = Ok (XText [65]%N) /\
    row_name r1 (ByPos 1) = Ok (str "y") /\ row_get (RNum U8) r0 (ByName (str "z")) = Err EOutOfRange.
Proof.
  cbv zeta. split; [reflexivity|]. do 2 eexists. split; [|shelve].
  eapply it_more; [reflexivity|]. eapply it_more; [reflexivity|]. eapply it_end; reflexivity.
  Unshelve. repeat split.
Qed.

(** The iterator goes by the first column: of a block that pushing made ragged (C22) it gives
    rows that have no cells, or leaves cells out. *)
Theorem c67_ragged_refuted :
  (exists b r0 r1, push_rows [[(str "a", VNum U8 1); (str "b", VNum U8 1)]; [(str "a", VNum U8 2)]] block_default = Ok b /\
     iterates (block_rows b) [r0; r1] /\ row_get (RNum U8) r1 (ByName (str "b")) = Panic PIndex) /\
  (exists b r0, push_rows [[(str "a", VNum U8 1); (str "b", VNum U8 1)]; [(str "b", VNum U8 2)]] block_default = Ok b /\
     iterates (block_rows b) [r0] /\ row_get (RNum U8) r0 (ByName (str "b")) = Ok (XNum U8 1)).
Proof.
  split.
  - do 3 eexists. split; [vm_compute; reflexivity|]. split; [|shelve].
    eapply it_more; [reflexivity|]. eapply it_more; [reflexivity|]. eapply it_end; reflexivity.
  - do 2 eexists. split; [vm_compute; reflexivity|]. split; [|shelve].
    eapply it_more; [reflexivity|]. eapply it_end; reflexivity.
  Unshelve. all: reflexivity.
Qed.
Print Assumptions c67_ragged_refuted.

(** * C68: the rows of a query *)
Section Query.
Variable lz4_compress : bytes -> bytes.
Variable show_float : Z -> bytes.
Variable server : nat -> list cmd -> reply.
Variable fresh : nat -> res client.
Variable opts : copts.
Notation ready := SpecClient.ready.
Notation stream_rows := (stream_rows lz4_compress show_float server fresh opts).
Notation drive_rows := (drive_rows lz4_compress show_float server).
Notation fetch_all := (fetch_all lz4_compress show_float server fresh opts).

(** The rows of blocks, one after another. *)
Definition all_rows (bs : list block) : list row := flat_map (fun b => rows_upto b (count b)) bs.
Definition countable (b : block) : Prop := exists n, row_count b = Ok n.

Lemma rows_of_oks bs : rows_of (map Ok bs) = map Ok (all_rows bs).
Proof. unfold rows_of, all_rows. induction bs as [|b bs IH]; [reflexivity|]. cbn [map flat_map rows_of_item]. rewrite map_app, IH. reflexivity. Qed.
Lemma oks_counted bs : Forall countable bs -> Forall counted (map Ok bs).
Proof. intros H. apply Forall_map. exact H. Qed.

(** Streaming the rows of a query, whenever its messages come: the rows of the blocks after the first,
    in order, and then the end; the handle is ready for the next query. *)
Theorem c68_stream fuel q k c ps F n :
  ready k c -> pings server opts c -> 1 <= fuel -> Forall in_response ps ->
  answers lz4_compress show_float server (checked opts c) (CmdQuery q (k_context k)) (ps ++ [PkEof]) ->
  Forall countable (delivered true ps) ->
  2 * length ps + 8 <= F -> length (all_rows (delivered true ps)) + length ps + 4 <= n ->
  exists s k1, stream_rows fuel q k = (Ok s, k1) /\
  exists s2 k2, drive_rows F n s k1 = (map Ok (all_rows (delivered true ps)), Some WEnd, s2, k2) /\
    ready k2 (said (checked opts c) (CmdQuery q (k_context k))) /\ k_context k2 = k_context k.
Proof.
  intros R Pi Hf Fp A C HF Hn.
  destruct (c31_query lz4_compress show_float (fun _ => None) (fun _ => None) server fresh opts fuel true q k c ps (length ps + 3) R Pi Hf (le_n _) Fp A)
    as (s & k1 & E & s2 & k2 & D & R2 & C2 & _).
  unfold Rows.stream_rows. rewrite E. do 2 eexists. split; [reflexivity|].
  destruct n as [|n]; [lia|]. rewrite drive_rows_S.
  rewrite (drive_flat lz4_compress show_float server (length ps + 3) _ _ _ _ _ _ D (oks_counted _ C)) by (rewrite ?rows_of_oks, ?map_length; lia).
  rewrite rows_of_oks. do 2 eexists. split; [reflexivity|]. auto.
Qed.

(** An exception of the server is the last item, after the rows before it. *)
Theorem c68_exception fuel q k c ps e F n :
  ready k c -> pings server opts c -> 1 <= fuel -> Forall in_response ps ->
  answers lz4_compress show_float server (checked opts c) (CmdQuery q (k_context k)) (ps ++ [PkException e]) ->
  Forall countable (delivered true ps) ->
  2 * length ps + 10 <= F -> length (all_rows (delivered true ps)) + length ps + 6 <= n ->
  exists s k1, stream_rows fuel q k = (Ok s, k1) /\
  exists s2 k2, drive_rows F n s k1 = (map Ok (all_rows (delivered true ps)) ++ [Err (EServer e)], Some WEnd, s2, k2).
Proof.
  intros R Pi Hf Fp A C HF Hn.
  destruct (c31_exception lz4_compress show_float (fun _ => None) (fun _ => None) server fresh opts fuel true q k c ps e (length ps + 4) R Pi Hf (le_n _) Fp A)
    as (s & k1 & E & s2 & k2 & D & _).
  unfold Rows.stream_rows. rewrite E. do 2 eexists. split; [reflexivity|].
  destruct n as [|n]; [lia|]. rewrite drive_rows_S.
  assert (rows_of (map Ok (delivered true ps) ++ [Err (EServer e)]) = map Ok (all_rows (delivered true ps)) ++ [Err (EServer e)]) as RO.
  { unfold rows_of. rewrite flat_map_app. cbn [flat_map rows_of_item app]. f_equal. apply rows_of_oks. }
  rewrite (drive_flat lz4_compress show_float server (length ps + 4) _ _ _ _ _ _ D).
  - rewrite RO. do 2 eexists. reflexivity.
  - apply Forall_app. split; [apply oks_counted, C|]. constructor; [exact I|constructor].
  - lia.
  - lia.
  - rewrite RO, app_length, map_length. cbn [length]. lia.
Qed.

(** Streaming gives the rows that fetching the whole answer gives, for an answer as servers send it: a
    block without rows that says what the columns are, blocks of those columns, and perhaps blocks
    without columns. *)
Theorem c68_same_rows fuel q k c ps bs heads h more ns F n :
  ready k c -> pings server opts c -> 1 <= fuel -> Forall in_response ps ->
  encode_command lz4_compress show_float (CmdQuery q (k_context k)) = Ok bs ->
  server (cn_id (checked opts c)) (cn_log (checked opts c) ++ [CmdQuery q (k_context k)]) = RAnswers (map Ok ps ++ [Ok PkEof]) [] false ->
  blocks_of ps = h :: more -> heads <> [] -> shaped heads 0 h -> Forall2 (shaped heads) ns (with_columns more) ->
  2 * length ps + 8 <= F -> start_of ns (length ns) + length ps + 4 <= n ->
  exists whole k1 rs, fetch_all fuel q k = (Ok whole, k1) /\
    shaped heads (start_of ns (length ns)) whole /\ iterates (block_rows whole) rs /\
  exists s k2 rs' s3 k3, stream_rows fuel q k = (Ok s, k2) /\
    drive_rows F n s k2 = (map Ok rs', Some WEnd, s3, k3) /\ Forall2 same_row rs rs'.
Proof.
  intros R Pi Hf Fp E S Bl NE Sh F2 HF Hn.
  assert (with_columns (blocks_of ps) = h :: with_columns more) as W.
  { rewrite Bl. unfold with_columns. cbn [filter]. destruct Sh as [Sh _]. destruct (b_cols h); [|reflexivity].
    cbn [map] in Sh. congruence. }
  assert (delivered true ps = with_columns more) as DL by (unfold delivered; rewrite Bl; reflexivity).
  destruct (concat_joined heads (0 :: ns) (h :: with_columns more)) as (whole & Wc & J); [discriminate|constructor; assumption|].
  destruct (joined_rows heads (0 :: ns) (h :: with_columns more) whole NE ltac:(constructor; assumption) J) as [It Same].
  cbn [length start_of flat_map] in It, Same. rewrite Nat.add_0_l in It, Same.
  assert (count h = 0) as C0 by (unfold count; rewrite (shaped_count _ _ _ NE Sh); reflexivity).
  rewrite C0 in Same. cbn [rows_upto seq map app] in Same. fold (all_rows (with_columns more)) in Same.
  destruct (c31_fetch_all lz4_compress show_float (fun _ => None) (fun _ => None) server fresh opts fuel q k c ps bs R Pi Hf Fp E S) as (k1 & Fe & _).
  rewrite W, Wc in Fe. exists whole, k1, (rows_upto whole (start_of ns (length ns))). split; [exact Fe|].
  split; [exact (proj1 J)|]. split; [exact It|].
  destruct (c68_stream fuel q k c ps F n R Pi Hf Fp) as (s & k2 & St & s3 & k3 & Dr & _); auto.
  { exists (map Ok ps ++ [Ok PkEof]), [], bs. split; [exact E|]. split; [exact S|]. rewrite app_nil_r, map_app. reflexivity. }
  { rewrite DL. clear - F2 NE. induction F2 as [|m b ms l S _ IH]; constructor; [|exact IH]. exists m. exact (shaped_count _ _ _ NE S). }
  { rewrite DL. assert (length (all_rows (with_columns more)) = start_of ns (length ns)) as ->; [|lia].
    rewrite <- (Forall2_length _ _ _ Same). unfold rows_upto. rewrite map_length, seq_length. reflexivity. }
  exists s, k2, (all_rows (with_columns more)), s3, k3. split; [exact St|]. rewrite DL in Dr. split; [exact Dr|exact Same].
Qed.
End Query.
Print Assumptions c68_stream.
Print Assumptions c68_exception.
Print Assumptions c68_same_rows.

(** The query of [c31_case] has countable blocks and gives four rows, also to a program that fetches
    it whole. *)
Example c68_case :
  Forall countable (delivered true ex_response) /\ length (all_rows (delivered true ex_response)) = 4 /\
  (let sv := ex_server ex_late in
   match stream_rows ex_lz4 ex_show sv ex_fresh ex_opts 5 ex_query ex_client with
   | (Ok s, k1) => let '(l, e, _, _) := drive_rows ex_lz4 ex_show sv 20 20 s k1 in
       map (fun r => do r' <- r; row_get RStr r' (ByPos 0)) l = map (fun s => Ok (XText (str s))) ["x"; "y"; "x"; "y"]%string /\ e = Some WEnd
   | _ => False
   end) /\
  exists h more, blocks_of ex_response = h :: more /\ shaped [(str "a", TString)] 0 h /\
    Forall2 (shaped [(str "a", TString)]) [2; 2] (with_columns more).
Proof.
  split; [repeat constructor; exists 2; reflexivity|]. split; [reflexivity|]. split; [vm_compute; auto|].
  do 2 eexists. split; [reflexivity|]. split; [repeat constructor|]. repeat constructor.
Qed.
