(** Property C81: what a program inserts into a table, it gets back from a query. *)
From Coq Require Import String.
From Verif Require Import Base Bytes Utf8 Reader Wire Types Text TypeNames Decimal DateTime Values Columns Casts Block Compress Packets Client.
From Verif Require Import SpecWire SpecColumns SpecTypes SpecBlock FromSql SpecFromSql ToSql SpecToSql SpecCasts Rows SpecRows SpecTable SpecKeep.
From Verif Require Utf8Proofs.
From Verif Require Import ColumnFromProofs ToSqlProofs RowsConcatProofs KeepProofs KeepValueProofs.
From Verif Require Import SpecClient.
Open Scope list_scope. Open Scope nat_scope.

Section Keep.
Variable lz4_compress : bytes -> bytes.
Variable lz4_decompress : bytes -> N -> option bytes.
Variable show_float : Z -> bytes.
Variable tz_known : bytes -> bool.
Variable tz : bytes.
Variable parse_ipv4 parse_ipv6 : bytes -> option bytes.
Variable server : nat -> list cmd -> reply.
Variable fresh : nat -> res client.
Variable opts : copts.
Notation reads_data := (reads_data lz4_compress lz4_decompress show_float tz_known tz).
Notation keeps_table := (keeps_table lz4_compress lz4_decompress show_float tz_known tz server).
Notation encodes m := (exists bs, encode_command lz4_compress show_float m = Ok bs).
Notation insert_ := (insert_ lz4_compress show_float parse_ipv4 parse_ipv6 server fresh opts).
Notation fetch_all := (fetch_all lz4_compress show_float server fresh opts).
Notation converts b heads b' := (forall h, map head (b_cols h) = heads -> block_cast parse_ipv4 parse_ipv6 b h = Ok b').

(** C81, cells. A program inserts a block into a table and asks for the table, on a connection on which
    other blocks, [qs0], have been inserted before. Both succeed, the connection is ready for more, and
    every column of the answer has the name and the type of the table's column and the old cells followed by
    the new ones, converted to that type. *)
Theorem c81_cells : forall fuel fuel' ins sel b k c plans m b' o heads qs0 ns0,
  ready k c -> 1 <= fuel -> 1 <= fuel' -> cx_options (k_context k) = Ok o ->
  keeps_table (k_context k) (o_compression o) ins sel heads ->
  encodes (CmdQuery ins (k_context k)) -> encodes (CmdQuery sel (k_context k)) ->
  Forall2 (reads_data (o_compression o)) (filter sends_data (cn_log c)) qs0 -> Forall2 (shaped heads) ns0 qs0 ->
  heads = map (fun x => (fst (pl_column x), pl_type x)) plans -> b_cols b = map pl_column plans ->
  Forall (insertable tz_known tz parse_ipv4 parse_ipv6 m) plans -> plans <> [] -> 0 < m ->
  (N.of_nat m < 2 ^ 64)%N -> (lenN plans < 2 ^ 64)%N ->
  converts b heads b' -> Forall (fun x => fits (snd x)) (b_cols b') ->
  (m <= insert_block_size \/ Forall (fun x => flat (snd x) = true) (b_cols b')) ->
  (o_compression o = true -> forall p plain, In p [block_default] \/ (exists ps, block_chunks insert_block_size b' = Ok ps /\ In p ps) ->
     write_block p = Ok plain -> lz4_carries lz4_compress lz4_decompress plain) ->
  exists k2 all k3 c3 n, insert_ fuel ins b k = (Ok tt, k2) /\ fetch_all fuel' sel k2 = (Ok all, k3) /\
    ready k3 c3 /\ cn_id c3 = cn_id c /\ k_context k3 = k_context k /\ shaped heads n all /\
    forall j x old, nth_error plans j = Some x -> column_cells qs0 j old ->
      exists d, nth_error (b_cols all) j = Some (fst (pl_column x), d) /\ ctype d = pl_type x /\ holds d (old ++ pl_wanted x).
Proof.
  intros fuel fuel' ins sel b k c plans m b' o heads qs0 ns0 R Hf Hf' O K Ei Es RD Sh EH EB HI NE Hm BM BP EC FT FL LZ.
  exact (kept_cells lz4_compress lz4_decompress show_float tz_known tz parse_ipv4 parse_ipv6 server fresh opts fuel fuel' ins sel b k c plans m b' o heads
    qs0 ns0 R Hf Hf' O K Ei Es RD Sh EH EB HI NE Hm BM BP EC FT FL LZ).
Qed.

(** C81. A program makes a block of rows of Rust values, inserts it into a table whose columns have their
    types and asks for the table. The answer has the rows that were there, [n0] of them, and then the
    new ones: reading a field of row [n0 + i] as its Rust type gives the value in row [i], with
    times in the server's zone and without fractions of seconds. *)
Theorem c81_values : forall fs rows heads,
  fs <> [] -> rows <> [] -> NoDup (map fst fs) -> (total rows < 2 ^ 64)%N ->
  Forall (Forall2 (fun f x => typed (snd f) x /\ room (snd f) x) fs) rows ->
  (forall r r', In r rows -> In r' rows -> Forall2 one_kind r r') ->
  Forall (table_for heads fs) rows -> Forall named heads -> Forall (Forall short) rows ->
  (80 * lenN rows <= isize_max)%N -> (lenN fs < 2 ^ 64)%N ->
  exists vrows b, mapM (row_fields fs) rows = Ok vrows /\ push_rows vrows block_default = Ok b /\
  (Forall (fun x => fits (snd x)) (b_cols b) -> exists b', converts b heads b' /\
  (Forall (fun x => fits (snd x)) (b_cols b') ->
   (List.length rows <= insert_block_size \/ Forall (fun x => flat (snd x) = true) (b_cols b')) ->
   forall fuel fuel' ins sel k c o qs0 ns0 n0,
   ready k c -> 1 <= fuel -> 1 <= fuel' -> cx_options (k_context k) = Ok o ->
   keeps_table (k_context k) (o_compression o) ins sel heads ->
   encodes (CmdQuery ins (k_context k)) -> encodes (CmdQuery sel (k_context k)) ->
   Forall2 (reads_data (o_compression o)) (filter sends_data (cn_log c)) qs0 -> Forall2 (shaped heads) ns0 qs0 ->
   (forall j, j < List.length heads -> exists old, column_cells qs0 j old /\ List.length old = n0) ->
   (o_compression o = true -> forall p plain, In p [block_default] \/ (exists ps, block_chunks insert_block_size b' = Ok ps /\ In p ps) ->
      write_block p = Ok plain -> lz4_carries lz4_compress lz4_decompress plain) ->
   exists k2 all k3 c3, insert_ fuel ins b k = (Ok tt, k2) /\ fetch_all fuel' sel k2 = (Ok all, k3) /\
     ready k3 c3 /\ cn_id c3 = cn_id c /\ k_context k3 = k_context k /\
     map head (b_cols all) = heads /\ row_count all = Ok (n0 + List.length rows) /\
     (forall i row j name w x, nth_error rows i = Some row -> nth_error fs j = Some (name, w) -> nth_error row j = Some x ->
        get (rust w) all (n0 + i) (ByPos j) = Ok (moved tz (kept w x)) /\
        get (rust w) all (n0 + i) (ByName name) = Ok (moved tz (kept w x))) /\
     forall j old i v, j < List.length heads -> column_cells qs0 j old -> nth_error old i = Some v -> get_cell all i (ByPos j) = Ok v)).
Proof.
  intros fs rows heads NF NR D B F K TF NM SH SZ BF.
  destruct (rows_made fs rows NR D B F K) as (vrows & b & E1 & E2 & row0 & I0 & C).
  exists vrows, b. split; [exact E1|]. split; [exact E2|]. intros FT.
  assert (table_for heads fs row0) as T0 by exact (proj1 (Forall_forall _ _) TF row0 I0).
  assert (forall row, In row rows -> List.length fs = List.length row) as LR.
  { intros row Ir. pose proof (proj1 (Forall_forall _ _) F row Ir) as H. exact (Forall2_length' _ _ _ H). }
  destruct (all_plans tz_known tz parse_ipv4 parse_ipv6 rows B SZ 0 fs row0 (b_cols b) C heads T0 NM FT) as (plans & P1 & P2 & P3 & (ds & P4) & P5).
  { intros row n nm w Ir Hn. pose proof (LR row Ir) as L. cbn [Nat.add].
    destruct (same_index fs row n (nm, w) L Hn) as [x Hx]. exists x. split; [exact Hx|].
    pose proof (proj1 (Forall_forall _ _) F row Ir) as H. destruct (Forall2_at _ _ _ H n (nm, w) x Hn Hx) as [H1 H2]. cbn [snd] in *.
    split; [exact H1|]. split; [exact H2|]. split.
    - pose proof (proj1 (Forall_forall _ _) SH row Ir) as S. exact (proj1 (Forall_forall _ _) S x (nth_error_In _ _ Hx)).
    - pose proof (proj1 (Forall_forall _ _) TF row Ir) as T. unfold table_for in T.
      assert (nth_error (combine fs row) n = Some ((nm, w), x)) as Hc by (apply nth_combine; assumption).
      destruct (Forall2_at' _ _ _ T n _ Hc) as (h & _ & _ & Hh). cbn [fst snd] in Hh. congruence. }
  assert (List.length fs = List.length heads) as LH.
  { unfold table_for in T0. pose proof (Forall2_length' _ _ _ T0) as L. rewrite combine_length, <- (LR row0 I0), Nat.min_id in L. congruence. }
  exists (mk_block (b_info b) ds). split.
  { intros h Hh. unfold block_cast.
    assert (List.length (b_cols h) = List.length (b_cols b)) as L1.
    { rewrite P1, map_length. apply (f_equal (@List.length _)) in Hh. rewrite map_length in Hh. rewrite Hh, P2, map_length. reflexivity. }
    rewrite L1, Nat.eqb_refl. cbn [negb]. rewrite (P4 (b_cols h)); [reflexivity|]. rewrite <- Hh, map_map. reflexivity. }
  intros FT' FL fuel fuel' ins sel k c o qs0 ns0 n0 R Hf Hf' O Kt Ei Es RD Sh Old LZ.
  assert (lenN plans = lenN fs) as LP by (unfold lenN; rewrite LH, P2, map_length; reflexivity).
  assert (plans <> []) as NP by (intros ->; destruct fs; [congruence|discriminate LP]).
  destruct (c81_cells fuel fuel' ins sel b k c plans (List.length rows) (mk_block (b_info b) ds) o heads qs0 ns0) as (k2 & all & k3 & c3 & n & A1 & A2 & A3 & A4 & A5 & A6 & A7); auto.
  { destruct rows; [congruence|cbn; lia]. }
  { unfold lenN in SZ. unfold isize_max in SZ. lia. }
  { rewrite LP. exact BF. }
  { intros h Hh. unfold block_cast.
    assert (List.length (b_cols h) = List.length (b_cols b)) as L1.
    { rewrite P1, map_length. apply (f_equal (@List.length _)) in Hh. rewrite map_length in Hh. rewrite Hh, P2, map_length. reflexivity. }
    rewrite L1, Nat.eqb_refl. cbn [negb]. rewrite (P4 (b_cols h)); [reflexivity|]. rewrite <- Hh, map_map. reflexivity. }
  assert (forall j, j < List.length heads -> exists x, nth_error plans j = Some x) as HP.
  { intros j Hj. destruct (nth_error plans j) eqn:E; [eauto|]. apply nth_error_None in E. rewrite P2, map_length in Hj. lia. }
  assert (forall x, In x plans -> List.length (pl_wanted x) = List.length rows) as LW.
  { intros x Ix. destruct (proj1 (Forall_forall _ _) P3 x Ix) as (_ & _ & _ & _ & (_ & _ & _ & Cv & _) & Lc).
    rewrite (PushProofs.mapO_length _ _ _ Cv). exact Lc. }
  assert (heads <> []) as NH by (intros ->; destruct fs; [congruence|discriminate LH]).
  assert (n = n0 + List.length rows) as ->.
  { assert (0 < List.length heads) as L0 by (destruct heads; [congruence|cbn; lia]).
    destruct (HP 0 L0) as [x Hx]. destruct (Old 0 L0) as (old & Co & Lo). destruct (A7 0 x old Hx Co) as (d & D1 & D2 & D3).
    destruct A6 as [_ A6]. pose proof (proj1 (Forall_forall _ _) A6 _ (nth_error_In _ _ D1)) as Q. cbn [snd] in Q. destruct D3 as [D3 _].
    rewrite Q, app_length, Lo, (LW x (nth_error_In _ _ Hx)) in D3. congruence. }
  exists k2, all, k3, c3. split; [exact A1|]. split; [exact A2|]. split; [exact A3|]. split; [exact A4|]. split; [exact A5|].
  split; [exact (proj1 A6)|]. split; [exact (shaped_count heads _ _ NH A6)|]. split.
  - intros i row j nm w x Hi Hj Hx. assert (j < List.length heads) as Lj by (rewrite <- LH; apply nth_error_Some; congruence).
    destruct (HP j Lj) as [pl Hp]. destruct (P5 j pl nm w Hp Hj) as [Q1 Q2]. destruct (Q2 i row x Hi Hx) as (u & U1 & U2).
    destruct (Old j Lj) as (old & Co & Lo). destruct (A7 j pl old Hp Co) as (d & D1 & D2 & D3 & D4). rewrite Q1 in D1.
    assert (at_ d (n0 + i) = Ok u) as AT by (apply D4; rewrite nth_error_app2 by lia; rewrite <- U1; f_equal; lia).
    assert (map fst (b_cols all) = map fst fs) as NN.
    { transitivity (map fst heads); [rewrite <- (proj1 A6), map_map; reflexivity|].
      exact (table_names _ _ _ T0 (LR row0 I0)). }
    destruct (named_column all j nm d) as [G1 G2]; [rewrite NN; exact D|exact D1|].
    unfold get, get_cell. rewrite G1, G2. cbn [rbind snd]. rewrite AT. split; exact U2.
  - intros j old i v Lj Co Hv. destruct (HP j Lj) as [pl Hp]. destruct (A7 j pl old Hp Co) as (d & D1 & _ & D3 & D4).
    unfold get_cell, get_column, get_index. cbn [rbind]. unfold index, or_panic. rewrite D1. cbn [rbind snd]. apply D4.
    rewrite nth_error_app1 by (apply nth_error_Some; congruence). exact Hv.
Qed.
End Keep.
Print Assumptions c81_cells.
Print Assumptions c81_values.

(** * Such servers exist *)
Section Server.
Variable lz4_compress : bytes -> bytes.
Variable lz4_decompress : bytes -> N -> option bytes.
Variable show_float : Z -> bytes.
Variable tz_known : bytes -> bool.
Variable tz : bytes.

(** A server that decodes the blocks it is sent, keeps them in memory and sends them back one by one. *)
Definition decoded (compress : bool) (m : cmd) : list block :=
  match encode_command lz4_compress show_float m with
  | Ok bs =>
      match run (let! b := data_message lz4_decompress tz_known tz compress in
                 let! e := data_message lz4_decompress tz_known tz compress in Ret (b, e)) bs with
      | Ok ((b, _), _) => [b]
      | _ => []
      end
  | _ => []
  end.
Definition table_server (compress : bool) (ins : query) (h : block) (_ : nat) (log : list cmd) : reply :=
  match rev log with
  | CmdPing :: _ => RAnswers [Ok PkPong] [] false
  | CmdQuery q _ :: before =>
      if bytes_eqb (q_sql q) (q_sql ins) then RAnswers [Ok (PkTableColumns [] []); Ok (PkBlock h)] [] false
      else RAnswers (map Ok (map PkBlock (h :: flat_map (decoded compress) (filter sends_data (rev before)))) ++ [Ok PkEof]) [] false
  | CmdUnion _ _ :: _ => RAnswers [Ok PkEof] [] false
  | _ => RFails
  end.

Lemma decoded_all compress ms bs : Forall2 (reads_data lz4_compress lz4_decompress show_float tz_known tz compress) ms bs ->
  flat_map (decoded compress) ms = bs.
Proof.
  induction 1 as [|m b ms bs (s & E & R) _ IH]; [reflexivity|]. cbn [flat_map]. rewrite IH. unfold decoded. rewrite E, R. reflexivity.
Qed.

Theorem c81_server : forall compress cx ins sel heads h, heads <> [] -> shaped heads 0 h -> q_sql sel <> q_sql ins ->
  keeps_table lz4_compress lz4_decompress show_float tz_known tz (table_server compress ins h) cx compress ins sel heads.
Proof.
  intros compress cx ins sel heads h NE SH NQ. constructor.
  - intros id log. unfold table_server. rewrite rev_app_distr. reflexivity.
  - intros id log. exists [PkTableColumns [] []], h. split; [repeat constructor|]. split; [exact (proj1 SH)|].
    unfold table_server. rewrite rev_app_distr. cbn [rev app]. unfold bytes_eqb. destruct (bytes_eq_dec (q_sql ins) (q_sql ins)); [reflexivity|congruence].
  - intros id log p b n _ _. exists []. split; [constructor|]. unfold table_server. rewrite rev_app_distr. reflexivity.
  - intros id log bs ns RD Sh. exists (map PkBlock (h :: bs)). split.
    + split; [apply Forall_forall; intros p I; apply in_map_iff in I; destruct I as (b & <- & _); exact Logic.I|].
      assert (forall l, blocks_of (map PkBlock l) = l) as BO by (induction l as [|x l IH]; [reflexivity|]; unfold blocks_of in *; cbn [map flat_map]; rewrite IH; reflexivity).
      exists h, bs, ns. rewrite BO. split; [reflexivity|]. split; [exact SH|].
      assert (with_columns bs = bs) as W.
      { clear - Sh NE. induction Sh as [|n b ns bs [S _] _ IH]; [reflexivity|]. unfold with_columns in *. cbn [filter].
        destruct (b_cols b) eqn:E; [cbn in S; congruence|]. rewrite IH. reflexivity. }
      rewrite W. split; [exact Sh|]. auto.
    + unfold table_server. rewrite rev_app_distr. cbn [rev app]. unfold bytes_eqb. destruct (bytes_eq_dec (q_sql sel) (q_sql ins)); [congruence|].
      rewrite rev_involutive, (decoded_all compress _ bs RD). reflexivity.
Qed.
End Server.
Print Assumptions c81_server.

(** Two rows of a number, an optional word, a time and numbers go into a table and come back,
    the times in the zone of the server. *)
Definition case_fields : list (bytes * wtype) :=
  [(str "n", WHas (HNum U32)); (str "w", WOption HText); (str "t", WHas HTime); (str "a", WNums I16)].
Definition case_rows : list (list rval) :=
  [[XNum U32 7; XOption (Some (XText (str "red"))); XTime 1600000000 5 (str "UTC"); XVec [XNum I16 1; XNum I16 (-1)]];
   [XNum U32 8; XOption None; XTime 0 0 (str "UTC"); XVec []]].
Definition case_heads : list (bytes * sqltype) :=
  [(str "n", TNum U32); (str "w", TNullable TString); (str "t", TDateTime DateTime32); (str "a", TArray (TNum I16))].
Definition case_header : block :=
  mk_block info_default [(str "n", CVec U32 []); (str "w", CNullable (CString []) []); (str "t", CDateTime [] (str "MSK")); (str "a", CArray (CVec I16 []) [])].
Definition case_ins : query := mk_query (str "INSERT INTO t (n, w, t, a) VALUES") [].
Definition case_sel : query := mk_query (str "SELECT n, w, t, a FROM t") [].
Definition case_context : context := mk_context 54428 (str "h") (Ok (mk_moptions (str "d") (str "u") (str "p") false [])).
Definition case_client : client := mk_client (Some (mk_conn 7 [] [] false [] [CmdHello case_context] false)) case_context BAttached 0.
Definition any_zone (_ : bytes) : bool := true.
Definition same_bytes (s : bytes) : bytes := s.
Definition unpacked (s : bytes) (_ : N) : option bytes := Some s.
Definition no_float (_ : Z) : bytes := [].
Definition no_address (_ : bytes) : option bytes := None.
Definition case_server := table_server same_bytes unpacked no_float any_zone (str "MSK") false case_ins case_header.

(** The fields of the two rows that the query gives. *)
Definition case_result : option (list (list (res rval))) :=
  match mapM (row_fields case_fields) case_rows with
  | Ok vrows =>
      match push_rows vrows block_default with
      | Ok b =>
          match insert_ same_bytes no_float no_address no_address case_server (fun _ => Err EIo) (mk_copts true 3) 5 case_ins b case_client with
          | (Ok _, k2) =>
              match fetch_all same_bytes no_float case_server (fun _ => Err EIo) (mk_copts true 3) 5 case_sel k2 with
              | (Ok all, _) => Some (map (fun i => map (fun f => get (rust (snd f)) all i (ByName (fst f))) case_fields) [0; 1])
              | _ => None
              end
          | _ => None
          end
      | _ => None
      end
  | _ => None
  end.

Example c81_case :
  NoDup (map fst case_fields) /\ (total case_rows < 2 ^ 64)%N /\
  Forall (Forall2 (fun f x => typed (snd f) x /\ room (snd f) x) case_fields) case_rows /\
  (forall r r', In r case_rows -> In r' case_rows -> Forall2 one_kind r r') /\
  Forall (table_for case_heads case_fields) case_rows /\ Forall named case_heads /\ Forall (Forall short) case_rows /\
  shaped case_heads 0 case_header /\ ready case_client (mk_conn 7 [] [] false [] [CmdHello case_context] false) /\
  case_result = Some
      [[Ok (XNum U32 7); Ok (XOption (Some (XText (str "red")))); Ok (XTime 1600000000 0 (str "MSK")); Ok (XVec [XNum I16 1; XNum I16 (-1)])];
       [Ok (XNum U32 8); Ok (XOption None); Ok (XTime 0 0 (str "MSK")); Ok (XVec [])]].
Proof.
  split; [repeat constructor; cbn; intuition discriminate|]. split; [vm_compute; reflexivity|]. split.
  { repeat constructor; cbn; try lia; try discriminate; try reflexivity. }
  split; [intros r r' [<-|[<-|[]]] [<-|[<-|[]]]; repeat constructor|]. split; [repeat constructor|].
  split. { assert (forall h, utf8_valid (fst h) && utf8_valid (type_name (snd h)) && (lenN (fst h) <=? isize_max)%N && (lenN (type_name (snd h)) <=? isize_max)%N = true -> named h) as N.
    { intros h H. apply andb_true_iff in H. destruct H as [H H4]. apply andb_true_iff in H. destruct H as [H H3]. apply andb_true_iff in H. destruct H as [H1 H2].
      apply N.leb_le in H3, H4. unfold named. rewrite <- !Utf8Proofs.utf8_valid_spec. tauto. }
    apply Forall_forall. intros h Ih. apply N. revert h Ih. apply Forall_forall. repeat (apply Forall_cons; [vm_compute; reflexivity|]). apply Forall_nil. }
  split. { repeat constructor. }
  split; [split; [reflexivity|repeat constructor]|]. split; [repeat split|].
  vm_compute. reflexivity.
Qed.
