(** Proofs about a client whose server keeps a table. *)
From Verif Require Import Base Bytes Utf8 Reader Wire Types Text TypeNames Values Columns Casts Block Compress Packets Client.
From Verif Require Import SpecWire SpecColumns SpecTypes SpecBlock SpecCompress SpecClient Rows SpecRows SpecCasts SpecTable.
From Verif Require StringPoolProofs.
From Verif Require Import ReaderProofs WireProofs CompressProofs BlockProofs CastProofs CastBlockProofs RowsProofs RowsConcatProofs PropCompress ClientProofs PropConcat PropClient CastSendProofs.
Import SpecClient.
Open Scope list_scope. Open Scope nat_scope.

Section Keep.
Variable lz4_compress : bytes -> bytes.
Variable lz4_decompress : bytes -> N -> option bytes.
Variable show_float : Z -> bytes.
Variable tz_known : bytes -> bool.
Variable tz : bytes.
Notation data_message := (data_message lz4_decompress tz_known tz).
Notation reads_data := (reads_data lz4_compress lz4_decompress show_float tz_known tz).
Notation lz4_carries := (lz4_carries lz4_compress lz4_decompress).

Lemma written_not_nil b plain : write_block b = Ok plain -> plain <> [].
Proof.
  intros W. unfold write_block in W. destruct (write_info (b_info b)) as [i| |] eqn:E; try discriminate W.
  unfold write_info in E. vm_compute (enc_uvarint 1) in E. cbn [rbind] in E.
  destruct (enc_uvarint 2); try discriminate E. cbn [rbind] in E.
  destruct (enc_uvarint 0); try discriminate E. cbn [rbind] in E. injection E as <-.
  cbn [rbind] in W. destruct (enc_uvarint (lenN (b_cols b))); try discriminate W. cbn [rbind] in W.
  destruct (row_count b); try discriminate W. cbn [rbind] in W.
  destruct (enc_uvarint (N.of_nat _)); try discriminate W. cbn [rbind] in W.
  destruct (mapM write_column (b_cols b)); try discriminate W. cbn [rbind] in W.
  injection W as <-. discriminate.
Qed.

Lemma loads_as b q plain compress : write_block b = Ok plain ->
  (forall r, run (raw_load tz_known tz) (plain ++ r) = Ok (q, r)) -> (compress = true -> lz4_carries plain) ->
  exists bs, write_block_as lz4_compress compress b = Ok bs /\
    forall r, run (load_block lz4_decompress tz_known tz compress) (bs ++ r) = Ok (q, r).
Proof.
  intros W R Z. unfold write_block_as, load_block. destruct compress; [|exists plain; split; [exact W|exact R]].
  destruct (Z eq_refl) as (B & D & Lc & Lp). rewrite W. cbn [rbind]. eexists. split; [reflexivity|]. intros r.
  pose proof (frame_written lz4_decompress lz4_compress plain B Lc Lp D) as C.
  destruct (c09_transparent lz4_compress lz4_decompress _ (raw_load tz_known tz) [plain] [compress_frame lz4_compress plain] r q [])
    as (i & u & H & _ & I).
  - constructor; [exact C|constructor].
  - constructor; [exact (written_not_nil _ _ W)|constructor].
  - cbn [concat]. rewrite app_nil_r. lia.
  - cbn [concat]. rewrite app_nil_r. specialize (R []). rewrite app_nil_r in R. exact R.
  - rewrite (I eq_refl) in H. cbn [concat] in H. rewrite app_nil_r in H. exact H.
Qed.

Lemma message_read b q plain compress : write_block b = Ok plain ->
  (forall r, run (raw_load tz_known tz) (plain ++ r) = Ok (q, r)) -> (compress = true -> lz4_carries plain) ->
  exists bs, send_data lz4_compress compress b = Ok bs /\ forall r, run (data_message compress) (bs ++ r) = Ok (q, r).
Proof.
  intros W R Z. destruct (loads_as b q plain compress W R Z) as (d & E & L).
  destruct (enc_uvarint_ok 2) as (n2 & E2 & _ & _ & _ & _ & R2 & _); [lia|].
  destruct (enc_string_read []) as (e0 & E0 & R0); [vm_compute; discriminate|].
  unfold send_data. rewrite E2. cbn [rbind]. rewrite E0. cbn [rbind]. rewrite E. cbn [rbind].
  eexists. split; [reflexivity|]. intros r. unfold SpecTable.data_message. rewrite <- !app_assoc.
  rewrite run_bind, R2. cbn beta iota. rewrite run_bind. destruct (R0 (d ++ r)) as (_ & _ & R1). rewrite R1. apply L.
Qed.

Lemma empty_written : exists plain, write_block block_default = Ok plain /\ forall r, run (raw_load tz_known tz) (plain ++ r) = Ok (block_default, r).
Proof.
  apply (block_passes tz_known tz 0 block_default []); cbn; try lia; try reflexivity. constructor.
Qed.

Lemma data_read cx o p q plain : cx_options cx = Ok o -> write_block p = Ok plain ->
  (forall r, run (raw_load tz_known tz) (plain ++ r) = Ok (q, r)) ->
  (o_compression o = true -> forall x, write_block p = Ok x \/ write_block block_default = Ok x -> lz4_carries x) ->
  reads_data (o_compression o) (CmdUnion (CmdData p cx) (CmdData block_default cx)) q.
Proof.
  intros O W R Z. destruct empty_written as (pe & We & Re).
  destruct (message_read p q plain (o_compression o) W R) as (b1 & E1 & R1); [intros H; apply (Z H); auto|].
  destruct (message_read block_default block_default pe (o_compression o) We Re) as (b2 & E2 & R2); [intros H; apply (Z H); auto|].
  exists (b1 ++ b2). cbn [encode_command]. unfold encode_data. rewrite O. cbn [rbind]. rewrite E1, E2. split; [reflexivity|].
  rewrite run_bind, R1, run_bind. specialize (R2 []). rewrite app_nil_r in R2. rewrite R2. reflexivity.
Qed.
End Keep.

Lemma concat_at {A} (parts : list (list A)) ns : Forall2 (fun n p => length p = n) ns parts -> forall i v, nth_error (concat parts) i = Some v ->
  exists k n part i', nth_error ns k = Some n /\ nth_error parts k = Some part /\ i' < n /\ nth_error part i' = Some v /\ i = start_of ns k + i'.
Proof.
  induction 1 as [|n p ns parts L _ IH]; intros i v H; [destruct i; discriminate H|]. cbn [concat] in H.
  destruct (Nat.lt_ge_cases i (length p)) as [B|B].
  - rewrite nth_error_app1 in H by exact B. exists 0, n, p, i. cbn [nth_error start_of]. repeat split; auto; lia.
  - rewrite nth_error_app2 in H by exact B. destruct (IH _ _ H) as (k & m & part & i' & A1 & A2 & A3 & A4 & A5).
    exists (S k), m, part, i'. cbn [nth_error start_of]. repeat split; auto; lia.
Qed.
Lemma concat_length {A} (parts : list (list A)) ns : Forall2 (fun n p => length p = n) ns parts -> length (concat parts) = start_of ns (length ns).
Proof. induction 1 as [|n p ns parts L _ IH]; [reflexivity|]. cbn [concat length start_of]. rewrite app_length. lia. Qed.

Lemma joined_cells heads ns bs B j nm t vs : Forall2 (shaped heads) ns bs -> joined heads ns bs B -> nth_error heads j = Some (nm, t) ->
  column_cells bs j vs -> exists d, nth_error (b_cols B) j = Some (nm, d) /\ ctype d = t /\ holds d vs.
Proof.
  intros F [Sh J] Hj (parts & <- & P). destruct (shaped_nth _ _ _ _ _ _ Sh Hj) as (d & D1 & D2 & D3).
  exists d. split; [exact D1|]. split; [exact D2|].
  assert (Forall2 (fun n p => length p = n) ns parts) as L.
  { clear - F P Hj. revert parts P. induction F as [|n b ns bs S F IH]; intros parts P; inversion P as [|? part ? parts' (n' & c & C1 & C2) P']; subst; constructor; auto.
    destruct (shaped_nth _ _ _ _ _ _ S Hj) as (c' & C3 & _ & C4). rewrite C1 in C3. injection C3 as -> ->.
    destruct C2 as [C2 _]. congruence. }
  split; [rewrite (concat_length _ _ L); exact D3|].
  intros i v Hi. destruct (concat_at _ _ L i v Hi) as (k & n & part & i' & A1 & A2 & A3 & A4 & ->).
  destruct (nth_error bs k) as [b|] eqn:Eb.
  - assert (exists n' c, nth_error (b_cols b) j = Some (n', c) /\ holds c part) as (n' & c & C1 & C2).
    { clear - P Eb A2. revert k Eb A2. induction P as [|b0 p0 bs parts H _ IH]; intros [|k] E1 E2; try discriminate E1; cbn [nth_error] in *; [|eauto].
      injection E1 as ->. injection E2 as ->. exact H. }
    pose proof (J k b n i' Eb A1 A3 j _ _ D1 C1) as E. cbn [snd] in E. rewrite E. apply C2, A4.
  - exfalso. apply nth_error_None in Eb. assert (k < length parts) by (apply nth_error_Some; congruence).
    clear - P Eb H. apply F2_length in P. lia.
Qed.

Lemma cells_app bs1 bs2 j vs1 vs2 : column_cells bs1 j vs1 -> column_cells bs2 j vs2 -> column_cells (bs1 ++ bs2) j (vs1 ++ vs2).
Proof.
  intros (p1 & <- & F1) (p2 & <- & F2). exists (p1 ++ p2). split; [apply concat_app|]. apply Forall2_app; assumption.
Qed.
Lemma headless heads h : heads <> [] -> map head (b_cols h) = heads -> b_cols h <> [].
Proof. intros H E Z. rewrite Z in E. cbn in E. congruence. Qed.

Lemma insert_data cx q pieces : filter sends_data (insert_commands cx q pieces) =
  map (fun p => CmdUnion (CmdData p cx) (CmdData block_default cx)) pieces.
Proof. induction pieces as [|p l IH]; [reflexivity|]. cbn [insert_commands flat_map app filter sends_data map]. f_equal. exact IH. Qed.

(** ** An insert and then a query *)
Section Insert.
Variable lz4_compress : bytes -> bytes.
Variable lz4_decompress : bytes -> N -> option bytes.
Variable show_float : Z -> bytes.
Variable tz_known : bytes -> bool.
Variable tz : bytes.
Variable parse_ipv4 parse_ipv6 : bytes -> option bytes.
Variable server : nat -> list cmd -> reply.
Variable fresh : nat -> res client.
Variable opts : copts.
Notation reads_data := (reads_data lz4_compress lz4_decompress show_float tz_known tz).
Notation lz4_carries := (lz4_carries lz4_compress lz4_decompress).
Notation keeps_table := (keeps_table lz4_compress lz4_decompress show_float tz_known tz server).
Notation encodes m := (exists bs, encode_command lz4_compress show_float m = Ok bs).

Lemma inserted fuel ins sel b k c plans m b' o heads :
  ready k c -> 1 <= fuel -> cx_options (k_context k) = Ok o ->
  keeps_table (k_context k) (o_compression o) ins sel heads -> encodes (CmdQuery ins (k_context k)) ->
  heads = map (fun x => (fst (pl_column x), pl_type x)) plans -> b_cols b = map pl_column plans ->
  Forall (insertable tz_known tz parse_ipv4 parse_ipv6 m) plans -> plans <> [] -> 0 < m ->
  (N.of_nat m < 2 ^ 64)%N -> (lenN plans < 2 ^ 64)%N ->
  (forall h, map head (b_cols h) = heads -> block_cast parse_ipv4 parse_ipv6 b h = Ok b') ->
  Forall (fun x => fits (snd x)) (b_cols b') ->
  (m <= insert_block_size \/ Forall (fun x => flat (snd x) = true) (b_cols b')) ->
  (o_compression o = true -> forall p plain, In p [block_default] \/ (exists ps, block_chunks insert_block_size b' = Ok ps /\ In p ps) ->
     write_block p = Ok plain -> lz4_carries plain) ->
  exists k2 c2 pieces qs ns, insert_ lz4_compress show_float parse_ipv4 parse_ipv6 server fresh opts fuel ins b k = (Ok tt, k2) /\
    ready k2 c2 /\ cn_id c2 = cn_id c /\ k_context k2 = k_context k /\
    cn_log c2 = cn_log (checked opts c) ++ insert_commands (k_context k) ins pieces /\
    Forall2 (fun p q => reads_data (o_compression o) (CmdUnion (CmdData p (k_context k)) (CmdData block_default (k_context k))) q) pieces qs /\
    Forall2 (shaped heads) ns qs /\
    forall j x, nth_error plans j = Some x -> column_cells qs j (pl_wanted x).
Proof.
  intros R Hf O K (bi & Ei) EH EB HI NE Hm BM BP EC FT FL LZ.
  destruct (kt_describe _ _ _ _ _ _ _ _ _ _ _ K (cn_id (checked opts c)) (cn_log (checked opts c))) as (_ & h & _ & Hh & _).
  assert (exists ps0 h0, Forall describes_columns ps0 /\ map head (b_cols h0) = heads /\
    server (cn_id (checked opts c)) (cn_log (checked opts c) ++ [CmdQuery ins (k_context k)]) = RAnswers (map Ok ps0 ++ [Ok (PkBlock h0)]) [] false) as (ps0 & h0 & D1 & D2 & D3)
    by exact (kt_describe _ _ _ _ _ _ _ _ _ _ _ K _ _).
  clear h Hh. pose proof (EC h0 D2) as EC0.
  assert (Hs : 0 < insert_block_size) by (unfold insert_block_size; lia).
  destruct (insert_pieces tz_known tz parse_ipv4 parse_ipv6 insert_block_size m b h0 plans b') as (pieces & qs & A1 & A2 & A3 & A4); auto.
  { transitivity (map snd (map head (b_cols h0))); [rewrite map_map; reflexivity|]. rewrite D2, EH, map_map. reflexivity. }
  assert (exists ns, Forall2 (shaped heads) ns qs) as (ns & Sh).
  { clear - A3 A4 EH. 
    assert (Forall (fun q => map head (b_cols q) = heads) qs) as Q.
    { apply Forall_forall. intros q I. destruct (proj1 (Forall_forall _ _) A3 q I) as [L _]. apply In_nth_error in I. destruct I as [i Hi].
      subst heads. clear A3. apply StringPoolProofs.nth_error_ext. intros j. rewrite !nth_error_map.
      destruct (nth_error plans j) as [x|] eqn:Ej.
      - destruct (A4 j x Ej) as (parts & _ & P). assert (exists d, nth_error (b_cols q) j = Some (fst (pl_column x), d) /\ ctype d = pl_type x) as (d & E1 & E2).
        { clear - P Hi. revert i Hi. induction P as [|q0 p0 qs parts (d & H1 & H2 & _) _ IH]; intros [|i] Hi; try discriminate Hi; cbn [nth_error] in Hi; [|eauto].
          injection Hi as ->. eauto. }
        rewrite E1. cbn [option_map]. unfold head. cbn [fst snd]. rewrite E2. reflexivity.
      - apply nth_error_None in Ej. rewrite <- L in Ej. apply nth_error_None in Ej. rewrite Ej. reflexivity. }
    clear A4 EH. induction qs as [|q qs IH]; [exists []; constructor|]. apply Forall_cons_iff in A3. destruct A3 as [[_ [n H]] A3].
    apply Forall_cons_iff in Q. destruct Q as [Q1 Q2]. destruct (IH A3 Q2) as [ns IH']. exists (n :: ns). constructor; [split; assumption|exact IH']. }
  assert (Forall2 (fun p q => reads_data (o_compression o) (CmdUnion (CmdData p (k_context k)) (CmdData block_default (k_context k))) q) pieces qs) as RD.
  { assert (forall p, In p pieces -> o_compression o = true -> forall x, write_block p = Ok x \/ write_block block_default = Ok x -> lz4_carries x) as LZ'.
    { intros p I H x [Wx|Wx]; [apply (LZ H p); [right; eauto|exact Wx]|apply (LZ H block_default); [left; left; reflexivity|exact Wx]]. }
    clear - A2 O LZ'. induction A2 as [|p q pieces qs (bs & W1 & W2) _ IH]; constructor.
    - eapply data_read; eauto. apply LZ'. left. reflexivity.
    - apply IH. intros p' I. apply LZ'. right. exact I. }
  assert (pieces <> []) as NP.
  { intros ->. inversion A2; subst. destruct plans as [|x plans]; [congruence|]. destruct (A4 0 x eq_refl) as (parts & E & P). inversion P; subst.
    apply Forall_cons_iff in HI. destruct HI as [(_ & _ & _ & _ & (_ & _ & _ & M & _) & L) _]. cbn [concat] in E. rewrite <- E in M.
    apply mapO_Forall2 in M. apply F2_length in M. cbn [length] in M. lia. }
  assert (pings server opts c) as Pi by (intros _; apply (kt_ping _ _ _ _ _ _ _ _ _ _ _ K)).
  destruct (insert_chunks lz4_compress show_float parse_ipv4 parse_ipv6 server fresh opts fuel ins b k c h0 b' pieces R Pi Hf EC0 A1 NP) as (k2 & c2 & I1 & I2 & I3 & I4 & I5).
  { intros pre p post E. split; [eauto|]. 
    assert (exists q n, reads_data (o_compression o) (CmdUnion (CmdData p (k_context k)) (CmdData block_default (k_context k))) q /\ shaped heads n q) as (q & n & Rq & Sq).
    { clear - E RD Sh. subst pieces. apply Forall2_app_inv_l in RD. destruct RD as (q1 & q2 & _ & RD & ->). inversion RD as [|? q ? ? H _]; subst.
      apply Forall2_app_inv_r in Sh. destruct Sh as (n1 & n2 & _ & Sh & _). inversion Sh; subst. eauto. }
    split; [destruct Rq as (bs & Eb & _); eauto|]. split.
    - destruct pre as [|p0 pre].
      + exists ps0, h0. cbn [insert_commands flat_map app]. repeat split; auto.
      + destruct (kt_describe _ _ _ _ _ _ _ _ _ _ _ K (cn_id (checked opts c)) (cn_log (checked opts c) ++ insert_commands (k_context k) ins (p0 :: pre))) as (ps1 & h1 & F1 & _ & S1).
        exists ps1, h1. split; [exact F1|]. split; [discriminate|]. rewrite app_assoc. exact S1.
    - destruct (kt_take _ _ _ _ _ _ _ _ _ _ _ K (cn_id (checked opts c)) ((cn_log (checked opts c) ++ insert_commands (k_context k) ins pre) ++ [CmdQuery ins (k_context k)]) p q n Rq Sq) as (ps1 & F1 & S1).
      exists ps1. split; [exact F1|]. rewrite <- S1. f_equal. rewrite insert_commands_app, <- !app_assoc. reflexivity. }
  exists k2, c2, pieces, qs, ns. repeat (split; [assumption|]).
  intros j x Hj. destruct (A4 j x Hj) as (parts & E & P). exists parts. split; [exact E|].
  clear - P. induction P as [|q part qs parts (d & H1 & _ & H2) _ IH]; constructor; eauto.
Qed.

Lemma checked_data (c : conn) : filter sends_data (cn_log (checked opts c)) = filter sends_data (cn_log c).
Proof. unfold checked. destruct (co_ping opts); [|reflexivity]. cbn [said cn_log]. rewrite filter_app. cbn. apply app_nil_r. Qed.

Lemma fetched fuel ins sel k c o heads qs ns :
  ready k c -> 1 <= fuel -> keeps_table (k_context k) (o_compression o) ins sel heads -> encodes (CmdQuery sel (k_context k)) ->
  heads <> [] -> Forall2 (reads_data (o_compression o)) (filter sends_data (cn_log c)) qs -> Forall2 (shaped heads) ns qs ->
  exists all k2 c2 n, fetch_all lz4_compress show_float server fresh opts fuel sel k = (Ok all, k2) /\
    ready k2 c2 /\ cn_id c2 = cn_id c /\ k_context k2 = k_context k /\ shaped heads n all /\
    forall j nm t vs, nth_error heads j = Some (nm, t) -> column_cells qs j vs ->
      exists d, nth_error (b_cols all) j = Some (nm, d) /\ ctype d = t /\ holds d vs.
Proof.
  intros R Hf K (bs & Es) NE RD Sh. rewrite <- checked_data in RD.
  destruct (kt_give _ _ _ _ _ _ _ _ _ _ _ K (cn_id (checked opts c)) (cn_log (checked opts c)) qs ns RD Sh) as (ps & (Fp & h & more & ms & Bl & Sh0 & Shm & Ce) & S).
  assert (pings server opts c) as Pi by (intros _; apply (kt_ping _ _ _ _ _ _ _ _ _ _ _ K)).
  destruct (c31_fetch_all lz4_compress show_float parse_ipv4 parse_ipv6 server fresh opts fuel sel k c ps bs R Pi Hf Fp Es S) as (k2 & E & R2 & Cx).
  assert (with_columns (blocks_of ps) = h :: with_columns more) as W.
  { rewrite Bl. unfold with_columns. cbn [filter]. destruct Sh0 as [Sh0 _]. destruct (b_cols h); [|reflexivity].
    cbn [map] in Sh0. congruence. }
  rewrite W in E.
  assert (Forall2 (shaped heads) (0 :: ms) (h :: with_columns more)) as Fs by (constructor; assumption).
  destruct (concat_joined heads (0 :: ms) (h :: with_columns more)) as (all & Wc & J); [discriminate|exact Fs|].
  rewrite Wc in E. exists all, k2, (said (checked opts c) (CmdQuery sel (k_context k))), (start_of (0 :: ms) (length (0 :: ms))).
  split; [exact E|]. split; [exact R2|]. split; [cbn [said cn_id]; apply checked_id|]. split; [exact Cx|]. split; [exact (proj1 J)|].
  intros j nm t vs Hj Cv. eapply joined_cells; [exact Fs|exact J|exact Hj|].
  assert (j < length heads) as Lj by (apply nth_error_Some; congruence).
  destruct (Ce j vs Lj Cv) as (parts & <- & P). exists ([] :: parts). split; [reflexivity|]. constructor; [|exact P].
  destruct (shaped_nth _ _ _ _ _ _ Sh0 Hj) as (d & D1 & _ & D3). exists nm, d. split; [exact D1|]. split; [exact D3|].
  intros [|i] v Hv; discriminate Hv.
Qed.

Lemma kept_cells fuel fuel' ins sel b k c plans m b' o heads qs0 ns0 :
  ready k c -> 1 <= fuel -> 1 <= fuel' -> cx_options (k_context k) = Ok o ->
  keeps_table (k_context k) (o_compression o) ins sel heads ->
  encodes (CmdQuery ins (k_context k)) -> encodes (CmdQuery sel (k_context k)) ->
  Forall2 (reads_data (o_compression o)) (filter sends_data (cn_log c)) qs0 -> Forall2 (shaped heads) ns0 qs0 ->
  heads = map (fun x => (fst (pl_column x), pl_type x)) plans -> b_cols b = map pl_column plans ->
  Forall (insertable tz_known tz parse_ipv4 parse_ipv6 m) plans -> plans <> [] -> 0 < m ->
  (N.of_nat m < 2 ^ 64)%N -> (lenN plans < 2 ^ 64)%N ->
  (forall h, map head (b_cols h) = heads -> block_cast parse_ipv4 parse_ipv6 b h = Ok b') ->
  Forall (fun x => fits (snd x)) (b_cols b') ->
  (m <= insert_block_size \/ Forall (fun x => flat (snd x) = true) (b_cols b')) ->
  (o_compression o = true -> forall p plain, In p [block_default] \/ (exists ps, block_chunks insert_block_size b' = Ok ps /\ In p ps) ->
     write_block p = Ok plain -> lz4_carries plain) ->
  exists k2 all k3 c3 n, insert_ lz4_compress show_float parse_ipv4 parse_ipv6 server fresh opts fuel ins b k = (Ok tt, k2) /\
    fetch_all lz4_compress show_float server fresh opts fuel' sel k2 = (Ok all, k3) /\
    ready k3 c3 /\ cn_id c3 = cn_id c /\ k_context k3 = k_context k /\ shaped heads n all /\
    forall j x old, nth_error plans j = Some x -> column_cells qs0 j old ->
      exists d, nth_error (b_cols all) j = Some (fst (pl_column x), d) /\ ctype d = pl_type x /\ holds d (old ++ pl_wanted x).
Proof.
  intros R Hf Hf' O K Ei Es RD0 Sh0 EH EB HI NE Hm BM BP EC FT FL LZ.
  destruct (inserted fuel ins sel b k c plans m b' o heads) as (k2 & c2 & pieces & qs & ns & I1 & R2 & Id2 & Cx2 & Lg & RD & Sh & Ce); auto.
  assert (heads <> []) as NH by (subst heads; destruct plans; [congruence|discriminate]).
  destruct (fetched fuel' ins sel k2 c2 o heads (qs0 ++ qs) (ns0 ++ ns)) as (all & k3 & c3 & n & F1 & R3 & Id3 & Cx3 & Sa & Ca); auto.
  - rewrite Cx2. exact K.
  - rewrite Cx2. exact Es.
  - rewrite Lg, filter_app, checked_data, insert_data. apply Forall2_app; [exact RD0|].
    clear - RD. induction RD; cbn [map]; constructor; auto.
  - apply Forall2_app; assumption.
  - exists k2, all, k3, c3, n. split; [exact I1|]. split; [exact F1|]. split; [exact R3|]. split; [congruence|]. split; [congruence|].
    split; [exact Sa|]. intros j x old Hj Co. eapply Ca; [subst heads; rewrite nth_error_map, Hj; reflexivity|].
    apply cells_app; [exact Co|apply Ce, Hj].
Qed.
End Insert.
