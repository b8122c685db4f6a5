(** Properties C07, C08, C12, C13, C22, C24, C25 and the wire halves of C18 and C49. *)
From Coq Require Import String Permutation.
From Verif Require Import Base Bytes Utf8 Reader Wire SpecWire Types Text Decimal DateTime Values TypeNames Columns Casts Block.
From Verif Require Import SpecColumns SpecTypes SpecBlock Utf8Proofs ReaderProofs PushProofs SendProofs RangeProofs BlockProofs BlockOpsProofs.
Open Scope list_scope. Open Scope nat_scope.

(** C07. A header whose fields come in any order, even repeated, is read as what they say; the
    writer's fields say the header it was given; an unknown tag is an error. *)
Theorem c07_fields fs r : Forall field_ok fs -> (lenN fs < 2 ^ 64)%N ->
  run read_info (concat (map field_bytes fs) ++ 0%N :: r) = Ok (fields_info fs info_default, r).
Proof. exact (read_fields fs r). Qed.
Print Assumptions c07_fields.

Theorem c07_round_trip i r : (- 2 ^ 31 <= bi_bucket i < 2 ^ 31)%Z ->
  exists bs, write_info i = Ok bs /\ run read_info (bs ++ r) = Ok (i, r).
Proof. intros H. destruct (run_write_info i H) as (bs & E & R). eauto. Qed.
Print Assumptions c07_round_trip.

Theorem c07_unknown_tag fs tag tb r : Forall field_ok fs -> (lenN fs < 2 ^ 64)%N -> (2 < tag < 2 ^ 64)%N ->
  enc_uvarint tag = Ok tb ->
  run read_info (concat (map field_bytes fs) ++ tb ++ r) = Err (EUnknownPacket tag).
Proof. exact (read_unknown fs tag tb r). Qed.
Print Assumptions c07_unknown_tag.

Example c07_case :
  let fs := [FBucket (-2); FOverflows 1; FBucket 70000]%Z in
  Forall field_ok fs /\ fields_info fs info_default = mk_info true 70000 /\
  write_info (mk_info true 70000) = Ok [1; 1; 2; 112; 17; 1; 0; 0]%N /\
  run read_info [2; 112; 17; 1; 0; 1; 1; 0; 99]%N = Ok (mk_info true 70000, [99%N]) /\
  run read_info [1; 1; 3]%N = Err (EUnknownPacket 3).
Proof.
  split; [repeat constructor; cbn; lia|]. repeat split; vm_compute; reflexivity.
Qed.

Section Wire.
Variable tz_known : bytes -> bool.
Variable tz : bytes.

(** C08, the part that holds. Writing a block and reading it back gives the same column names
    and types, the same rows and the same cells, and stops exactly at the end of what was
    written. [block_ok] says that the columns are well formed and of a type whose name the
    client understands. Missing: columns of DateTime64 and of type names that C14 excludes
    (see c08_datetime64_refuted, c14_aggregate_refuted, c14_labels_refuted), columns being
    built from chrono times, concatenations, and columns converted for an insert. *)
Theorem c08_blocks_partial n b : block_ok tz_known n b -> (b_cols b = [] -> n = 0) ->
  exists bs b', write_block b = Ok bs /\ same_block tz n b b' /\
    forall r, run (raw_load tz_known tz) (bs ++ r) = Ok (b', r).
Proof. exact (run_write_block tz_known tz n b). Qed.

End Wire.
Print Assumptions c08_blocks_partial.

(** C08 is false of the code: a DateTime64 column, here one just received from a server, cannot
    be written. *)
Theorem c08_datetime64_refuted :
  exists b, run (raw_load (fun _ => true) (str "UTC"))
      ([0; 1; 1; 1; 116]%N ++ 13%N :: str "DateTime64(3)" ++ [123; 52; 28; 7; 104; 1; 0; 0]%N) = Ok (b, []) /\
    row_count b = Ok 1 /\ get_cell b 0 (ByName (str "t")) = Ok (VDateTime64 1546307515515 3 (str "UTC")) /\
    write_block b = Panic PUnimplemented.
Proof. eexists. split; [vm_compute; reflexivity|]. repeat split; vm_compute; reflexivity. Qed.
Print Assumptions c08_datetime64_refuted.

(** A block that meets the hypotheses of c08_blocks_partial. *)
Definition sample_block : block :=
  mk_block (mk_info true 5)
    [(str "a", CArray (CNullable (CString [str "x"; []; str "yz"]) [0; 1; 0]%N) [2; 2; 3]%N);
     (str "m", CMap (CLow (CVec U16 [7; 9]%Z) X8 [1; 0; 1]%N None) (CDecimal [-5; 6; 7]%Z 9 2 N32) [1; 1; 3]%N);
     (str "e", CEnum8 [(str "u", 1%Z); (str "v", (-2)%Z)] [1; -2; 1]%Z);
     (str "t", CDateTime [0; 1; 4294967295]%N (str "UTC"))].
Ltac by_computing := apply utf8_valid_spec; vm_compute; reflexivity.
Example c08_case : block_ok (fun _ => true) 3 sample_block.
Proof.
  split; [cbn; lia|]. split; [reflexivity|]. split; [reflexivity|].
  repeat (apply Forall_cons; [|]); [| | | |apply Forall_nil].
  all: (split; [by_computing|]; split; [vm_compute; discriminate|]).
  all: (split; [|split; [reflexivity|]; split; [|split; [by_computing|vm_compute; discriminate]]]).
  all: cbn [snd sound ctype nameable].
  all: repeat match goal with
    | |- _ /\ _ => split
    | |- Forall _ _ => repeat constructor
    | |- (_ <= isize_max)%N => vm_compute; discriminate
    | |- exists n, _ => exists 2
    end.
  all: try reflexivity; try (cbn; lia); try exact I; try (vm_compute; discriminate).
Qed.

(** Appending, sending and receiving. Values appended to a fresh column read, in the column
    that the receiver builds from the bytes sent, as the values appended. [fits] only excludes
    buffers larger than Rust allows any buffer to be. *)
Theorem append_send_receive tz_known tz t tz0 c vs ws :
  from_type t tz0 = Ok c -> no_empty_rows t -> no_datetime t -> nameable tz_known (ctype c) ->
  Forall proper vs -> mapO (reads_as c) vs = Some ws -> (weights vs < 2 ^ 64)%N ->
  exists c', push_each push c vs = Ok c' /\
    (fits c' -> exists bs d, save c' 0 (length vs) = Ok bs /\
       (forall r, run (load_column tz_known (type_name (ctype c')) (lenN vs) tz) (bs ++ r) = Ok (d, r)) /\
       holds d ws).
Proof.
  intros H NE ND NA PV R B. destruct (from_type_wf t tz0 c H NE) as (W & L & LR).
  destruct (push_all c vs ws W R) as (c' & E & S); [rewrite LR; exact B|].
  exists c'. split; [exact E|]. intros F.
  assert (ranges c') as RG by (eapply each_push_ranges; [exact E|eapply from_type_ranges; eassumption|exact PV]).
  pose proof (sound_parts c' (st_wf _ _ _ _ S) RG F) as SD.
  pose proof (step_holds _ _ _ _ [] S (holds_empty _ L)) as [HL HA]. cbn [app] in HL, HA.
  assert (length ws = length vs) as LW.
  { clear -R. revert ws R. induction vs as [|v vs IH]; intros ws R; cbn [mapO] in R.
    - injection R as <-. reflexivity.
    - destruct (reads_as c v); [|discriminate R]. destruct (mapO (reads_as c) vs); [|discriminate R].
      injection R as <-. cbn. f_equal. apply IH. reflexivity. }
  assert (nameable tz_known (ctype c')) as NA' by (rewrite (st_type _ _ _ _ S); exact NA).
  destruct (send_column tz_known tz c' SD NA') as (n & Hn & Snd). rewrite HL in Hn. injection Hn as <-.
  destruct (Snd 0 (length ws) ltac:(lia) (or_introl eq_refl)) as (bs & d & Es & [(_ & DL & DA) _] & Rd).
  rewrite Nat.sub_0_r in *. rewrite LW in *. exists bs, d. split; [exact Es|]. split.
  - intros r. unfold load_column. apply Rd. unfold LoadTypeProofs.enough. lia.
  - split; [rewrite LW; exact DL|]. intros i w Hi.
    rewrite DA; [|rewrite <- LW; apply nth_error_Some; congruence]. cbn [Nat.add]. rewrite (HA _ _ Hi). cbn [rmap].
    f_equal. eapply reads_unzoned_all; eassumption.
Qed.
Print Assumptions append_send_receive.

Example append_send_receive_case :
  let t := TNullable (TNum I16) in
  exists c, from_type t [] = Ok c /\ no_empty_rows t /\ no_datetime t /\ nameable (fun _ => true) (ctype c) /\
    Forall proper [VNull (TNum I16); VSome (VNum I16 (-3))] /\
    mapO (reads_as c) [VNull (TNum I16); VSome (VNum I16 (-3))] = Some [VNull (TNum I16); VSome (VNum I16 (-3))] /\
    exists c', push_each push c [VNull (TNum I16); VSome (VNum I16 (-3))] = Ok c' /\ fits c' /\
      save c' 0 2 = Ok [1; 0; 0; 0; 253; 255]%N.
Proof.
  eexists. split; [reflexivity|]. split; [exact I|]. split; [exact I|]. split; [cbn; auto|].
  split; [repeat constructor|]. split; [reflexivity|].
  eexists. split; [reflexivity|]. split; [|reflexivity]. cbn. unfold lenN. cbn. repeat split; vm_compute; discriminate.
Qed.

(** C18 over the wire: the receiver's row is NULL exactly where the appended value was NULL, and
    otherwise the value. Missing: inner types with DateTime, whose columns are converted
    before they are sent. *)
Theorem c18_over_the_wire_partial tz_known tz t tz0 inner t0 os ws :
  from_type t tz0 = Ok inner -> no_empty_rows t -> no_datetime t -> nameable tz_known (TNullable (ctype inner)) ->
  reads_as inner (value_default t0) <> None ->
  Forall (fun o => match o with Some v => proper v | None => True end) os ->
  Forall2 (optional_cell inner) os ws ->
  (weights (map (optional t0) os) < 2 ^ 64)%N ->
  exists c, push_each push (CNullable inner []) (map (optional t0) os) = Ok c /\
    (fits c -> exists bs d, save c 0 (length os) = Ok bs /\
       (forall r, run (load_column tz_known (type_name (ctype c)) (lenN os) tz) (bs ++ r) = Ok (d, r)) /\
       holds d ws).
Proof.
  intros H NE ND NA Hd PV R B.
  destruct (append_send_receive tz_known tz (TNullable t) tz0 (CNullable inner []) (map (optional t0) os) ws) as (c & E & S); auto.
  - cbn [from_type]. rewrite H. reflexivity.
  - rewrite Forall_map. eapply Forall_impl; [|exact PV]. intros [v|]; cbn; auto.
  - clear -R Hd. induction R as [|o w os ws Ho _ IH]; [reflexivity|]. cbn [map mapO]. rewrite IH.
    destruct o as [v|]; cbn [optional reads_as].
    + destruct Ho as (x & -> & ->). reflexivity.
    + cbn in Ho. subst w. destruct (reads_as inner (value_default t0)); [reflexivity|congruence].
  - exists c. split; [exact E|]. intros F. destruct (S F) as (bs & d & E1 & E2 & E3). rewrite map_length in E1.
    exists bs, d. split; [exact E1|]. split; [|exact E3]. unfold lenN in *. rewrite map_length in E2. exact E2.
Qed.
Print Assumptions c18_over_the_wire_partial.

(** C49 over the wire, for keys that are strings or integers. *)
Theorem c49_over_the_wire_partial tz_known tz tk tv tz0 ks vs kvss wss :
  from_type tk tz0 = Ok ks -> from_type tv tz0 = Ok vs -> no_empty_rows tk -> no_empty_rows tv ->
  no_datetime tk -> no_datetime tv -> nameable tz_known (TMap (ctype ks) (ctype vs)) ->
  Forall (Forall (fun kv => proper (fst kv) /\ proper (snd kv))) kvss ->
  mapO (mapO (fun kv => match reads_as ks (fst kv), reads_as vs (snd kv) with
                        | Some k, Some v => Some (k, v) | _, _ => None end)) kvss = Some wss ->
  Forall (fun ws => distinct_keys (map fst ws) = true) wss ->
  (weights (map (VMap tk tv) kvss) < 2 ^ 64)%N ->
  exists c, push_each push (CMap ks vs []) (map (VMap tk tv) kvss) = Ok c /\
    (fits c -> exists bs d, save c 0 (length kvss) = Ok bs /\
       (forall r, run (load_column tz_known (type_name (ctype c)) (lenN kvss) tz) (bs ++ r) = Ok (d, r)) /\
       holds d (map (VMap (ctype ks) (ctype vs)) wss)).
Proof.
  intros Hk Hv Nk Nv Dk Dv NA PV Hr Hd B.
  destruct (append_send_receive tz_known tz (TMap tk tv) tz0 (CMap ks vs []) (map (VMap tk tv) kvss)
             (map (VMap (ctype ks) (ctype vs)) wss)) as (c & E & S).
  - cbn [from_type]. rewrite Hk. cbn [rbind]. rewrite Hv. reflexivity.
  - split; assumption.
  - split; assumption.
  - exact NA.
  - rewrite Forall_map. eapply Forall_impl; [|exact PV]. clear. intros l H. cbn. induction H; cbn; auto.
  - clear -Hr Hd. revert wss Hr Hd. induction kvss as [|kvs kvss IH]; intros wss Hr Hd; cbn [mapO map] in *.
    + injection Hr as <-. reflexivity.
    + match type of Hr with match ?m with _ => _ end = _ => destruct m as [ws|] eqn:Ew; [|discriminate Hr] end.
      match type of Hr with match ?m with _ => _ end = _ => destruct m as [wss'|] eqn:Ews; [|discriminate Hr] end.
      injection Hr as <-. inversion_clear Hd as [|? ? D1 D2].
      rewrite (IH wss' eq_refl D2). cbn [reads_as]. rewrite Ew, D1. reflexivity.
  - exact B.
  - exists c. split; [exact E|]. intros F. destruct (S F) as (bs & d & E1 & E2 & E3). rewrite map_length in E1.
    exists bs, d. split; [exact E1|]. split; [|exact E3]. unfold lenN in *. rewrite map_length in E2. exact E2.
Qed.
Print Assumptions c49_over_the_wire_partial.

Lemma Forall2_length {A B} (R : A -> B -> Prop) xs ys : Forall2 R xs ys -> length xs = length ys.
Proof. induction 1; cbn; congruence. Qed.

(** C12. Splitting a block of [m] rows into pieces of at most [n]: piece [i] is the rows from
    [i] * [n] on, [n] of them except that the last piece has what is left, and there is no gap
    after the last. A block without rows gives one piece without rows. *)
Theorem c12_pieces n m b : 0 < n -> rectangular m b -> (b_cols b = [] -> m = 0) ->
  exists ps, block_chunks n b = Ok ps /\
    (m = 0 -> ps = [block_default]) /\
    (0 < m -> length ps = (m + n - 1) / n /\
       forall i p, nth_error ps i = Some p -> i * n < m /\ piece_of b (i * n) (Nat.min n (m - i * n)) p).
Proof.
  intros Hn R H0. assert (row_count b = Ok m) as RC.
  { unfold row_count. unfold rectangular in R. destruct (b_cols b) as [|[x c] cs]; [rewrite H0; reflexivity|].
    inversion_clear R. assumption. }
  unfold block_chunks. rewrite RC. cbn [rbind]. destruct (Nat.eq_dec m 0) as [->|Hm].
  - exists [block_default]. cbn [Nat.add chunk_all]. unfold chunk_next. rewrite RC. cbn. split; [reflexivity|].
    split; [reflexivity|lia].
  - assert (b_cols b <> []) as Hne by (intros C; auto).
    destruct (chunk_pieces n m b Hn ltac:(lia) R Hne (m + 2) 0 ltac:(lia)) as (ps & E & F).
    destruct (pieces_spec n m Hn (m + 2) 0 ltac:(lia)) as [P1 P2].
    exists ps. split; [exact E|]. split; [lia|]. intros _.
    rewrite <- (Forall2_length _ _ _ F), P2, Nat.sub_0_r. split; [reflexivity|]. intros i p Hp.
    assert (exists ak, nth_error (pieces (m + 2) n 0 m) i = Some ak /\ piece_of b (fst ak) (snd ak) p) as ([a k] & Ea & Hk).
    { clear -F Hp. revert i Hp. induction F as [|x y xs ys Hxy _ IH]; intros [|i] Hp; try discriminate Hp; cbn in *.
      - injection Hp as <-. eauto.
      - apply IH, Hp. }
    destruct (P1 i a k Ea) as (-> & -> & L). cbn [fst snd Nat.add] in *. auto.
Qed.
Print Assumptions c12_pieces.

Example c12_case :
  let b := mk_block info_default [(str "x", CVec U8 [1; 2; 3; 4; 5]%Z)] in
  rectangular 5 b /\
  match block_chunks 2 b with
  | Ok ps => map (fun p => mapM (fun i => get_cell p i (ByName (str "x"))) (seq 0 2)) ps =
             [Ok [VNum U8 1; VNum U8 2]; Ok [VNum U8 3; VNum U8 4]; Panic PExplicit] /\
             map row_count ps = [Ok 2; Ok 2; Ok 1]
  | _ => False
  end.
Proof. split; [repeat constructor|]. vm_compute. auto. Qed.

(** C13, the part that holds: any range of rows of a column without arrays and maps, and any
    range starting at row 0 of any column. Missing: arrays and maps from another row on, which
    is false of the code, see below. *)
Theorem c13_ranges_partial tz_known tz c n a b : sound c -> nameable tz_known (ctype c) -> clen c = Ok n ->
  a <= b <= n -> a = 0 \/ flat c = true ->
  exists bs c', save c a b = Ok bs /\ delivers tz c c' a (b - a) /\
    forall r, run (load_column tz_known (type_name (ctype c)) (N.of_nat (b - a)) tz) (bs ++ r) = Ok (c', r).
Proof.
  intros S NA Hn L F. destruct (send_column tz_known tz c S NA) as (n' & Hn' & Snd). rewrite Hn in Hn'. injection Hn' as <-.
  destruct (Snd a b L F) as (bs & c' & E & [D _] & R). exists bs, c'. split; [exact E|]. split; [exact D|].
  intros r. unfold load_column. apply R. unfold LoadTypeProofs.enough. lia.
Qed.
Print Assumptions c13_ranges_partial.

Example c13_case :
  let c := CLow (CString [str "a"; str "b"]) X8 [1; 0; 1]%N None in
  sound c /\ flat c = true /\ nameable (fun _ => true) (ctype c) /\
  save c 1 3 = Ok ([1; 0; 0; 0; 0; 0; 0; 0; 0; 6; 0; 0; 0; 0; 0; 0; 2; 0; 0; 0; 0; 0; 0; 0; 1; 97; 1; 98;
                    2; 0; 0; 0; 0; 0; 0; 0; 0; 1]%N).
Proof.
  split; [|split; [reflexivity|split; [exact I|vm_compute; reflexivity]]].
  split; [split; [repeat constructor; vm_compute; discriminate|vm_compute; discriminate]|].
  split; [vm_compute; discriminate|]. exists 2. split; [reflexivity|]. split; [reflexivity|].
  repeat constructor; cbn; lia.
Qed.

(** C13 is false of the code: the second piece of a block with an array column carries the
    offsets of the whole column and the elements of the first piece, so that the server reads
    other rows than those sent. Here rows [1,2], [3], [4] are split into pieces of one row; the
    second piece decodes as the array [1,2,3]. The same happens with maps. *)
Definition sent_second_piece (b : block) : res (list (res value)) :=
  do ps <- block_chunks 1 b;
  do p <- index ps 1;
  do bs <- write_block p;
  do r <- run (raw_load (fun _ => true) (str "UTC")) bs;
  Ok [get_cell p 0 (ByPos 0); get_cell (fst r) 0 (ByPos 0)].
Theorem c13_arrays_and_maps_refuted :
  sent_second_piece (mk_block info_default [(str "x", CArray (CVec U8 [1; 2; 3; 4]%Z) [2; 3; 4]%N)]) =
    Ok [Ok (VArray (TNum U8) [VNum U8 3]); Ok (VArray (TNum U8) [VNum U8 1; VNum U8 2; VNum U8 3])] /\
  sent_second_piece (mk_block info_default
      [(str "x", CMap (CVec U8 [1; 2; 3; 4]%Z) (CVec U8 [5; 6; 7; 8]%Z) [2; 3; 4]%N)]) =
    Ok [Ok (VMap (TNum U8) (TNum U8) [(VNum U8 3, VNum U8 7)]);
        Ok (VMap (TNum U8) (TNum U8)
              [(VNum U8 1, VNum U8 5); (VNum U8 2, VNum U8 6); (VNum U8 3, VNum U8 7)])].
Proof. split; vm_compute; reflexivity. Qed.
Print Assumptions c13_arrays_and_maps_refuted.

(** C22, the part that holds. A column has as many rows as its name occurred in the rows pushed,
    for any rows. So the block is rectangular if every row names the same columns once each.
    Missing: other rows, see below. The hypothesis only excludes addresses of a wrong size
    (Rust has none) and FixedString(0). *)
Theorem c22_columns_count_their_name rows b :
  Forall (Forall (fun f => whole (snd f) /\ no_empty_rows (type_of_value (snd f)))) rows ->
  push_rows rows block_default = Ok b ->
  Forall (fun x => clen (snd x) = Ok (times_named (fst x) rows)) (b_cols b) /\
  NoDup (map fst (b_cols b)) /\
  forall k, In k (map fst (b_cols b)) <-> In k (map fst (concat rows)).
Proof.
  intros F H.
  assert (counted (concat rows) b) as (ND & KS & L).
  { assert (G : forall rows fs b0 b1, counted fs b0 -> Forall (Forall field_fine) rows ->
        push_rows rows b0 = Ok b1 -> counted (fs ++ concat rows) b1).
    { clear. induction rows as [|row rows IH]; intros fs b0 b1 C F H; cbn [push_rows concat] in *.
      - injection H as <-. rewrite app_nil_r. exact C.
      - destruct (push_row row b0) as [b2| |] eqn:E; try discriminate H. cbn [rbind] in H.
        inversion_clear F as [|? ? F1 F2]. rewrite app_assoc. eapply IH; [|exact F2|exact H].
        eapply row_counted; eassumption. }
    apply (G rows [] block_default b); [|exact F|exact H].
    split; [constructor|]. split; [intros k; cbn; tauto|constructor]. }
  split; [exact L|]. split; [exact ND|]. intros k. symmetry. apply KS.
Qed.
Print Assumptions c22_columns_count_their_name.

Theorem c22_rectangular_partial rows ks b :
  Forall (Forall (fun f => whole (snd f) /\ no_empty_rows (type_of_value (snd f)))) rows ->
  NoDup ks -> Forall (fun row => Permutation (map fst row) ks) rows ->
  push_rows rows block_default = Ok b -> rectangular (length rows) b.
Proof.
  intros F ND KS H. destruct (c22_columns_count_their_name rows b F H) as (L & _ & IN).
  unfold rectangular. rewrite Forall_forall in *. intros x Hx. rewrite (L x Hx). f_equal.
  assert (In (fst x) (map fst (concat rows))) as Hin by (apply IN, in_map, Hx).
  assert (G : forall k, In k ks -> times_named k rows = length rows).
  { intros k Hk. clear -KS ND Hk. unfold times_named. induction rows as [|row rows IH]; [reflexivity|].
    cbn [concat length]. rewrite map_app, count_occ_app. rewrite IH by (intros y Hy; apply KS; right; exact Hy).
    rewrite (proj1 (Permutation_count_occ bytes_eq_dec _ _) (KS row (or_introl eq_refl))).
    rewrite (proj1 (NoDup_count_occ' bytes_eq_dec ks) ND k Hk). reflexivity. }
  apply G. clear -KS Hin. induction rows as [|row rows IH]; cbn [concat] in Hin; [contradiction|].
  rewrite map_app, in_app_iff in Hin. destruct Hin as [Hin|Hin].
  - eapply Permutation_in; [apply KS; left; reflexivity|exact Hin].
  - apply IH; [intros y Hy; apply KS; right; exact Hy|exact Hin].
Qed.
Print Assumptions c22_rectangular_partial.

Example c22_case :
  let rows := [[(str "a", VNum U8 1); (str "b", VString [])]; [(str "b", VString (str "x")); (str "a", VNum U8 2)]] in
  exists b, push_rows rows block_default = Ok b /\ map fst (b_cols b) = [str "a"; str "b"] /\
    Forall (fun row => Permutation (map fst row) [str "a"; str "b"]) rows /\
    Forall (Forall (fun f => whole (snd f) /\ no_empty_rows (type_of_value (snd f)))) rows.
Proof.
  eexists. split; [vm_compute; reflexivity|]. split; [reflexivity|].
  split; [repeat constructor|repeat constructor].
Qed.

(** C22 is false of the code: rows that leave out a column, or bring a new one in the second row,
    are accepted and leave columns of different lengths. *)
Theorem c22_ragged_refuted :
  (exists b, push_rows [[(str "a", VNum U8 1); (str "b", VNum U8 1)]; [(str "a", VNum U8 2)]] block_default = Ok b /\
     map (fun x => clen (snd x)) (b_cols b) = [Ok 2; Ok 1]) /\
  (exists b, push_rows [[(str "a", VNum U8 1)]; [(str "b", VNum U8 2); (str "a", VNum U8 2)]] block_default = Ok b /\
     map (fun x => clen (snd x)) (b_cols b) = [Ok 2; Ok 1]).
Proof. split; eexists; (split; [vm_compute; reflexivity|reflexivity]). Qed.
Print Assumptions c22_ragged_refuted.

(** C24, the part that holds: a block all of whose cells can be read and are comparable is equal
    to itself. Missing: cells that are booleans, addresses, UUIDs or NaN, or times outside the
    range chrono converts, see below. *)
Theorem c24_equal_to_itself_partial b :
  Forall (fun x => exists n, clen (snd x) = Ok n /\
            forall i, i < n -> exists v, at_ (snd x) i = Ok v /\ comparable v) (b_cols b) ->
  block_eq b b = Ok true.
Proof.
  intros H. unfold block_eq. rewrite Nat.eqb_refl. induction H as [|x xs (n & Hn & Hx) _ IH]; [reflexivity|].
  cbn [columns_eq]. rewrite (column_refl _ n Hn Hx). cbn [rbind]. exact IH.
Qed.
Print Assumptions c24_equal_to_itself_partial.

Example c24_case :
  Forall (fun x => exists n, clen (snd x) = Ok n /\
            forall i, i < n -> exists v, at_ (snd x) i = Ok v /\ comparable v) (b_cols sample_block).
Proof.
  repeat constructor; exists 3; (split; [reflexivity|]); intros [|[|[|i]]] Hi; try lia;
    (eexists; split; [vm_compute; reflexivity|]); cbn; repeat split; auto.
Qed.

(** C24 is false of the code: a block with a boolean, IPv4, IPv6 or UUID column differs from
    itself; so does one with a NaN, and comparing a DateTime64 before 1970 panics. *)
Theorem c24_not_equal_to_itself_refuted :
  Forall (fun c => block_eq (mk_block info_default [(str "x", c)]) (mk_block info_default [(str "x", c)]) = Ok false)
    [CVec SBool [1]%Z; CIp IpV4 [1; 0; 0; 127]%N; CIp IpV6 (repeat 0%N 16); CIp IpUuid (repeat 7%N 16);
     CVec F64 [9221120237041090560]%Z; CArray (CVec SBool [0]%Z) [1]%N] /\
  block_eq (mk_block info_default [(str "x", CDateTime64 [-1]%Z 3 [])])
           (mk_block info_default [(str "x", CDateTime64 [-1]%Z 3 [])]) = Panic PUnwrap.
Proof. split; [repeat constructor|]; vm_compute; reflexivity. Qed.
Print Assumptions c24_not_equal_to_itself_refuted.

(** C25, the part that holds: the first column of that name, or an error; and any position and row
    inside the block. *)
Theorem c25_by_name b s :
  match get_column b (ByName s) with
  | Ok x => exists i, nth_error (b_cols b) i = Some x /\ fst x = s /\
              forall j y, j < i -> nth_error (b_cols b) j = Some y -> fst y <> s
  | Err e => e = EOutOfRange /\ ~ In s (map fst (b_cols b))
  | Panic _ => False
  end.
Proof.
  unfold get_column, get_index. destruct (find_name s (b_cols b) 0) as [i|] eqn:F.
  - destruct (find_name_some _ _ _ _ F) as (k & -> & c & E & N). cbn [rbind Nat.add]. unfold index. rewrite E. cbn.
    exists k. split; [exact E|]. split; [reflexivity|]. intros j y Hj Ey. specialize (N j Hj). rewrite Ey in N.
    cbn in N. congruence.
  - cbn [rbind]. split; [reflexivity|]. eapply find_name_none, F.
Qed.
Print Assumptions c25_by_name.

Theorem c25_by_position_partial b i x : nth_error (b_cols b) i = Some x -> get_column b (ByPos i) = Ok x.
Proof. intros H. unfold get_column, get_index, index. cbn [rbind]. rewrite H. reflexivity. Qed.
Print Assumptions c25_by_position_partial.

Example c25_case :
  let b := mk_block info_default [(str "x", CVec U8 [1]%Z); (str "y", CVec U8 [2]%Z); (str "x", CVec U8 [3]%Z)] in
  get_cell b 0 (ByName (str "x")) = Ok (VNum U8 1) /\ get_cell b 0 (ByName (str "z")) = Err EOutOfRange /\
  get_cell b 0 (ByPos 2) = Ok (VNum U8 3).
Proof. repeat split. Qed.

(** C25 is false of the code: a position or row out of range panics. *)
Theorem c25_out_of_range_refuted :
  get_column sample_block (ByPos 4) = Panic PIndex /\ get_cell sample_block 0 (ByPos 4) = Panic PIndex /\
  get_cell sample_block 3 (ByName (str "e")) = Panic PIndex.
Proof. repeat split. Qed.
Print Assumptions c25_out_of_range_refuted.
