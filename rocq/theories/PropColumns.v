(** Properties C17-C20 and C49: a column gives back what was appended to it. *)
From Verif Require Import Base Bytes Types Values TypeNames Columns SpecColumns PushProofs.
Open Scope nat_scope.

(** Appending values to a fresh column of any supported type: every row reads as the value
    appended. The bound excludes only more than 2^64 cells. *)
Theorem append_then_read t tz c vs ws :
  from_type t tz = Ok c -> no_empty_rows t ->
  mapO (reads_as c) vs = Some ws -> (weights vs < 2 ^ 64)%N ->
  exists c', push_each push c vs = Ok c' /\ holds c' ws /\ ctype c' = ctype c.
Proof.
  intros H Hn Hr Hb. destruct (from_type_wf t tz c H Hn) as (W & L & R).
  destruct (push_all c vs ws W Hr) as (c' & E & S); [rewrite R; exact Hb|].
  exists c'. split; [exact E|]. split; [|apply S].
  apply (step_holds _ _ _ _ [] S). apply holds_empty, L.
Qed.
Print Assumptions append_then_read.

Definition str (s : list N) : value := VString s.
Example append_then_read_case :
  exists c, from_type (TArray (TMap TString (TNullable (TLowCardinality (TNum U16))))) [] = Ok c /\
    let v := VArray TString
      [VMap TString TString [(str [97]%N, VNull (TNum U16)); (str [98]%N, VSome (VNum U16 7))];
       VMap TString TString []] in
    mapO (reads_as c) [v; VArray TString []; v] =
      Some (let w := VArray (TMap TString (TNullable (TLowCardinality (TNum U16))))
              [VMap TString (TNullable (TLowCardinality (TNum U16)))
                 [(str [97]%N, VNull (TLowCardinality (TNum U16))); (str [98]%N, VSome (VNum U16 7))];
               VMap TString (TNullable (TLowCardinality (TNum U16))) []] in
            [w; VArray (TMap TString (TNullable (TLowCardinality (TNum U16)))) []; w]).
Proof. eexists. split; reflexivity. Qed.

(** C17. Array columns over any element type: row [i] is the array of what the elements of
    the [i]-th array read as, and the offsets never decrease. *)
Theorem c17_array_columns t tz inner vss wss :
  from_type t tz = Ok inner -> no_empty_rows t ->
  mapO (mapO (reads_as inner)) vss = Some wss ->
  (weights (map (VArray t) vss) < 2 ^ 64)%N ->
  exists c offs, push_each push (CArray inner []) (map (VArray t) vss) = Ok (CArray c offs) /\
    holds (CArray c offs) (map (VArray (ctype inner)) wss) /\ climbs 0 offs.
Proof.
  intros H Hn Hr Hb. destruct (from_type_wf t tz inner H Hn) as (W & L & R).
  assert (W' : wf (CArray inner [])) by (cbn; auto).
  destruct (push_all (CArray inner []) (map (VArray t) vss) (map (VArray (ctype inner)) wss) W') as (c' & E & S).
  - clear -Hr. revert wss Hr. induction vss as [|vs vss IH]; intros wss Hr; cbn [mapO map] in *.
    + injection Hr as <-. reflexivity.
    + destruct (mapO (reads_as inner) vs) as [ws|] eqn:Ew; [|discriminate Hr].
      destruct (mapO (mapO (reads_as inner)) vss); [|discriminate Hr]. injection Hr as <-.
      rewrite (IH l eq_refl). cbn [reads_as]. rewrite Ew. reflexivity.
  - cbn [low_rows]. rewrite R. exact Hb.
  - assert (exists c offs, c' = CArray c offs) as (c & offs & ->).
    { pose proof (st_type _ _ _ _ S) as T. pose proof (st_wf _ _ _ _ S) as Wf.
      pose proof (st_sim _ _ _ _ S _ (similar_refl _)) as Sm.
      destruct c'; try discriminate T; try contradiction Wf; [destruct k; discriminate T|eauto]. }
    exists c, offs. split; [exact E|]. split.
    + apply (step_holds _ _ _ _ [] S). apply holds_empty. reflexivity.
    + apply (st_wf _ _ _ _ S).
Qed.
Print Assumptions c17_array_columns.

Example c17_case :
  from_type (TArray TString) [] = Ok (CArray (CString []) []) /\
  mapO (mapO (reads_as (CArray (CString []) [])))
    [[VArray TString [str [1]%N; str []]; VArray TString []]; []] =
  Some [[VArray TString [str [1]%N; str []]; VArray TString []]; []].
Proof. split; reflexivity. Qed.

(** C17 for any element column at all, in whatever state it is: if appending the elements to
    the inner column adds the cells [ys] and keeps the others, then appending the array adds
    the row [ys] and keeps the other rows. *)
Definition adds (c c' : col) (ys : list value) : Prop :=
  exists n, clen c = Ok n /\ clen c' = Ok (n + length ys) /\
    (forall i, i < n -> at_ c' i = at_ c i) /\
    (forall j y, nth_error ys j = Some y -> at_ c' (n + j) = Ok y).

Theorem c17_any_element inner offs t xs ys inner' :
  climbs 0 offs -> clen inner = Ok (N.to_nat (last offs 0%N)) ->
  push_each push inner xs = Ok inner' -> adds inner inner' ys -> length ys = length xs ->
  exists offs', push (CArray inner offs) (VArray t xs) = Ok (CArray inner' offs') /\
    adds (CArray inner offs) (CArray inner' offs') [VArray (ctype inner) ys] /\
    climbs 0 offs' /\ clen inner' = Ok (N.to_nat (last offs' 0%N)).
Proof.
  intros Hc Hn Hp (n & B1 & B2 & B3 & B4) Hl. rewrite Hn in B1. injection B1 as <-.
  rewrite push_array, Hp. cbn [rbind]. eexists; split; [reflexivity|].
  assert (ctype inner' = ctype inner) as Ht.
  { apply (push_each_keeps alike push alike_refl alike_trans (fun c v c' E => push_alike c c v c' E) _ _ _ Hp). }
  split; [|split].
  - exists (length offs). cbn [clen]. rewrite app_length. split; [reflexivity|]. split; [reflexivity|]. split.
    + intros j Hj. cbn [at_]. rewrite row_bounds_old by exact Hj. rewrite Ht.
      destruct (row_bounds offs j) as [[a b]| |] eqn:Rb; try reflexivity. cbn [rbind fst snd].
      pose proof (row_bounds_le _ _ _ _ Hc Rb).
      rewrite (mapM_ext (at_ inner') (at_ inner)); [reflexivity|]. intros y Hy. apply in_seq in Hy. apply B3. lia.
    + intros [|[|j]] x Hx; try discriminate. injection Hx as <-. rewrite Nat.add_0_r. cbn [at_].
      rewrite row_bounds_new. cbn [rbind fst snd]. rewrite Ht.
      replace (_ + _ - _) with (length ys) by (unfold lenN; lia).
      rewrite (mapM_seq (at_ inner') ys); [reflexivity|exact B4].
  - apply climbs_snoc; [exact Hc|lia].
  - rewrite last_snoc, B2. f_equal. unfold lenN. lia.
Qed.
Print Assumptions c17_any_element.

(** C18. Nullable columns: a row is NULL exactly when the value appended was. [VNull t] is
    what [None] of a Rust type standing for the ClickHouse type [t] becomes. *)
Theorem c18_nullable_columns t tz inner t0 os ws :
  from_type t tz = Ok inner -> no_empty_rows t -> reads_as inner (value_default t0) <> None ->
  Forall2 (optional_cell inner) os ws ->
  (weights (map (optional t0) os) < 2 ^ 64)%N ->
  exists c, push_each push (CNullable inner []) (map (optional t0) os) = Ok c /\ holds c ws.
Proof.
  intros H Hn Hd Hr Hb. destruct (from_type_wf t tz inner H Hn) as (W & L & R).
  assert (W' : wf (CNullable inner [])) by (cbn; auto).
  destruct (push_all (CNullable inner []) (map (optional t0) os) ws W') as (c & E & S).
  - clear -Hr Hd. induction Hr as [|o w os ws Ho _ IH]; [reflexivity|]. cbn [map mapO]. rewrite IH.
    destruct o as [v|]; cbn [optional reads_as].
    + destruct Ho as (x & -> & ->). reflexivity.
    + cbn in Ho. subst w. destruct (reads_as inner (value_default t0)); [reflexivity|congruence].
  - cbn [low_rows]. rewrite R. exact Hb.
  - exists c. split; [exact E|]. apply (step_holds _ _ _ _ [] S). apply holds_empty. cbn [clen].
    rewrite L. reflexivity.
Qed.
Print Assumptions c18_nullable_columns.

Example c18_case :
  from_type TDate [] = Ok (CDate [] []) /\ reads_as (CDate [] []) (value_default TDate) <> None /\
  Forall2 (optional_cell (CDate [] [])) [None; Some (VDate 17); None]
    [VNull TDate; VSome (VDate 17); VNull TDate].
Proof.
  split; [reflexivity|]. split; [discriminate|]. repeat constructor. exists (VDate 17). split; reflexivity.
Qed.

(** C20. Fixed-length strings: every row is the first [n] bytes of the string appended, padded
    with zero bytes. *)
Theorem c20_fixed_strings n bs : n <> 0%N -> (lenN bs < 2 ^ 64)%N ->
  exists c, push_each push (CFixed n []) (map VString bs) = Ok c /\
    holds c (map (fun b => VString (pad_or_cut (N.to_nat n) b)) bs).
Proof.
  intros Hn Hb.
  destruct (append_then_read (TFixedString n) [] (CFixed n []) (map VString bs)
              (map (fun b => VString (pad_or_cut (N.to_nat n) b)) bs) eq_refl Hn) as (c & E & Hc & _).
  - clear. induction bs as [|b bs IH]; [reflexivity|]. cbn [map mapO reads_as].
    cbn [reads_as] in IH. rewrite IH. reflexivity.
  - replace (weights (map VString bs)) with (lenN bs); [exact Hb|].
    clear. unfold lenN. induction bs as [|b bs IH]; [reflexivity|]. cbn [map length weights fold_right weight].
    fold (weights (map VString bs)). rewrite <- IH. lia.
  - exists c. auto.
Qed.
Print Assumptions c20_fixed_strings.

Example c20_case :
  map (pad_or_cut 3) [[65]; [65; 66; 67; 68]; []]%N = [[65; 0; 0]; [65; 66; 67]; [0; 0; 0]]%N.
Proof. reflexivity. Qed.

(** C49. Map columns keyed by strings or integers: row [i] has exactly the entries of the
    [i]-th map. What is missing: maps keyed by dates, booleans, UUIDs, addresses, enums and
    fixed-point numbers, see below; the wire round trip is in PropBlock.v. *)
Theorem c49_map_columns_partial tk tv tz ks vs kvss wss :
  from_type tk tz = Ok ks -> from_type tv tz = Ok vs -> no_empty_rows tk -> no_empty_rows tv ->
  mapO (mapO (fun kv => match reads_as ks (fst kv), reads_as vs (snd kv) with
                        | Some k, Some v => Some (k, v) | _, _ => None end)) kvss = Some wss ->
  Forall (fun ws => distinct_keys (map fst ws) = true) wss ->
  (weights (map (VMap tk tv) kvss) < 2 ^ 64)%N ->
  exists c, push_each push (CMap ks vs []) (map (VMap tk tv) kvss) = Ok c /\
    holds c (map (VMap (ctype ks) (ctype vs)) wss).
Proof.
  intros Hk Hv Nk Nv Hr Hd Hb.
  destruct (append_then_read (TMap tk tv) tz (CMap ks vs []) (map (VMap tk tv) kvss)
             (map (VMap (ctype ks) (ctype vs)) wss)) as (c & E & Hc & _).
  - cbn [from_type]. rewrite Hk. cbn [rbind]. rewrite Hv. reflexivity.
  - split; assumption.
  - clear -Hr Hd. revert wss Hr Hd. induction kvss as [|kvs kvss IH]; intros wss Hr Hd; cbn [mapO map] in *.
    + injection Hr as <-. reflexivity.
    + match type of Hr with match ?m with _ => _ end = _ => destruct m as [ws|] eqn:Ew; [|discriminate Hr] end.
      match type of Hr with match ?m with _ => _ end = _ => destruct m as [wss'|] eqn:Ews; [|discriminate Hr] end.
      injection Hr as <-. inversion_clear Hd as [|? ? D1 D2]. 
      rewrite (IH wss' eq_refl D2). cbn [reads_as]. rewrite Ew, D1. reflexivity.
  - exact Hb.
  - exists c. auto.
Qed.
Print Assumptions c49_map_columns_partial.

Example c49_case :
  mapO (mapO (fun kv => match reads_as (CString []) (fst kv), reads_as (CVec I32 []) (snd kv) with
                        | Some k, Some v => Some (k, v) | _, _ => None end))
    [[(str [97]%N, VNum I32 (-1)); (str [98]%N, VNum I32 2)]; []] =
    Some [[(str [97]%N, VNum I32 (-1)); (str [98]%N, VNum I32 2)]; []] /\
  distinct_keys [str [97]%N; str [98]%N] = true.
Proof. split; reflexivity. Qed.

(** The code cannot read back a map keyed by dates (a key type ClickHouse allows): reading
    the row panics. The same holds for booleans, UUIDs, addresses and enums. *)
Theorem c49_other_keys_refuted :
  Forall (fun k => exists c c', from_type (TMap (type_of_value k) (TNum U8)) [] = Ok c /\
            push c (VMap (type_of_value k) (TNum U8) [(k, VNum U8 1)]) = Ok c' /\
            at_ c' 0 = Panic PUnimplemented)
    [VDate 18000; VNum SBool 1; VUuid (repeat 7%N 16); VIpv4 [1; 0; 0; 127]%N;
     VIpv6 (repeat 0%N 16); VEnum8 [([97]%N, 1%Z)] 1; VEnum16 [([97]%N, 1%Z)] 1;
     VDateTime 1000 []].
Proof.
  repeat (apply Forall_cons;
    [do 2 eexists; split; [reflexivity|split; [vm_compute; reflexivity|vm_compute; reflexivity]]|]).
  constructor.
Qed.
Print Assumptions c49_other_keys_refuted.

(** C19. Low-cardinality columns over integers, strings, fixed strings, dates and times: row
    [i] reads as the [i]-th value, for any number of rows and of distinct values; the
    dictionary has one entry per distinct value appended. *)
Theorem c19_low_cardinality_partial t tz inner vs ws :
  from_type t tz = Ok inner -> no_empty_rows t ->
  Forall2 (fun v w => low_key inner v = true /\ reads_as inner v = Some w) vs ws ->
  (lenN vs < 2 ^ 64)%N ->
  exists inner' ix idx vmap ds es,
    push_each push (CLow inner X8 [] None) vs = Ok (CLow inner' ix idx vmap) /\
    holds (CLow inner' ix idx vmap) ws /\
    NoDup ds /\ (forall d, In d ds <-> In d vs) /\
    Forall2 (fun d e => reads_as inner d = Some e) ds es /\ holds inner' es.
Proof.
  intros H Hn Hr Hb.
  assert (from_type (TLowCardinality t) tz = Ok (CLow inner X8 [] None)) as Hf by (cbn; rewrite H; reflexivity).
  destruct (from_type_wf (TLowCardinality t) tz _ Hf Hn) as (W & _ & R).
  destruct (from_type_wf t tz _ H Hn) as (_ & L & _).
  assert (Hm : mapO (reads_as (CLow inner X8 [] None)) vs = Some ws).
  { clear -Hr. induction Hr as [|v w vs ws [H1 H2] _ IH]; [reflexivity|]. cbn [mapO]. rewrite IH.
    cbn [reads_as]. rewrite H1, H2. reflexivity. }
  assert (Hwt : weights vs = lenN vs).
  { clear -Hr. unfold lenN. induction Hr as [|v w vs ws [H1 H2] _ IH]; [reflexivity|].
    cbn [weights fold_right length]. fold (weights vs). rewrite IH, (low_weight _ _ H1). lia. }
  rewrite <- Hwt in Hb.
  destruct (push_all _ vs ws W Hm) as (c' & E & S); [rewrite R; exact Hb|].
  destruct (dict_all vs (CLow inner X8 [] None) [] [] ws W) as (c1 & ds & E1 & D); auto.
  - exists inner, X8, [], None, []. split; [reflexivity|]. split.
    { clear -H. intros s s' z z' H1 H2. destruct inner; try discriminate H1.
      - exfalso. destruct t; try discriminate H; cbn [from_type] in H;
          try (destruct d; discriminate H); repeat (inv_do H); discriminate H.
      - cbn in H1, H2. unfold bytes_eqb in *. destruct (bytes_eq_dec z tz0); [|discriminate H1].
        destruct (bytes_eq_dec z' tz0); [|discriminate H2]. congruence. }
    split; [auto|]. split; [constructor|]. split; [reflexivity|]. split; [constructor|]. split; [reflexivity|].
    apply holds_empty, L.
  - rewrite R. exact Hb.
  - rewrite E in E1. injection E1 as <-.
    destruct D as (i & ix & idx & vmap & es & -> & _ & _ & D1 & D2 & _ & D3 & D4).
    exists i, ix, idx, vmap, ds, es. split; [exact E|].
    split; [apply (step_holds _ _ _ _ [] S); apply holds_empty; reflexivity|].
    split; [exact D1|]. split; [exact D2|]. split; [|exact D4].
    assert (forall x, In x ds -> reads_as i x = reads_as inner x) as Hx.
    { intros x Hx. apply D2 in Hx. cbn [app] in Hx. pose proof (st_reads _ _ _ _ S x) as Q. cbn [reads_as] in Q.
      assert (low_key inner x = true /\ reads_as inner x <> None) as [K1 K2].
      { clear -Hr Hx. induction Hr as [|v w vs ws [H1 H2] _ IH]; [destruct Hx|].
        destruct Hx as [<-|Hx]; [split; [exact H1|congruence]|auto]. }
      rewrite K1 in Q. destruct (low_key i x); [exact Q|congruence]. }
    clear -D3 Hx. revert es D3. induction ds as [|d ds IH]; intros es D3; cbn [mapO] in D3.
    + injection D3 as <-. constructor.
    + destruct (reads_as i d) as [e|] eqn:Ed; [|discriminate D3].
      destruct (mapO (reads_as i) ds) as [es'|] eqn:Eds; [|discriminate D3]. injection D3 as <-.
      constructor; [rewrite <- Hx by (left; reflexivity); exact Ed|].
      apply IH; [|reflexivity]. intros x Hin. apply Hx. right. exact Hin.
Qed.
Print Assumptions c19_low_cardinality_partial.

(** A case across the first switch of the index width: 300 rows, 290 distinct values. *)
Definition c19_values : list value :=
  map (fun n => VNum U16 (Z.of_nat (1000 + n mod 290))) (seq 0 300).
Example c19_case : exists inner idx vmap,
  Forall2 (fun v w => low_key (CVec U16 []) v = true /\ reads_as (CVec U16 []) v = Some w) c19_values c19_values /\
  push_each push (CLow (CVec U16 []) X8 [] None) c19_values = Ok (CLow inner X16 idx vmap) /\
  clen inner = Ok 290.
Proof.
  do 3 eexists. split.
  - unfold c19_values. generalize (seq 0 300). intros l. induction l as [|x l IH]; [constructor|].
    cbn [map]. constructor; [split; reflexivity|exact IH].
  - split; [vm_compute; reflexivity|vm_compute; reflexivity].
Qed.

(** Missing from C19: a low-cardinality column of a nullable type, and times with sub-second
    information. The code cannot append to those: it panics. *)
Theorem c19_nullable_refuted :
  (exists c, from_type (TLowCardinality (TNullable TString)) [] = Ok c /\
     push c (VSome (VString [97]%N)) = Panic PUnimplemented /\
     push c (VNull TString) = Panic PUnimplemented) /\
  (exists c, from_type (TLowCardinality (TDateTime DateTime32)) [] = Ok c /\
     push c (VChrono 1000 0 []) = Panic PUnimplemented).
Proof. split; eexists; repeat split; vm_compute; reflexivity. Qed.
Print Assumptions c19_nullable_refuted.
