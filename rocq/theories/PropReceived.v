(** C80: rows can be added to a block that was received. *)
From Coq Require Import String.
From Verif Require Import Base Bytes Utf8 Reader Wire Types Text TypeNames Decimal DateTime Values Columns Block.
From Verif Require Import SpecWire SpecTypes SpecColumns SpecBlock SpecReceived ReaderProofs WireProofs PushProofs RangeProofs BlockProofs ReceivedProofs PropBlocks.
Open Scope list_scope. Open Scope nat_scope.

Lemma weights_given k fs : (weights (given k fs) <= cells_in fs)%N.
Proof.
  induction fs as [|[k' v] fs IH]; [apply N.le_refl|]. destruct (bytes_eq_dec k' k) as [->|D].
  - rewrite given_same. cbn [weights cells_in fold_right snd]. fold (weights (given k fs)). fold (cells_in fs). lia.
  - rewrite given_other by exact D. cbn [cells_in fold_right snd]. fold (cells_in fs). lia.
Qed.

Section Received.
Variable known : bytes -> bool.
Variable tz : bytes.

(** Whatever rows, in whatever order their fields come, are pushed onto an orderly block that
    was received: the old cells stay and the new ones follow them. *)
Theorem c80_rows_partial s b r rows rs :
  bytes_ok s -> (lenN s < 2 ^ 64)%N -> run (raw_load known tz) s = Ok (b, r) -> announces s rows ->
  NoDup (map fst (b_cols b)) -> Forall (fun x => orderly rows (snd x)) (b_cols b) ->
  Forall (fun f => In (fst f) (map fst (b_cols b))) (List.concat rs) ->
  Forall (fun x => mapO (reads_as (snd x)) (given (fst x) (List.concat rs)) <> None) (b_cols b) ->
  (cells_in (List.concat rs) < 2 ^ 63)%N ->
  exists b', push_rows rs b = Ok b' /\ b_info b' = b_info b /\
    Forall2 (fun x x' => fst x' = fst x /\ ctype (snd x') = ctype (snd x) /\
               exists ws, mapO (reads_as (snd x)) (given (fst x) (List.concat rs)) = Some ws /\ grown (snd x) ws (snd x'))
            (b_cols b) (b_cols b').
Proof.
  intros B L H A ND O F R C. apply block_inv in H as (_ & _ & rows' & s' & A' & G); [|exact B|exact L].
  destruct A as [s'' A]. rewrite A in A'. injection A' as <- <-.
  assert (Forall (takes (List.concat rs)) (b_cols b)) as T.
  { rewrite Forall_forall in *. intros x I. destruct (G x I) as (_ & _ & Q). destruct (Q (O x I)) as (W & _ & LR & _).
    split; [exact W|]. split; [destruct (mapO _ _) as [ws|] eqn:E; [eauto|contradiction (R x I E)]|].
    pose proof (weights_given (fst x) (List.concat rs)). unfold isize_max in LR. lia. }
  destruct b as [info cs]. cbn [b_info b_cols] in *. destruct (push_fields (List.concat rs) info cs ND F T) as (cs' & E & Q).
  exists (mk_block info cs'). rewrite push_rows_concat. split; [exact E|]. split; [reflexivity|]. cbn [b_cols].
  eapply Forall2_imp; [|exact Q]. intros x x' I [X1 X2]. split; [exact X1|].
  destruct (proj1 (Forall_forall _ _) T x I) as (W & (ws & M) & LW).
  destruct (push_all (snd x) _ ws W M LW) as (c' & P & S). rewrite P in X2. injection X2 as X2. rewrite <- X2.
  split; [exact (st_type _ _ _ _ S)|]. exists ws. split; [exact M|]. exact (st_n _ _ _ _ S).
Qed.

(** The larger block can be sent and read: [n] new cells in every column, no DateTime64 (see
    C08), no buffer larger than Rust allows. *)
Theorem c80_sent_partial tz' s b r rows rs n b' :
  bytes_ok s -> (lenN s < 2 ^ 64)%N -> run (raw_load known tz) s = Ok (b, r) -> announces s rows ->
  NoDup (map fst (b_cols b)) -> b_cols b <> [] -> Forall (fun x => orderly rows (snd x)) (b_cols b) ->
  Forall (fun f => In (fst f) (map fst (b_cols b)) /\ proper (snd f)) (List.concat rs) ->
  Forall (fun x => mapO (reads_as (snd x)) (given (fst x) (List.concat rs)) <> None) (b_cols b) ->
  (cells_in (List.concat rs) < 2 ^ 63)%N ->
  Forall (fun x => List.length (given (fst x) (List.concat rs)) = n /\ no_time64 (ctype (snd x)) /\ nameable known (ctype (snd x)) /\
            is_utf8 (type_name (ctype (snd x))) /\ (lenN (type_name (ctype (snd x))) <= isize_max)%N) (b_cols b) ->
  push_rows rs b = Ok b' -> Forall (fun x => fits (snd x)) (b_cols b') -> (rows + N.of_nat n < 2 ^ 64)%N ->
  exists bs b'', write_block b' = Ok bs /\ same_block tz' (N.to_nat rows + n) b' b'' /\
    forall r, run (raw_load known tz') (bs ++ r) = Ok (b'', r).
Proof.
  intros B L H A ND NE O F R C T P FT RN. apply block_inv in H as (BK & LC & rows' & s' & A' & G); [|exact B|exact L].
  destruct A as [s'' A]. rewrite A in A'. injection A' as <- <-.
  assert (Forall (takes (List.concat rs)) (b_cols b)) as TK.
  { rewrite Forall_forall in *. intros x I. destruct (G x I) as (_ & _ & Q). destruct (Q (O x I)) as (W & _ & LR & _).
    split; [exact W|]. split; [destruct (mapO _ _) as [ws|] eqn:E; [eauto|contradiction (R x I E)]|].
    pose proof (weights_given (fst x) (List.concat rs)). unfold isize_max in LR. lia. }
  destruct b as [info cs]. cbn [b_info b_cols] in *.
  destruct (push_fields (List.concat rs) info cs ND) as (cs' & E & Q); [eapply Forall_impl; [|exact F]; intros f [X _]; exact X|exact TK|].
  rewrite push_rows_concat, E in P. injection P as <-. cbn [b_cols] in *.
  apply c08_blocks_partial; [|cbn [b_cols]; intros ->; destruct cs; [contradiction|inversion Q]].
  split; [exact BK|]. split; [lia|]. cbn [b_cols]. split.
  { replace (lenN cs') with (lenN cs); [exact LC|]. unfold lenN. f_equal. clear -Q. induction Q; cbn; congruence. }
  clear E NE LC ND. revert FT. 
  assert (forall x, In x cs -> Forall proper (given (fst x) (List.concat rs))) as PR.
  { intros x _. unfold given. apply Forall_map. apply Forall_forall. intros f I. apply filter_In in I as [I _]. apply (proj1 (Forall_forall _ _) F f I). }
  clear F. revert O G T TK PR. induction Q as [|x x' cs cs' [X1 X2] Q IH]; intros O G T TK PR FT; [constructor|].
  apply Forall_cons_iff in O as [O1 O], G as [G1 G], T as [T1 T], TK as [K1 K], FT as [F1 FT], R as [R1 R].
  constructor; [|apply IH; auto; intros y I; apply PR; right; exact I].
  destruct G1 as (U & UL & FN). destruct (FN O1) as (W & CL & LR & RG). destruct K1 as (_ & (ws & M) & LW).
  destruct T1 as (LN & N64 & NA & TU & TL).
  destruct (push_all (snd x) _ ws W M LW) as (c' & P & S). rewrite P in X2. injection X2 as X2. rewrite X2 in *.
  pose proof (each_push_ranges _ _ _ P (RG N64) (PR x (or_introl eq_refl))) as RG'.
  pose proof (sound_parts _ (st_wf _ _ _ _ S) RG' F1) as SD.
  destruct (st_n _ _ _ _ S) as (m & M1 & M2 & _). rewrite CL in M1. injection M1 as <-.
  assert (List.length ws = n) as LWs. { rewrite <- LN. clear -M. revert ws M. induction (given _ _) as [|v vs IH]; intros ws M; cbn [mapO] in M.
    - injection M as <-. reflexivity.
    - destruct (reads_as _ v); [|discriminate M]. destruct (mapO _ vs); [|discriminate M]. injection M as <-. cbn. f_equal. apply IH. reflexivity. }
  rewrite LWs in M2. split; [rewrite X1; exact U|]. split; [rewrite X1; exact UL|]. split; [exact SD|]. split; [exact M2|].
  rewrite (st_type _ _ _ _ S). auto.
Qed.
End Received.
Print Assumptions c80_rows_partial.
Print Assumptions c80_sent_partial.

Definition bytes_of (b : block) : bytes := match write_block b with Ok s => s | _ => [] end.

(** Two rows of a word, an array and an optional number, as a server sends them (with the
    empty word first in the dictionary), and two rows pushed onto them. *)
Definition from_server : block :=
  mk_block info_default
    [(str "w", CLow (CString [[]; str "red"; str "blue"]) X8 [2; 1]%N None);
     (str "a", CArray (CVec U8 [1; 2; 3]%Z) [1; 3]%N);
     (str "n", CNullable (CVec I16 [5; 0]%Z) [0; 1]%N)].
Definition two_more : list (list (bytes * value)) :=
  [[(str "n", VNull (TNum I16)); (str "w", VString (str "green")); (str "a", VArray (TNum U8) [])];
   [(str "w", VString (str "red")); (str "a", VArray (TNum U8) [VNum U8 9]); (str "n", VSome (VNum I16 (-1)))]].
Example c80_case :
  let s := bytes_of from_server in
  run (raw_load (fun _ => true) []) s = Ok (from_server, []) /\ announces s 2 /\
  NoDup (map fst (b_cols from_server)) /\ Forall (fun x => orderly 2 (snd x)) (b_cols from_server) /\
  Forall (fun f => In (fst f) (map fst (b_cols from_server)) /\ proper (snd f)) (List.concat two_more) /\
  map (fun x => mapO (reads_as (snd x)) (given (fst x) (List.concat two_more))) (b_cols from_server) =
    [Some [VString (str "green"); VString (str "red")];
     Some [VArray (TNum U8) []; VArray (TNum U8) [VNum U8 9]];
     Some [VNull (TNum I16); VSome (VNum I16 (-1))]] /\
  exists b', push_rows two_more from_server = Ok b' /\ Forall (fun x => fits (snd x)) (b_cols b') /\
    map (fun x => mapM (at_ (snd x)) [0; 1; 2; 3]) (b_cols b') =
      [Ok [VString (str "blue"); VString (str "red"); VString (str "green"); VString (str "red")];
       Ok [VArray (TNum U8) [VNum U8 1]; VArray (TNum U8) [VNum U8 2; VNum U8 3]; VArray (TNum U8) []; VArray (TNum U8) [VNum U8 9]];
       Ok [VSome (VNum I16 5); VNull (TNum I16); VNull (TNum I16); VSome (VNum I16 (-1))]].
Proof.
  cbv zeta. split; [vm_compute; reflexivity|]. split; [eexists; vm_compute; reflexivity|].
  split; [repeat constructor; cbn; intuition discriminate|]. split; [|split; [|split; [vm_compute; reflexivity|]]].
  - apply Forall_cons; [|apply Forall_cons; [|apply Forall_cons; [|apply Forall_nil]]]; cbn [snd orderly].
    + split; [reflexivity|]. split; [exact I|]. exists 3. split; [reflexivity|]. split; [exact I|]. split; [repeat constructor; cbn; lia|]. split; [cbn; lia|cbn; lia].
    + split; [cbn; lia|discriminate].
    + discriminate.
  - repeat (apply Forall_cons; [split; [cbn; tauto|cbn; auto]|]). apply Forall_nil.
  - eexists. split; [vm_compute; reflexivity|]. split; [|vm_compute; reflexivity].
    repeat constructor; vm_compute; discriminate.
Qed.

(** C80 is false of the code when the dictionary has entries that no row uses: here it is
    full for one-byte indices, the column has one row, and a new word gets number 256, which
    is stored in one byte as 0, another word. Nothing reports it. *)
Definition full : block :=
  mk_block info_default [(str "w", CLow (CVec U16 (map Z.of_nat (seq 0 256))) X8 [1]%N None)].
Theorem c80_refuted :
  let s := bytes_of full in
  run (raw_load (fun _ => true) []) s = Ok (full, []) /\ announces s 1 /\
  reads_as (CLow (CVec U16 (map Z.of_nat (seq 0 256))) X8 [1]%N None) (VNum U16 7000) = Some (VNum U16 7000) /\
  exists b' c', push_rows [[(str "w", VNum U16 7000)]] full = Ok b' /\ b_cols b' = [(str "w", c')] /\
    clen c' = Ok 2 /\ at_ c' 0 = Ok (VNum U16 1) /\ at_ c' 1 = Ok (VNum U16 0).
Proof.
  cbv zeta. split; [vm_compute; reflexivity|]. split; [eexists; vm_compute; reflexivity|]. split; [reflexivity|].
  eexists. eexists. split; [vm_compute; reflexivity|]. split; [reflexivity|]. repeat split; vm_compute; reflexivity.
Qed.
Print Assumptions c80_refuted.
