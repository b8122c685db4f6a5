(** C87: every cell of a received block can be read, and is a value of its column's type. *)
From Coq Require Import String.
From Verif Require Import Base Bytes Reader Wire Types Text TypeNames Decimal Values Columns Block.
From Verif Require Import SpecWire SpecColumns SpecReceived SpecReadable ReaderProofs WireProofs BlockProofs ReceivedProofs ReadableProofs PropBlocks.
Open Scope list_scope. Open Scope nat_scope.

Section Readable.
Variable known : bytes -> bool.
Variable tz : bytes.

(** C87 where the server's references are in order: each of the announced rows can be read in
    each column, and what is read is of the column's type. Missing: nothing looks at the references
    when the block is received. *)
Theorem c87_cells_partial s b r rows j x row :
  bytes_ok s -> run (raw_load known tz) s = Ok (b, r) -> announces s rows ->
  nth_error (b_cols b) j = Some x -> in_order rows (snd x) -> (N.of_nat row < rows)%N ->
  exists v, get_cell b row (ByPos j) = Ok v /\ belongs (ctype (snd x)) v.
Proof.
  intros B H (s' & A) J O L.
  destruct (block_all known tz loaded_as (fun name rows s c r H B => load_reads known tz _ name rows s c r H B) s b r H B) as (rows' & s'' & A' & F).
  rewrite A in A'. injection A' as <- <-.
  pose proof (proj1 (Forall_forall _ _) F x (nth_error_In _ _ J)) as [_ R].
  unfold get_cell, get_column, get_index, index. cbn [rbind]. rewrite J. cbn [or_panic rbind]. apply R; [exact O|lia].
Qed.

(** C87 whatever the server sends, for the columns whose types refer to nothing. *)
Theorem c87_self_contained s b r rows j x row :
  bytes_ok s -> run (raw_load known tz) s = Ok (b, r) -> announces s rows ->
  nth_error (b_cols b) j = Some x -> self_contained (ctype (snd x)) -> (N.of_nat row < rows)%N ->
  exists v, get_cell b row (ByPos j) = Ok v /\ belongs (ctype (snd x)) v.
Proof. intros B H A J S L. eapply c87_cells_partial; try eassumption. apply self_contained_order, S. Qed.
End Readable.
Print Assumptions c87_cells_partial.
Print Assumptions c87_self_contained.

Definition bytes_of (b : block) : bytes := match write_block b with Ok s => s | _ => [] end.

(** A block with a dictionary, an array of nullable times, a map and decimals. *)
Definition mixed : block :=
  mk_block info_default
    [(str "w", CLow (CString [str ""; str "red"; str "blue"]) X8 [2; 1]%N None);
     (str "a", CArray (CNullable (CDateTime [1; 2; 3]%N (str "UTC")) [0; 1; 0]%N) [1; 3]%N);
     (str "m", CMap (CString [str "k"; str "k"]) (CVec SBool [1; 0]%Z) [2; 2]%N);
     (str "d", CDecimal [5; -7]%Z 9 2 N32)].
Example c87_case :
  let s := bytes_of mixed in
  bytes_ok s /\ run (raw_load (fun _ => true) (str "UTC")) s = Ok (mixed, []) /\ announces s 2 /\
  Forall (fun x => in_order 2 (snd x)) (b_cols mixed) /\
  get_cell mixed 0 (ByPos 1) = Ok (VArray (TNullable (TDateTime DateTime32)) [VSome (VDateTime 1 (str "UTC"))]) /\
  get_cell mixed 0 (ByPos 2) = Ok (VMap TString (TNum SBool) [(VString (str "k"), VNum SBool 0)]).
Proof.
  cbv zeta. split; [unfold bytes_ok; vm_compute; repeat constructor|]. split; [vm_compute; reflexivity|]. split; [eexists; vm_compute; reflexivity|].
  split; [|split; vm_compute; reflexivity].
  apply Forall_cons; [|apply Forall_cons; [|apply Forall_cons; [|apply Forall_cons; [|apply Forall_nil]]]]; cbn [snd in_order ctype key_type no_dictionary_inside].
  - split; [reflexivity|]. split; [exact I|]. exists 3. split; [reflexivity|]. split; [exact I|]. repeat constructor; cbn; lia.
  - split; [cbn; lia|exact I].
  - split; [cbn; lia|]. split; [exact I|]. split; [exact I|]. intros _. apply Forall_cons; [auto|]. apply Forall_cons; auto.
  - exact I.
Qed.

(** C87 is false of the code. Each of these blocks is received without complaint; reading the cell
    panics, or gives a boolean that is neither false nor true. The offsets of an array decrease
    or point behind its elements; an index is not in the dictionary; a map is keyed by dates. *)
Definition arrays_back : block := mk_block info_default [(str "a", CArray (CVec U8 [7]%Z) [1; 0; 1]%N)].
Definition arrays_short : block := mk_block info_default [(str "a", CArray (CVec U8 [7]%Z) [2; 1]%N)].
Definition no_word : block := mk_block info_default [(str "w", CLow (CString [str "red"]) X8 [1]%N None)].
Definition dated : block := mk_block info_default [(str "m", CMap (CDate [5]%N []) (CVec U8 [1]%Z) [1]%N)].
Definition odd_bool : block := mk_block info_default [(str "b", CVec SBool [2]%Z)].
Theorem c87_refuted :
  Forall (fun x : block * nat * panic =>
            run (raw_load (fun _ => true) []) (bytes_of (fst (fst x))) = Ok (fst (fst x), []) /\
            get_cell (fst (fst x)) (snd (fst x)) (ByPos 0) = Panic (snd x))
    [(arrays_back, 1, PArith); (arrays_short, 0, PIndex); (no_word, 0, PIndex); (dated, 0, PUnimplemented)] /\
  run (raw_load (fun _ => true) []) (bytes_of odd_bool) = Ok (odd_bool, []) /\
  exists v, get_cell odd_bool 0 (ByPos 0) = Ok v /\ ~ belongs (TNum SBool) v.
Proof.
  split; [repeat (apply Forall_cons; [split; vm_compute; reflexivity|]); apply Forall_nil|].
  split; [vm_compute; reflexivity|]. eexists. split; [vm_compute; reflexivity|]. cbn. intros [_ E]. discriminate E.
Qed.
Print Assumptions c87_refuted.
