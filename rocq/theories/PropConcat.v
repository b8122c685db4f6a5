(** C21: concatenated columns. *)
From Verif Require Import Base Types Bytes Columns ConcatProofs.

(** The sum of the lengths of the first [k] pieces: where piece [k] starts. *)
Fixpoint start_of (ns : list nat) (k : nat) : nat :=
  match k, ns with
  | S k', n :: ns' => n + start_of ns' k'
  | _, _ => 0
  end.

Lemma start_of_sum ns : forall k, start_of ns k = sum (firstn k ns).
Proof.
  induction ns as [|n ns IH]; intros k; destruct k; try reflexivity.
  cbn. rewrite IH. reflexivity.
Qed.

(** C21. If all pieces have a length, concatenating them succeeds when they have one type; the
    length is the sum of the lengths; row [j] of piece [k] is row "start of piece k plus j" of
    the whole; and every row below the total length is one of those. The search always ends:
    no result is [PFuel], the model's own mark for running out of rounds. *)
Theorem c21_concat : forall pieces ns c0 rest, pieces = c0 :: rest ->
  mapM clen pieces = Ok ns -> Forall (fun p => ctype p = ctype c0) pieces ->
  exists c, concat_cols pieces = Ok c /\ ctype c = ctype c0 /\
    clen c = Ok (start_of ns (length ns)) /\
    (forall k p n j, nth_error pieces k = Some p -> nth_error ns k = Some n -> j < n ->
       at_ c (start_of ns k + j) = at_ p j) /\
    (forall i, i < start_of ns (length ns) ->
       exists k n j, nth_error ns k = Some n /\ j < n /\ i = start_of ns k + j).
Proof.
  intros pieces ns c0 rest -> Hn Ht. exists (CConcat c0 rest). split; [|split; [|split; [|split]]].
  - unfold concat_cols.
    assert (F : forallb (fun c => sqltype_eqb (ctype c0) (ctype c)) rest = true).
    { apply forallb_forall. intros x Hx. rewrite Forall_forall in Ht.
      specialize (Ht x (or_intror Hx)). unfold sqltype_eqb.
      destruct (sqltype_eq_dec (ctype c0) (ctype x)); congruence. }
    rewrite F, Hn. reflexivity.
  - reflexivity.
  - rewrite clen_concat, Hn, start_of_sum, firstn_all. reflexivity.
  - intros k p n j Hp Hk Hj. rewrite at_concat. cbn [mapM] in Hn.
    destruct (clen c0) as [n0| |]; try discriminate. cbn [rbind] in Hn |- *.
    destruct (mapM clen rest) as [ns'| |]; try discriminate. cbn [rbind] in Hn |- *.
    injection Hn as <-. cbv zeta.
    assert (L : k < length (n0 :: ns')) by (apply nth_error_Some; rewrite Hk; discriminate).
    rewrite start_of_sum, find_chunk_found; [|exact L|erewrite nth_error_nth by exact Hk; exact Hj].
    cbn [rbind]. rewrite index_build by lia. cbn [rbind].
    destruct (Nat.ltb_spec (sum (firstn k (n0 :: ns')) + j) (sum (firstn k (n0 :: ns')))) as [|_]; [lia|].
    rewrite (pick_at_nth _ _ _ _ Hp). f_equal. lia.
  - intros i Hi. clear - Hi. revert i Hi. induction ns as [|n ns IH]; intros i Hi; cbn in Hi; [lia|].
    destruct (Nat.lt_ge_cases i n) as [L|L].
    + exists 0, n, i. auto.
    + destruct (IH (i - n)) as (k & m & j & A & B & C); [lia|].
      exists (S k), m, j. cbn. repeat split; [exact A|exact B|lia].
Qed.
Print Assumptions c21_concat.

(** Beyond the end no piece but the first is consulted, at the same index: its own bounds
    check decides. *)
Theorem c21_beyond_the_end : forall c0 rest ns i, mapM clen (c0 :: rest) = Ok ns ->
  start_of ns (length ns) <= i -> at_ (CConcat c0 rest) i = at_ c0 i.
Proof.
  intros c0 rest ns i Hn Hi. rewrite at_concat. cbn [mapM] in Hn.
  destruct (clen c0) as [n0| |]; try discriminate. cbn [rbind] in Hn |- *.
  destruct (mapM clen rest) as [ns'| |]; try discriminate. cbn [rbind] in Hn |- *.
  injection Hn as <-. cbv zeta. rewrite start_of_sum, firstn_all in Hi.
  rewrite find_chunk_beyond by exact Hi. cbn [rbind]. rewrite index_build by lia. cbn [rbind firstn].
  unfold sum at 1. cbn [fold_right Nat.ltb Nat.leb pick_at]. unfold sum. cbn [fold_right]. f_equal. lia.
Qed.
Print Assumptions c21_beyond_the_end.

(** Five pieces, two of them empty. *)
Example c21_example :
  let mk l := CVec U8 l in
  let pieces := [mk []; mk [1; 2]; mk []; mk [3]; mk [4; 5]]%Z in
  mapM clen pieces = Ok [0; 2; 0; 1; 2] /\
  exists c, concat_cols pieces = Ok c /\ clen c = Ok 5 /\
    mapM (at_ c) (seq 0 5) = Ok (map (VNum U8) [1; 2; 3; 4; 5]%Z).
Proof. split; [reflexivity|]. eexists. repeat split; vm_compute; reflexivity. Qed.

(** Pieces of different types are refused. *)
Theorem c21_mixed_types : forall c0 rest p, In p rest -> ctype p <> ctype c0 ->
  concat_cols (c0 :: rest) = Panic PExplicit.
Proof.
  intros c0 rest p Hin Hne. unfold concat_cols.
  destruct (forallb (fun c => sqltype_eqb (ctype c0) (ctype c)) rest) eqn:F; [|reflexivity].
  rewrite forallb_forall in F. specialize (F p Hin). unfold sqltype_eqb in F.
  destruct (sqltype_eq_dec (ctype c0) (ctype p)); congruence.
Qed.
Print Assumptions c21_mixed_types.
