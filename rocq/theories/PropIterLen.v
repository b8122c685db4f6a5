(** Property C75: the lengths that typed iterators announce. *)
From Verif Require Import Base Bytes Types TypeNames Values Columns SpecColumns PushProofs FromSql Iter SpecIter
  IterLen IterProofs IterMoreProofs PropIter.
Open Scope nat_scope.

(** [from offset r c it]: [it] is what is left of an iterator of the column [c] after some calls
    of [next] and [nth]. *)
Inductive from (offset : bytes -> Z -> Z) (r : itype) (c : col) : istate r -> Prop :=
| FromStart it : iter r c = Ok it -> from offset r c it
| FromNext it o it' : from offset r c it -> next offset r it = Ok (o, it') -> from offset r c it'
| FromNth n it o it' : from offset r c it -> nth offset r n it = Ok (o, it') -> from offset r c it'.

(** What all three methods should say of an iterator that has [n] items left. *)
Definition announces (r : itype) (it : istate r) (n : nat) : Prop :=
  ilen r it = Ok n /\ isize_hint r it = Ok (n, Some n) /\ icount r it = Ok n.

Definition optional (r : itype) : bool := match r with IOption _ => true | _ => false end.

Lemma announces_len r it n : ilen r it = Ok n -> announces r it n.
Proof. intro H. unfold announces, isize_hint, icount. rewrite H. auto. Qed.

(** Iterators of rows have not passed the end either. *)
Definition inside_rows (r : itype) : istate r -> Prop :=
  match r with
  | IVec _ => fun s => ro_index (snd s) <= ro_size (snd s)
  | IMap _ _ => fun s => ro_index (snd s) <= ro_size (snd s)
  | _ => fun _ => True
  end.

Lemma next_inside_rows offset r it o it' : inside_rows r it -> next offset r it = Ok (o, it') -> inside_rows r it'.
Proof.
  destruct r; intros I H; try exact Logic.I; cbn [inside_rows next] in *.
  - destruct (Nat.eqb_spec (ro_index (snd it)) (ro_size (snd it))); [inversion H; subst; exact I|].
    inv_do H. inv_do H. inversion H; subst. cbn. lia.
  - destruct (Nat.eqb_spec (ro_index (snd it)) (ro_size (snd it))); [inversion H; subst; exact I|].
    inv_do H. inv_do H. inversion H; subst. cbn. lia.
Qed.
Lemma nth_inside_rows offset r n : forall it o it', inside_rows r it -> nth offset r n it = Ok (o, it') -> inside_rows r it'.
Proof.
  destruct r; intros it o it' I H; try exact Logic.I; cbn [nth] in H.
  - revert it o it' I H. induction n as [|n IH]; intros it o it' I H; cbn [nth_default] in H.
    + apply (next_inside_rows offset (IVec r) it o it' I H).
    + inv_do H. destruct x as [y s]. apply next_inside_rows in E; [|exact I].
      destruct y; cbn [fst snd] in H; [exact (IH _ _ _ E H)|inversion H; subst; exact E].
  - revert it o it' I H. induction n as [|n IH]; intros it o it' I H; cbn [nth_default] in H.
    + apply (next_inside_rows offset (IMap r1 r2) it o it' I H).
    + inv_do H. destruct x as [y s]. apply next_inside_rows in E; [|exact I].
      destruct y; cbn [fst snd] in H; [exact (IH _ _ _ E H)|inversion H; subst; exact E].
Qed.
Lemma iter_inside_rows r c it : iter r c = Ok it -> inside_rows r it.
Proof.
  unfold iter. destruct r; intro H; try exact I; cbn [inside_rows]; cbn [iter_with_props] in H;
    destruct (ctype c); try discriminate H.
  - inv_do H. inv_do H. destruct x0; try discriminate H. inversion H; subst. cbn. lia.
  - match type of H with (if ?b then _ else _) = _ => destruct b end; [discriminate H|].
    inv_do H. inv_do H. inv_do H. destruct x1; try discriminate H. inversion H; subst. cbn. lia.
Qed.
Lemma reached_inside_rows offset r it : reached offset r it -> inside_rows r it.
Proof.
  induction 1.
  - eapply iter_inside_rows; eassumption.
  - eapply next_inside_rows; eassumption.
  - eapply nth_inside_rows; eassumption.
Qed.

Lemma minus_S a b n : minus a (S b) = Ok n -> minus a b = Ok (S n).
Proof.
  unfold minus. destruct (Nat.leb_spec (S b) a); [|discriminate]. intro H0. inversion H0.
  destruct (Nat.leb_spec b a); [|lia]. f_equal. lia.
Qed.
Lemma minus_self a : minus a a = Ok 0.
Proof. unfold minus. rewrite Nat.leb_refl, Nat.sub_diag. reflexivity. Qed.

Lemma addr_next_len k f b x b' : 0 < k -> addr_next k f b = Ok (Some x, b') -> length b / k = S (length b' / k).
Proof.
  intros K H. unfold addr_next in H. destruct b as [|y b]; [discriminate H|]. inv_do H. inversion H; subst.
  unfold Base.slice in E. cbn [Nat.leb andb] in E.
  destruct (Nat.leb_spec k (length (y :: b))); [|discriminate E].
  rewrite skipn_length. replace (length (y :: b)) with ((length (y :: b) - k) + 1 * k) at 1 by lia.
  rewrite Nat.div_add by lia. lia.
Qed.

(** Every item given is counted off. *)
Lemma next_len offset r it x it' n : next offset r it = Ok (Some x, it') -> ilen r it' = Ok n -> ilen r it = Ok (S n).
Proof.
  destruct r; cbn [next ilen]; intros H L.
  - destruct it; inversion H; subst. cbn in *. congruence.
  - destruct it as [src i m]. unfold text_next in H. cbn [ti_src ti_index ti_size] in *. destruct src.
    + destruct (i =? m); [discriminate H|]. inv_do H. inversion H; subst. apply minus_S. exact L.
    + destruct (m <=? i); [discriminate H|]. inv_do H. inversion H; subst. apply minus_S. exact L.
    + destruct (m <=? i); [discriminate H|]. inv_do H. inv_do H. inversion H; subst. apply minus_S. exact L.
  - destruct it as [l p s nb]. unfold dec_next in H. cbn [de_rest] in *. destruct l; inversion H; subst. cbn in *. congruence.
  - unfold date_next in H. destruct (_ =? _); [discriminate H|]. inv_do H. inv_do H. inversion H; subst. apply minus_S. exact L.
  - unfold date_next in H. destruct (_ =? _); [discriminate H|]. inv_do H. inv_do H. inversion H; subst. apply minus_S. exact L.
  - unfold date_next in H. destruct (_ =? _); [discriminate H|]. inv_do H. inv_do H. inversion H; subst. apply minus_S. exact L.
  - rewrite (addr_next_len 4 _ _ _ _ ltac:(lia) H). inversion L. reflexivity.
  - rewrite (addr_next_len 16 _ _ _ _ ltac:(lia) H). inversion L. reflexivity.
  - rewrite (addr_next_len 16 _ _ _ _ ltac:(lia) H). inversion L. reflexivity.
  - destruct (snd it); [discriminate H|]. inv_do H. destruct (fst x0); inversion H; subst. cbn in *. congruence.
  - destruct (_ =? _); [discriminate H|]. inv_do H. inv_do H. inversion H; subst. apply minus_S. exact L.
  - destruct (_ =? _); [discriminate H|]. inv_do H. inv_do H. inversion H; subst. apply minus_S. exact L.
Qed.

(** Iterators other than those of an [Option] end where they announce it. *)
Lemma end_len offset r it it' : optional r = false -> inside r it -> next offset r it = Ok (None, it') -> ilen r it = Ok 0.
Proof.
  destruct r; cbn [next ilen optional inside]; intros O I H; try discriminate O.
  - destruct it; [reflexivity|discriminate H].
  - destruct it as [src i m]. unfold text_next in H. cbn [ti_src ti_index ti_size] in *. destruct src.
    + destruct (Nat.eqb_spec i m) as [->|]; [apply minus_self|]. inv_do H. discriminate H.
    + destruct (Nat.leb_spec m i); [replace i with m by lia; apply minus_self|]. inv_do H. discriminate H.
    + destruct (Nat.leb_spec m i); [replace i with m by lia; apply minus_self|]. inv_do H. inv_do H. discriminate H.
  - destruct it as [l p s nb]. unfold dec_next in H. cbn [de_rest] in *. destruct l; [reflexivity|discriminate H].
  - unfold date_next in H. destruct (Nat.eqb_spec (da_index it) (da_len it)) as [->|]; [apply minus_self|]. inv_do H. inv_do H. discriminate H.
  - unfold date_next in H. destruct (Nat.eqb_spec (da_index it) (da_len it)) as [->|]; [apply minus_self|]. inv_do H. inv_do H. discriminate H.
  - unfold date_next in H. destruct (Nat.eqb_spec (da_index it) (da_len it)) as [->|]; [apply minus_self|]. inv_do H. inv_do H. discriminate H.
  - unfold addr_next in H. destruct it; [reflexivity|]. inv_do H. discriminate H.
  - unfold addr_next in H. destruct it; [reflexivity|]. inv_do H. discriminate H.
  - unfold addr_next in H. destruct it; [reflexivity|]. inv_do H. discriminate H.
  - destruct (Nat.eqb_spec (ro_index (snd it)) (ro_size (snd it))) as [->|]; [apply minus_self|]. inv_do H. inv_do H. discriminate H.
  - destruct (Nat.eqb_spec (ro_index (snd it)) (ro_size (snd it))) as [->|]; [apply minus_self|]. inv_do H. inv_do H. discriminate H.
Qed.

(** C75 for every iterator but those of an [Option], of any column, well-formed or not, and after
    any calls of [next] and [nth]: if it will give the items [xs] and no more, then its [len],
    [size_hint] and [count] say so. *)
Theorem c75_exact : forall offset r it xs, optional r = false -> reached offset r it ->
  yields (next offset r) it xs -> announces r it (length xs).
Proof.
  intros offset r it xs O R Y. apply announces_len. revert it R Y.
  induction xs as [|x xs IH]; intros it R Y; cbn [yields length] in Y |- *.
  - destruct Y as [it' N]. apply (end_len offset r it it' O (reached_inside offset r it R) N).
  - destruct Y as (it' & N & Y). apply (next_len offset r it x it' _ N).
    apply IH; [|exact Y]. exact (RcNext offset r it _ it' R N).
Qed.
Print Assumptions c75_exact.

Lemma from_reached offset r c it : from offset r c it -> reached offset r it.
Proof. induction 1; [eapply RcStart|eapply RcNext|eapply RcNth]; eassumption. Qed.

Lemma yields_fun {S} (step : S -> res (option rval * S)) xs : forall ys s, yields step s xs -> yields step s ys -> xs = ys.
Proof.
  induction xs as [|x xs IH]; intros [|y ys] s; cbn [yields]; intros A B; [reflexivity| | |].
  - destruct A as [? A]. destruct B as (? & B & _). congruence.
  - destruct B as [? B]. destruct A as (? & A & _). congruence.
  - destruct A as (a & A & Ya). destruct B as (b & B & Yb). rewrite A in B. inversion B; subst.
    f_equal. apply (IH ys b Ya Yb).
Qed.

Lemma option_nth_len offset t n : forall it xs, yields (next offset (IOption t)) it xs -> length (snd it) = length xs ->
  forall o it', nth offset (IOption t) n it = Ok (o, it') ->
  exists ys, yields (next offset (IOption t)) it' ys /\ length (snd it') = length ys.
Proof.
  cbn [nth]. induction n as [|n IH]; intros it xs Y L o it' H; cbn [nth_default] in H.
  - destruct xs as [|x xs]; cbn [yields length] in Y, L.
    + destruct Y as [s N]. rewrite N in H. inversion H; subst. exists []. split.
      * exists it'. apply (fused offset (IOption t) it it' N).
      * cbn [next] in N. destruct (snd it) eqn:E; [|discriminate L]. inversion N; subst. rewrite E. reflexivity.
    + destruct Y as (s & N & Y). rewrite N in H. inversion H; subst. exists xs. split; [exact Y|].
      pose proof (next_len offset (IOption t) it x it' _ N eq_refl) as E. cbn [ilen] in E. inversion E. lia.
  - destruct xs as [|x xs]; cbn [yields length] in Y, L.
    + destruct Y as [s N]. rewrite N in H. cbn [rbind fst] in H. inversion H; subst. exists []. split.
      * exists it'. apply (fused offset (IOption t) it it' N).
      * cbn [next] in N. destruct (snd it) eqn:E; [|discriminate L]. inversion N; subst. rewrite E. reflexivity.
    + destruct Y as (s & N & Y). rewrite N in H. cbn [rbind fst snd] in H.
      apply (IH s xs Y) with (o := o); [|exact H].
      pose proof (next_len offset (IOption t) it x s _ N eq_refl) as E. cbn [ilen] in E. inversion E. lia.
Qed.

(** C75 for the iterators of well-formed columns, with an [Option] or without: at the start they
    announce the rows of the column, and at every moment as many items as they still give. *)
Theorem c75_columns_partial : forall offset r c, regular (ctype c) -> tidy c -> clocks offset r c ->
  walks r (ctype c) ->
  (forall it, iter r c = Ok it -> exists n, clen c = Ok n /\ announces r it n) /\
  (forall it, from offset r c it -> exists xs, yields (next offset r) it xs /\ announces r it (length xs)).
Proof.
  intros offset r c R T C W.
  assert (S : forall it, iter r c = Ok it ->
            exists xs, clen c = Ok (length xs) /\ yields (next offset r) it xs /\ announces r it (length xs)).
  { intros it H. destruct (c47_items_partial offset r c it R T C W H) as (xs & L & Y & _).
    exists xs. split; [exact L|]. split; [exact Y|]. destruct (optional r) eqn:O.
    - destruct r; try discriminate O. apply announces_len. cbn [ilen]. f_equal.
      unfold iter in H. cbn [iter_with_props] in H. destruct (ctype c) as [| | | | | | | | | | | | | | |] eqn:E; try discriminate H.
      inv_do H. inv_do H. destruct x0 as [| | | | | |nulls| |] eqn:Ew; try discriminate H. inversion H; subst it. cbn [snd].
      assert (G : get_internal c 2 (level (ctype c)) 0 = Ok (WNulls nulls)) by (rewrite E; exact E1).
      destruct c; cbn [ctype] in E; try discriminate E; cbn [get_internal] in G;
        try (destruct (level _); cbn in G; discriminate G); try discriminate G.
      all: try (repeat match type of G with context [if ?b then _ else _] => destruct b eqn:? end; try discriminate G).
      all: try (destruct T as (_ & T & _)).
      all: try (cbn [clen] in *; inv_do G; inversion G; subst; congruence).
      all: try contradiction T.
      all: try (destruct k; discriminate E).
      all: try (rewrite Nat.eqb_refl in Heqb; discriminate Heqb).
      all: cbn [clen] in L, G; rewrite T in L, G; cbn [rbind] in L, G; rewrite Nat.eqb_refl in L, G; cbn [rbind] in G;
        inversion G; inversion L; subst; reflexivity.
    - apply (c75_exact offset r it xs O); [exact (RcStart offset r c it H)|exact Y]. }
  split.
  - intros it H. destruct (S it H) as (xs & L & _ & A). eauto.
  - intros it F.
    assert (G : exists xs, yields (next offset r) it xs /\ ilen r it = Ok (length xs)).
    { induction F as [it H|it o it' F IH H|n it o it' F IH H].
      - destruct (S it H) as (xs & _ & Y & A & _). eauto.
      - destruct IH as (xs & Y & L). destruct xs as [|x xs]; cbn [yields length] in Y, L.
        + destruct Y as [s N]. rewrite N in H. inversion H; subst.
          pose proof (fused offset r it it' N) as N'. exists []. split; [exists it'; exact N'|].
          destruct (optional r) eqn:O.
          * destruct r; try discriminate O. cbn [ilen next] in *. destruct (snd it) eqn:E; [|discriminate L].
            inversion N; subst. rewrite E. reflexivity.
          * apply (end_len offset r it' it' O); [|exact N'].
            apply reached_inside with (offset := offset). exact (RcNext _ _ _ _ _ (from_reached _ _ _ _ F) N).
        + destruct Y as (s & N & Y). rewrite N in H. inversion H; subst. exists xs. split; [exact Y|].
          destruct (optional r) eqn:O.
          * destruct r; try discriminate O. pose proof (next_len offset _ it x it' _ N eq_refl) as E.
            cbn [ilen] in E, L |- *. rewrite L in E. inversion E. reflexivity.
          * refine (proj1 (c75_exact offset r it' xs O _ Y)). exact (RcNext _ _ _ _ _ (from_reached _ _ _ _ F) N).
      - destruct IH as (xs & Y & L). destruct (optional r) eqn:O.
        + destruct r; try discriminate O.
          assert (length (snd it) = length xs) as L' by (cbn [ilen] in L; inversion L; reflexivity).
          destruct (option_nth_len offset r n it xs Y L' o it' H) as (ys & Y' & E). exists ys. split; [exact Y'|].
          cbn [ilen]. rewrite E. reflexivity.
        + destruct (c47_skip_lands offset r n it xs (from_reached _ _ _ _ F) Y) as (s & N & Rs & Ys).
          rewrite N in H. inversion H; subst. exists (skipn (Datatypes.S n) xs). split; [exact Ys|].
          apply (c75_exact offset r it' _ O Rs Ys). }
    destruct G as (xs & Y & L). exists xs. split; [exact Y|]. apply announces_len. exact L.
Qed.
Print Assumptions c75_columns_partial.

(** An iterator of {"a": [Some 1, None], "b": []}, {} after one item, and one of Some 1, None. *)
Example c75_case :
  (exists it it', iter nested_type nested = Ok it /\ announces nested_type it 2 /\
     (exists x, next hours nested_type it = Ok (Some x, it')) /\ announces nested_type it' 1) /\
  (exists it, from hours (IOption (INum U16)) (CNullable (CVec U16 [1; 0]%Z) [0; 1]%N) it /\
     announces (IOption (INum U16)) it 1).
Proof.
  split.
  - eexists. eexists. split; [reflexivity|]. split; [repeat split|]. split; [eexists; reflexivity|]. repeat split.
  - eexists. split.
    + eapply FromNext; [eapply FromStart; reflexivity|]. reflexivity.
    + repeat split.
Qed.

(** C75 is false of the code for an [Option] of addresses: the types of addresses are not checked
    (C54), so a nullable column of four IPv4 addresses can be gone through as UUIDs. The
    iterator announces four items, counts four, and gives one. *)
Definition four : col := CNullable (CIp IpV4 [1; 2; 3; 4; 5; 6; 7; 8; 9; 10; 11; 12; 13; 14; 15; 16]%N) [0; 0; 0; 0]%N.
Theorem c75_options_refuted : regular (ctype four) /\ tidy four /\
  exists it x, iter (IOption IUuid) four = Ok it /\ announces (IOption IUuid) it 4 /\
    yields (next hours (IOption IUuid)) it [x].
Proof.
  split; [exact I|]. split; [cbn; repeat split; repeat (constructor; [left; reflexivity|]); constructor|].
  eexists. eexists. split; [reflexivity|]. split; [repeat split|]. eexists. split; [reflexivity|]. eexists. reflexivity.
Qed.
Print Assumptions c75_options_refuted.
