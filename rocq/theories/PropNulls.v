(** C18: which columns take a NULL. *)
From Coq Require Import Lia.
From Verif Require Import Base Bytes Wire Types Text TypeNames Decimal DateTime Values Columns.
From Verif Require Import SpecColumns PushProofs PropColumns.
Open Scope list_scope. Open Scope nat_scope.

(** Types of which there is a blank to put under a NULL: all but DateTime64 of more than nine digits and dictionaries of what cannot be their entries. *)
Fixpoint has_blank (t : sqltype) : bool :=
  match t with
  | TDateTime (DateTime64 p _) => (p <=? 9)%N
  | TNullable i | TAgg _ i => has_blank i
  | TLowCardinality (TNum s) => is_int s
  | TLowCardinality (TString | TFixedString _ | TDate) => true
  | TLowCardinality _ => false
  | _ => true
  end.

Lemma blank_reads t tz : forall c, from_type t tz = Ok c -> has_blank t = true -> reads_as c (value_default t) <> None.
Proof.
  induction t; intros c F B; cbn [from_type] in F; cbn [value_default].
  all: try (injection F as <-; cbn [reads_as]; try (destruct (scalar_eq_dec s s); congruence); discriminate).
  - destruct d; injection F as <-; cbn [reads_as has_blank] in *; try discriminate. rewrite B. cbn. discriminate.
  - inv_do F. injection F as <-. cbn [reads_as has_blank] in *. specialize (IHt _ E B). destruct (reads_as x (value_default t)); [discriminate|congruence].
  - inv_do F. injection F as <-. cbn [reads_as mapO]. discriminate.
  - inv_do F. injection F as <-. cbn [reads_as]. cbn [has_blank] in B.
    destruct t; try discriminate B; cbn [from_type] in E; injection E as <-; cbn [value_default low_key reads_as]; try discriminate.
    rewrite B. destruct (scalar_eq_dec s s); cbn; congruence.
  - inv_do F. injection F as <-. cbn [reads_as d_scale d_underlying]. rewrite N.eqb_refl. destruct x; discriminate.
  - inv_do F. injection F as <-. cbn [reads_as has_blank] in *. apply IHt; [exact E|exact B].
  - inv_do F. inv_do F. injection F as <-. cbn [reads_as mapO map distinct_keys]. discriminate.
Qed.

(** C18, which columns take a NULL: a new column of Nullable(t) takes the NULL of its type, at any place among other rows, for every type [t] that has a
    blank; each row is NULL exactly when what was appended was. *)
Theorem c18_nulls t tz inner os ws :
  from_type t tz = Ok inner -> no_empty_rows t -> has_blank t = true ->
  Forall2 (optional_cell inner) os ws -> (weights (map (optional t) os) < 2 ^ 64)%N ->
  exists c, push_each push (CNullable inner []) (map (optional t) os) = Ok c /\ holds c ws.
Proof.
  intros F Z B H W. apply (c18_nullable_columns t tz inner t os ws F Z); auto. apply (blank_reads t tz inner F B).
Qed.
Print Assumptions c18_nulls.
Example c18_nulls_case :
  let t := TMap TString (TArray (TLowCardinality (TNullable TString))) in
  let c := CMap (CString []) (CArray (CLow (CNullable (CString []) []) X8 [] None) []) [] in
  from_type t [] = Ok c /\ no_empty_rows t /\ has_blank t = true /\ Forall2 (optional_cell c) [None; None] [VNull t; VNull t].
Proof. split; [reflexivity|]. split; [cbn; auto|]. split; [reflexivity|]. repeat constructor. Qed.

(** The other types have none: the NULL panics. For DateTime64 of more than nine digits, for dictionaries of NULLs, floats and addresses. *)
Theorem c18_no_blank_refuted tz :
  (forall p z, (9 < p)%N -> push (CNullable (CDateTime64 [] p z) []) (VNull (TDateTime (DateTime64 p z))) = Panic PArith) /\
  (forall t inner, from_type t tz = Ok inner -> match t with TNum s => is_int s = false | TNullable (TNum _ | TString) | TIpv4 | TIpv6 | TUuid => True | _ => False end ->
     push (CNullable (CLow inner X8 [] None) []) (VNull (TLowCardinality t)) = Panic PUnimplemented).
Proof.
  split.
  - intros p z P. unfold push. cbn [push_as value_default].
    assert (value_datetime (VDateTime64 0 1 default_tz) = Ok (0%Z, 0%N, default_tz)) as -> by reflexivity. cbn [rbind].
    assert (from_datetime 0 0 p = Panic PArith) as ->; [|reflexivity]. unfold from_datetime, pow_factor. rewrite (proj2 (N.leb_gt _ _) P). reflexivity.
  - intros t inner F H. destruct t; try contradiction; cbn [from_type rbind] in F.
    all: try (injection F as <-; try reflexivity; match goal with s : scalar |- _ => destruct s; try discriminate H; reflexivity end).
    match type of H with match ?u with _ => _ end => destruct u; try contradiction; cbn [from_type rbind] in F; injection F as <-; try reflexivity; match goal with s : scalar |- _ => destruct s; reflexivity end end.
Qed.
Print Assumptions c18_no_blank_refuted.
