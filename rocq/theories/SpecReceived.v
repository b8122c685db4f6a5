(** What a well-behaved server sends in a block, and how a column grows. *)
From Verif Require Import Base Bytes Reader Wire Types Decimal Values Columns Block SpecColumns.
Open Scope nat_scope.

(** What LowCardinality is used with here: whole numbers, strings, dates and times. *)
Definition keyed (c : col) : Prop :=
  match c with
  | CVec s _ => is_int s = true
  | CString _ | CFixed _ _ | CDate _ _ | CDateTime _ _ => True
  | _ => False
  end.

(** A column of [rows] rows that a well-behaved server sends. Booleans are 0 or 1, fixed
    strings are not empty, the storage of a decimal is that of its precision, offsets climb.
    A LowCardinality column has as many indices as it has rows, each within the dictionary,
    and its dictionary has at most one entry more than it has rows (servers put the default
    value first, used or not) and than its indices can number. *)
Fixpoint orderly (rows : N) (c : col) : Prop :=
  match c with
  | CVec s l => s = SBool -> Forall (fun z => scalar_ok SBool z = true) l
  | CFixed n _ => n <> 0%N
  | CDecimal _ p _ nb => from_precision p = Some nb
  | CNullable i _ | CAgg _ i => orderly rows i
  | CArray i offs => climbs 0 offs /\ orderly (last offs 0%N) i
  | CMap k v offs => climbs 0 offs /\ orderly (last offs 0%N) k /\ orderly (last offs 0%N) v
  | CLow i ix idx _ =>
      lenN idx = rows /\ keyed i /\
      exists n, clen i = Ok n /\ orderly (N.of_nat n) i /\ Forall (fun j => N.to_nat j < n) idx /\
        (N.of_nat n <= rows + 1)%N /\ (N.of_nat n <= ix_max ix + 1)%N
  | _ => True
  end.

(** [c'] has the rows of [c], unchanged, and after them the cells [ws]. *)
Definition grown (c : col) (ws : list value) (c' : col) : Prop :=
  exists n, clen c = Ok n /\ clen c' = Ok (n + length ws) /\
    (forall i, i < n -> at_ c' i = at_ c i) /\
    (forall j w, nth_error ws j = Some w -> at_ c' (n + j) = Ok w).

(** The values that fields give to the column named [k], in their order. *)
Definition given (k : bytes) (fs : list (bytes * value)) : list value :=
  map snd (filter (fun f => bytes_eqb (fst f) k) fs).

(** How many single cells values are made of. *)
Definition cells_in (fs : list (bytes * value)) : N :=
  fold_right (fun f n => (weight (snd f) + n)%N) 0%N fs.

(** No DateTime64 inside. *)
Fixpoint no_time64 (t : sqltype) : Prop :=
  match t with
  | TDateTime (DateTime64 _ _) => False
  | TNullable i | TArray i | TLowCardinality i | TAgg _ i => no_time64 i
  | TMap k v => no_time64 k /\ no_time64 v
  | _ => True
  end.

(** The number of rows that a block's bytes announce, after its header and its number of columns. *)
Definition announces (s : bytes) (rows : N) : Prop :=
  exists r, run (let! _ := read_info in let! _ := read_uvarint in read_uvarint) s = Ok (rows, r).
