(** The lengths that typed iterators announce: the rest of src/types/column/iter/mod.rs. *)
From Verif Require Import Base Bytes Types Values Columns FromSql Iter.
Open Scope nat_scope.

(** [usize] subtraction. *)
Definition minus (a b : nat) : res nat := if b <=? a then Ok (a - b) else Panic PArith.

(** [ExactSizeIterator::len] of each iterator: [slice::Iter], iter/mod.rs 236-241 (text), 344-353
    (decimals), 379-385, 408-414 and 439-445 (addresses), 537-549 and 587-592 (dates),
    666-675 ([Option]), 711-716 ([Vec]), 760-768 ([HashMap]). The iterator of an [Option]
    counts the null marks; those of decimals and addresses divide the bytes left by the size
    of an item. *)
Definition ilen (r : itype) : istate r -> res nat :=
  match r with
  | INum _ => fun l => Ok (length l)
  | IBytes => fun t => minus (ti_size t) (ti_index t)
  | IDecimal => fun d => Ok (length (de_rest d))
  | IDateTime | INaive | IDate => fun d => minus (da_len d) (da_index d)
  | IIpv4 => fun b => Ok (length b / 4)
  | IIpv6 | IUuid => fun b => Ok (length b / 16)
  | IOption _ => fun s => Ok (length (snd s))
  | IVec _ => fun s => minus (ro_size (snd s)) (ro_index (snd s))
  | IMap _ _ => fun s => minus (ro_size (snd s)) (ro_index (snd s))
  end.

(** [Iterator::size_hint]: iter/mod.rs 99-103, 281-285, 564-568, 604-608, 641-645, 696-700,
    745-749 and 802-806. *)
Definition isize_hint (r : itype) (it : istate r) : res (nat * option nat) :=
  do n <- ilen r it; Ok (n, Some n).

(** [Iterator::count]: iter/mod.rs 105-108, 287-290, 570-573, 610-613, 647-650, 702-705, 751-754
    and 808-811. It does not go through the items. *)
Definition icount (r : itype) (it : istate r) : res nat := ilen r it.
