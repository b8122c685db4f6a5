(** The memory behind string columns: src/types/column/string_pool.rs. *)
From Verif Require Import Base Bytes Reader Wire.
Open Scope nat_scope.

(** string_pool.rs 5-18: [StringPtr] and [StringPool]. *)
Record sptr := mk_sptr { sp_chunk : nat; sp_shift : nat; sp_len : nat }.
Record spool := mk_spool {
  sl_chunks : list bytes; sl_ptrs : list sptr; sl_position : nat; sl_capacity : nat }.

(** string_pool.rs 54-61: [with_capacity]; the 24-byte pointers are reserved up front. *)
Definition pool_new (capacity : nat) : res spool :=
  if (24 * N.of_nat capacity <=? isize_max)%N then Ok (mk_spool [] [] 0 capacity) else Panic PCapacity.

(** string_pool.rs 72-78: [free_space]. *)
Definition free_space (p : spool) : res nat :=
  match rev (sl_chunks p) with
  | [] => Ok 0
  | c :: _ => if (length c <? sl_position p)%nat then Panic PArith else Ok (length c - sl_position p)
  end.

(** string_pool.rs 3 and 99-104: [reserve]; the product is checked, and a vector above
    isize::MAX bytes is refused. *)
Definition pool_reserve (size : nat) (p : spool) : res spool :=
  if (N.of_nat (sl_capacity p) * 80 <? 2 ^ 64)%N then
    let n := Nat.max (sl_capacity p * 80) size in
    if (N.of_nat n <=? isize_max)%N
    then Ok (mk_spool (sl_chunks p ++ [repeat 0%N n]) (sl_ptrs p) 0 (sl_capacity p))
    else Panic PCapacity
  else Panic PArith.

(** Replacing bytes [pos..pos+len b] of a chunk. *)
Definition overwrite (pos : nat) (b c : bytes) : bytes :=
  firstn pos c ++ b ++ skipn (pos + length b) c.
(** Replacing the last chunk. *)
Definition set_last (c : bytes) (l : list bytes) : list bytes := removelast l ++ [c].

(** string_pool.rs 80-97: [try_allocate], followed by writing [b] into the slice it returns
    (string.rs 188-189, string_pool.rs 46-47, read_ex.rs 102-103). Taking a slice that does not
    fit in the chunk panics. *)
Definition try_put (b : bytes) (p : spool) : res spool :=
  match rev (sl_chunks p) with
  | [] => Panic PUnwrap
  | c :: _ =>
      let pos := sl_position p in
      if (length c <? pos + length b)%nat then Panic PIndex
      else Ok (mk_spool (set_last (overwrite pos b c) (sl_chunks p))
                 (sl_ptrs p ++ [mk_sptr (length (sl_chunks p) - 1) pos (length b)])
                 (pos + length b) (sl_capacity p))
  end.

(** string_pool.rs 63-70: [allocate] and the write of [b]. It calls itself after reserving;
    once is enough, more than that is [PFuel]. *)
Fixpoint pool_put_loop (fuel : nat) (b : bytes) (p : spool) : res spool :=
  match fuel with
  | O => Panic PFuel
  | S fuel' =>
      do f <- free_space p;
      if (f <? length b)%nat || (match sl_chunks p with [] => true | _ => false end)
      then do p' <- pool_reserve (length b) p; pool_put_loop fuel' b p'
      else try_put b p
  end.
Definition pool_put (b : bytes) (p : spool) : res spool := pool_put_loop 2 b p.

Fixpoint pool_put_all (bs : list bytes) (p : spool) : res spool :=
  match bs with
  | [] => Ok p
  | b :: bs' => do p' <- pool_put b p; pool_put_all bs' p'
  end.

(** string_pool.rs 39-51: [From<Vec<T>>]. *)
Definition pool_of (bs : list bytes) : res spool := do p <- pool_new (length bs); pool_put_all bs p.

(** string_pool.rs 119-124: [get_by_pointer], unchecked. Memory outside the chunks is not
    modelled: reading it is [None], undefined behaviour in Rust. *)
Definition get_by_pointer (p : spool) (q : sptr) : option bytes :=
  match nth_error (sl_chunks p) (sp_chunk q) with
  | None => None
  | Some c => slice c (sp_shift q) (sp_shift q + sp_len q)
  end.

(** string_pool.rs 107-110 [get], 113-116 [get_unchecked]. *)
Definition pool_get (p : spool) (i : nat) : res (option bytes) :=
  match nth_error (sl_ptrs p) i with
  | None => Panic PIndex
  | Some q => Ok (get_by_pointer p q)
  end.
Definition pool_get_unchecked (p : spool) (i : nat) : option bytes :=
  match nth_error (sl_ptrs p) i with None => None | Some q => get_by_pointer p q end.

(** string_pool.rs 20-37 and 131-136: all strings in order. *)
Definition pool_strings (p : spool) : list (option bytes) :=
  map (pool_get_unchecked p) (seq 0 (length (sl_ptrs p))).

(** string.rs 38-46 with read_ex.rs 100-105: loading [k] strings from the wire. The slice is
    allocated before its bytes are read; when reading fails the pool is dropped. The
    allocation depends only on the length, so it is made with zero bytes first and then
    with the bytes read. *)
Fixpoint pool_load_loop (k : nat) (p : spool) : P spool :=
  match k with
  | O => Ret p
  | S k' =>
      let! n := read_uvarint in
      let! _ := lift (pool_put (repeat 0%N (N.to_nat n)) p) in
      Get n (fun b => let! p' := lift (pool_put b p) in pool_load_loop k' p')
  end.
Definition pool_load (k : nat) : P spool := let! p := lift (pool_new k) in pool_load_loop k p.
