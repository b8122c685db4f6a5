(** The reading side of src/binary/read_ex.rs as programs over one primitive,
    [read_bytes].

    [ReadEx] is implemented for every [io::Read] (src/binary/read_ex.rs 21-24), and all
    its methods reach the reader only through [read_bytes] (lines 25-42). A parser
    is therefore a tree of "read exactly n bytes, then go on" requests. It is run
    over an in-memory cursor by [run], and over the decompressing reader in
    Compress.v. *)
From Verif Require Import Base.

Inductive P (A : Type) : Type :=
| Ret (a : A)
| Fail (e : error)
| Crash (p : panic)
| Get (n : N) (k : bytes -> P A).
Arguments Ret {A} _.
Arguments Fail {A} _.
Arguments Crash {A} _.
Arguments Get {A} _ _.

Fixpoint pbind {A B} (p : P A) (f : A -> P B) : P B :=
  match p with
  | Ret a => f a
  | Fail e => Fail e
  | Crash q => Crash q
  | Get n k => Get n (fun l => pbind (k l) f)
  end.
Notation "'let!' x := e 'in' f" := (pbind e (fun x => f))
  (at level 200, x pattern, e at level 100, f at level 200).

Definition lift {A} (r : res A) : P A :=
  match r with Ok a => Ret a | Err e => Fail e | Panic p => Crash p end.

(** [vec![0; n]], [Vec::with_capacity(n)]: a request above isize::MAX bytes
    panics with "capacity overflow". Smaller requests are assumed to succeed. *)
Definition alloc (n : N) : P unit :=
  if (n <=? isize_max)%N then Ret tt else Crash PCapacity.

(** src/binary/read_ex.rs 25-42 over [io::Cursor] on a buffer holding [s]: when
    fewer than [n] bytes are left, the cursor's [read] eventually returns 0 and
    [read_bytes] reports [WouldBlock] (lines 33-36). [run] returns the unread rest. *)
Fixpoint run {A} (p : P A) (s : bytes) : res (A * bytes) :=
  match p with
  | Ret a => Ok (a, s)
  | Fail e => Err e
  | Crash q => Panic q
  | Get n k =>
      if (n <=? lenN s)%N
      then run (k (firstn (N.to_nat n) s)) (skipn (N.to_nat n) s)
      else Err EWouldBlock
  end.

(** A Rust [loop] whose body either continues with a new state or breaks with a
    result. The fuel is binary so that an astronomically large bound costs nothing to
    evaluate; running out is [Crash PFuel]. *)
Fixpoint iter_pos {S A} (body : S -> P (S + A)) (p : positive) (s : S) : P (S + A) :=
  match p with
  | xH => body s
  | xO q =>
      let! r := iter_pos body q s in
      match r with inl s' => iter_pos body q s' | inr a => Ret (inr a) end
  | xI q =>
      let! r := body s in
      match r with
      | inl s1 =>
          let! r := iter_pos body q s1 in
          match r with inl s' => iter_pos body q s' | inr a => Ret (inr a) end
      | inr a => Ret (inr a)
      end
  end.

(** 2^64 iterations: a loop that reads at least one byte per round cannot
    exceed this on any buffer that fits in memory. *)
Definition loop_bound : positive := 18446744073709551616%positive.

Definition ploop {S A} (body : S -> P (S + A)) (s : S) : P A :=
  let! r := iter_pos body loop_bound s in
  match r with inl _ => Crash PFuel | inr a => Ret a end.

(** [for _ in 0..n] reading one element per round. *)
Fixpoint prepeat {A} (n : nat) (p : P A) : P (list A) :=
  match n with
  | O => Ret []
  | S n' => let! x := p in let! xs := prepeat n' p in Ret (x :: xs)
  end.

(** [for _ in 0..n] for a count taken from the wire, which can be astronomically large: the
    same reads in the same order as [prepeat (N.to_nat n)], but recursive on the binary
    digits of the count so that nothing is unfolded before it is read. *)
Fixpoint prepeat_pos {A} (n : positive) (p : P A) : P (list A) :=
  match n with
  | xH => let! x := p in Ret [x]
  | xO m => let! xs := prepeat_pos m p in let! ys := prepeat_pos m p in Ret (xs ++ ys)
  | xI m =>
      let! x := p in
      let! xs := prepeat_pos m p in
      let! ys := prepeat_pos m p in Ret (x :: xs ++ ys)
  end.
Definition prepeatN {A} (n : N) (p : P A) : P (list A) :=
  match n with N0 => Ret [] | Npos q => prepeat_pos q p end.
