(** src/types/mod.rs 341-371: the shared copies of types. A type inside another one is a reference without an end of life (329-338, &'static); those
    that are not constants of the program are references into boxes that a map holds, made to last by [transmute] (364). Here the memory is explicit. *)
From Verif Require Import Base Bytes Types.
Open Scope list_scope.

(** A reference: to a constant of the program (348-359), or to a box. *)
Inductive address := Static (t : sqltype) | Heap (n : nat).

(** src/types/mod.rs 309-339: [SqlType] as it is in memory: the types inside are references. [NLeaf] is one without a type inside. *)
Inductive node :=
| NLeaf (t : sqltype)
| NNullable (a : address)
| NArray (a : address)
| NLowCardinality (a : address)
| NAgg (f : agg_func) (a : address)
| NMap (k v : address).

(** The boxes of [TYPES_CACHE] (341-343) in the order in which they were made. The map is keyed by the type; a box stays where it is when the map
    grows. *)
Definition heap := list node.

(** The type that a node stands for, given how references are followed. *)
Definition whole (follow : address -> option sqltype) (x : node) : option sqltype :=
  match x with
  | NLeaf t => Some t
  | NNullable a => option_map TNullable (follow a)
  | NArray a => option_map TArray (follow a)
  | NLowCardinality a => option_map TLowCardinality (follow a)
  | NAgg f a => option_map (TAgg f) (follow a)
  | NMap k v => match follow k, follow v with Some s, Some t => Some (TMap s t) | _, _ => None end
  end.

(** Following a reference; [None] when it leads to no box, or in a circle. *)
Fixpoint follow (fuel : nat) (m : heap) (a : address) : option sqltype :=
  match a with
  | Static t => Some t
  | Heap n => match fuel, nth_error m n with S f, Some x => whole (follow f m) x | _, _ => None end
  end.
Definition read (m : heap) (a : address) : option sqltype := follow (length m) m a.

(** mod.rs 348-359: the types that have a constant. Bool and the numbers of 128 bits are not among them. *)
Definition constant (t : sqltype) : bool :=
  match t with
  | TNum (U8 | U16 | U32 | U64 | I8 | I16 | I32 | I64 | F32 | F64) | TString | TDate => true
  | _ => false
  end.

(** mod.rs 363: [get]: the box whose type is this one. Types are compared through their references. *)
Definition box_of (m : heap) (t : sqltype) : option nat :=
  find (fun i => match read m (Heap i) with Some u => sqltype_eqb u t | None => false end) (seq 0 (length m)).

(** mod.rs 362-367: the loop, which is under the lock. *)
Fixpoint look (fuel : nat) (m : heap) (x : node) (t : sqltype) : option (address * heap) :=
  match fuel with
  | O => None
  | S f =>
      match box_of m t with
      | Some i => Some (Heap i, m)
      | None => look f (m ++ [x]) x t
      end
  end.

(** mod.rs 345-371: [from]. [None] when the type in hand refers to no type. *)
Definition intern (m : heap) (x : node) : option (address * heap) :=
  match whole (read m) x with
  | Some t => if constant t then Some (Static t, m) else look 2 m x t
  | None => None
  end.

(** How types come about, e.g. column/nullable.rs 41, column/array.rs 48 and value.rs 303: those inside are turned into references first. *)
Fixpoint interned (m : heap) (t : sqltype) : option (address * heap) :=
  let under s k := match interned m s with Some (a, m1) => intern m1 (k a) | None => None end in
  match t with
  | TNullable s => under s NNullable
  | TArray s => under s NArray
  | TLowCardinality s => under s NLowCardinality
  | TAgg f s => under s (NAgg f)
  | TMap s u =>
      match interned m s with
      | Some (a, m1) => match interned m1 u with Some (b, m2) => intern m2 (NMap a b) | None => None end
      | None => None
      end
  | _ => intern m (NLeaf t)
  end.

(** One type after the other, by whichever threads. *)
Fixpoint interned_all (m : heap) (ts : list sqltype) : option (list address * heap) :=
  match ts with
  | [] => Some ([], m)
  | t :: ts =>
      match interned m t with
      | Some (a, m1) => match interned_all m1 ts with Some (l, m2) => Some (a :: l, m2) | None => None end
      | None => None
      end
  end.
