(** What the cells of a received column are: values of the column's type. *)
From Verif Require Import Base Bytes Types Decimal Values Columns SpecColumns.
Open Scope nat_scope.

(** [belongs t v]: [v] is a value of the ClickHouse type [t]. *)
Fixpoint belongs (t : sqltype) (v : value) {struct t} : Prop :=
  match t, v with
  | TNum s, VNum s' z => s' = s /\ scalar_ok s z = true
  | TString, VString _ => True
  | TFixedString n, VString b => lenN b = n
  | TDate, VDate d => (d < 2 ^ 16)%N
  | TDateTime DateTime32, VDateTime x _ => (x < 2 ^ 32)%N
  | TDateTime (DateTime64 p z), VDateTime64 x p' z' => p' = p /\ z' = z /\ scalar_ok I64 x = true
  | TIpv4, VIpv4 b => lenN b = 4%N
  | TIpv6, VIpv6 b | TUuid, VUuid b => lenN b = 16%N
  | TNullable i, VNull i' => i' = i
  | TNullable i, VSome x => belongs i x
  | TArray i, VArray i' xs => i' = i /\ Forall (belongs i) xs
  | TMap k x, VMap k' x' kvs => k' = k /\ x' = x /\ Forall (fun kv => belongs k (fst kv) /\ belongs x (snd kv)) kvs
  | TDecimal p s, VDecimal d => d_precision d = p /\ d_scale d = s /\ scalar_ok I64 (d_underlying d) = true
  | TEnum8 vals, VEnum8 vals' z => vals' = vals /\ scalar_ok I8 z = true
  | TEnum16 vals, VEnum16 vals' z => vals' = vals /\ scalar_ok I16 z = true
  | TLowCardinality i, _ | TAgg _ i, _ => belongs i v
  | _, _ => False
  end.

(** The types whose values can be keys of a map in this library. *)
Fixpoint key_type (t : sqltype) : Prop :=
  match t with
  | TNum s => is_int s = true
  | TString | TFixedString _ => True
  | TLowCardinality i | TAgg _ i => key_type i
  | _ => False
  end.

(** What a column of [rows] rows refers to exists: offsets climb, there is one index for every row
    and it points into the dictionary (which is no dictionary again), keys are of a type that can be a key; and booleans are 0
    or 1. Nothing is asked of the other columns. *)
Fixpoint no_dictionary_inside (c : col) : Prop :=
  match c with
  | CNullable i _ | CAgg _ i | CArray i _ => no_dictionary_inside i
  | CMap k v _ => no_dictionary_inside k /\ no_dictionary_inside v
  | CLow _ _ _ _ => False
  | _ => True
  end.
Fixpoint in_order (rows : N) (c : col) : Prop :=
  match c with
  | CVec s l => s = SBool -> Forall (fun z => z = 0 \/ z = 1)%Z l
  | CNullable i _ | CAgg _ i => in_order rows i
  | CArray i offs => climbs 0 offs /\ in_order (last offs 0%N) i
  | CMap k v offs =>
      climbs 0 offs /\ key_type (ctype k) /\ in_order (last offs 0%N) k /\ in_order (last offs 0%N) v
  | CLow i _ idx _ =>
      lenN idx = rows /\ no_dictionary_inside i /\
      exists n, clen i = Ok n /\ in_order (N.of_nat n) i /\ Forall (fun j => N.to_nat j < n) idx
  | _ => True
  end.

(** Types that refer to nothing: no arrays, maps and dictionaries inside, and no booleans. *)
Fixpoint self_contained (t : sqltype) : Prop :=
  match t with
  | TNum s => s <> SBool
  | TArray _ | TMap _ _ | TLowCardinality _ => False
  | TNullable i | TAgg _ i => self_contained i
  | _ => True
  end.
