(** The format in which a ClickHouse server sends the cells of a column (the Native format of
    ClickHouse's documentation and of the serializations in its sources), independently of the code. *)
From Coq Require Import String.
From Verif Require Import Base Bytes Text SpecWire SpecPackets SpecBlock Types SpecTypes SpecColumns.
Open Scope list_scope.
Open Scope nat_scope.

(** A number in its [width] bytes, least significant first: integers in two's complement, floats by
    their bits, a truth value as 0 or 1. *)
Definition number (s : scalar) (z : Z) (b : bytes) : Prop :=
  bytes_ok b /\ length b = width s /\
  match s with
  | SBool => (z = 0 \/ z = 1)%Z /\ positional b = z
  | _ => if is_signed s
         then (- 2 ^ (8 * Z.of_nat (width s) - 1) <= z < 2 ^ (8 * Z.of_nat (width s) - 1))%Z /\
              positional b = (z mod 2 ^ (8 * Z.of_nat (width s)))%Z
         else positional b = z
  end.

(** Cells one after the other. *)
Definition cells (cell : value -> bytes -> Prop) (vs : list value) (bs : bytes) : Prop :=
  exists parts, bs = concat parts /\ Forall2 cell vs parts.

(** Where rows of these lengths end, counted from [a]. *)
Fixpoint ends (a : N) (rows : list nat) : list N :=
  match rows with
  | [] => []
  | n :: rows' => (a + N.of_nat n)%N :: ends (a + N.of_nat n) rows'
  end.
Definition offsets (rows : list nat) (bs : bytes) : Prop :=
  exists parts, bs = concat parts /\ Forall2 (fixed_of 8) (ends 0 rows) parts.

(** A null, marked by 1, or the value of the inner column, marked by 0. *)
Definition marked (t : sqltype) (null : bool) (w : value) : value := if null then VNull t else VSome w.
Fixpoint zip {A B C} (f : A -> B -> C) (l : list A) (m : list B) : list C :=
  match l, m with a :: l', b :: m' => f a b :: zip f l' m' | _, _ => [] end.

(** The numbers of the entries of a dictionary are written in 1, 2, 4 or 8 bytes. *)
Inductive numbering := Num8 | Num16 | Num32 | Num64.
Definition numbering_width (x : numbering) : nat := match x with Num8 => 1 | Num16 => 2 | Num32 => 4 | Num64 => 8 end.
Definition numbering_code (x : numbering) : N := match x with Num8 => 0 | Num16 => 1 | Num32 => 2 | Num64 => 3 end%N.

(** The row of a dictionary that a number stands for; with a nullable dictionary 0 stands for null. *)
Definition entry (dict : list value) (j : N) (v : value) : Prop := nth_error dict (N.to_nat j) = Some v.
Definition nullable_entry (t : sqltype) (dict : list value) (j : N) (v : value) : Prop :=
  if (j =? 0)%N then v = VNull t else exists w, v = VSome w /\ entry dict j w.

(** A dictionary of [ds], its entries written as [body], and rows that refer to it. The bits 0x200
    and 0x400 say that the dictionary follows. *)
Definition dictionary (body : bytes) (ds : list value) (pick : N -> value -> Prop) (vs : list value) (bs : bytes) : Prop :=
  exists x js flags count rows parts,
    bs = flags ++ count ++ body ++ rows ++ concat parts /\
    fixed_of 8 (0x600 + numbering_code x) flags /\ fixed_of 8 (lenN ds) count /\ fixed_of 8 (lenN vs) rows /\
    Forall2 (fixed_of (numbering_width x)) js parts /\ Forall2 pick js vs.

(** [native zone t vs bs]: [bs] are the cells [vs] of a column of type [t], whose times of type
    DateTime are in [zone]. *)
Section Native.
Variable zone : bytes.
Fixpoint native (t : sqltype) (vs : list value) (bs : bytes) {struct t} : Prop :=
  match t with
  | TNum s => cells (fun v b => exists z, v = VNum s z /\ number s z b) vs bs
  | TString => cells (fun v b => exists s, v = VString s /\ text_of s b) vs bs
  | TFixedString n => cells (fun v b => v = VString b /\ lenN b = n) vs bs
  | TDate => cells (fun v b => exists d, v = VDate d /\ fixed_of 2 d b) vs bs
  | TDateTime (DateTime64 p z) => cells (fun v b => exists x, v = VDateTime64 x p z /\ number I64 x b) vs bs
  | TDateTime _ => cells (fun v b => exists s, v = VDateTime s zone /\ fixed_of 4 s b) vs bs
  | TIpv4 => cells (fun v b => v = VIpv4 b /\ length b = 4) vs bs
  | TIpv6 => cells (fun v b => v = VIpv6 b /\ length b = 16) vs bs
  | TUuid => cells (fun v b => v = VUuid b /\ length b = 16) vs bs
  | TNullable i =>
      exists nulls ws body, bs = map (fun n : bool => if n then 1%N else 0%N) nulls ++ body /\ native i ws body /\
        length nulls = length ws /\ vs = zip (marked i) nulls ws
  | TArray i =>
      exists rows offs body, bs = offs ++ body /\ offsets (map (@length value) rows) offs /\
        native i (concat rows) body /\ vs = map (VArray i) rows
  | TMap k v =>
      exists rows offs ks xs, bs = offs ++ ks ++ xs /\ offsets (map (@length (value * value)) rows) offs /\
        native k (map fst (concat rows)) ks /\ native v (map snd (concat rows)) xs /\
        Forall (fun row => distinct_keys (map fst row) = true) rows /\ vs = map (VMap k v) rows
  | TDecimal p s =>
      let w := if (p <=? 9)%N then N32 else N64 in
      cells (fun v b => exists z, v = VDecimal (mk_decimal z w p s) /\
                                  number (match w with N32 => I32 | N64 => I64 end) z b) vs bs
  | TEnum8 vals => cells (fun v b => exists z, v = VEnum8 vals z /\ number I8 z b) vs bs
  | TEnum16 vals => cells (fun v b => exists z, v = VEnum16 vals z /\ number I16 z b) vs bs
  | TAgg _ i => native i vs bs
  | TLowCardinality (TNullable i) =>
      exists ds body, native i ds body /\ dictionary body ds (nullable_entry i ds) vs bs
  | TLowCardinality i => exists ds body, native i ds body /\ dictionary body ds (entry ds) vs bs
  end.
End Native.

(** What comes before the cells: the version of each low-cardinality column in the type, outermost
    first. A column of no rows has no bytes at all. *)
Fixpoint versions (t : sqltype) : nat :=
  match t with
  | TNullable i | TArray i | TAgg _ i => versions i
  | TMap k v => versions k + versions v
  | TLowCardinality _ => 1
  | _ => 0
  end.
Definition native_column (zone : bytes) (t : sqltype) (vs : list value) (bs : bytes) : Prop :=
  match vs with
  | [] => bs = []
  | _ => exists heads body, bs = concat heads ++ body /\ Forall2 (fixed_of 8) (repeat 1%N (versions t)) heads /\
           native zone t vs body
  end.

(** Types without low-cardinality columns inside others, and without nullable dictionaries. *)
Fixpoint no_dictionary (t : sqltype) : Prop :=
  match t with
  | TNullable i | TArray i | TAgg _ i => no_dictionary i
  | TMap k v => no_dictionary k /\ no_dictionary v
  | TLowCardinality _ => False
  | _ => True
  end.
Definition plain_dictionary (t : sqltype) : Prop :=
  match t with TLowCardinality i => no_dictionary i /\ match i with TNullable _ => False | _ => True end | _ => no_dictionary t end.

(** How the server names a type. *)
Definition number_name (s : scalar) : bytes :=
  match s with
  | SBool => str "Bool"
  | U8 => str "UInt8" | U16 => str "UInt16" | U32 => str "UInt32" | U64 => str "UInt64" | U128 => str "UInt128"
  | I8 => str "Int8" | I16 => str "Int16" | I32 => str "Int32" | I64 => str "Int64" | I128 => str "Int128"
  | F32 => str "Float32" | F64 => str "Float64"
  end.
Definition function_name (f : agg_func) : bytes :=
  match f with
  | AAny => str "any" | AAnyLast => str "anyLast" | AMin => str "min" | AMax => str "max"
  | ASum => str "sum" | ASumWithOverflow => str "sumWithOverflow"
  | AGroupBitAnd => str "groupBitAnd" | AGroupBitOr => str "groupBitOr" | AGroupBitXor => str "groupBitXor"
  | AGroupArrayArray => str "groupArrayArray" | AGroupUniqArrayArray => str "groupUniqArrayArray"
  | ASumMap => str "sumMap" | AMinMap => str "minMap" | AMaxMap => str "maxMap"
  | AArgMin => str "argMin" | AArgMax => str "argMax"
  end.
Definition label_name (e : bytes * Z) (n : bytes) : Prop :=
  exists d, digits_text (Z.abs_N (snd e)) d /\
    n = str "'" ++ fst e ++ str "' = " ++ (if (snd e <? 0)%Z then [45%N] else []) ++ d.
Fixpoint listed (ns : list bytes) : bytes :=
  match ns with
  | [] => []
  | [n] => n
  | n :: ns' => n ++ str ", " ++ listed ns'
  end.

(** [server_name tz zone t n]: a server in the zone [tz] names the type [t] of a column [n] if the
    times of the column are in [zone]. (Not every name: the key of a map has one without commas and
    the argument of an aggregate function one without parentheses.) *)
Section Names.
Variables tz zone : bytes.
Inductive server_name : sqltype -> bytes -> Prop :=
| sn_num s : server_name (TNum s) (number_name s)
| sn_string : server_name TString (str "String")
| sn_fixed n d : digits_text n d -> server_name (TFixedString n) (str "FixedString(" ++ d ++ str ")")
| sn_date : server_name TDate (str "Date")
| sn_time : zone = tz -> server_name (TDateTime DateTime32) (str "DateTime")
| sn_zoned : server_name (TDateTime DateTime32) (str "DateTime('" ++ zone ++ str "')")
| sn_time64 p d : digits_text p d -> server_name (TDateTime (DateTime64 p tz)) (str "DateTime64(" ++ d ++ str ")")
| sn_zoned64 p d z : digits_text p d ->
    server_name (TDateTime (DateTime64 p z)) (str "DateTime64(" ++ d ++ str ", '" ++ z ++ str "')")
| sn_ipv4 : server_name TIpv4 (str "IPv4")
| sn_ipv6 : server_name TIpv6 (str "IPv6")
| sn_uuid : server_name TUuid (str "UUID")
| sn_nullable i n : server_name i n -> server_name (TNullable i) (str "Nullable(" ++ n ++ str ")")
| sn_array i n : server_name i n -> server_name (TArray i) (str "Array(" ++ n ++ str ")")
| sn_low i n : server_name i n -> server_name (TLowCardinality i) (str "LowCardinality(" ++ n ++ str ")")
| sn_decimal p s d e : digits_text p d -> digits_text s e ->
    server_name (TDecimal p s) (str "Decimal(" ++ d ++ str ", " ++ e ++ str ")")
| sn_enum8 vals ns : Forall2 label_name vals ns -> server_name (TEnum8 vals) (str "Enum8(" ++ listed ns ++ str ")")
| sn_enum16 vals ns : Forall2 label_name vals ns -> server_name (TEnum16 vals) (str "Enum16(" ++ listed ns ++ str ")")
| sn_agg f i n : server_name i n -> ~ In 40%N n -> ~ In 41%N n ->
    server_name (TAgg f i) (str "SimpleAggregateFunction(" ++ function_name f ++ str ", " ++ n ++ str ")")
| sn_map k v n m : server_name k n -> no_comma n -> server_name v m ->
    server_name (TMap k v) (str "Map(" ++ n ++ str ", " ++ m ++ str ")").
End Names.

(** Blocks: the fields of the header, the numbers of columns and rows, and each column with its
    name, the name of its type and its cells. *)
Record sent_column := mk_sent_column {
  sc_name : bytes; sc_type : sqltype; sc_zone : bytes; sc_type_name : bytes; sc_cells : list value }.
Definition column_layout (x : sent_column) : list (bytes -> Prop) :=
  [utext_of (sc_name x); utext_of (sc_type_name x); native_column (sc_zone x) (sc_type x) (sc_cells x)].
Definition block_layout (fs : list field) (rows : nat) (xs : list sent_column) : list (bytes -> Prop) :=
  [eq (concat (map field_bytes fs) ++ [0%N]); varint_of (lenN xs); varint_of (N.of_nat rows)] ++
  flat_map column_layout xs.
