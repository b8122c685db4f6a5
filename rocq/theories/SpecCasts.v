(** What a table must receive for the cells of a column that is inserted into it, independently
    of how columns are converted and written. *)
From Verif Require Import Base Bytes Types TypeNames Columns Block SpecWire SpecColumns SpecTypes.
Open Scope nat_scope.

(** The bytes that a string, or an array of UInt8, is. *)
Definition octet (v : value) : option N :=
  match v with VNum U8 z => Some (Z.to_N z) | _ => None end.
Definition octets (src : sqltype) (v : value) : option bytes :=
  match src, v with
  | TArray (TNum U8), VArray (TNum U8) vs => mapO octet vs
  | TString, VString b => Some b
  | _, _ => None
  end.

(** A string as FixedString(n): padded with zero bytes; one that is too long is none. *)
Definition as_fixed (n : N) (b : bytes) : option value :=
  if (lenN b <=? n)%N then Some (VString (pad_or_cut (N.to_nat n) b)) else None.

(** The label of a number. *)
Fixpoint label (vals : list (bytes * Z)) (z : Z) : option bytes :=
  match vals with
  | [] => None
  | (l, y) :: vals' => if (y =? z)%Z then Some l else label vals' z
  end.
Definition same_label (old new : list (bytes * Z)) (z : Z) : bool :=
  match label old z, label new z with Some a, Some b => bytes_eqb a b | _, _ => false end.

(** A number with [s] decimals, exactly; [None] if it has more, or does not fit the 32 bits of a
    precision up to 9 or else 64 bits. *)
Definition as_decimal (p s : N) (d : decimal) : option value :=
  let k := (d_underlying d * 10 ^ Z.of_N s)%Z in
  let m := (k / 10 ^ Z.of_N (d_scale d))%Z in
  let bound := (if (p <=? 9)%N then 2 ^ 31 else 2 ^ 63)%Z in
  if ((m * 10 ^ Z.of_N (d_scale d) =? k) && (- bound <=? m) && (m <? bound))%Z && (d_scale d <=? 18)%N
  then Some (VDecimal (mk_decimal m (if (p <=? 9)%N then N32 else N64) p s)) else None.

Section Converted.
Variable tz : bytes.
Variable parse_ipv4 parse_ipv6 : bytes -> option bytes.

(** [converted src dst v]: the cell that a table column of type [dst] must receive for the cell [v] of
    a column of type [src], [None] if there is none. [tz] is the zone in which the receiver
    reads a DateTime. *)
Fixpoint converted (src dst : sqltype) (v : value) {struct dst} : option value :=
  if sqltype_eqb src dst then Some (zoned tz v) else
  match dst with
  | TString => match octets src v with Some b => Some (VString b) | None => None end
  | TFixedString n => match octets src v with Some b => as_fixed n b | None => None end
  | TDecimal p s => match v with VDecimal d => as_decimal p s d | _ => None end
  | TEnum8 vals =>
      match v with VEnum8 old z => if same_label old vals z then Some (VEnum8 vals z) else None | _ => None end
  | TEnum16 vals =>
      match v with VEnum16 old z => if same_label old vals z then Some (VEnum16 vals z) else None | _ => None end
  | TDateTime DateTime32 => match v with VDateTime s _ => Some (VDateTime s tz) | _ => None end
  | TDateTime (DateTime64 p z) =>
      match v with
      | VDateTime s _ => if (p <=? 9)%N then Some (VDateTime64 (Z.of_N s * 10 ^ Z.of_N p) p z) else None
      | _ => None
      end
  | TIpv4 =>
      match v with
      | VString b =>
          match parse_ipv4 b with
          | Some o => if (length o =? 4)%nat then Some (VIpv4 (rev o)) else None
          | None => None
          end
      | _ => None
      end
  | TIpv6 =>
      match v with
      | VString b =>
          match parse_ipv6 b with
          | Some o => if (length o =? 16)%nat then Some (VIpv6 o) else None
          | None => None
          end
      | _ => None
      end
  | TNullable t =>
      match src, v with
      | TNullable _, VNull _ => Some (VNull t)
      | TNullable s, VSome x => match converted s t x with Some y => Some (VSome y) | None => None end
      | _, _ => None
      end
  | TArray t =>
      match src, v with
      | TArray s, VArray _ vs => match mapO (converted s t) vs with Some ws => Some (VArray t ws) | None => None end
      | _, _ => None
      end
  | TAgg _ t => match src with TAgg _ s => converted s t v | _ => converted src t v end
  | TLowCardinality t =>
      match t, v with
      | TString, VString b => Some (VString b)
      | TFixedString n, VString b => as_fixed n b
      | TNum s, VNum s' z => if scalar_eq_dec s s' then Some (VNum s z) else None
      | TDate, VDate d => if (d <? 65536)%N then Some (VDate d) else None
      | TDateTime DateTime32, VDateTime s _ => if (s <? 2 ^ 32)%N then Some (VDateTime s tz) else None
      | _, _ => None
      end
  | _ => None
  end.
End Converted.

(** Columns that a program can have built to insert them: sound ones, and times made by chrono,
    each from 1970 to 2106. *)
Definition in_span (x : Z * N * bytes) : Prop := (0 <= fst (fst x) < 2 ^ 32)%Z.
Fixpoint built (c : col) : Prop :=
  match c with
  | CChrono l _ => Forall in_span l /\ (8 * lenN l <= isize_max)%N
  | CNullable i nulls => built i /\ clen i = Ok (length nulls) /\ (lenN nulls <= isize_max)%N
  | CArray i offs =>
      built i /\ clen i = Ok (N.to_nat (last offs 0%N)) /\ climbs 0 offs /\
      (last offs 0 < 2 ^ 64)%N /\ (8 * lenN offs <= isize_max)%N
  | CAgg _ i => built i
  | _ => sound c
  end.

(** The times in a column are whole seconds; there is no DateTime64 in a type. What becomes of
    fractions of seconds is the subject of C64. *)
Fixpoint whole_times (c : col) : Prop :=
  match c with
  | CChrono l _ => Forall (fun x : Z * N * bytes => snd (fst x) = 0%N) l
  | CNullable i _ | CArray i _ | CAgg _ i => whole_times i
  | _ => True
  end.
Fixpoint seconds_only (t : sqltype) : Prop :=
  match t with
  | TDateTime (DateTime64 _ _) => False
  | TNullable i | TArray i | TAgg _ i => seconds_only i
  | _ => True
  end.

(** Values whose times are from 1970 to 2106, if [w] in whole seconds; types whose nulls hide no
    DateTime64, and types without DateTime64, whose columns
    cannot be written, and without times in maps and dictionaries. *)
Fixpoint tickless (t : sqltype) : Prop :=
  match t with
  | TDateTime (DateTime64 _ _) => False
  | TNullable i | TArray i | TAgg _ i | TLowCardinality i => tickless i
  | TMap k v => tickless k /\ tickless v
  | _ => True
  end.
Fixpoint timely (w : Prop) (v : value) : Prop :=
  match v with
  | VDateTime s _ => (s < 2 ^ 32)%N
  | VChrono s n _ => (0 <= s < 2 ^ 32)%Z /\ (w -> n = 0%N)
  | VDateTime64 _ _ _ => False
  | VNull t => tickless t
  | VSome x => timely w x
  | VArray _ vs => fold_right (fun x P => timely w x /\ P) True vs
  | _ => True
  end.
Fixpoint open_times (t : sqltype) : Prop :=
  match t with
  | TDateTime (DateTime64 _ _) => False
  | TMap k v => no_datetime k /\ no_datetime v
  | TLowCardinality i => no_datetime i
  | TNullable i | TArray i | TAgg _ i => open_times i
  | _ => True
  end.

(** The largest number of bytes that a row of a converted column takes in one buffer, strings
    apart. *)
Fixpoint row_size (t : sqltype) : N :=
  match t with TFixedString n => n + 80 | TNullable i | TAgg _ i => row_size i | _ => 80 end.
Definition short_text (v : value) : Prop := match v with VString b => (lenN b <= isize_max)%N | _ => True end.

(** Which types can be inserted into which: the same type; strings and byte arrays into strings
    and fixed strings, text into addresses, decimals into decimals, enumerations into enumerations of
    the same width, also if nullable; chrono times into times; arrays, maps and nullables whose contents
    can be converted by themselves, and plain columns into dictionaries. *)
Fixpoint restored (src dst : sqltype) {struct dst} : bool :=
  match dst, src with
  | TDateTime _, TDateTime DtChrono => true
  | TEnum8 _, TEnum8 _ | TEnum16 _, TEnum16 _ => true
  | TArray t, TArray s | TNullable t, TNullable s | TAgg _ t, TAgg _ s => restored s t
  | TMap k v, TMap k' v' => restored k' k && restored v' v
  | _, _ => false
  end.
Definition dictionary_source (t : sqltype) : bool :=
  match t with
  | TString | TFixedString _ | TDate | TDateTime _ => true
  | TNum (U8 | U16 | U32 | U64 | I8 | I16 | I32 | I64) => true
  | _ => false
  end.
(** Types that columns of a table have: dictionaries are of plain types, times are at most in
    nanoseconds, and the client's own variant of DateTime is none. *)
Fixpoint table_type (t : sqltype) : Prop :=
  match t with
  | TDateTime DtChrono => False
  | TDateTime (DateTime64 p _) => (p <= 9)%N
  | TNullable i | TArray i | TAgg _ i => table_type i
  | TMap k v => table_type k /\ table_type v
  | TLowCardinality i => dictionary_source i = true /\ table_type i
  | _ => True
  end.
Fixpoint accepted (src dst : sqltype) {struct dst} : bool :=
  sqltype_eqb src dst ||
  match dst with
  | TAgg _ t => accepted src t
  | _ =>
    restored src dst ||
    match dst, src with
    | TString, TArray (TNum U8) => true
    | TFixedString _, (TString | TArray (TNum U8)) => true
    | (TIpv4 | TIpv6), TString => true
    | TDecimal _ _, TDecimal _ _ => true
    | TNullable (TFixedString _), TNullable TString => true
    | TNullable (TDecimal _ _), TNullable (TDecimal _ _) => true
    | TNullable (TEnum8 _), TNullable (TEnum8 _) | TNullable (TEnum16 _), TNullable (TEnum16 _) => true
    | TLowCardinality _, _ => dictionary_source src
    | _, _ => false
    end
  end.
(** Columns that are no part of another one, and contain none. *)
Fixpoint unsliced (c : col) : Prop :=
  match c with
  | CChunk _ _ _ => False
  | CNullable i _ | CArray i _ | CAgg _ i | CLow i _ _ _ => unsliced i
  | CMap k v _ => unsliced k /\ unsliced v
  | _ => True
  end.

(** No map and no dictionary of DateTime64 inside. *)
Fixpoint covered (t : sqltype) : Prop :=
  match t with
  | TMap _ _ | TLowCardinality (TDateTime (DateTime64 _ _)) => False
  | TNullable i | TArray i | TAgg _ i => covered i
  | _ => True
  end.

(** ** Blocks
    One column of a block that is inserted: the column, its cells, the type of the table's column
    and the cells that the table must receive. *)
Record plan := mk_plan { pl_column : column; pl_cells : list value; pl_type : sqltype; pl_wanted : list value }.
Section Insertable.
Variable tz_known : bytes -> bool.
Variable tz : bytes.
Variable parse_ipv4 parse_ipv6 : bytes -> option bytes.
Definition convertible (c : col) (vs : list value) (t : sqltype) (ws : list value) : Prop :=
  built c /\ holds c vs /\ Forall proper vs /\ mapO (converted tz parse_ipv4 parse_ipv6 (ctype c) t) vs = Some ws /\
  nameable tz_known t /\ table_type t /\ no_empty_rows t /\ (ctype c = t \/ covered t) /\
  (lenN vs * row_size t <= isize_max)%N /\ Forall short_text ws /\ (whole_times c \/ seconds_only t).
Definition insertable (m : nat) (x : plan) : Prop :=
  is_utf8 (fst (pl_column x)) /\ (lenN (fst (pl_column x)) <= isize_max)%N /\
  is_utf8 (type_name (pl_type x)) /\ (lenN (type_name (pl_type x)) <= isize_max)%N /\
  convertible (snd (pl_column x)) (pl_cells x) (pl_type x) (pl_wanted x) /\ length (pl_cells x) = m.
End Insertable.
