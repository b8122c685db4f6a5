(** Printing and parsing of column type names: src/types/mod.rs and
    src/types/column/factory.rs. *)
From Coq Require Import String.
From Verif Require Import Base Bytes Types Text.
Open Scope list_scope.

(** src/types/mod.rs 260-281: [From<SimpleAggFunc> for &str]. *)
Definition agg_name (f : agg_func) : bytes :=
  match f with
  | AAny => str "any"
  | AAnyLast => str "anyLast"
  | AMin => str "min"
  | AMax => str "max"
  | ASum => str "sum"
  | ASumWithOverflow => str "sumWithOverflow"
  | AGroupBitAnd => str "groupBitAnd"
  | AGroupBitOr => str "groupBitOr"
  | AGroupBitXor => str "groupBitXor"
  | AGroupArrayArray => str "groupArrayArray"
  | AGroupUniqArrayArray => str "groupUniqArrayArray"
  | ASumMap => str "sumMap"
  | AMinMap => str "minMap"
  | AMaxMap => str "maxMap"
  | AArgMin => str "argMin"
  | AArgMax => str "argMax"
  end.
Definition all_agg : list agg_func :=
  [AAny; AAnyLast; AMin; AMax; ASum; ASumWithOverflow; AGroupBitAnd; AGroupBitOr; AGroupBitXor;
   AGroupArrayArray; AGroupUniqArrayArray; ASumMap; AMinMap; AMaxMap; AArgMin; AArgMax].

(** src/types/mod.rs 283-307: [FromStr for SimpleAggFunc]; its table is the table
    above read backwards. *)
Definition agg_parse (s : bytes) : option agg_func :=
  List.find (fun f => bytes_eqb (agg_name f) s) all_agg.

(** src/types/mod.rs 398-414: names of the numeric types. *)
Definition scalar_name (s : scalar) : bytes :=
  match s with
  | SBool => str "Bool"
  | U8 => str "UInt8" | U16 => str "UInt16" | U32 => str "UInt32" | U64 => str "UInt64"
  | U128 => str "UInt128"
  | I8 => str "Int8" | I16 => str "Int16" | I32 => str "Int32" | I64 => str "Int64"
  | I128 => str "Int128"
  | F32 => str "Float32" | F64 => str "Float64"
  end.

(** src/types/mod.rs 430-433: one enum entry, as [format!] prints it (labels are not
    escaped). *)
Definition enum_entry (e : bytes * Z) : bytes :=
  str "'" ++ fst e ++ str "' = " ++ print_Z (snd e).

(** src/types/mod.rs 396-445: [SqlType::to_string]. [{tz:?}] prints the zone's name. *)
Fixpoint type_name (t : sqltype) : bytes :=
  match t with
  | TNum s => scalar_name s
  | TString => str "String"
  | TFixedString n => str "FixedString(" ++ print_N n ++ str ")"
  | TLowCardinality i => str "LowCardinality(" ++ type_name i ++ str ")"
  | TDate => str "Date"
  | TDateTime (DateTime64 p tz) => str "DateTime64(" ++ print_N p ++ str ", '" ++ tz ++ str "')"
  | TDateTime _ => str "DateTime"
  | TIpv4 => str "IPv4"
  | TIpv6 => str "IPv6"
  | TUuid => str "UUID"
  | TNullable i => str "Nullable(" ++ type_name i ++ str ")"
  | TAgg f i => str "SimpleAggregateFunction(" ++ agg_name f ++ str ", " ++ type_name i ++ str ")"
  | TArray i => str "Array(" ++ type_name i ++ str ")"
  | TDecimal p s => str "Decimal(" ++ print_N p ++ str ", " ++ print_N s ++ str ")"
  | TEnum8 vals => str "Enum8(" ++ concat_sep (str ",") (map enum_entry vals) ++ str ")"
  | TEnum16 vals => str "Enum16(" ++ concat_sep (str ",") (map enum_entry vals) ++ str ")"
  | TMap k v => str "Map(" ++ type_name k ++ str ", " ++ type_name v ++ str ")"
  end.

(** What a type name selects in [load_data]. *)
Inductive ip_kind := IpV4 | IpV6 | IpUuid.
Inductive kind :=
| KNum (s : scalar)
| KString
| KDate
| KIp (k : ip_kind)
| KNullable (inner : bytes)
| KFixed (n : N)
| KArray (inner : bytes)
| KMap (k v : bytes)
| KDecimal (p s : N) (nb : nobits)
| KEnum8 (vals : list (bytes * Z))
| KEnum16 (vals : list (bytes * Z))
| KDateTime (tz : option bytes)
| KDateTime64 (p : N) (tz : option bytes)
| KAgg (f : agg_func) (inner : bytes)
| KLow (inner : bytes).

(** src/types/column/factory.rs 64-82: the names compared without regard to case,
    in order. *)
Definition simple_names : list (bytes * kind) :=
  [(str "Bool", KNum SBool);
   (str "UInt8", KNum U8); (str "UInt16", KNum U16); (str "UInt32", KNum U32);
   (str "UInt64", KNum U64); (str "UInt128", KNum U128);
   (str "Int8", KNum I8); (str "TinyInt", KNum I8);
   (str "Int16", KNum I16); (str "SmallInt", KNum I16);
   (str "Int32", KNum I32); (str "Int", KNum I32); (str "Integer", KNum I32);
   (str "Int64", KNum I64); (str "BigInt", KNum I64);
   (str "Int128", KNum I128);
   (str "Float32", KNum F32); (str "Float", KNum F32);
   (str "Float64", KNum F64); (str "Double", KNum F64);
   (str "String", KString); (str "Char", KString); (str "Varchar", KString);
   (str "Text", KString); (str "TinyText", KString); (str "MediumText", KString);
   (str "LongText", KString); (str "Blob", KString); (str "TinyBlob", KString);
   (str "MediumBlob", KString); (str "LongBlob", KString);
   (str "Date", KDate);
   (str "IPv4", KIp IpV4); (str "IPv6", KIp IpV6); (str "UUID", KIp IpUuid)].

(** src/types/column/factory.rs 40-54: [match_str!]. *)
Fixpoint match_str (l : list (bytes * kind)) (s : bytes) : option kind :=
  match l with
  | [] => None
  | (n, k) :: l' => if eq_ignore_case s n then Some k else match_str l' s
  end.

(** usize::MAX, u8::MAX, u32::MAX. *)
Definition usize_max : N := (2 ^ 64 - 1)%N.
Definition u8_max : N := 255.
Definition u32_max : N := (2 ^ 32 - 1)%N.

(** src/types/column/factory.rs 245-255. [source.len() - 1] cannot underflow. *)
Definition parse_fixed_string (s : bytes) : res (option N) :=
  if starts_with (str "FixedString") s
  then do i <- str_slice s 12 (List.length s - 1); Ok (parse_uint usize_max i)
  else Ok None.

(** src/types/column/factory.rs 257-269. *)
Definition parse_nullable (s : bytes) : res (option bytes) :=
  if starts_with (str "Nullable") s
  then do i <- str_slice s 9 (List.length s - 1);
       Ok (if starts_with (str "Nullable") i then None else Some i)
  else Ok None.

(** src/types/column/factory.rs 271-278. *)
Definition parse_array (s : bytes) : res (option bytes) :=
  if starts_with (str "Array") s
  then do i <- str_slice s 6 (List.length s - 1); Ok (Some i)
  else Ok None.

(** src/types/column/factory.rs 280-292. Line 286 counts characters, lines 288-289
    use the count as a byte index. *)
Definition parse_map (s : bytes) : res (option (bytes * bytes)) :=
  if starts_with (str "Map") s
  then do body <- str_slice s 4 (List.length s - 1);
       match find_char 44 body with
       | None => Ok None
       | Some c =>
           do k <- str_slice body 0 c;
           do v <- str_slice body (c + 1) (List.length body);
           Ok (Some (trim k, trim v))
       end
  else Ok None.

(** src/types/column/factory.rs 294-311. *)
Definition is_paren (b : N) : bool := (b =? 40)%N || (b =? 41)%N.
Definition parse_agg (s : bytes) : res (option (agg_func * bytes)) :=
  if starts_with (str "SimpleAggregateFunction(") s && ends_with_byte 41 s
  then do a <- str_slice s 23 (List.length s);
       let args := trim_matches is_paren a in
       match find_byte 44 args with
       | None => Ok None
       | Some c =>
           do f <- str_slice args 0 c;
           do t <- str_slice args (c + 1) (List.length args);
           Ok (match agg_parse (trim f) with
               | Some f => Some (f, trim t)
               | None => None
               end)
       end
  else Ok None.

(** src/types/column/factory.rs 322-345: the scan for parentheses. The result is
    [None] for the early [return None], else the bit width, the index of the
    opening and of the last closing parenthesis. *)
Fixpoint decimal_scan (s : bytes) (idx : nat) (rest : bytes)
    (nb : option nobits) (po pc : option nat) : option (option nobits * option nat * option nat) :=
  match rest with
  | [] => Some (nb, po, pc)
  | b :: rest' =>
      let pc' := if (b =? 41)%N then Some idx else pc in
      if (b =? 40)%N then
        let pre := firstn idx s in
        if bytes_eqb pre (str "Decimal") then decimal_scan s (S idx) rest' nb (Some idx) pc'
        else if bytes_eqb pre (str "Decimal32") then decimal_scan s (S idx) rest' (Some N32) (Some idx) pc'
        else if bytes_eqb pre (str "Decimal64") then decimal_scan s (S idx) rest' (Some N64) (Some idx) pc'
        else None
      else decimal_scan s (S idx) rest' nb po pc'
  end.

(** src/types/column/factory.rs 313-390. *)
Definition parse_decimal (s : bytes) : res (option (N * N * nobits)) :=
  if (List.length s <? 12)%nat then Ok None
  else if negb (starts_with (str "Decimal") s) then Ok None
  else match decimal_scan s 0 s None None None with
       | Some (nb, Some po, Some pc) =>
           do body <- str_slice s (po + 1) pc;
           Ok (match nb with
               | Some bits =>
                   match parse_uint u8_max body with
                   | Some scale =>
                       Some ((match bits with N32 => 9 | N64 => 18 end)%N, scale, bits)
                   | None => None
                   end
               | None =>
                   match map trim (split_on 44 body) with
                   | [p; sc] =>
                       match parse_uint u8_max p, parse_uint u8_max sc with
                       | Some precision, Some scale =>
                           if (precision <? scale)%N then None
                           else match from_precision precision with
                                | Some bits => Some (precision, scale, bits)
                                | None => None
                                end
                       | _, _ => None
                       end
                   | _ => None
                   end
               end)
       | _ => Ok None
       end.

(** The combine parsers of src/types/column/factory.rs 413-517, each a function from
    the input to the result and the rest. None of them needs backtracking: every
    alternative is decided by its first character, so whether an error was
    "committed" makes no difference to what is accepted. *)
Definition ptoken (b : N) (s : bytes) : option bytes :=
  match s with x :: s' => if (x =? b)%N then Some s' else None | [] => None end.

(** [many(token('\\').with(any()).or(none_of("'")))]: the character after a
    backslash is taken as it is. On bytes: the first byte of that character is taken
    here and its continuation bytes by the ordinary case. *)
Fixpoint pword_body (s : bytes) : option (bytes * bytes) :=
  match s with
  | [] => Some ([], [])
  | b :: s' =>
      if (b =? 92)%N then
        match s' with
        | [] => None
        | c :: s'' => match pword_body s'' with Some (w, r) => Some (c :: w, r) | None => None end
        end
      else if (b =? 39)%N then Some ([], s)
      else match pword_body s' with Some (w, r) => Some (b :: w, r) | None => None end
  end.
Definition pword (s : bytes) : option (bytes * bytes) :=
  match ptoken 39 s with
  | None => None
  | Some s =>
      match pword_body s with
      | None => None
      | Some (w, s) => match ptoken 39 s with Some s => Some (w, s) | None => None end
      end
  end.

(** [many1(digit())]. *)
Fixpoint pdigits (s : bytes) : bytes * bytes :=
  match s with
  | b :: s' => if is_digit b then let (d, r) := pdigits s' in (b :: d, r) else ([], s)
  | [] => ([], [])
  end.

(** src/types/column/factory.rs 419-428: optional minus sign, digits, and
    [parse::<i16>]. *)
Definition pinteger (s : bytes) : option (Z * bytes) :=
  let (neg, s) := match ptoken 45 s with Some s' => (true, s') | None => (false, s) end in
  let (d, r) := pdigits s in
  match d with
  | [] => None
  | _ => match digits_value 0 d with
         | None => None
         | Some n =>
             let z := if neg then (- Z.of_N n)%Z else Z.of_N n in
             if ((-32768 <=? z) && (z <=? 32767))%Z then Some (z, r) else None
         end
  end.

(** src/types/column/factory.rs 433-439. *)
Definition ppair (s : bytes) : option ((bytes * Z) * bytes) :=
  match pword (trim_start s) with
  | None => None
  | Some (w, s) =>
      match ptoken 61 (trim_start s) with
      | None => None
      | Some s =>
          match pinteger (trim_start s) with
          | None => None
          | Some (z, s) => Some ((w, z), trim_start s)
          end
      end
  end.

(** src/types/column/factory.rs 440: [sep_by1(pair, token(','))]. Every round takes at
    least a byte, so the length of the input is fuel enough. *)
Fixpoint ppairs (fuel : nat) (s : bytes) : option (list (bytes * Z) * bytes) :=
  match fuel with
  | O => None
  | S fuel' =>
      match ppair s with
      | None => None
      | Some (e, s) =>
          match ptoken 44 s with
          | None => Some ([e], s)
          | Some s => match ppairs fuel' s with
                      | Some (es, s) => Some (e :: es, s)
                      | None => None
                      end
          end
      end
  end.

(** src/types/column/factory.rs 413-458: [parse_enum], with the keyword as argument. *)
Definition parse_enum (kw : bytes) (s : bytes) : option (list (bytes * Z)) :=
  match strip_prefix kw (trim_start s) with
  | None => None
  | Some s =>
      match ptoken 40 (trim_start s) with
      | None => None
      | Some s =>
          match ppairs (S (List.length s)) (trim_start s) with
          | None => None
          | Some (es, s) =>
              match ptoken 41 s with
              | Some [] => Some es
              | _ => None
              end
          end
      end
  end.

(** src/types/column/factory.rs 397-411; line 402 is [as i8]. *)
Definition as_i8 (z : Z) : Z := to_signed 1 (to_unsigned 1 z).
Definition parse_enum8 (s : bytes) : option (list (bytes * Z)) :=
  match parse_enum (str "Enum8") s with
  | Some es => Some (map (fun e => (fst e, as_i8 (snd e))) es)
  | None => None
  end.
Definition parse_enum16 (s : bytes) : option (list (bytes * Z)) := parse_enum (str "Enum16") s.

(** src/types/column/factory.rs 460-482. The optional part either is absent, and
    then nothing may follow, or is present in full. *)
Definition parse_date_time (s : bytes) : option (option bytes) :=
  let s := trim_start s in
  match (match strip_prefix (str "DateTime") s with
         | Some r => Some r
         | None => strip_prefix (str "Timestamp") s
         end) with
  | None => None
  | Some [] => Some None
  | Some r =>
      match ptoken 40 (trim_start r) with
      | None => None
      | Some r =>
          match pword (trim_start r) with
          | None => None
          | Some (w, r) =>
              match ptoken 41 (trim_start r) with
              | None => None
              | Some r => match trim_start r with [] => Some (Some w) | _ => None end
              end
          end
      end
  end.

(** src/types/column/factory.rs 484-517. *)
Definition parse_date_time64 (s : bytes) : option (N * option bytes) :=
  match strip_prefix (str "DateTime64") (trim_start s) with
  | None => None
  | Some r =>
      match ptoken 40 (trim_start r) with
      | None => None
      | Some r =>
          let (d, r) := pdigits (trim_start r) in
          match parse_uint u32_max d with
          | None => None
          | Some p =>
              let r := trim_start r in
              let tz := match ptoken 44 r with
                        | None => Some (None, r)
                        | Some r' => match pword (trim_start r') with
                                     | Some (w, r'') => Some (Some w, r'')
                                     | None => None
                                     end
                        end in
              match tz with
              | None => None
              | Some (tz, r) =>
                  match ptoken 41 (trim_start r) with
                  | Some [] => Some (p, tz)
                  | _ => None
                  end
              end
          end
      end
  end.

(** src/types/column/factory.rs 527-529 and 531-533: [&s[i..i+1] != b] with its
    boundary checks, scanning up, and down to [lo]. *)
Fixpoint scan_up (b : N) (s : bytes) (fuel lo : nat) : res nat :=
  match fuel with
  | O => Ok lo
  | S fuel' =>
      if (lo <? List.length s)%nat then
        do c <- str_slice s lo (lo + 1);
        if bytes_eqb c [b] then Ok lo else scan_up b s fuel' (S lo)
      else Ok lo
  end.
Fixpoint scan_down (b : N) (s : bytes) (lo hi : nat) : res nat :=
  if (lo <? hi)%nat then
    do c <- str_slice s hi (hi + 1);
    if bytes_eqb c [b] then Ok hi else
      match hi with O => Ok hi | S hi' => scan_down b s lo hi' end
  else Ok hi.

(** src/types/column/factory.rs 519-540. *)
Definition parse_low_cardinality (s : bytes) : res (option bytes) :=
  if starts_with (str "LowCardinality") s
  then do lo <- scan_up 40 s (List.length s) 14;
       do hi <- scan_down 41 s lo (List.length s - 1);
       if (hi <=? lo)%nat then Ok None
       else do i <- str_slice s (lo + 1) hi; Ok (Some (trim i))
  else Ok None.

(** src/types/column/factory.rs 64-114: which column a type name selects; [Ok None]
    is the "Unsupported column type" error of line 111. *)
Definition classify (s : bytes) : res (option kind) :=
  match match_str simple_names s with
  | Some k => Ok (Some k)
  | None =>
    do o <- parse_nullable s;
    match o with
    | Some i => Ok (Some (KNullable i))
    | None =>
    do o <- parse_fixed_string s;
    match o with
    | Some n => Ok (Some (KFixed n))
    | None =>
    do o <- parse_array s;
    match o with
    | Some i => Ok (Some (KArray i))
    | None =>
    do o <- parse_map s;
    match o with
    | Some (k, v) => Ok (Some (KMap k v))
    | None =>
    do o <- parse_decimal s;
    match o with
    | Some (p, sc, nb) => Ok (Some (KDecimal p sc nb))
    | None =>
    match parse_enum8 s with
    | Some es => Ok (Some (KEnum8 es))
    | None =>
    match parse_enum16 s with
    | Some es => Ok (Some (KEnum16 es))
    | None =>
    match parse_date_time s with
    | Some tz => Ok (Some (KDateTime tz))
    | None =>
    match parse_date_time64 s with
    | Some (p, tz) => Ok (Some (KDateTime64 p tz))
    | None =>
    do o <- parse_agg s;
    match o with
    | Some (f, i) => Ok (Some (KAgg f i))
    | None =>
    do o <- parse_low_cardinality s;
    match o with
    | Some i => Ok (Some (KLow i))
    | None => Ok None
    end end end end end end end end end end end
  end.
