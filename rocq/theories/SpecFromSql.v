(** What reading a cell as a Rust type is supposed to give. *)
From Verif Require Import Base Bytes Utf8 Types Columns SpecColumns FromSql.

(** [is_value v x]: the Rust value [x] says the same as the cell [v]. A DateTime64 cell counts
    units of 10^-p seconds. IPv4 cells hold their octets last to first, UUID cells
    hold either half last to first. *)
Inductive is_value : value -> rval -> Prop :=
| IVNum s z : is_value (VNum s z) (XNum s z)
| IVText b : utf8_valid b = true -> is_value (VString b) (XText b)
| IVBytes b : is_value (VString b) (XBytes b)
| IVDate d : is_value (VDate d) (XDate (Z.of_N d))
| IVDateTime t tz : is_value (VDateTime t tz) (XTime (Z.of_N t) 0 tz)
| IVDateTime64 t p tz secs nanos :
    (p <= 9)%N -> (nanos < 1000000000)%N ->
    (secs * 1000000000 + Z.of_N nanos = t * 10 ^ (9 - Z.of_N p))%Z ->
    is_value (VDateTime64 t p tz) (XTime secs nanos tz)
| IVDecimal d : is_value (VDecimal d) (XDecimal d)
| IVEnum8 l z : is_value (VEnum8 l z) (XEnum8 z)
| IVEnum16 l z : is_value (VEnum16 l z) (XEnum16 z)
| IVIpv4 b : is_value (VIpv4 (rev b)) (XIpv4 b)
| IVIpv6 b : is_value (VIpv6 b) (XIpv6 b)
| IVUuid a b : length a = 8%nat -> is_value (VUuid (rev a ++ rev b)) (XUuid (a ++ b))
| IVNull t : is_value (VNull t) (XOption None)
| IVSome v x : is_value v x -> is_value (VSome v) (XOption (Some x))
| IVArray t vs xs : Forall2 is_value vs xs -> is_value (VArray t vs) (XVec xs)
| IVMap k v kvs xs :
    Forall2 (fun a b => is_value (fst a) (fst b) /\ is_value (snd a) (snd b)) kvs xs ->
    is_value (VMap k v kvs) (XMap xs).

(** [stands r t]: the Rust type [r] stands for the ClickHouse type [t]. The wrappers
    LowCardinality and SimpleAggregateFunction make no difference. *)
Inductive elem_stands : elem -> sqltype -> Prop :=
| ESStr : elem_stands EStr TString
| ESString : elem_stands EString TString
| ESSlice : elem_stands ESlice TString
| ESBytes : elem_stands EBytes TString
| ESDate : elem_stands EDate TDate
| ESDateTime d : elem_stands EDateTime (TDateTime d)
| ESEnum8 l : elem_stands EEnum8 (TEnum8 l)
| ESEnum16 l : elem_stands EEnum16 (TEnum16 l)
| ESNum s : elem_stands (ENum s) (TNum s).
Definition texty (t : sqltype) : Prop := t = TString \/ exists n, t = TFixedString n.
Inductive stands : rtype -> sqltype -> Prop :=
| SNum s : stands (RNum s) (TNum s)
| SDecimal p s : stands RDecimal (TDecimal p s)
| SEnum8 l : stands REnum8 (TEnum8 l)
| SEnum16 l : stands REnum16 (TEnum16 l)
| SStr t : texty t -> stands RStr t
| SSlice t : texty t -> stands RSlice t
| SString t : texty t -> stands RString t
| SBytes t : texty t -> stands (RVec (ENum U8)) t
| SMap k v a b : stands k a -> stands v b -> stands (RMap k v) (TMap a b)
| SIpv4 : stands RIpv4 TIpv4
| SIpv6 : stands RIpv6 TIpv6
| SUuid : stands RUuid TUuid
| SVec e t : elem_stands e t -> stands (RVec e) (TArray t)
| SOption r t : stands r t -> stands (ROption r) (TNullable t)
| SDate : stands RDate TDate
| SDateTime d : stands RDateTime (TDateTime d)
| SLow r t : stands r t -> stands r (TLowCardinality t)
| SAgg r f t : stands r t -> stands r (TAgg f t).

(** Columns a program can get hold of: concatenated ones are made of pieces of one type. Columns
    made by casts, which exist during an insert only, are left out. ClickHouse has no DateTime64
    of a precision above 9. *)
Fixpoint formed (c : col) : Prop :=
  match c with
  | CNullable i _ | CArray i _ | CAgg _ i | CLow i _ _ _ | CChunk i _ _ => formed i
  | CMap k v _ => formed k /\ formed v
  | CDateTime64 _ p _ => (p <= 9)%N
  | CConcat c0 cs =>
      formed c0 /\ fold_right (fun c P => (formed c /\ ctype c = ctype c0) /\ P) True cs
  | CFixedAdapter _ _ | CNullFixedAdapter _ _ | CStringAdapter _ | CDecimalAdapter _ _ _ _
  | CNullDecimalAdapter _ _ _ _ | CEnum8Adapter _ _ | CEnum16Adapter _ _
  | CNullEnum8Adapter _ _ | CNullEnum16Adapter _ _ | CChronoAdapter _ _ => False
  | _ => True
  end.

(** No NULL and no empty map inside. *)
Fixpoint full (v : value) : Prop :=
  match v with
  | VNull _ => False
  | VSome x => full x
  | VMap _ _ kvs => kvs <> [] /\ fold_right (fun kv P => (full (fst kv) /\ full (snd kv)) /\ P) True kvs
  | _ => True
  end.

(** Every string inside is UTF-8, and every DateTime64 is a time from 1970 on whose nanoseconds
    are an i64. *)
Fixpoint readable (v : value) : Prop :=
  match v with
  | VString b => utf8_valid b = true
  | VDateTime64 t p _ => (p <= 9)%N /\ (0 <= t)%Z /\ (t * 10 ^ (9 - Z.of_N p) < 2 ^ 63)%Z
  | VSome x => readable x
  | VArray _ vs => fold_right (fun x P => readable x /\ P) True vs
  | VMap _ _ kvs => fold_right (fun kv P => (readable (fst kv) /\ readable (snd kv)) /\ P) True kvs
  | _ => True
  end.

(** ClickHouse types of which no DateTime64 inside has a precision above 9. *)
Fixpoint precise_type (t : sqltype) : Prop :=
  match t with
  | TDateTime (DateTime64 p _) => (p <= 9)%N
  | TNullable i | TArray i | TAgg _ i | TLowCardinality i => precise_type i
  | TMap k v => precise_type k /\ precise_type v
  | _ => True
  end.
