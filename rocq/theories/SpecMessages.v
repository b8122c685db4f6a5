(** What C111 talks of. *)
From Coq Require Import String.
From Verif Require Import Base Bytes Types Text FromSql.
Open Scope list_scope.

(** Reading [v] as [r] comes to reading [w] as [q]: a part of it, or all. *)
Inductive comes_to : rtype -> value -> rtype -> value -> Prop :=
| CTSelf r v : comes_to r v r v
| CTOption r x q w : comes_to r x q w -> comes_to (ROption r) (VSome x) q w
| CTKey rk rv tk tv kvs k x q w : In (k, x) kvs -> comes_to rk k q w -> comes_to (RMap rk rv) (VMap tk tv kvs) q w
| CTValue rk rv tk tv kvs k x q w : In (k, x) kvs -> comes_to rv x q w -> comes_to (RMap rk rv) (VMap tk tv kvs) q w
| CTStr e t vs x : (e = EStr \/ e = EString) -> In x vs -> comes_to (RVec e) (VArray t vs) RStr x
| CTSlice e t vs x : (e = ESlice \/ e = EBytes) -> In x vs -> comes_to (RVec e) (VArray t vs) RSlice x.

(** What a program calls the type: its own name, or that of what it is read as first. *)
Inductive called : rtype -> bytes -> Prop :=
| CaNum s n : (n = match s with
     | U8 => str "u8" | U16 => str "u16" | U32 => str "u32" | U64 => str "u64" | U128 => str "u128"
     | I8 => str "i8" | I16 => str "i16" | I32 => str "i32" | I64 => str "i64" | I128 => str "i128"
     | F32 => str "f32" | F64 => str "f64" | SBool => str "bool" end) -> called (RNum s) n
| CaDecimal : called RDecimal (str "Decimal")
| CaEnum8 : called REnum8 (str "Enum8")
| CaEnum16 : called REnum16 (str "Enum16")
| CaStr : called RStr (str "&str")
| CaString : called RString (str "&str")
| CaSlice : called RSlice (str "&[u8]")
| CaIpv4 : called RIpv4 (str "Ipv4")
| CaIpv6 : called RIpv6 (str "Ipv6")
| CaUuid : called RUuid (str "Uuid")
| CaBytes : called (RVec (ENum U8)) (str "&[u8]")
| CaVecStr : called (RVec EStr) (str "Vec<&'a str>")
| CaVecString : called (RVec EString) (str "Vec<String>")
| CaVecSlice : called (RVec ESlice) (str "Vec<&'a [u8]>")
| CaVecBytes : called (RVec EBytes) (str "Vec<Vec<u8>>")
| CaVecDate : called (RVec EDate) (str "Vec<NaiveDate>")
| CaVecTime : called (RVec EDateTime) (str "Vec<DateTime<Tz>>")
| CaVecEnum8 : called (RVec EEnum8) (str "Vec<Enum8>")
| CaVecEnum16 : called (RVec EEnum16) (str "Vec<Enum16>")
| CaDate : called RDate (str "NaiveDate")
| CaTime : called RDateTime (str "DateTime<Tz>").

(** The types that are called by another name: any option is called [$t], and a vector of numbers other than bytes is called by its element. *)
Inductive misnamed : rtype -> bytes -> Prop :=
| MiOption q : misnamed (ROption q) (str "$t")
| MiVec s n : s <> U8 -> called (RNum s) n -> misnamed (RVec (ENum s)) n.
