(** What errors say: src/errors/mod.rs 15-121 ([Display], made by thiserror) and the errors of src/types/from_sql.rs. *)
From Coq Require Import String.
From Verif Require Import Base Bytes Utf8 Types Text TypeNames Values FromSql.
Open Scope list_scope.

(** [stringify!] of the names of numbers: from_sql.rs 30-36, 270-289 and 367-386. *)
Definition number_name (s : scalar) : bytes :=
  str (match s with
       | U8 => "u8" | U16 => "u16" | U32 => "u32" | U64 => "u64" | U128 => "u128"
       | I8 => "i8" | I16 => "i16" | I32 => "i32" | I64 => "i64" | I128 => "i128"
       | F32 => "f32" | F64 => "f64" | SBool => "bool"
       end).

(** from_sql.rs 192-216 and 249-290: what errors about vectors call them. *)
Definition vector_name (e : elem) : bytes :=
  match e with
  | EStr => str "Vec<&'a str>" | EString => str "Vec<String>" | ESlice => str "Vec<&'a [u8]>" | EBytes => str "Vec<Vec<u8>>"
  | EDate => str "Vec<NaiveDate>" | EDateTime => str "Vec<DateTime<Tz>>" | EEnum8 => str "Vec<Enum8>" | EEnum16 => str "Vec<Enum16>"
  | ENum s => number_name s
  end.

(** src/types/value_ref.rs 205-242: the type of a cell; 245-271: what [as_str] and [as_bytes] say of cells that are no strings. *)
Definition text_refused (v : value) (as_what : bytes) : option (sqltype * bytes) :=
  match v with VString _ => None | _ => Some (type_of_value v, as_what) end.

(** The first that is refused. *)
Fixpoint first_refused {A B} (f : A -> option B) (l : list A) : option B :=
  match l with [] => None | x :: l => match f x with Some y => Some y | None => first_refused f l end end.

(** src/types/from_sql.rs 26-365: the type and the name in the [InvalidType] error of a refused conversion. [None] if there is no such error. In a map an
    entry may fail in another way before the one that is refused, and then that is reported; so this is about errors that are [InvalidType]. Line
    293 has [stringify!($t)] outside of a macro. *)
Fixpoint refused (r : rtype) (v : value) {struct r} : option (sqltype * bytes) :=
  let no d := Some (type_of_value v, d) in
  match r with
  | RNum s => match v with VNum t _ => if scalar_eq_dec s t then None else no (number_name s) | _ => no (number_name s) end
  | RDecimal => match v with VDecimal _ => None | _ => no (str "Decimal") end
  | REnum8 => match v with VEnum8 _ _ => None | _ => no (str "Enum8") end
  | REnum16 => match v with VEnum16 _ _ => None | _ => no (str "Enum16") end
  | RStr | RString => text_refused v (str "&str")
  | RSlice => text_refused v (str "&[u8]")
  | RMap rk rv =>
      match v with
      | VMap _ _ kvs =>
          (fix loop (kvs : list (value * value)) : option (sqltype * bytes) :=
             match kvs with
             | [] => None
             | (k, x) :: kvs =>
                 match refused rk k with
                 | Some y => Some y
                 | None => match refused rv x with Some y => Some y | None => loop kvs end
                 end
             end) kvs
      | _ => None
      end
  | RIpv4 => match v with VIpv4 _ => None | _ => no (str "Ipv4") end
  | RIpv6 => match v with VIpv6 _ => None | _ => no (str "Ipv6") end
  | RUuid => match v with VUuid _ => None | _ => no (str "Uuid") end
  | RVec e =>
      match v with
      | VArray t vs =>
          if elem_tag e t then
            first_refused (fun x => match e with
                                    | EStr | EString => text_refused x (str "&str")
                                    | ESlice | EBytes => text_refused x (str "&[u8]")
                                    | _ => None
                                    end) vs
          else match e with ENum U8 => no (str "&[u8]") | _ => no (vector_name e) end
      | _ => match e with ENum U8 => text_refused v (str "&[u8]") | _ => no (vector_name e) end
      end
  | ROption r' =>
      match v with
      | VNull _ => None
      | VSome x => refused r' x
      | _ => no (str "$t")
      end
  | RDate => match v with VDate _ => None | _ => no (str "NaiveDate") end
  | RDateTime => match v with VDateTime _ _ | VDateTime64 _ _ _ => None | _ => no (str "DateTime<Tz>") end
  end.

(** src/errors/mod.rs 34-35 and 111-112. *)
Definition refusal_text (t : sqltype) (d : bytes) : bytes :=
  str "From SQL error: `SqlType::" ++ type_name t ++ str " cannot be cast to " ++ d ++ str ".`".

(** src/errors/mod.rs 30-31 and 40-47: what is shown of an error of the server. *)
Definition server_text (e : server_error) : bytes :=
  str "Server error: `ERROR " ++ se_name e ++ str " (" ++ print_N (se_code e) ++ str "): " ++ se_message e ++ str "`".
