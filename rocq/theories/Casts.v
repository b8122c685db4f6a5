(** Converting a column to the type the server asked for: src/types/column/mod.rs. *)
From Verif Require Import Base Bytes Reader Wire Types Text TypeNames Decimal DateTime Values Columns.
Open Scope nat_scope.

(** [ColumnData::cast_to]: column_data.rs 42-44 ([None] unless overridden), array.rs 124-134,
    chrono_datetime.rs 128-136, enums.rs 86-96 and 328-338, map.rs 143-156, nullable.rs
    108-118, simple_agg_func.rs 74-84. *)
Fixpoint data_cast (c : col) (t : sqltype) {struct c} : option col :=
  match c with
  | CArray i offs =>
      match t with
      | TArray t' => match data_cast i t' with Some i' => Some (CArray i' offs) | None => None end
      | _ => None
      end
  | CChrono _ _ => if is_datetime t then Some (CChronoAdapter c t) else None
  | CEnum16 _ l => match t with TEnum16 vals => Some (CEnum16 vals l) | _ => None end
  | CEnum8 _ l => match t with TEnum8 vals => Some (CEnum8 vals l) | _ => None end
  | CMap k v offs =>
      match t with
      | TMap kt vt =>
          match data_cast k kt, data_cast v vt with
          | Some k', Some v' => Some (CMap k' v' offs)
          | _, _ => None
          end
      | _ => None
      end
  | CNullable i nulls =>
      match t with
      | TNullable t' => match data_cast i t' with Some i' => Some (CNullable i' nulls) | None => None end
      | _ => None
      end
  | CAgg _ i =>
      match t with
      | TAgg f t' => match data_cast i t' with Some i' => Some (CAgg f i') | None => None end
      | _ => None
      end
  | _ => None
  end.

Section Cast.
(** [str::parse::<Ipv4Addr>] and [str::parse::<Ipv6Addr>] of the standard library: the octets
    in network order. *)
Variable parse_ipv4 parse_ipv6 : bytes -> option bytes.

(** [self.at(i).as_str().unwrap()], value_ref.rs [as_str]: the cell must be a string; that
    it is UTF-8 is part of what the parser is asked. *)
Definition cell_text (v : value) : res bytes :=
  match v with VString b => Ok b | _ => Panic PUnwrap end.
Definition cell_ip (parse : bytes -> option bytes) (v : value) : res bytes :=
  do s <- cell_text v; or_panic PUnwrap (parse s).

(** src/types/column/mod.rs 229-462: [Column::cast_to], without the name, which is kept. *)
Fixpoint cast_col (c : col) (dst : sqltype) {struct dst} : res col :=
  if sqltype_eqb dst (ctype c) then Ok c else
  let other := match data_cast c dst with Some c' => Ok c' | None => Err EInvalidType end in
  match dst with
  | TLowCardinality inner =>
      if is_inner_low_cardinality (ctype c) then
        do n <- clen c;
        let tz := match ctimezone c with Some z => z | None => default_tz end in
        do i0 <- from_type inner tz;
        do vs <- mapM (at_ c) (seq 0 n);
        do low <- push_each push (CLow i0 X8 [] None) vs;
        match low with
        | CLow i ix idx m =>
            if is_datetime inner then
              match data_cast i inner with
              | Some i' => Ok (CLow i' ix idx m)
              | None => Ok low
              end
            else Ok low
        | _ => Panic PFuel
        end
      else other
  | TFixedString n =>
      match ctype c with
      | TString => Ok (CFixedAdapter c n)
      | TArray (TNum U8) => Ok (CFixedAdapter (CStringAdapter c) n)
      | _ => other
      end
  | TNullable (TFixedString n) =>
      match ctype c with TNullable TString => Ok (CNullFixedAdapter c n) | _ => other end
  | TString =>
      match ctype c with TArray (TNum U8) => Ok (CStringAdapter c) | _ => other end
  | TDecimal p s =>
      match ctype c with
      | TDecimal _ _ => do nb <- or_panic PUnwrap (from_precision p); Ok (CDecimalAdapter c p s nb)
      | _ => other
      end
  | TEnum8 vals => match ctype c with TEnum8 _ => Ok (CEnum8Adapter c vals) | _ => other end
  | TEnum16 vals => match ctype c with TEnum16 _ => Ok (CEnum16Adapter c vals) | _ => other end
  | TNullable (TEnum8 vals) =>
      match ctype c with TNullable (TEnum8 _) => Ok (CNullEnum8Adapter c vals) | _ => other end
  | TNullable (TEnum16 vals) =>
      match ctype c with TNullable (TEnum16 _) => Ok (CNullEnum16Adapter c vals) | _ => other end
  | TNullable (TDecimal p s) =>
      match ctype c with
      | TNullable (TDecimal _ _) =>
          do nb <- or_panic PUnwrap (from_precision p); Ok (CNullDecimalAdapter c p s nb)
      | _ => other
      end
  | TIpv4 =>
      match ctype c with
      | TString =>
          do n <- clen c; do vs <- mapM (at_ c) (seq 0 n); do bs <- mapM (cell_ip parse_ipv4) vs;
          Ok (CIp IpV4 (concat (map (@rev N) bs)))
      | _ => other
      end
  | TIpv6 =>
      match ctype c with
      | TString =>
          do n <- clen c; do vs <- mapM (at_ c) (seq 0 n); do bs <- mapM (cell_ip parse_ipv6) vs;
          Ok (CIp IpV6 (concat bs))
      | _ => other
      end
  | TAgg f nested => do i <- cast_col c nested; Ok (CAgg f i)
  | _ => other
  end.
End Cast.
