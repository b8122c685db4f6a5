(** Rust values in a table: the type of the column that keeps them, and what a query gives back. *)
From Verif Require Import Base Bytes Types Columns SpecColumns FromSql SpecFromSql ToSql SpecToSql Block SpecWire TypeNames.

(** The type of a table's column for values of a Rust type: maps may not contain times. *)
Fixpoint stored_type (h : htype) : option sqltype :=
  match h with
  | HNum s => Some (TNum s)
  | HText => Some TString
  | HDate => Some TDate
  | HTime => None
  | HMap k v =>
      if good_key k then
        match stored_type k, stored_type v with Some a, Some b => Some (TMap a b) | _, _ => None end
      else None
  end.
Definition single_type (h : htype) : option sqltype :=
  match h with HTime => Some (TDateTime DateTime32) | _ => stored_type h end.
(** A decimal's column has its precision and scale. There is no column for enumerations, whose values do not
    know the labels, and for four octets, which come back reversed. *)
Definition column_type (w : wtype) (x : rval) : option sqltype :=
  match w, x with
  | WHas h, _ => single_type h
  | WDecimal, XDecimal d =>
      if ((d_scale d <=? d_precision d) && (d_precision d <=? 18))%N then Some (TDecimal (d_precision d) (d_scale d)) else None
  | WUtc, _ => Some (TDateTime DateTime32)
  | WBytes, _ => Some TString
  | WStrings, _ => Some (TArray TString)
  | WNums s, _ => Some (TArray (TNum s))
  | WUuid, _ => Some TUuid
  | WOctets16, _ => Some TIpv6
  | WOption h, _ => match single_type h with Some t => Some (TNullable t) | None => None end
  | _, _ => None
  end.

(** The table has a column of the right name and type for every field of the row. *)
Definition table_for (heads : list (bytes * sqltype)) (fs : list (bytes * wtype)) (row : list rval) : Prop :=
  Forall2 (fun h fx => fst h = fst (fst fx) /\ column_type (snd (fst fx)) (snd fx) = Some (snd h)) heads (combine fs row).

(** Strings no longer than Rust allows any to be. *)
Definition short (x : rval) : Prop :=
  match x with XText b | XBytes b => (lenN b <= isize_max)%N | _ => True end.

(** Times are told in the server's zone. *)
Definition moved (tz : bytes) (x : rval) : rval :=
  match x with
  | XTime s n _ => XTime s n tz
  | XOption (Some (XTime s n _)) => XOption (Some (XTime s n tz))
  | _ => x
  end.

(** The names of a column and of its type are text, of a length that Rust allows. *)
Definition named (h : bytes * sqltype) : Prop :=
  is_utf8 (fst h) /\ (lenN (fst h) <= isize_max)%N /\ is_utf8 (type_name (snd h)) /\ (lenN (type_name (snd h)) <= isize_max)%N.
