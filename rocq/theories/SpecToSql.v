(** What writing Rust values into rows and columns is supposed to do. *)
From Verif Require Import Base Bytes Utf8 Types Columns SpecColumns FromSql SpecFromSql ToSql.

(** [has_typed h x]: [x] is a value of the Rust type [h]. Dates and times may be any that chrono
    has; the keys of a map differ from each other. *)
Fixpoint has_typed (h : htype) (x : rval) {struct h} : Prop :=
  match h, x with
  | HNum s, XNum t z => t = s /\ scalar_ok s z = true
  | HText, XText b => utf8_valid b = true
  | HDate, XDate _ => True
  | HTime, XTime _ n _ => (n < 1000000000)%N
  | HMap hk hv, XMap kvs =>
      NoDup (map fst kvs) /\ Forall (fun kv => has_typed hk (fst kv) /\ has_typed hv (snd kv)) kvs
  | _, _ => False
  end.
Definition typed (w : wtype) (x : rval) : Prop :=
  match w, x with
  | WHas h, _ => has_typed h x
  | WDecimal, XDecimal d => scalar_ok I64 (d_underlying d) = true
  | WEnum8, XEnum8 z => scalar_ok I8 z = true
  | WEnum16, XEnum16 z => scalar_ok I16 z = true
  | WUtc, XTime _ n tz => (n < 1000000000)%N /\ tz = utc
  | WBytes, XBytes _ => True
  | WStrings, XVec xs => Forall (has_typed HText) xs
  | WNums s, XVec xs => s <> U8 /\ s <> SBool /\ Forall (has_typed (HNum s)) xs
  | WUuid, XUuid b => length b = 16%nat
  | WOctets4, XBytes b => length b = 4%nat
  | WOctets16, XBytes b => length b = 16%nat
  | WOption h, XOption None => True
  | WOption h, XOption (Some y) => has_typed h y
  | _, _ => False
  end.

(** The Rust type to read it as. *)
Fixpoint has_rust (h : htype) : rtype :=
  match h with
  | HNum s => RNum s
  | HText => RString
  | HDate => RDate
  | HTime => RDateTime
  | HMap k v => RMap (has_rust k) (has_rust v)
  end.
Definition rust (w : wtype) : rtype :=
  match w with
  | WHas h => has_rust h
  | WDecimal => RDecimal
  | WEnum8 => REnum8
  | WEnum16 => REnum16
  | WUtc => RDateTime
  | WBytes => RVec (ENum U8)
  | WStrings => RVec EString
  | WNums s => RVec (ENum s)
  | WUuid => RUuid
  | WOctets4 => RIpv4
  | WOctets16 => RIpv6
  | WOption h => ROption (has_rust h)
  end.

(** What ClickHouse has room for: dates from 1970-01-01 on for 65536 days, times from 1970 on
    for 2^32 seconds. Keys of maps are integers and text (others panic). *)
Definition good_key (h : htype) : bool :=
  match h with HNum s => is_int s | HText => true | _ => false end.
Fixpoint has_room (h : htype) (x : rval) {struct h} : Prop :=
  match h, x with
  | HDate, XDate d => (0 <= d < 65536)%Z
  | HTime, XTime s _ _ => (0 <= s < 2 ^ 32)%Z
  | HMap hk hv, XMap kvs => good_key hk = true /\ Forall (fun kv => has_room hv (snd kv)) kvs
  | _, _ => True
  end.

(** A decimal must fit its own precision; four octets come back reversed, see below. *)
Definition room (w : wtype) (x : rval) : Prop :=
  match w, x with
  | WHas h, _ => has_room h x
  | WDecimal, XDecimal d =>
      from_precision (d_precision d) = Some (d_nobits d) /\
      (d_nobits d = N32 -> (- 2 ^ 31 <= d_underlying d < 2 ^ 31)%Z)
  | WUtc, XTime s _ _ => (0 <= s < 2 ^ 32)%Z
  | WOctets4, _ => False
  | WOption h, XOption (Some y) => has_room h y
  | _, _ => True
  end.

(** The decimals of a column have one precision and one scale. *)
Definition one_kind (x y : rval) : Prop :=
  match x, y with
  | XDecimal d, XDecimal e => d_precision d = d_precision e /\ d_scale d = d_scale e
  | _, _ => True
  end.

(** The value that comes back: the same one, but times without their fraction of a second,
    and sixteen octets as the address they are. *)
Fixpoint whole (x : rval) : rval :=
  match x with
  | XTime s _ tz => XTime s 0 tz
  | XMap kvs => XMap (map (fun kv => (whole (fst kv), whole (snd kv))) kvs)
  | XVec xs => XVec (map whole xs)
  | XOption (Some y) => XOption (Some (whole y))
  | _ => x
  end.
Definition kept (w : wtype) (x : rval) : rval :=
  match w, x with
  | WOctets4, XBytes b => XIpv4 b
  | WOctets16, XBytes b => XIpv6 b
  | _, _ => whole x
  end.

(** How many single cells a value is made of. *)
Fixpoint cells (x : rval) : N :=
  match x with
  | XOption (Some y) => cells y
  | XVec xs => fold_right (fun y n => (cells y + n)%N) 0%N xs
  | XMap kvs => fold_right (fun kv n => (cells (fst kv) + cells (snd kv) + n)%N) 0%N kvs
  | _ => 1%N
  end.
Definition total (rows : list (list rval)) : N :=
  fold_right (fun xs n => (fold_right (fun x m => cells x + m) 0 xs + n)%N) 0%N rows.

(** The same for vectors that become columns: the elements, the Rust type a cell is read as, and
    what ClickHouse has room for. *)
Definition ltyped (l : ltype) (x : rval) : Prop :=
  match l, x with
  | LNum s, XNum t z => t = s /\ scalar_ok s z = true
  | LText, XText b => utf8_valid b = true
  | LBytes, XBytes _ => True
  | LDate, XDate _ => True
  | LTime, XTime _ n _ => (n < 1000000000)%N
  | LIpv4, XIpv4 b => length b = 4%nat
  | LIpv6, XIpv6 b | LUuid, XUuid b => length b = 16%nat
  | LDecimal, XDecimal d => scalar_ok I64 (d_underlying d) = true
  | LEnum8, XEnum8 z => scalar_ok I8 z = true
  | LEnum16, XEnum16 z => scalar_ok I16 z = true
  | _, _ => False
  end.
Definition lroom (l : ltype) (x : rval) : Prop :=
  match l, x with
  | LDate, XDate d => (0 <= d < 65536)%Z
  | LTime, XTime s _ _ => (0 <= s < 2 ^ 32)%Z
  | _, _ => True
  end.
Definition lrust (l : ltype) : rtype :=
  match l with
  | LNum s => RNum s
  | LText => RString
  | LBytes => RSlice
  | LDate => RDate
  | LTime => RDateTime
  | LIpv4 => RIpv4
  | LIpv6 => RIpv6
  | LUuid => RUuid
  | LDecimal => RDecimal
  | LEnum8 => REnum8
  | LEnum16 => REnum16
  end.

(** [Vec<Vec<T>>] exists for some element types only. *)
Definition nests (l : ltype) : option elem :=
  match l with
  | LNum s => Some (ENum s)
  | LText => Some EString
  | LDate => Some EDate
  | LTime => Some EDateTime
  | LEnum8 => Some EEnum8
  | LEnum16 => Some EEnum16
  | _ => None
  end.

Definition exists_from (f : ftype) : Prop :=
  match f with FArray l => nests l <> None | _ => True end.

Definition ftyped (f : ftype) (x : rval) : Prop :=
  match f, x with
  | FVec l, _ => ltyped l x
  | FOption l, XOption None => True
  | FOption l, XOption (Some y) => ltyped l y
  | FArray l, XVec ys => nests l <> None /\ Forall (ltyped l) ys
  | FTextMap s, _ => has_typed (HMap HText (HNum s)) x
  | FNumMap k v, _ => has_typed (HMap (HNum k) (HNum v)) x
  | _, _ => False
  end.
Definition froom (f : ftype) (x : rval) : Prop :=
  match f, x with
  | FVec l, _ => lroom l x
  | FOption l, XOption (Some y) => lroom l y
  | FArray l, XVec ys => Forall (lroom l) ys
  | FNumMap k _, _ => is_int k = true
  | _, _ => True
  end.
Definition frust (f : ftype) : rtype :=
  match f with
  | FVec l => lrust l
  | FOption l => ROption (lrust l)
  | FArray l => match nests l with Some e => RVec e | None => RVec EStr end
  | FTextMap s => RMap RString (RNum s)
  | FNumMap k v => RMap (RNum k) (RNum v)
  end.

(** The decimals of a column have one scale, [s]. *)
Definition of_scale (s : N) (x : rval) : Prop :=
  match x with XDecimal d | XOption (Some (XDecimal d)) => d_scale d = s | _ => True end.

(** [back x y]: [y] is [x] come back: as above; a decimal is the same number at the same scale,
    but takes its precision from the column. *)
Definition back (x y : rval) : Prop :=
  match x, y with
  | XDecimal d, XDecimal e | XOption (Some (XDecimal d)), XOption (Some (XDecimal e)) =>
      d_underlying e = d_underlying d /\ d_scale e = d_scale d
  | _, _ => y = whole x
  end.

(** [made_of c f xs]: [c] is a column for the Rust type of [f] with the elements of [xs]. *)
Definition made_of (c : col) (f : ftype) (xs : list rval) : Prop :=
  clen c = Ok (length xs) /\ stands (frust f) (ctype c) /\
  forall i x, nth_error xs i = Some x ->
    exists u y, at_ c i = Ok u /\ from_sql (frust f) u = Ok y /\ back x y.

(** A vector that becomes a column without loss: its elements are of its type, ClickHouse has room
    for them, its decimals have one scale, and it has fewer than 2^64 single cells. *)
Definition lossless (f : ftype) (xs : list rval) : Prop :=
  exists_from f /\ Forall (ftyped f) xs /\ Forall (froom f) xs /\ (exists s, Forall (of_scale s) xs) /\
  (total [xs] < 2 ^ 64)%N.
