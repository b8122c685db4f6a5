(** What columns are supposed to do, independently of how they store their cells. *)
From Verif Require Import Base Bytes Types TypeNames Columns.

(** [c] has exactly the cells [vs]: its length is theirs, and each row reads as its cell. *)
Definition holds (c : col) (vs : list value) : Prop :=
  clen c = Ok (length vs) /\ forall i v, nth_error vs i = Some v -> at_ c i = Ok v.

(** Offsets: each is at least the one before it, starting from 0. *)
Fixpoint climbs (a : N) (l : list N) : Prop :=
  match l with [] => True | b :: l' => (a <= b)%N /\ climbs b l' end.

(** The first [n] bytes of [b], padded with zero bytes to length [n]. *)
Definition pad_or_cut (n : nat) (b : bytes) : bytes := firstn n (b ++ repeat 0%N n).

(** The scalars that are integers. *)
Definition is_int (s : scalar) : bool :=
  match s with U8 | U16 | U32 | U64 | U128 | I8 | I16 | I32 | I64 | I128 => true | _ => false end.

(** Keys a map cell can have, and when two of them are the same. *)
Definition map_key (k : value) : bool :=
  match k with VString _ => true | VNum s _ => is_int s | _ => false end.
Definition same_key (a b : value) : bool :=
  match a, b with
  | VString x, VString y => bytes_eqb x y
  | VNum s x, VNum t y => (if scalar_eq_dec s t then true else false) && (x =? y)%Z
  | _, _ => false
  end.
Fixpoint distinct_keys (ks : list value) : bool :=
  match ks with
  | [] => true
  | k :: ks' => map_key k && negb (existsb (same_key k) ks') && distinct_keys ks'
  end.

(** Values that can be entries of the dictionary of a low-cardinality column. A column that
    keeps the zone of each time must be given times in one zone, its own, because a
    dictionary entry has one zone only. *)
Definition low_key (inner : col) (v : value) : bool :=
  match inner, v with
  | CVec s _, VNum t _ => is_int s && if scalar_eq_dec s t then true else false
  | CString _, VString _ => true
  | CFixed _ _, VString _ => true
  | CDate _ _, VDate _ => true
  | CDateTime _ _, VDateTime _ _ => true
  | CChrono _ tz, VDateTime _ z => bytes_eqb z tz
  | _, _ => false
  end.

(** [mapO f l]: all results, if all are there. *)
Fixpoint mapO {A B} (f : A -> option B) (l : list A) : option (list B) :=
  match l with
  | [] => Some []
  | x :: l' => match f x, mapO f l' with Some y, Some ys => Some (y :: ys) | _, _ => None end
  end.

(** [reads_as c v]: the cell that a value [v] appended to a column like [c] must read as; [None]
    if a column like [c] cannot take [v]. It depends on the build of [c] only, not on the rows
    it has. Numbers, strings, addresses and enum numbers read as themselves, in the column's
    own type; a fixed string is cut or padded; a time reads in the zone and to the precision of the column; a null
    as a null of the column's type; an array or map as the array or map of what its elements
    read as. *)
Fixpoint reads_as (c : col) (v : value) {struct c} : option value :=
  match c with
  | CVec s _ =>
      match v with VNum t z => if scalar_eq_dec s t then Some (VNum s z) else None | _ => None end
  | CString _ => match v with VString b => Some (VString b) | _ => None end
  | CFixed n _ =>
      match v with VString b => Some (VString (pad_or_cut (N.to_nat n) b)) | _ => None end
  | CDate _ _ => match v with VDate d => if (d <? 65536)%N then Some (VDate d) else None | _ => None end
  | CDateTime _ tz =>
      match v with
      | VDateTime s _ => if (s <? 2 ^ 32)%N then Some (VDateTime s tz) else None
      | VChrono s _ _ =>
          if ((0 <=? s) && (s <? 2 ^ 32))%Z then Some (VDateTime (Z.to_N s) tz) else None
      | _ => None
      end
  | CDateTime64 _ p tz =>
      match v with
      | VDateTime64 x q _ =>
          let nanos := (x * 10 ^ (9 - Z.of_N q))%Z in
          if (q <=? 9)%N && (p <=? 9)%N && ((0 <=? x) && (nanos <? 2 ^ 63))%Z
          then Some (VDateTime64 (nanos / 10 ^ (9 - Z.of_N p))%Z p tz) else None
      | _ => None
      end
  | CChrono _ _ =>
      match v with
      | VDateTime s z => if (s <? 2 ^ 32)%N then Some (VDateTime s z) else None
      | VChrono s _ z =>
          if ((0 <=? s) && (s <? 2 ^ 32))%Z then Some (VDateTime (Z.to_N s) z) else None
      | _ => None
      end
  | CIp IpV4 _ => match v with VIpv4 b => if (length b =? 4)%nat then Some v else None | _ => None end
  | CIp IpV6 _ => match v with VIpv6 b => if (length b =? 16)%nat then Some v else None | _ => None end
  | CIp IpUuid _ => match v with VUuid b => if (length b =? 16)%nat then Some v else None | _ => None end
  | CNullable inner _ =>
      match v with
      | VNull t =>
          match reads_as inner (value_default t) with
          | Some _ => Some (VNull (ctype inner))
          | None => None
          end
      | VSome x => match reads_as inner x with Some w => Some (VSome w) | None => None end
      | _ => match reads_as inner v with Some w => Some (VSome w) | None => None end
      end
  | CArray inner _ =>
      match v with
      | VArray _ vs =>
          match mapO (reads_as inner) vs with Some ws => Some (VArray (ctype inner) ws) | None => None end
      | _ => None
      end
  | CMap ks vs _ =>
      match v with
      | VMap _ _ kvs =>
          match mapO (fun kv => match reads_as ks (fst kv), reads_as vs (snd kv) with
                                | Some k, Some x => Some (k, x)
                                | _, _ => None
                                end) kvs with
          | Some ws => if distinct_keys (map fst ws) then Some (VMap (ctype ks) (ctype vs) ws) else None
          | None => None
          end
      | _ => None
      end
  | CDecimal _ p s nb =>
      match v with
      | VDecimal d =>
          if (d_scale d =? s)%N &&
             match nb with
             | N32 => ((- 2 ^ 31 <=? d_underlying d) && (d_underlying d <? 2 ^ 31))%Z
             | N64 => true
             end
          then Some (VDecimal (mk_decimal (d_underlying d) nb p s)) else None
      | _ => None
      end
  | CEnum8 vals _ => match v with VEnum8 _ z => Some (VEnum8 vals z) | _ => None end
  | CEnum16 vals _ => match v with VEnum16 _ z => Some (VEnum16 vals z) | _ => None end
  | CAgg _ inner => reads_as inner v
  | CLow inner _ _ _ => if low_key inner v then reads_as inner v else None
  | _ => None
  end.

(** No FixedString(0) inside: such a column has no length. *)
Fixpoint no_empty_rows (t : sqltype) : Prop :=
  match t with
  | TFixedString n => n <> 0%N
  | TNullable i | TArray i | TAgg _ i | TLowCardinality i => no_empty_rows i
  | TMap k v => no_empty_rows k /\ no_empty_rows v
  | _ => True
  end.

(** Optional values and the cells they must read as. *)
Definition optional (t : sqltype) (o : option value) : value :=
  match o with None => VNull t | Some v => VSome v end.
Definition optional_cell (inner : col) (o : option value) (w : value) : Prop :=
  match o with
  | None => w = VNull (ctype inner)
  | Some v => exists x, reads_as inner v = Some x /\ w = VSome x
  end.

(** How many single cells a value is made of. *)
Fixpoint weight (v : value) : N :=
  match v with
  | VSome x => weight x
  | VArray _ vs => fold_right (fun x n => (weight x + n)%N) 0%N vs
  | VMap _ _ kvs => fold_right (fun kv n => (weight (fst kv) + weight (snd kv) + n)%N) 0%N kvs
  | _ => 1%N
  end.

(** Columns as the library makes them: every element is a value of its type, buffers hold
    whole rows, there is one null mark per row, offsets climb to the length of the inner
    column, and indices point into the dictionary. Buffers are no larger than Rust allows
    any buffer to be. A column split off another ([CChunk]) must not start inside arrays or
    maps, see [flat]. Concatenations and columns made by casts are left out. *)
Fixpoint flat (c : col) : bool :=
  match c with
  | CArray _ _ | CMap _ _ _ => false
  | CNullable i _ | CAgg _ i | CChunk i _ _ => flat i
  | _ => true
  end.
Fixpoint sound (c : col) : Prop :=
  match c with
  | CVec s l => Forall (fun z => scalar_ok s z = true) l /\ (lenN l * N.of_nat (width s) <= isize_max)%N
  | CString l => Forall (fun b => lenN b <= isize_max)%N l /\ (80 * lenN l <= isize_max)%N
  | CFixed n buf => n <> 0%N /\ Nat.modulo (length buf) (N.to_nat n) = 0%nat /\ (lenN buf <= isize_max)%N
  | CDate l _ => Forall (fun d => d < 2 ^ 16)%N l /\ (2 * lenN l <= isize_max)%N
  | CDateTime l _ => Forall (fun d => d < 2 ^ 32)%N l /\ (4 * lenN l <= isize_max)%N
  | CIp k buf => Nat.modulo (length buf) (ip_size k) = 0%nat /\ (lenN buf <= isize_max)%N
  | CNullable i nulls => sound i /\ clen i = Ok (length nulls) /\ (lenN nulls <= isize_max)%N
  | CArray i offs =>
      sound i /\ clen i = Ok (N.to_nat (last offs 0%N)) /\ climbs 0 offs /\
      (last offs 0 < 2 ^ 64)%N /\ (8 * lenN offs <= isize_max)%N
  | CMap k v offs =>
      sound k /\ sound v /\ clen k = Ok (N.to_nat (last offs 0%N)) /\
      clen v = Ok (N.to_nat (last offs 0%N)) /\ climbs 0 offs /\
      (last offs 0 < 2 ^ 64)%N /\ (8 * lenN offs <= isize_max)%N
  | CDecimal l p _ nb =>
      from_precision p = Some nb /\ Forall (fun z => scalar_ok (nb_scalar nb) z = true) l /\
      (8 * lenN l <= isize_max)%N
  | CEnum8 _ l => Forall (fun z => scalar_ok I8 z = true) l /\ (lenN l <= isize_max)%N
  | CEnum16 _ l => Forall (fun z => scalar_ok I16 z = true) l /\ (2 * lenN l <= isize_max)%N
  | CAgg _ i => sound i
  | CLow i ix idx _ =>
      sound i /\ (8 * lenN idx <= isize_max)%N /\
      exists n, clen i = Ok n /\ (N.of_nat n < 2 ^ 64)%N /\
        Forall (fun j => (N.to_nat j < n)%nat /\ (j <= ix_max ix)%N) idx
  | CChunk i a b => sound i /\ (a = 0 \/ flat i = true) /\ (a <= b)%nat /\
      exists n, clen i = Ok n /\ (b <= n)%nat
  | _ => False
  end.

(** The same value with every time put in zone [tz]: the wire carries no zone for DateTime. *)
Fixpoint zoned (tz : bytes) (v : value) : value :=
  match v with
  | VDateTime s _ => VDateTime s tz
  | VSome x => VSome (zoned tz x)
  | VArray t vs => VArray t (map (zoned tz) vs)
  | VMap k v kvs => VMap k v (map (fun kv => (zoned tz (fst kv), zoned tz (snd kv))) kvs)
  | _ => v
  end.

(** [c'] has [n] rows, which are rows [a], [a]+1, ... of [c] up to time zones (a row that
    cannot be read in one cannot be read in the other), and the same type. *)
Definition delivers (tz : bytes) (c c' : col) (a n : nat) : Prop :=
  ctype c' = ctype c /\ clen c' = Ok n /\
  forall i, (i < n)%nat -> at_ c' i = rmap (zoned tz) (at_ c (a + i)).

(** The sizes in [sound] alone: no buffer is larger than Rust allows any buffer to be. *)
Fixpoint fits (c : col) : Prop :=
  match c with
  | CVec s l => (lenN l * N.of_nat (width s) <= isize_max)%N
  | CString l => Forall (fun b => lenN b <= isize_max)%N l /\ (80 * lenN l <= isize_max)%N
  | CFixed _ buf | CIp _ buf => (lenN buf <= isize_max)%N
  | CDate l _ => (2 * lenN l <= isize_max)%N
  | CDateTime l _ => (4 * lenN l <= isize_max)%N
  | CChrono l _ => (8 * lenN l <= isize_max)%N
  | CNullable i nulls => fits i /\ (lenN nulls <= isize_max)%N
  | CArray i offs => fits i /\ (last offs 0 < 2 ^ 64)%N /\ (8 * lenN offs <= isize_max)%N
  | CMap k v offs => fits k /\ fits v /\ (last offs 0 < 2 ^ 64)%N /\ (8 * lenN offs <= isize_max)%N
  | CDecimal l _ _ _ => (8 * lenN l <= isize_max)%N
  | CEnum8 _ l => (lenN l <= isize_max)%N
  | CEnum16 _ l => (2 * lenN l <= isize_max)%N
  | CAgg _ i | CChunk i _ _ => fits i
  | CLow i _ idx _ => fits i /\ (8 * lenN idx <= isize_max)%N
  | _ => True
  end.

(** A value a Rust program can build: numbers are within their types. *)
Fixpoint proper (v : value) : Prop :=
  match v with
  | VNum s z => scalar_ok s z = true
  | VDecimal d => scalar_ok I64 (d_underlying d) = true
  | VEnum8 _ z => scalar_ok I8 z = true
  | VEnum16 _ z => scalar_ok I16 z = true
  | VSome x => proper x
  | VArray _ vs => fold_right (fun x P => proper x /\ P) True vs
  | VMap _ _ kvs => fold_right (fun kv P => (proper (fst kv) /\ proper (snd kv)) /\ P) True kvs
  | _ => True
  end.
