(** What typed iteration over a column is supposed to give. *)
From Verif Require Import Base Bytes Types Columns SpecColumns FromSql SpecFromSql Iter.

(** [walks r t]: items of the Rust type [r] stand for cells of the ClickHouse type [t]. *)
Inductive number (s : scalar) : sqltype -> Prop :=
| NumPlain : number s (TNum s)
| NumAgg f t : number s t -> number s (TAgg f t).
Inductive walks : itype -> sqltype -> Prop :=
| WkNum s t : number s t -> walks (INum s) t
| WkText t : texty t -> walks IBytes t
| WkLowText t : texty t -> walks IBytes (TLowCardinality t)
| WkDecimal p s : walks IDecimal (TDecimal p s)
| WkDateTime d : walks IDateTime (TDateTime d)
| WkLowDateTime d : walks IDateTime (TLowCardinality (TDateTime d))
| WkNaive d : walks INaive (TDateTime d)
| WkLowNaive d : walks INaive (TLowCardinality (TDateTime d))
| WkDate : walks IDate TDate
| WkLowDate : walks IDate (TLowCardinality TDate)
| WkIpv4 : walks IIpv4 TIpv4
| WkIpv6 : walks IIpv6 TIpv6
| WkUuid : walks IUuid TUuid
| WkOption r t : walks r t -> walks (IOption r) (TNullable t)
| WkVec r t : walks r t -> walks (IVec r) (TArray t)
| WkMap k v a b : walks k a -> walks v b -> walks (IMap k v) (TMap a b).

(** [item r v x]: the item [x] of type [r] says the same as the cell [v]. A [NaiveDateTime]
    has no zone. *)
Definition simple (r : itype) : bool :=
  match r with INaive | IOption _ | IVec _ | IMap _ _ => false | _ => true end.
Inductive item : itype -> value -> rval -> Prop :=
| ItSimple r v x : simple r = true -> is_value v x -> item r v x
| ItNaive v s n tz : is_value v (XTime s n tz) -> item INaive v (XTime s n [])
| ItNone r t : item (IOption r) (VNull t) (XOption None)
| ItSome r v x : item r v x -> item (IOption r) (VSome v) (XOption (Some x))
| ItVec r t vs xs : Forall2 (item r) vs xs -> item (IVec r) (VArray t vs) (XVec xs)
| ItMap rk rv k v kvs xs :
    Forall2 (fun a b => item rk (fst a) (fst b) /\ item rv (snd a) (snd b)) kvs xs ->
    item (IMap rk rv) (VMap k v kvs) (XMap xs).

(** [yields step s xs]: an iterator in state [s] gives the items [xs] one after the other and
    then no more. *)
Fixpoint yields {S} (step : S -> res (option rval * S)) (s : S) (xs : list rval) : Prop :=
  match xs with
  | [] => exists s', step s = Ok (None, s')
  | x :: xs' => exists s', step s = Ok (Some x, s') /\ yields step s' xs'
  end.

(** Columns whose buffers hold whole rows, with one null mark, 0 or 1, per row, offsets that climb
    to the length of the inner column, and indices that point into the dictionary. *)
Fixpoint tidy (c : col) : Prop :=
  match c with
  | CFixed n buf => n <> 0%N /\ Nat.modulo (length buf) (N.to_nat n) = 0%nat
  | CIp k buf => Nat.modulo (length buf) (ip_size k) = 0%nat
  | CNullable i nulls =>
      tidy i /\ clen i = Ok (length nulls) /\ Forall (fun b => b = 0%N \/ b = 1%N) nulls
  | CArray i offs => tidy i /\ clen i = Ok (N.to_nat (last offs 0%N)) /\ climbs 0 offs
  | CMap k v offs =>
      tidy k /\ tidy v /\ clen k = Ok (N.to_nat (last offs 0%N)) /\
      clen v = Ok (N.to_nat (last offs 0%N)) /\ climbs 0 offs
  | CAgg _ i => tidy i
  | CLow i _ idx _ =>
      tidy i /\ exists n, clen i = Ok n /\ Forall (fun j => (N.to_nat j < n)%nat) idx
  | CChunk i _ _ => tidy i
  | _ => True
  end.

(** Types whose maps have keys that are strings or numbers, and are the values of maps only,
    except that the whole type may be an array (or an optional value) of such. *)
Definition plain_key (t : sqltype) : Prop := t = TString \/ exists s, t = TNum s.
Fixpoint mapless (t : sqltype) : Prop :=
  match t with
  | TMap _ _ => False
  | TNullable i | TArray i | TAgg _ i | TLowCardinality i => mapless i
  | _ => True
  end.
Fixpoint chain (t : sqltype) : Prop :=
  match t with
  | TMap k v => plain_key k /\ chain v
  | _ => mapless t
  end.
Definition regular (t : sqltype) : Prop :=
  match t with
  | TNullable i | TArray i => chain i
  | _ => chain t
  end.

(** Times that can be read: from 1970 on, with nanoseconds that are an i64. *)
Definition timely (v : value) : Prop :=
  match v with
  | VDateTime64 t p _ => (p <= 9)%N /\ (0 <= t)%Z /\ (t * 10 ^ (9 - Z.of_N p) < 2 ^ 63)%Z
  | _ => True
  end.

(** The days of a date column, and the zone of the server that sent it. *)
Definition days_of (c : col) : list N * bytes :=
  match c with
  | CDate l tz | CLow (CDate l tz) _ _ _ => (l, tz)
  | _ => ([], [])
  end.

(** Zones in which local time is never behind UTC at the midnights concerned. *)
Definition eastern (offset : bytes -> Z -> Z) (c : col) : Prop :=
  Forall (fun d => (0 <= offset (snd (days_of c)) (Z.of_N d * 86400) < 86400)%Z) (fst (days_of c)).

(** What the dates and times of a column must be like for all of its rows to be readable. *)
Definition clocks (offset : bytes -> Z -> Z) (r : itype) (c : col) : Prop :=
  (r = IDate -> eastern offset c) /\ forall i v, at_ c i = Ok v -> timely v.

(** Columns that lend their memory: no pieces of others, no dates, times or dictionaries inside
    others, and no times with a zone each. *)
Fixpoint lends (deep : bool) (c : col) : Prop :=
  match c with
  | CNullable i _ | CArray i _ => lends true i
  | CMap k v _ => lends true k /\ lends true v
  | CAgg _ i => lends true i
  | CDate _ _ | CDateTime _ _ | CDateTime64 _ _ _ => deep = false
  | CLow i _ _ _ => deep = false /\ has_accessor i = true
  | CVec _ _ | CString _ | CFixed _ _ | CIp _ _ | CDecimal _ _ _ _ => True
  | _ => False
  end.

(** Columns other than the wrappers that [cast_to] makes for sending. *)
Fixpoint stored (c : col) : Prop :=
  match c with
  | CNullable i _ | CArray i _ | CAgg _ i | CLow i _ _ _ | CChunk i _ _ | CConcat i _ => stored i
  | CMap k v _ => stored k /\ stored v
  | CFixedAdapter _ _ | CNullFixedAdapter _ _ | CStringAdapter _ | CDecimalAdapter _ _ _ _
  | CNullDecimalAdapter _ _ _ _ | CEnum8Adapter _ _ | CEnum16Adapter _ _ | CNullEnum8Adapter _ _
  | CNullEnum16Adapter _ _ | CChronoAdapter _ _ => False
  | _ => True
  end.

(** No addresses or UUIDs inside. *)
Fixpoint typed (r : itype) : Prop :=
  match r with
  | IIpv4 | IIpv6 | IUuid => False
  | IOption t | IVec t => typed t
  | IMap k v => typed k /\ typed v
  | _ => True
  end.

(** [reached offset r it]: a program can have got the iterator [it] by calls of [iter], [next]
    and [nth]. *)
Inductive reached (offset : bytes -> Z -> Z) (r : itype) : istate r -> Prop :=
| RcStart c it : iter r c = Ok it -> reached offset r it
| RcNext it o it' : reached offset r it -> next offset r it = Ok (o, it') -> reached offset r it'
| RcNth n it o it' : reached offset r it -> nth offset r n it = Ok (o, it') -> reached offset r it'.

(** [n] items skipped and the next one asked for. *)
Fixpoint nexts {S} (step : S -> res (option rval * S)) (n : nat) (s : S) : res (option rval * S) :=
  match n with
  | O => step s
  | Datatypes.S n' => do x <- step s; nexts step n' (snd x)
  end.
