(** Typed iteration over columns: src/types/column/iter/mod.rs and the [get_internal] and
    [get_internals] functions it reads raw pointers from. *)
From Verif Require Import Base Bytes Types Decimal DateTime Values Columns FromSql.

(** The Rust types that implement [Iterable], iter/mod.rs 66-82 and 783-1323: the numbers and
    [bool] ([INum]), [&[u8]], [Decimal], [DateTime<Tz>], [NaiveDateTime], [NaiveDate],
    [Ipv4Addr], [Ipv6Addr], [Uuid], [Option<T>], [Vec<T>], [HashMap<K, V>]. *)
Inductive itype :=
| INum (s : scalar)
| IBytes
| IDecimal
| IDateTime
| INaive
| IDate
| IIpv4
| IIpv6
| IUuid
| IOption (t : itype)
| IVec (t : itype)
| IMap (k v : itype).

(** What the pointers handed out by [get_internal] point to. *)
Inductive view :=
| WNums (s : scalar) (zs : list Z)           (* elements and their number *)
| WPool (l : list bytes)                     (* the string pool and the number of rows *)
| WFixed (buf : bytes) (size : nat)          (* the buffer and the number of rows *)
| WStamps                                    (* times: elements, zone, number *)
| WDecimals (zs : list Z) (nb : nobits)      (* elements, number, width *)
| WVec (buf : bytes)                         (* a [Vec<u8>] *)
| WNulls (nulls : bytes)                     (* null marks and their number *)
| WOffs (offs : list N)                      (* offsets and their number *)
| WPieces (cs : list col).                   (* the pieces of a concatenated column *)

(** A storage fills its slots one after the other; indexing beyond the [slots] that the caller
    has passed panics. *)
Definition need (n slots : nat) (v : view) : res view :=
  if (n <=? slots)%nat then Ok v else Panic PIndex.

(** [assert_eq!(level, 0)]. *)
Definition leaf (level : nat) (v : res view) : res view :=
  match level with O => v | _ => Panic PAssert end.

(** [ColumnData::get_internal]: numeric.rs 243-254, string.rs 203-214, fixed_string.rs 98-108,
    date.rs 223-234, datetime64.rs 85-97, chrono_datetime.rs 115-126 and 213-220, ip.rs 317-326,
    nullable.rs 93-106, array.rs 106-119, map.rs 122-141, decimal.rs 193-203,
    simple_agg_func.rs 63-70, concat.rs 69-81; the rest use the default of
    column_data.rs 29-36. [props] is a u32. *)
Fixpoint get_internal (c : col) (slots lvl : nat) (props : N) {struct c} : res view :=
  match c with
  | CVec s zs => leaf lvl (need 2 slots (WNums s zs))
  | CString l => leaf lvl (need 2 slots (WPool l))
  | CFixed n buf =>
      leaf lvl (if (slots <? 2)%nat then Panic PIndex
                else do size <- clen c; Ok (WFixed buf size))
  | CDate _ _ | CDateTime _ _ | CDateTime64 _ _ _ | CChrono _ _ => leaf lvl (need 3 slots WStamps)
  | CIp _ buf => leaf lvl (need 1 slots (WVec buf))
  | CDecimal zs _ _ nb => leaf lvl (need 3 slots (WDecimals zs nb))
  | CNullable inner nulls =>
      if (lvl =? level (ctype c))%nat then
        if (slots <? 2)%nat then Panic PIndex else do _ <- clen c; Ok (WNulls nulls)
      else get_internal inner slots lvl props
  | CArray inner offs =>
      if (lvl =? level (ctype c))%nat then need 2 slots (WOffs offs)
      else get_internal inner slots lvl props
  | CMap keys values offs =>
      if (props =? 1)%N then get_internal keys slots lvl 0
      else if (lvl =? level (ctype c))%nat then need 2 slots (WOffs offs)
      else
        let props' := if (props =? 0)%N then 0%N
                      else N.lor 1 (N.shiftl (N.shiftr props 1 - 1) 1) in
        get_internal values slots lvl props'
  | CAgg _ inner => get_internal inner slots lvl props
  | CConcat c0 cs => if (lvl =? 255)%nat then Ok (WPieces (c0 :: cs)) else Err EUnsupported
  | CChronoAdapter _ _ => Panic PUnimplemented
  | _ => Err EUnsupported
  end.

(** [get_low_cardinality_accessor]: string.rs 220, fixed_string.rs 114, date.rs 249. *)
Definition has_accessor (c : col) : bool :=
  match c with CString _ | CFixed _ _ | CDate _ _ | CDateTime _ _ => true | _ => false end.

(** [get_internals] asked for the dictionary of a low-cardinality column (level 1):
    low_cardinality.rs 348-361, the default of column_data.rs 38-40 elsewhere. Date and time
    columns (date.rs 236-244, datetime64.rs 99-108) would fill in something else. *)
Definition get_low (c : col) : res (list N * col) :=
  match c with
  | CLow inner _ idx _ => if has_accessor inner then Ok (idx, inner) else Err EUnsupported
  | CDate _ _ | CDateTime _ _ | CDateTime64 _ _ _ => Panic PUndefined
  | _ => Err EUnsupported
  end.

(** [LowCardinalityAccessor::get_string]: string.rs 166, fixed_string.rs 56-59,
    column_data.rs 15-17. *)
Definition get_string (c : col) (i : nat) : res bytes :=
  match c with
  | CString l => index l i
  | CFixed n buf => cut buf (i * N.to_nat n) (i * N.to_nat n + N.to_nat n)
  | _ => Panic PUnimplemented
  end.

(** [get_internals] asked for dates or times (level 0): date.rs 236-244, datetime64.rs 99-108,
    low_cardinality.rs 348-351, the default of column_data.rs 38-40 elsewhere. *)
Inductive stamps :=
| SDays (l : list N)
| SSecs (l : list N)
| STicks (l : list Z) (p : N).
Fixpoint get_dates (c : col) : res (stamps * bytes) :=
  match c with
  | CDate l tz => Ok (SDays l, tz)
  | CDateTime l tz => Ok (SSecs l, tz)
  | CDateTime64 l p tz => Ok (STicks l p, tz)
  | CLow inner _ _ _ => get_dates inner
  | _ => Err EUnsupported
  end.
Definition stamps_len (s : stamps) : nat :=
  match s with SDays l | SSecs l => length l | STicks l _ => length l end.

(** iter/mod.rs 30-36: [check_type]. *)
Fixpoint check_type (src dst : sqltype) : bool :=
  match src with
  | TAgg _ nested => check_type nested dst
  | _ => sqltype_eqb src dst
  end.

(** src/types/mod.rs 457-464: [map_level], a u8 like [level]. *)
Definition map_level (t : sqltype) : nat :=
  match t with
  | TNullable i | TArray i => level i
  | TMap _ v => 1 + level v
  | _ => 0
  end.

(** The iterators, iter/mod.rs 135-230. A pair of pointers [ptr], [end] is the list of what lies
    between them. *)
Inductive text_source :=
| TPool (l : list bytes)
| TFixed (buf : bytes) (n : nat)
| TDict (idx : list N) (inner : col).
Record text_iter := mk_text { ti_src : text_source; ti_index : nat; ti_size : nat }.
Record dec_iter := mk_dec { de_rest : list Z; de_prec : N; de_scale : N; de_nb : nobits }.
Record date_iter := mk_date {
  da_low : option (list N); da_data : stamps; da_index : nat; da_len : nat; da_tz : bytes }.
Record rows_iter := mk_rows { ro_offs : list N; ro_index : nat; ro_size : nat }.

(** [T::Iter]. *)
Fixpoint istate (r : itype) : Type :=
  match r with
  | INum _ => list Z
  | IBytes => text_iter
  | IDecimal => dec_iter
  | IDateTime | INaive | IDate => date_iter
  | IIpv4 | IIpv6 | IUuid => bytes
  | IOption t => (istate t * bytes)%type
  | IVec t => (istate t * rows_iter)%type
  | IMap k v => (istate k * istate v * rows_iter)%type
  end.

(** iter/mod.rs 1029-1227: the iterators of [DateTime<Tz>], [NaiveDateTime] and [NaiveDate], which
    differ in the types they accept. *)
Definition start_dates (want : sqltype -> bool) (c : col) (ct : sqltype) : res date_iter :=
  match ct with
  | TLowCardinality t =>
      if want t then
        do low <- get_low c; do d <- get_dates c;
        Ok (mk_date (Some (fst low)) (fst d) 0 (length (fst low)) (snd d))
      else Err EInvalidType
  | _ =>
      if want ct then
        do d <- get_dates c; Ok (mk_date None (fst d) 0 (stamps_len (fst d)) (snd d))
      else Err EInvalidType
  end.
Definition is_datetime (t : sqltype) : bool := match t with TDateTime _ => true | _ => false end.
Definition is_date (t : sqltype) : bool := match t with TDate => true | _ => false end.

(** [Iterable::iter_with_props] of each type, iter/mod.rs 42-63 and 1000-1027 (numbers), 890-948
    ([&[u8]]), 950-998 ([Decimal]), 1029-1227 (dates), 783-888 (addresses), 1229-1267
    ([Option]), 1269-1306 ([Vec]), 1308-1354 ([HashMap]). Memory taken for something it is
    not is [PUndefined], except that the rows of a fixed string may be taken from the
    memory of numbers (little-endian). *)
Fixpoint iter_with_props (r : itype) (c : col) (ct : sqltype) (props : N) {struct r}
  : res (istate r) :=
  match r with
  | INum s =>
      if check_type ct (TNum s) then
        do w <- get_internal c 2 0 props;
        match w with
        | WNums s' zs => if scalar_eq_dec s s' then Ok zs else Panic PUndefined
        | _ => Panic PUndefined
        end
      else Err EInvalidType
  | IBytes =>
      match ct with
      | TLowCardinality TString | TLowCardinality (TFixedString _) =>
          do low <- get_low c; Ok (mk_text (TDict (fst low) (snd low)) 0 (length (fst low)))
      | TString =>
          do w <- get_internal c 2 0 props;
          match w with WPool l => Ok (mk_text (TPool l) 0 (length l)) | _ => Panic PUndefined end
      | TFixedString n =>
          do w <- get_internal c 2 0 0;
          match w with
          | WFixed buf size => Ok (mk_text (TFixed buf (N.to_nat n)) 0 size)
          | WNums s zs => Ok (mk_text (TFixed (image s zs) (N.to_nat n)) 0 (length zs))
          | _ => Panic PUndefined
          end
      | _ => Err EInvalidType
      end
  | IDecimal =>
      match ct with
      | TDecimal p s =>
          do w <- get_internal c 3 0 0;
          match w with WDecimals zs nb => Ok (mk_dec zs p s nb) | _ => Panic PUndefined end
      | _ => Err EInvalidType
      end
  | IDateTime => start_dates is_datetime c ct
  | INaive => start_dates is_datetime c ct
  | IDate => start_dates is_date c ct
  | IIpv4 =>
      do w <- get_internal c 1 0 props; match w with WVec buf => Ok buf | _ => Panic PUndefined end
  | IIpv6 =>
      do w <- get_internal c 1 0 props; match w with WVec buf => Ok buf | _ => Panic PUndefined end
  | IUuid =>
      do w <- get_internal c 1 0 props; match w with WVec buf => Ok buf | _ => Panic PUndefined end
  | IOption t =>
      match ct with
      | TNullable inner =>
          do it <- iter_with_props t c inner 0;
          do w <- get_internal c 2 (level ct) props;
          match w with WNulls nulls => Ok (it, nulls) | _ => Panic PUndefined end
      | _ => Err EInvalidType
      end
  | IVec t =>
      match ct with
      | TArray inner =>
          do it <- iter_with_props t c inner props;
          do w <- get_internal c 2 (level ct) 0;
          match w with
          | WOffs offs => Ok (it, mk_rows offs 0 (length offs))
          | _ => Panic PUndefined
          end
      | _ => Err EInvalidType
      end
  | IMap k v =>
      match ct with
      | TMap kt vt =>
          if (map_level (ctype c) <? map_level ct)%nat then Panic PArith
          else
            let k_level := N.of_nat (map_level (ctype c) - map_level ct) in
            do ki <- iter_with_props k c kt (N.lor 1 (N.shiftl k_level 1));
            do vi <- iter_with_props v c vt 0;
            do w <- get_internal c 2 (level ct) props;
            match w with
            | WOffs offs => Ok (ki, vi, mk_rows offs 0 (length offs))
            | _ => Panic PUndefined
            end
      | _ => Err EInvalidType
      end
  end.

(** src/types/column/mod.rs 174-176: [Column::iter] of a column of one piece. *)
Definition iter (r : itype) (c : col) : res (istate r) := iter_with_props r c (ctype c) 0.

(** iter/mod.rs 241-277: [StringIterator::next]. A pool has as many strings as rows. *)
Definition text_next (t : text_iter) : res (option rval * text_iter) :=
  let i := ti_index t in
  let t' := mk_text (ti_src t) (S i) (ti_size t) in
  match ti_src t with
  | TPool l =>
      if (i =? ti_size t)%nat then Ok (None, t)
      else do b <- or_panic PUndefined (nth_error l i); Ok (Some (XBytes b), t')
  | TFixed buf n =>
      if (ti_size t <=? i)%nat then Ok (None, t)
      else do b <- or_panic PUndefined (Base.slice buf (i * n) (i * n + n));
           Ok (Some (XBytes b), t')
  | TDict idx inner =>
      if (ti_size t <=? i)%nat then Ok (None, t)
      else do j <- index idx i; do b <- get_string inner (N.to_nat j); Ok (Some (XBytes b), t')
  end.

(** iter/mod.rs 87-97: [next] of the macro [iterator!], for addresses of [n] octets: 354-446.
    Reading beyond the end is undefined. *)
Definition addr_next (n : nat) (f : bytes -> rval) (b : bytes) : res (option rval * bytes) :=
  match b with
  | [] => Ok (None, b)
  | _ => do a <- or_panic PUndefined (Base.slice b 0 n); Ok (Some (f a), skipn n b)
  end.

(** iter/mod.rs 298-351 with [next] of the macro. *)
Definition dec_next (d : dec_iter) : res (option rval * dec_iter) :=
  match de_rest d with
  | [] => Ok (None, d)
  | z :: rest =>
      Ok (Some (XDecimal (mk_decimal z (de_nb d) (de_prec d) (de_scale d))),
          mk_dec rest (de_prec d) (de_scale d) (de_nb d))
  end.

(** The element a date iterator stands at: iter/mod.rs 450-455, 477-480 and 514-517. The
    element is read without a bounds check. *)
Definition low_index (low : option (list N)) (i : nat) : res nat :=
  match low with None => Ok i | Some idx => do j <- index idx i; Ok (N.to_nat j) end.
Definition element {A} (l : list A) (i : nat) : res A := or_panic PUndefined (nth_error l i).

Section Zones.

(** [offset tz s]: how many seconds local time in the zone [tz] is ahead of UTC at the moment [s]
    seconds after 1970 (chrono-tz). *)
Variable offset : bytes -> Z -> Z.

(** iter/mod.rs 449-464: the date of midnight UTC of the stored day, in the zone of the column.
    A list of anything but days has another element size. *)
Definition date_item (d : date_iter) (i : nat) : res rval :=
  match da_data d with
  | SDays l =>
      do day <- element l i;
      let s := (Z.of_N day * 86400)%Z in
      Ok (XDate ((s + offset (da_tz d) s) / 86400)%Z)
  | _ => Panic PUndefined
  end.

(** iter/mod.rs 512-527. *)
Definition time_item (d : date_iter) (i : nat) : res rval :=
  match da_data d with
  | SSecs l => do s <- element l i; Ok (XTime (Z.of_N s) 0 (da_tz d))
  | STicks l p =>
      do t <- element l i; do x <- to_datetime t p; Ok (XTime (fst x) (snd x) (da_tz d))
  | SDays _ => Panic PUndefined
  end.

(** iter/mod.rs 475-490; [to_native_datetime_opt], datetime64.rs 146-158, computes as
    [to_datetime_opt] does. A [NaiveDateTime] has no zone. *)
Definition naive_item (d : date_iter) (i : nat) : res rval :=
  match da_data d with
  | SSecs l => do s <- element l i; Ok (XTime (Z.of_N s) 0 [])
  | STicks l p => do t <- element l i; do x <- to_datetime t p; Ok (XTime (fst x) (snd x) [])
  | SDays _ => Panic PUndefined
  end.

(** iter/mod.rs 552-561, 594-601 and 631-638. The length of the iterator is [len - index], which
    never underflows because [index] stops at [len]. *)
Definition date_next (item : date_iter -> nat -> res rval) (d : date_iter)
  : res (option rval * date_iter) :=
  if (da_index d =? da_len d)%nat then Ok (None, d)
  else
    do j <- low_index (da_low d) (da_index d);
    do x <- item d j;
    Ok (Some x, mk_date (da_low d) (da_data d) (S (da_index d)) (da_len d) (da_tz d)).

Section Inner.
Context {S : Type}.
Variable step : S -> res (option rval * S).

(** iter/mod.rs 713-718: [n] calls of the inner iterator. A capacity request for more elements
    than there are may panic earlier. *)
Fixpoint take (n : nat) (s : S) : res (list rval * S) :=
  match n with
  | O => Ok ([], s)
  | Datatypes.S n' =>
      do x <- step s;
      do rest <- take n' (snd x);
      Ok (match fst x with Some v => v :: fst rest | None => fst rest end, snd rest)
  end.
End Inner.

(** iter/mod.rs 756-764: [n] calls of the inner iterators; the value iterator is asked only
    when there is a key. *)
Fixpoint take_pairs {K V} (kstep : K -> res (option rval * K)) (vstep : V -> res (option rval * V))
    (n : nat) (k : K) (v : V) (m : list (rval * rval)) : res (list (rval * rval) * (K * V)) :=
  match n with
  | O => Ok (m, (k, v))
  | S n' =>
      do x <- kstep k;
      match fst x with
      | None => take_pairs kstep vstep n' (snd x) v m
      | Some key =>
          do y <- vstep v;
          match fst y with
          | None => take_pairs kstep vstep n' (snd x) (snd y) m
          | Some val => do m' <- xmap_put m key val; take_pairs kstep vstep n' (snd x) (snd y) m'
          end
      end
  end.

(** [Iterator::next] of each iterator; [slice::Iter], iter/mod.rs 87-97 (addresses and
    decimals), 241-277 (text), 552-638 (dates), 669-681 ([Option]), 698-724 ([Vec]),
    741-770 ([HashMap]). *)
Fixpoint next (r : itype) {struct r} : istate r -> res (option rval * istate r) :=
  match r with
  | INum s => fun l => match l with [] => Ok (None, l) | z :: l' => Ok (Some (XNum s z), l') end
  | IBytes => text_next
  | IDecimal => dec_next
  | IDateTime => date_next time_item
  | INaive => date_next naive_item
  | IDate => date_next date_item
  | IIpv4 => addr_next 4 (fun b => XIpv4 (rev b))
  | IIpv6 => addr_next 16 XIpv6
  | IUuid => addr_next 16 (fun b => XUuid (flip_halves b))
  | IOption t => fun s =>
      match snd s with
      | [] => Ok (None, s)
      | flag :: nulls =>
          do x <- next t (fst s);
          match fst x with
          | None => Ok (None, (snd x, snd s))
          | Some v => Ok (Some (XOption (if (flag =? 0)%N then Some v else None)), (snd x, nulls))
          end
      end
  | IVec t => fun s =>
      let ro := snd s in
      if (ro_index ro =? ro_size ro)%nat then Ok (None, s)
      else
        do se <- row_bounds (ro_offs ro) (ro_index ro);
        do x <- take (next t) (snd se - fst se) (fst s);
        Ok (Some (XVec (fst x)), (snd x, mk_rows (ro_offs ro) (S (ro_index ro)) (ro_size ro)))
  | IMap k v => fun s =>
      let ro := snd s in
      if (ro_index ro =? ro_size ro)%nat then Ok (None, s)
      else
        do se <- row_bounds (ro_offs ro) (ro_index ro);
        do x <- take_pairs (next k) (next v) (snd se - fst se) (fst (fst s)) (snd (fst s)) [];
        Ok (Some (XMap (fst x)), (snd x, mk_rows (ro_offs ro) (S (ro_index ro)) (ro_size ro)))
  end.

(** The default [Iterator::nth] of the standard library, which the iterators of [Option],
    [Vec] and [HashMap] keep. *)
Fixpoint nth_default {S} (step : S -> res (option rval * S)) (n : nat) (s : S)
  : res (option rval * S) :=
  match n with
  | O => step s
  | Datatypes.S n' =>
      do x <- step s;
      match fst x with None => Ok x | Some _ => nth_default step n' (snd x) end
  end.

(** [Iterator::nth] of each iterator: [slice::Iter], iter/mod.rs 110-119 (addresses and
    decimals), 291-300 (text), 575-584, 616-625 and 653-662 (dates). *)
Definition addr_nth (size : nat) (f : bytes -> rval) (n : nat) (b : bytes)
  : res (option rval * bytes) :=
  if (length b / size <=? n)%nat then Ok (None, []) else addr_next size f (skipn (n * size) b).
Definition date_nth (item : date_iter -> nat -> res rval) (n : nat) (d : date_iter)
  : res (option rval * date_iter) :=
  let at_index i := mk_date (da_low d) (da_data d) i (da_len d) (da_tz d) in
  if (da_len d - da_index d <=? n)%nat then Ok (None, at_index (da_len d))
  else date_next item (at_index (da_index d + n)%nat).
Definition nth (r : itype) (n : nat) : istate r -> res (option rval * istate r) :=
  match r with
  | INum s => fun l =>
      match skipn n l with [] => Ok (None, []) | z :: l' => Ok (Some (XNum s z), l') end
  | IBytes => fun t =>
      if (ti_size t - ti_index t <=? n)%nat
      then Ok (None, mk_text (ti_src t) (ti_size t) (ti_size t))
      else text_next (mk_text (ti_src t) (ti_index t + n) (ti_size t))
  | IDecimal => fun d =>
      let rest l := mk_dec l (de_prec d) (de_scale d) (de_nb d) in
      if (length (de_rest d) <=? n)%nat then Ok (None, rest [])
      else dec_next (rest (skipn n (de_rest d)))
  | IDateTime => date_nth time_item n
  | INaive => date_nth naive_item n
  | IDate => date_nth date_item n
  | IIpv4 => addr_nth 4 (fun b => XIpv4 (rev b)) n
  | IIpv6 => addr_nth 16 XIpv6 n
  | IUuid => addr_nth 16 (fun b => XUuid (flip_halves b)) n
  | IOption t => nth_default (next (IOption t)) n
  | IVec t => nth_default (next (IVec t)) n
  | IMap k v => nth_default (next (IMap k v)) n
  end.

(** iter/mod.rs 1330-1345: [ComplexIterator], with the pieces from [current_index] on. *)
Record citer (r : itype) := mk_citer {
  ci_type : sqltype; ci_rest : list col; ci_current : option (istate r) }.
Arguments mk_citer {r} _ _ _.
Arguments ci_type {r} _.
Arguments ci_rest {r} _.
Arguments ci_current {r} _.

(** iter/mod.rs 1400-1425: [Iterable<Complex>::iter_with_props], by [Column::iter]. *)
Definition iter_complex (r : itype) (c : col) : res (citer r) :=
  do w <- get_internal c 1 255 0;
  match w with WPieces cs => Ok (mk_citer (ctype c) cs None) | _ => Panic PUndefined end.

(** iter/mod.rs 1358-1366: pieces without rows are passed over. *)
Fixpoint skip_empty (cs : list col) : res (list col) :=
  match cs with
  | [] => Ok []
  | c :: cs' => do n <- clen c; if (0 <? n)%nat then Ok cs else skip_empty cs'
  end.

(** iter/mod.rs 1352-1396: [ComplexIterator::next]. Every call of itself uses up a piece. *)
Fixpoint cnext_loop (r : itype) (fuel : nat) (s : citer r) : res (option rval * citer r) :=
  match fuel with
  | O => Panic PFuel
  | S fuel' =>
      do o <- match ci_current s with
              | Some it => Ok (Some (it, ci_rest s))
              | None =>
                  do rest <- skip_empty (ci_rest s);
                  match rest with
                  | [] => Ok None
                  | c :: rest' =>
                      match iter_with_props r c (ci_type s) 0 with
                      | Ok it => Ok (Some (it, rest'))
                      | Err _ => Panic PUnwrap
                      | Panic p => Panic p
                      end
                  end
              end;
      match o with
      | None => Ok (None, mk_citer (ci_type s) [] None)
      | Some (it, rest) =>
          do x <- next r it;
          match fst x with
          | None => cnext_loop r fuel' (mk_citer (ci_type s) rest None)
          | Some v => Ok (Some v, mk_citer (ci_type s) rest (Some (snd x)))
          end
      end
  end.
Definition cnext (r : itype) (s : citer r) : res (option rval * citer r) :=
  cnext_loop r (S (S (length (ci_rest s)))) s.

End Zones.
