(** What an optimised build computes. Cargo.toml 1-60 sets no profile, so that a build with
    [--release] leaves out the overflow checks: [+], [-], [*] and [pow] of the integer types wrap
    around. Bounds checks, divisions by zero and [unwrap] still panic. This file models the functions
    whose arithmetic is checked in the other files and is reached by data from outside; the size
    computations of column/string_pool.rs 102, column/fixed_string.rs and column/ip.rs are not among
    them, since they overflow for more than 2^48 rows only. *)
From Verif Require Import Base Bytes Reader Wire CityHash Types Decimal DateTime Values Columns Compress.
Open Scope Z_scope.

(** The i64 that a product wraps around to. *)
Definition wrap64 (z : Z) : Z := to_signed 8 (to_unsigned 8 z).

(** src/types/decimal.rs 123-139: [PartialEq]. *)
Definition decimal_eq_release (a b : decimal) : res bool :=
  match N.compare (d_scale a) (d_scale b) with
  | Lt => do f <- factors10 (d_scale b - d_scale a); Ok (d_underlying b =? wrap64 (d_underlying a * f))
  | Eq => Ok (d_underlying a =? d_underlying b)
  | Gt => do f <- factors10 (d_scale a - d_scale b); Ok (d_underlying a =? wrap64 (d_underlying b * f))
  end.

(** src/types/decimal.rs 244-264: [set_scale]. *)
Definition set_scale_release (d : decimal) (scale : N) : res decimal :=
  match N.compare scale (d_scale d) with
  | Lt => do f <- factors10 (d_scale d - scale);
          Ok (mk_decimal (Z.quot (d_underlying d) f) (d_nobits d) (d_precision d) scale)
  | Eq => Ok d
  | Gt => do f <- factors10 (scale - d_scale d);
          Ok (mk_decimal (wrap64 (d_underlying d * f)) (d_nobits d) (d_precision d) scale)
  end.

(** src/types/decimal.rs 72-95: [Base::scale] of the integer types; the product wraps around in the
    source's own type. *)
Definition base_scale_release (t : scalar) (v f : Z) : Z := wrap64 (cast_to_scalar t (v * cast_to_scalar t f)).

(** src/types/decimal.rs 194-211: [Decimal::of] for an integer of type [t]. *)
Definition decimal_of_release (t : scalar) (v : Z) (scale : N) : res decimal :=
  if (18 <? scale)%N then Panic PExplicit
  else do f <- factors10 scale;
       let u := base_scale_release t v f in
       if (10 ^ 18 <? u) then Panic PExplicit else Ok (mk_decimal u N64 18 scale).

(** src/types/column/datetime64.rs 122 and 135: [base10.pow(9 - precision)]; the u32 difference wraps
    around, and so does every product of [pow], which leaves the wrapped value of the power. *)
Definition pow_factor_release (precision : N) : Z :=
  wrap64 (10 ^ ((9 - Z.of_N precision) mod 2 ^ 32)).

(** src/types/column/datetime64.rs 119-123: [from_datetime]. Dividing by zero panics. The factor is
    even or one, so the one quotient that overflows does not arise. *)
Definition from_datetime_release (secs : Z) (nanos : N) (precision : N) : res Z :=
  let ts := secs * 1000000000 + Z.of_N nanos in
  if i64_ok ts then
    let f := pow_factor_release precision in
    if f =? 0 then Panic PArith else Ok (Z.quot ts f)
  else Panic PUnwrap.

(** src/types/column/datetime64.rs 131-144: [to_datetime_opt]. *)
Definition to_datetime_opt_release (value : Z) (precision : N) : res (option (Z * N)) :=
  let nano := if (precision <? 19)%N then wrap64 (value * pow_factor_release precision) else 0 in
  let sec := Z.quot nano 1000000000 in
  let nsec := nano - sec * 1000000000 in
  let n := to_unsigned 4 nsec in
  Ok (if (n <? 2000000000)%N then Some (sec, n) else None).

(** src/types/column/datetime64.rs 126-128: [to_datetime]. *)
Definition to_datetime_release (value : Z) (precision : N) : res (Z * N) :=
  do o <- to_datetime_opt_release value precision; or_panic PUnwrap o.

(** array.rs 88-94, map.rs 98-104: the bounds of row [i]. [end - start] wraps around when the offsets
    decrease, and room for so many [ValueRef]s (at least eight bytes each) cannot be asked for unless
    the wrapped difference is small; the row is then empty. *)
Definition row_bounds_release (offs : list N) (i : nat) : res (nat * nat) :=
  do s <- match i with O => Ok 0%N | S j => index offs j end;
  do e <- index offs i;
  if (e <? s)%N then
    if (isize_max <? 8 * (2 ^ 64 + e - s))%N then Panic PCapacity else Ok (N.to_nat s, N.to_nat s)
  else Ok (N.to_nat s, N.to_nat e).

(** [ColumnData::at], at the lines given at [at_] in Columns.v. The keys of a map are hashable, hence
    compared without arithmetic. The chunk found by [find_chunk] starts no later than [i]. *)
Fixpoint at_release (c : col) (i : nat) {struct c} : res value :=
  match c with
  | CVec s l => do z <- index l i; Ok (VNum s z)
  | CString l => do b <- index l i; Ok (VString b)
  | CFixed n buf =>
      do b <- cut buf (i * N.to_nat n) (i * N.to_nat n + N.to_nat n); Ok (VString b)
  | CDate l _ => do d <- index l i; Ok (VDate d)
  | CDateTime l tz => do t <- index l i; Ok (VDateTime t tz)
  | CDateTime64 l p tz => do t <- index l i; Ok (VDateTime64 t p tz)
  | CChrono l _ => do t <- index l i; let '(s, _, z) := t in Ok (VDateTime (as_u32 s) z)
  | CIp k buf => do b <- cut buf (i * ip_size k) ((i + 1) * ip_size k); Ok (ip_value k b)
  | CNullable inner nulls =>
      do n <- index nulls i;
      if (n =? 1)%N then Ok (VNull (ctype inner))
      else do v <- at_release inner i; Ok (VSome v)
  | CArray inner offs =>
      do se <- row_bounds_release offs i;
      do vs <- mapM (at_release inner) (seq (fst se) (snd se - fst se));
      Ok (VArray (ctype inner) vs)
  | CMap ks vs offs =>
      do se <- row_bounds_release offs i;
      do m <- (fix loop (js : list nat) (m : list (value * value)) : res (list (value * value)) :=
                 match js with
                 | [] => Ok m
                 | j :: js' =>
                     do k <- at_release ks j; do v <- at_release vs j;
                     do m' <- vref_insert m k v; loop js' m'
                 end) (seq (fst se) (snd se - fst se)) [];
      Ok (VMap (ctype ks) (ctype vs) m)
  | CDecimal l p s nb => do z <- index l i; Ok (VDecimal (mk_decimal z nb p s))
  | CEnum8 vals l => do z <- index l i; Ok (VEnum8 vals z)
  | CEnum16 vals l => do z <- index l i; Ok (VEnum16 vals z)
  | CAgg _ inner => at_release inner i
  | CLow inner _ idx _ => do j <- index idx i; at_release inner (N.to_nat j)
  | CChunk inner a b => if (b - a <=? i)%nat then Panic PExplicit else at_release inner (i + a)
  | CConcat c0 cs =>
      do n0 <- clen c0;
      do ns <- mapM clen cs;
      let ixs := build_index 0 (n0 :: ns) in
      do k <- find_chunk ixs i;
      do s <- index ixs k;
      match k with
           | O => at_release c0 (i - s)
           | S k' =>
               (fix pick (cs : list col) (k : nat) : res value :=
                  match cs, k with
                  | c :: _, O => at_release c (i - s)
                  | _ :: cs', S k' => pick cs' k'
                  | [], _ => Panic PIndex
                  end) cs k'
           end
  | CFixedAdapter inner _ | CNullFixedAdapter inner _ | CStringAdapter inner => at_release inner i
  | CDecimalAdapter inner p s nb =>
      do v <- at_release inner i;
      match v with
      | VDecimal d => do d' <- set_scale_release d s; Ok (VDecimal (mk_decimal (d_underlying d') nb p s))
      | _ => Panic PExplicit
      end
  | CNullDecimalAdapter inner p s nb =>
      do v <- at_release inner i;
      do o <- unwrap_option v;
      match o with
      | None => Ok (VNull (TNullable (TDecimal p s)))
      | Some (VDecimal d) =>
          do d' <- set_scale_release d s; Ok (VSome (VDecimal (mk_decimal (d_underlying d') nb p s)))
      | Some _ => Panic PUnwrap
      end
  | CEnum8Adapter inner _ =>
      do v <- at_release inner i; match v with VEnum8 vals z => Ok (VEnum8 vals z) | _ => Panic PExplicit end
  | CEnum16Adapter inner _ =>
      do v <- at_release inner i; match v with VEnum16 vals z => Ok (VEnum16 vals z) | _ => Panic PExplicit end
  | CNullEnum8Adapter inner vals =>
      do v <- at_release inner i;
      do o <- unwrap_option v;
      match o with
      | None => Ok (VNull (TNullable (TEnum8 vals)))
      | Some (VEnum8 _ z) => Ok (VSome (VEnum8 vals z))
      | Some _ => Panic PUnwrap
      end
  | CNullEnum16Adapter inner vals =>
      do v <- at_release inner i;
      do o <- unwrap_option v;
      match o with
      | None => Ok (VNull (TNullable (TEnum16 vals)))
      | Some (VEnum16 _ z) => Ok (VSome (VEnum16 vals z))
      | Some _ => Panic PUnwrap
      end
  | CChronoAdapter _ _ => Panic PUnimplemented
  end.

(** compressed.rs 64-114: [decompress_buffer]. A frame that announces less than its own head has
    [compressed - 9] wrap around to what is, [as c_int], a negative length, with which the C function
    LZ4_decompress_safe must not be called: that is undefined behaviour ([PUndefined]). *)
Section Lz4.
Variable lz4_decompress : bytes -> N -> option bytes.
Definition read_frame_release : P bytes :=
  let! lo := read_scalar U64 in
  let! hi := read_scalar U64 in
  let! method := read_scalar U8 in
  if negb (method =? 130)%Z then Fail EOther
  else
    let! compressed := read_scalar U32 in
    let! original := read_scalar U32 in
    let compressed := Z.to_N compressed in
    let original := Z.to_N original in
    if (max_compressed <? compressed)%N then Fail EOther
    else
      Get (compressed - 9) (fun body =>
        let h := city_hash_128 (frame_head compressed original ++ body) in
        if negb ((Z.of_N (fst h) =? lo)%Z && (Z.of_N (snd h) =? hi)%Z) then Fail EOther
        else
          let len := to_signed 4 (to_unsigned 4 (Z.of_N compressed - 9)) in
          if (len <? 0)%Z then Crash PUndefined
          else if (2 ^ 31 <=? original)%N then Fail EOther
          else
            match lz4_decompress body original with
            | None => Fail EOther
            | Some d => Ret (resize (N.to_nat original) d)
            end).
End Lz4.
