(** What blocks are supposed to do, independently of the code. *)
From Verif Require Import Base Bytes SpecWire Types TypeNames Columns Block SpecTypes SpecColumns.
Open Scope nat_scope.

(** Block headers: fields in any order, each a tag and a value, closed by tag 0. The tags and
    the numbers of the protocol are below 128 and so are one byte each. *)
Inductive field := FOverflows (b : N) | FBucket (z : Z).
Definition field_ok (f : field) : Prop :=
  match f with FOverflows b => (b < 256)%N | FBucket z => (- 2 ^ 31 <= z < 2 ^ 31)%Z end.

(** The four bytes of a 32-bit number in two's complement, least significant first. *)
Definition four_bytes (z : Z) : bytes :=
  let u := Z.to_N (z mod 2 ^ 32) in
  [u mod 256; u / 256 mod 256; u / 65536 mod 256; u / 16777216]%N.
Definition field_bytes (f : field) : bytes :=
  match f with FOverflows b => [1; b]%N | FBucket z => 2%N :: four_bytes z end.

(** The header such fields denote: a later field overrides an earlier one of its kind. *)
Fixpoint fields_info (fs : list field) (i : binfo) : binfo :=
  match fs with
  | [] => i
  | FOverflows b :: fs' => fields_info fs' (mk_info (negb (b =? 0)%N) (bi_bucket i))
  | FBucket z :: fs' => fields_info fs' (mk_info (bi_overflows i) z)
  end.

Section Ok.
Variable tz_known : bytes -> bool.

(** A column of [n] rows that can be sent: its name and the name of its type are text, and
    the type is one whose name the client understands. *)
Definition column_ok (n : nat) (x : column) : Prop :=
  is_utf8 (fst x) /\ (lenN (fst x) <= isize_max)%N /\
  sound (snd x) /\ clen (snd x) = Ok n /\
  nameable tz_known (ctype (snd x)) /\
  is_utf8 (type_name (ctype (snd x))) /\ (lenN (type_name (ctype (snd x))) <= isize_max)%N.

Definition block_ok (n : nat) (b : block) : Prop :=
  (- 2 ^ 31 <= bi_bucket (b_info b) < 2 ^ 31)%Z /\
  (N.of_nat n < 2 ^ 64)%N /\ (lenN (b_cols b) < 2 ^ 64)%N /\
  Forall (column_ok n) (b_cols b).
End Ok.

(** [b'] is [b] up to time zones: same header, same column names and types in the same order,
    same rows. *)
Definition same_block (tz : bytes) (n : nat) (b b' : block) : Prop :=
  b_info b' = b_info b /\
  Forall2 (fun x x' => fst x' = fst x /\ delivers tz (snd x) (snd x') 0 n) (b_cols b) (b_cols b').

(** All columns have [n] rows. *)
Definition rectangular (n : nat) (b : block) : Prop :=
  Forall (fun x => clen (snd x) = Ok n) (b_cols b).

(** [p] is rows [a], [a]+1, ..., [a]+[k]-1 of [b]. *)
Definition piece_of (b : block) (a k : nat) (p : block) : Prop :=
  Forall2 (fun x y => fst y = fst x /\ ctype (snd y) = ctype (snd x) /\ clen (snd y) = Ok k /\
                      forall i, i < k -> at_ (snd y) i = at_ (snd x) (a + i)) (b_cols b) (b_cols p).

(** Addresses and UUIDs have their size. *)
Fixpoint whole (v : value) : Prop :=
  match v with
  | VIpv4 b => length b = 4
  | VIpv6 b | VUuid b => length b = 16
  | VSome x => whole x
  | _ => True
  end.

(** How many times a name occurs in rows. *)
Definition times_named (k : bytes) (rows : list (list (bytes * value))) : nat :=
  count_occ bytes_eq_dec (map fst (concat rows)) k.

(** A cell that the library's comparison can find equal to itself: no booleans, addresses or
    UUIDs, no NaN, no time outside the range chrono converts; a map has distinct integer or
    string keys. *)
Definition not_nan (s : scalar) (z : Z) : Prop :=
  match s with
  | F32 => (z mod 2 ^ 31 <= 255 * 2 ^ 23)%Z
  | F64 => (z mod 2 ^ 63 <= 2047 * 2 ^ 52)%Z
  | SBool => False
  | _ => True
  end.
Fixpoint comparable (v : value) : Prop :=
  match v with
  | VNum s z => not_nan s z
  | VString _ | VDate _ | VDateTime _ _ | VNull _ | VDecimal _ | VEnum8 _ _ | VEnum16 _ _ => True
  | VDateTime64 x p _ => (p <= 9)%N /\ (0 <= x * 10 ^ (9 - Z.of_N p) < 2 ^ 63)%Z
  | VSome x => comparable x
  | VArray _ vs => fold_right (fun x P => comparable x /\ P) True vs
  | VMap _ _ kvs =>
      distinct_keys (map fst kvs) = true /\ fold_right (fun kv P => comparable (snd kv) /\ P) True kvs
  | _ => False
  end.
