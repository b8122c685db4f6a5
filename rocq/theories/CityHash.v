(** clickhouse-rs-cityhash-sys/src/cc/city.cc and city.h: CityHash128 (version 1.0.2), and
    clickhouse-rs-cityhash-sys/src/lib.rs 18-21, which calls it. The machine is
    little-endian. *)
From Verif Require Import Base Bytes.
Open Scope N_scope.

(** Arithmetic on uint64. *)
Definition w64 (x : N) : N := x mod 18446744073709551616.
Definition add64 (x y : N) : N := w64 (x + y).
Definition sub64 (x y : N) : N := w64 (x + (18446744073709551616 - w64 y)).
Definition mul64 (x y : N) : N := w64 (x * y).
Local Infix "+." := add64 (at level 50, left associativity).
Local Infix "-." := sub64 (at level 50, left associativity).
Local Infix "*." := mul64 (at level 40, left associativity).
Local Infix "^." := N.lxor (at level 55, left associativity).

(** city.cc 85-91: [Fetch64], [Fetch32], at an offset of the string. *)
Definition fetch64 (s : bytes) (o : nat) : N := le_dec (firstn 8 (skipn o s)).
Definition fetch32 (s : bytes) (o : nat) : N := le_dec (firstn 4 (skipn o s)).

(** city.cc 93-97: the constants. *)
Definition k0 : N := 0xc3a5c85c97cb3127.
Definition k1 : N := 0xb492b66fbe98f273.
Definition k2 : N := 0x9ae16a3b2f90404f.
Definition k3 : N := 0xc949d7c7509e6557.

(** city.cc 99-111: [Rotate], [RotateByAtLeast1]; the shift is never 0 where it is used. *)
Definition rotate (v : N) (sh : N) : N := N.lor (N.shiftr v sh) (w64 (N.shiftl v (64 - sh))).
(** city.cc 113-115: [ShiftMix]. *)
Definition shift_mix (v : N) : N := v ^. N.shiftr v 47.
(** city.h 79-88: [Hash128to64]; city.cc 117-119: [HashLen16]. *)
Definition kmul : N := 0x9ddfea08eb382d69.
Definition hash_len16 (u v : N) : N :=
  let a := (u ^. v) *. kmul in
  let a := a ^. N.shiftr a 47 in
  let b := (v ^. a) *. kmul in
  let b := b ^. N.shiftr b 47 in
  b *. kmul.

(** city.cc 121-140: [HashLen0to16] on the first [len] bytes of [s]. *)
Definition hash_len0to16 (s : bytes) (len : nat) : N :=
  let n := N.of_nat len in
  if (8 <? len)%nat then
    let a := fetch64 s 0 in
    let b := fetch64 s (len - 8) in
    hash_len16 a (rotate (b +. n) n) ^. b
  else if (4 <=? len)%nat then
    let a := fetch32 s 0 in
    hash_len16 (n +. w64 (N.shiftl a 3)) (fetch32 s (len - 4))
  else if (0 <? len)%nat then
    let a := nth 0 s 0 in
    let b := nth (len / 2) s 0 in
    let c := nth (len - 1) s 0 in
    let y := a + 256 * b in
    let z := n + 4 * c in
    shift_mix ((y *. k2) ^. (z *. k3)) *. k2
  else k2.

(** city.cc 155-175: [WeakHashLen32WithSeeds], on the 32 bytes at offset [o]. *)
Definition weak_hash32 (s : bytes) (o : nat) (a b : N) : N * N :=
  let w := fetch64 s o in
  let x := fetch64 s (o + 8) in
  let y := fetch64 s (o + 16) in
  let z := fetch64 s (o + 24) in
  let a := a +. w in
  let b := rotate (b +. a +. z) 21 in
  let c := a in
  let a := a +. x in
  let a := a +. y in
  let b := b +. rotate a 44 in
  (a +. z, b +. c).

(** city.cc 252-279: [CityMurmur]. The loop runs while more than 16 bytes are left; the fuel is
    the length, and every round drops 16 bytes. *)
Fixpoint murmur_loop (fuel : nat) (s : bytes) (o len : nat) (st : N * N * N * N) : N * N * N * N :=
  match fuel with
  | O => st
  | S fuel' =>
      let '(a, b, c, d) := st in
      let a := a ^. (shift_mix (fetch64 s o *. k1) *. k1) in
      let a := a *. k1 in
      let b := b ^. a in
      let c := c ^. (shift_mix (fetch64 s (o + 8) *. k1) *. k1) in
      let c := c *. k1 in
      let d := d ^. c in
      if (16 <? len - 16)%nat then murmur_loop fuel' s (o + 16) (len - 16) (a, b, c, d) else (a, b, c, d)
  end.
Definition city_murmur (s : bytes) (len : nat) (seed : N * N) : N * N :=
  let '(a, b) := seed in
  let n := N.of_nat len in
  let '(a, b, c, d) :=
    if (len <=? 16)%nat then
      let a := shift_mix (a *. k1) *. k1 in
      let c := (b *. k1) +. hash_len0to16 s len in
      let d := shift_mix (a +. (if (8 <=? len)%nat then fetch64 s 0 else c)) in
      (a, b, c, d)
    else
      let c := hash_len16 (fetch64 s (len - 8) +. k1) a in
      let d := hash_len16 (b +. n) (c +. fetch64 s (len - 16)) in
      let a := a +. d in
      murmur_loop len s 0 len (a, b, c, d) in
  let a := hash_len16 a c in
  let b := hash_len16 d b in
  (a ^. b, hash_len16 b a).

(** city.cc 299-307: half of a round of the main loop, at offset [o]. *)
Record city_state := mk_city { cx : N; cy : N; cz : N; cv : N * N; cw : N * N }.
Definition city_half (s : bytes) (o : nat) (st : city_state) : city_state :=
  let '(mk_city x y z v w) := st in
  let x := rotate (x +. y +. fst v +. fetch64 s (o + 16)) 37 *. k1 in
  let y := rotate (y +. snd v +. fetch64 s (o + 48)) 42 *. k1 in
  let x := x ^. snd w in
  let y := y ^. fst v in
  let z := rotate (z ^. fst w) 33 in
  let v := weak_hash32 s o (snd v *. k1) (x +. fst w) in
  let w := weak_hash32 s (o + 32) (z +. snd w) y in
  mk_city z y x v w.

(** city.cc 298-318: the loop; 128 bytes per round, at least one round. Gives the state, the offset
    and the number of bytes left. *)
Fixpoint city_loop (fuel : nat) (s : bytes) (o len : nat) (st : city_state) : city_state * nat * nat :=
  match fuel with
  | O => (st, o, len)
  | S fuel' =>
      let st := city_half s (o + 64) (city_half s o st) in
      if (128 <=? len - 128)%nat then city_loop fuel' s (o + 128) (len - 128) st
      else (st, o + 128, len - 128)%nat
  end.

(** city.cc 322-329: the last [len] < 128 bytes, 32 at a time from the end (possibly reaching back
    before offset [o]); at most four rounds. *)
Fixpoint city_tail (fuel : nat) (s : bytes) (o len done : nat) (st : city_state) : city_state :=
  match fuel with
  | O => st
  | S fuel' =>
      if (done <? len)%nat then
        let '(mk_city x y z v w) := st in
        let done := (done + 32)%nat in
        let y := rotate (y -. x) 42 *. k0 +. snd v in
        let w := (fst w +. fetch64 s (o + len - done + 16), snd w) in
        let x := rotate x 49 *. k0 +. fst w in
        let w := (fst w +. fst v, snd w) in
        let v := weak_hash32 s (o + len - done) (fst v) (snd v) in
        city_tail fuel' s o len done (mk_city x y z v w)
      else st
  end.

(** city.cc 281-337: [CityHash128WithSeed]. *)
Definition city128_seed (s : bytes) (len : nat) (seed : N * N) : N * N :=
  if (len <? 128)%nat then city_murmur s len seed
  else
    let '(x, y) := seed in
    let z := N.of_nat len *. k1 in
    let v1 := rotate (y ^. k1) 49 *. k1 +. fetch64 s 0 in
    let v2 := rotate v1 42 *. k1 +. fetch64 s 8 in
    let w1 := rotate (y +. z) 35 *. k1 +. x in
    let w2 := rotate (x +. fetch64 s 88) 53 *. k1 in
    let '(st, o, rest) := city_loop len s 0 len (mk_city x y z (v1, v2) (w1, w2)) in
    let '(mk_city x y z v w) := st in
    let y := y +. (rotate (fst w) 37 *. k0 +. z) in
    let x := x +. rotate (fst v +. z) 49 *. k0 in
    let '(mk_city x y z v w) := city_tail 4 s o rest 0 (mk_city x y z v w) in
    let x := hash_len16 x (fst v) in
    let y := hash_len16 y (fst w) in
    (hash_len16 (x +. snd v) (snd w) +. y, hash_len16 (x +. snd w) (y +. snd v)).

(** city.cc 339-354: [CityHash128]: the low and the high half. *)
Definition city_hash_128 (s : bytes) : N * N :=
  let len := length s in
  if (16 <=? len)%nat then
    city128_seed (skipn 16 s) (len - 16) (fetch64 s 0 ^. k3, fetch64 s 8)
  else if (8 <=? len)%nat then
    city128_seed [] 0 (fetch64 s 0 ^. (N.of_nat len *. k0), fetch64 s (len - 8) ^. k1)
  else city128_seed s len (k0, k1).

(** The vector of clickhouse-rs-cityhash-sys/src/lib.rs 24-31. *)
Example city_hash_abc : city_hash_128 [97; 98; 99] = (0x900ff195577748fe, 0x13a9176355b20d7e).
Proof. vm_compute. reflexivity. Qed.
