(** Variable-length integers, strings and scalars on the wire:
    src/binary/uvarint.rs, src/binary/encoder.rs, src/binary/read_ex.rs. *)
From Verif Require Import Base Bytes Utf8 Reader.

(** src/binary/uvarint.rs 3-14: [put_uvarint], the [while] loop. [room] is the
    number of bytes left in the caller's buffer; writing past it is an index panic.
    Line 8 [mx as u8 | 0x80] and line 9 [mx >>= 7]. *)
Fixpoint put_uvarint (room : nat) (mx : N) : res bytes :=
  match room with
  | O => Panic PIndex
  | S room' =>
      if (128 <=? mx)%N
      then do rest <- put_uvarint room' (N.shiftr mx 7);
           Ok (N.lor (mx mod 256) 128 :: rest)
      else Ok [(mx mod 256)%N]
  end.

(** src/binary/encoder.rs 6: [MAX_VARINT_LEN64]. *)
Definition max_varint_len64 : nat := 10.

(** src/binary/encoder.rs 18-22: [Encoder::uvarint] (the bytes appended). *)
Definition enc_uvarint (v : N) : res bytes := put_uvarint max_varint_len64 v.

(** src/binary/encoder.rs 29-32: [Encoder::byte_string]; 24-27: [Encoder::string]
    is the same on the UTF-8 bytes. [len as u64] is the identity. *)
Definition enc_string (s : bytes) : res bytes :=
  do l <- enc_uvarint (lenN s); Ok (l ++ s).

(** src/binary/encoder.rs 34-41: [Encoder::write]. *)
Definition enc_scalar (t : scalar) (z : Z) : bytes := marshal t z.

(** src/binary/read_ex.rs 44-51: [read_scalar]. *)
Definition read_scalar (t : scalar) : P Z :=
  Get (N.of_nat (width t)) (fun l => Ret (unmarshal t l)).

(** src/binary/read_ex.rs 84: [let b: u8 = self.read_scalar()?]. *)
Definition read_u8 : P N := let! z := read_scalar U8 in Ret (Z.to_N z).

(** [a << s] on u64 with overflow checks: a shift amount of 64 or more panics,
    bits shifted out are lost. *)
Definition shl64 (a s : N) : res N :=
  if (s <? 64)%N then Ok (N.shiftl a s mod 2 ^ 64)%N else Panic PArith.

(** src/binary/read_ex.rs 79-98: [read_uvarint], loop state [x], [s], [i]. With
    overflow checks the shift at line 93 panics at the eleventh continuation byte
    (s = 70), so twelve rounds are never needed; in a release build the shift
    amount wraps modulo 64 there and the loop reads on (see [read_uvarint_release]). *)
Fixpoint read_uvarint_loop (fuel : nat) (x s i : N) : P N :=
  match fuel with
  | O => Crash PFuel
  | S fuel' =>
      let! b := read_u8 in
      if (b <? 128)%N then
        if (9 <? i)%N || ((i =? 9)%N && (1 <? b)%N) then Fail EOverflow
        else let! y := lift (shl64 b s) in Ret (N.lor x y)
      else
        let! y := lift (shl64 (N.land b 127) s) in
        read_uvarint_loop fuel' (N.lor x y) (s + 7) (i + 1)
  end.
Definition read_uvarint : P N := read_uvarint_loop 12 0 0 0.

(** The same loop as compiled without overflow checks: [<<] uses the shift amount
    modulo 64, and [s], a u32, wraps. *)
Definition shl64_release (a s : N) : N := (N.shiftl a (s mod 64) mod 2 ^ 64)%N.
Definition read_uvarint_release : P N :=
  ploop (fun st : N * N * N =>
           let '(x, s, i) := st in
           let! b := read_u8 in
           if (b <? 128)%N then
             if (9 <? i)%N || ((i =? 9)%N && (1 <? b)%N) then Fail EOverflow
             else Ret (inr (N.lor x (shl64_release b s)))
           else
             Ret (inl (N.lor x (shl64_release (N.land b 127) s), (s + 7) mod 2 ^ 32, i + 1)%N))
        (0, 0, 0)%N.

(** src/binary/read_ex.rs 53-58: [read_string]. The length is a u64 and [usize] is
    64 bits wide. [String::from_utf8] failing is [Error::Other]
    (src/errors/mod.rs 183-187). *)
Definition read_string : P bytes :=
  let! n := read_uvarint in
  let! _ := alloc n in
  Get n (fun l => if utf8_valid l then Ret l else Fail EOther).

(** src/binary/read_ex.rs 19. *)
Definition max_stack_buffer_len : N := 1024.

(** src/binary/read_ex.rs 60-77: [skip_string]; only the large case allocates. *)
Definition skip_string : P unit :=
  let! n := read_uvarint in
  if (n <=? max_stack_buffer_len)%N then Get n (fun _ => Ret tt)
  else let! _ := alloc n in Get n (fun _ => Ret tt).

(** src/binary/read_ex.rs 100-105: [read_str_into_buffer], giving the bytes read;
    the pool side is in StringPool.v. *)
Definition read_byte_string : P bytes :=
  let! n := read_uvarint in
  let! _ := alloc n in
  Get n (fun l => Ret l).
