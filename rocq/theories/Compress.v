(** Compressed blocks: src/types/block/compressed.rs and the writing side in
    src/types/block/mod.rs. *)
From Verif Require Import Base Bytes Reader Wire CityHash Types TypeNames Columns Casts Block.
Open Scope nat_scope.

(** liblz4, which is not part of the repository. [lz4_decompress src cap] is what
    LZ4_decompress_safe leaves in a buffer of [cap] bytes, [None] if it returns a negative
    status. [lz4_compress src] is what LZ4_compress_default produces. *)
Section Lz4.
Variable lz4_compress : bytes -> bytes.
Variable lz4_decompress : bytes -> N -> option bytes.

(** compressed.rs 17. *)
Definition max_compressed : N := 0x40000000.

(** compressed.rs 85-92: the nine bytes that head the frame, written over the beginning of the
    buffer; the cursor lets the buffer grow to nine bytes if it is shorter. *)
Definition frame_head (compressed original : N) : bytes :=
  130%N :: marshal U32 (Z.of_N compressed) ++ marshal U32 (Z.of_N original).

(** compressed.rs 64-114: [decompress_buffer]. [original as c_int] is negative from 2^31 on, and
    LZ4_decompress_safe fails on a negative capacity. [vec![0; original]] is what remains where
    the decompressed data is shorter than announced. *)
Definition read_frame : P bytes :=
  let! lo := read_scalar U64 in
  let! hi := read_scalar U64 in
  let! method := read_scalar U8 in
  if negb (method =? 130)%Z then Fail EOther
  else
    let! compressed := read_scalar U32 in
    let! original := read_scalar U32 in
    let compressed := Z.to_N compressed in
    let original := Z.to_N original in
    if (max_compressed <? compressed)%N then Fail EOther
    else
      Get (compressed - 9) (fun body =>
        let h := city_hash_128 (frame_head compressed original ++ body) in
        if negb ((Z.of_N (fst h) =? lo)%Z && (Z.of_N (snd h) =? hi)%Z) then Fail EOther
        else if (compressed <? 9)%N then Crash PArith
        else if (2 ^ 31 <=? original)%N then Fail EOther
        else
          match lz4_decompress body original with
          | None => Fail EOther
          | Some d => Ret (resize (N.to_nat original) d)
          end).

(** src/errors/mod.rs 202-209: an error that passes through [io::Read] and comes back as
    [Error::Io], losing everything but its kind. *)
Fixpoint via_io {A} (p : P A) : P A :=
  match p with
  | Ret a => Ret a
  | Fail EWouldBlock => Fail EWouldBlock
  | Fail _ => Fail EIo
  | Crash q => Crash q
  | Get n k => Get n (fun l => via_io (k l))
  end.

(** src/binary/read_ex.rs 25-42 over compressed.rs 51-62: [read_bytes] until [n] bytes are
    there. The state is what has been read and what the cursor holds. A frame without
    data makes [read] return 0, which [read_bytes] reports as [WouldBlock]. *)
Definition gather_step (n : N) (st : bytes * bytes) : P ((bytes * bytes) + (bytes * bytes)) :=
  let (acc, cur) := st in
  if (n <=? lenN acc)%N then Ret (inr (acc, cur))
  else
    let! cur' := (match cur with [] => via_io read_frame | _ => Ret cur end) in
    match cur' with
    | [] => Fail EWouldBlock
    | _ =>
        let k := N.to_nat (N.min (n - lenN acc) (lenN cur')) in
        Ret (inl (acc ++ firstn k cur', skipn k cur'))
    end.
Definition gather (n : N) (cur : bytes) : P (bytes * bytes) := ploop (gather_step n) ([], cur).

(** A parser that reads through [CompressedReader], whose cursor holds [cur]. *)
Fixpoint through {A} (p : P A) (cur : bytes) : P A :=
  match p with
  | Ret a => Ret a
  | Fail e => Fail e
  | Crash q => Crash q
  | Get n k => let! s := gather n cur in through (k (fst s)) (snd s)
  end.

(** src/types/block/mod.rs 156-166: [load]. *)
Definition load_block (tz_known : bytes -> bool) (tz : bytes) (compress : bool) : P block :=
  if compress then through (raw_load tz_known tz) [] else raw_load tz_known tz.

(** src/types/block/mod.rs 329-369: [write]. [LZ4_compressBound] and the size it returns only
    reserve memory. *)
Definition compress_frame (plain : bytes) : bytes :=
  let body := lz4_compress plain in
  let buf := frame_head ((9 + lenN body) mod 2 ^ 32) (lenN plain mod 2 ^ 32) ++ body in
  let h := city_hash_128 buf in
  marshal U64 (Z.of_N (fst h)) ++ marshal U64 (Z.of_N (snd h)) ++ buf.
Definition write_block_as (compress : bool) (b : block) : res bytes :=
  if compress then do p <- write_block b; Ok (compress_frame p) else write_block b.

(** src/types/block/mod.rs 371-375: [send_data]; src/binary/protocol.rs 12: CLIENT_DATA = 2. *)
Definition send_data (compress : bool) (b : block) : res bytes :=
  do a <- enc_uvarint 2;
  do t <- enc_string [];
  do d <- write_block_as compress b;
  Ok (a ++ t ++ d).
End Lz4.
