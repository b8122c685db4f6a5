(** Compressed frames as they lie on the wire, independently of the code that reads them. *)
From Verif Require Import Base Bytes CityHash SpecWire.
Open Scope nat_scope.

(** A frame: a checksum of 16 bytes, the method byte, two sizes of four bytes and a body. The first
    size counts method, sizes and body and is within the limit of 1 GB; the second is the size of
    the data. The checksum is that of everything after it. *)
Definition frame_parts (f body : bytes) (original : N) : Prop :=
  exists lo hi c o,
    f = lo ++ hi ++ [130%N] ++ c ++ o ++ body /\
    length lo = 8 /\ length hi = 8 /\ length c = 4 /\ length o = 4 /\
    positional c = (9 + Z.of_nat (length body))%Z /\ (positional c <= 2 ^ 30)%Z /\
    positional o = Z.of_N original /\
    let h := city_hash_128 ([130%N] ++ c ++ o ++ body) in
    positional lo = Z.of_N (fst h) /\ positional hi = Z.of_N (snd h).

(** The frame carries the data [d]: that is what its body decompresses to. *)
Definition carries (lz4_decompress : bytes -> N -> option bytes) (d f : bytes) : Prop :=
  bytes_ok f /\ (lenN d < 2 ^ 31)%N /\
  exists body, frame_parts f body (lenN d) /\ lz4_decompress body (lenN d) = Some d.

(** The LZ4 block format, for examples: a decoder ([None] on malformed input or when the output
    exceeds the capacity) and an encoder that stores everything as literals. *)
Fixpoint lz4_ext (l : bytes) (acc : N) : option (N * bytes) :=
  match l with
  | [] => None
  | b :: l' => if (b =? 255)%N then lz4_ext l' (acc + 255)%N else Some ((acc + b)%N, l')
  end.
Definition lz4_count (nibble : N) (l : bytes) : option (N * bytes) :=
  if (nibble =? 15)%N then lz4_ext l 15%N else Some (nibble, l).
Fixpoint lz4_copy (n : nat) (off : nat) (rev_out : bytes) : bytes :=
  match n with
  | O => rev_out
  | S n' => lz4_copy n' off (nth (off - 1) rev_out 0%N :: rev_out)
  end.
Fixpoint lz4_blocks (fuel : nat) (l : bytes) (rev_out : bytes) : option bytes :=
  match fuel, l with
  | S fuel', tok :: l1 =>
      match lz4_count (tok / 16)%N l1 with
      | None => None
      | Some (n, l2) =>
          if (lenN l2 <? n)%N then None
          else
            let rev_out := rev (firstn (N.to_nat n) l2) ++ rev_out in
            match skipn (N.to_nat n) l2 with
            | [] => Some (rev rev_out)
            | a :: b :: l3 =>
                let off := (a + 256 * b)%N in
                match lz4_count (tok mod 16)%N l3 with
                | None => None
                | Some (m, l4) =>
                    if (off =? 0)%N || (lenN rev_out <? off)%N then None
                    else lz4_blocks fuel' l4 (lz4_copy (N.to_nat m + 4) (N.to_nat off) rev_out)
                end
            | _ => None
            end
      end
  | _, _ => None
  end.
Definition lz4_decode (src : bytes) (cap : N) : option bytes :=
  match lz4_blocks (length src) src [] with
  | Some d => if (lenN d <=? cap)%N then Some d else None
  | None => None
  end.
Fixpoint lz4_len (fuel : nat) (n : nat) : bytes :=
  match fuel with
  | O => []
  | S fuel' => if n <? 255 then [N.of_nat n] else 255%N :: lz4_len fuel' (n - 255)
  end.
Definition lz4_store (d : bytes) : bytes :=
  let n := length d in
  (if n <? 15 then [(16 * N.of_nat n)%N] else 240%N :: lz4_len (S n) (n - 15)) ++ d.
