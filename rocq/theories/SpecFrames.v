(** What any bytes are, taken as compressed frames: by the positions of the bytes. *)
From Verif Require Import Base Bytes CityHash Reader SpecWire.
Open Scope nat_scope.

Definition part (i n : nat) (s : bytes) : bytes := firstn n (skipn i s).

(** The four things the bytes at the front can be: not yet a whole frame, no frame that can be
    read, one on which the reader panics, or a frame with data and the bytes after it. *)
Inductive front : Type :=
| Missing
| Wrong
| Fatal
| Holds (data after : bytes).

(** [data] is brought to the announced size, by zeros or by leaving out. *)
Definition sized (n : nat) (d : bytes) : bytes := firstn n (d ++ repeat 0%N n).

Section Frames.
Variable lz4_decompress : bytes -> N -> option bytes.

(** 16 bytes of checksum, the method byte at 16, the size of all that follows the checksum at 17, the size of
    the data at 21, the packed data at 25. The method is looked at as soon as it is there, the size
    as soon as both sizes are there, the rest when as many bytes are there as the size says. *)
Definition front_of (s : bytes) : front :=
  let size := positional (part 17 4 s) in
  let original := positional (part 21 4 s) in
  let stop := 16 + Z.to_nat (Z.max 9 size) in
  let h := city_hash_128 (part 16 (stop - 16) s) in
  if length s <? 17 then Missing
  else if negb (nth 16 s 0 =? 130)%N then Wrong
  else if length s <? 25 then Missing
  else if (2 ^ 30 <? size)%Z then Wrong
  else if length s <? stop then Missing
  else if negb ((positional (part 0 8 s) =? Z.of_N (fst h))%Z && (positional (part 8 8 s) =? Z.of_N (snd h))%Z)
  then Wrong
  else if (size <? 9)%Z then Fatal
  else if (2 ^ 31 <=? original)%Z then Wrong
  else match lz4_decompress (part 25 (stop - 25) s) (Z.to_N original) with
       | None => Wrong
       | Some d => Holds (sized (Z.to_nat original) d) (skipn stop s)
       end.

(** Frame after frame: the data of each with the bytes that follow it, up to the first place where there is none or one
    without data; and what the client reports there. *)
Inductive ending := Blocked | Garbled | Crashing.
Inductive unpacks : bytes -> list (bytes * bytes) -> ending -> Prop :=
| U_missing s : front_of s = Missing -> unpacks s [] Blocked
| U_empty s r : front_of s = Holds [] r -> unpacks s [] Blocked
| U_wrong s : front_of s = Wrong -> unpacks s [] Garbled
| U_fatal s : front_of s = Fatal -> unpacks s [] Crashing
| U_data s d r l e : front_of s = Holds d r -> d <> [] -> unpacks r l e -> unpacks s ((d, r) :: l) e.
End Frames.

Definition reported {A} (e : ending) : res A :=
  match e with Blocked => Err EWouldBlock | Garbled => Err EIo | Crashing => Panic PArith end.
Definition all_data (l : list (bytes * bytes)) : bytes := concat (map fst l).

(** What remains of the bytes when [used] bytes of the data have been used: a frame is taken when its first
    byte is. *)
Fixpoint after (s : bytes) (l : list (bytes * bytes)) (used : nat) : bytes :=
  match l, used with
  | (d, r) :: l', S _ => after r l' (used - length d)
  | _, _ => s
  end.

(** What a parser makes of data that is there: it ends after some of it, or fails, or asks for more. *)
Inductive met (A : Type) : Type :=
| Done (a : A) (used : nat)
| Failed (e : error)
| Crashed (q : panic)
| Short.
Arguments Done {A} _ _. Arguments Failed {A} _. Arguments Crashed {A} _. Arguments Short {A}.
Fixpoint fed {A} (p : P A) (data : bytes) (used : nat) : met A :=
  match p with
  | Ret a => Done a used
  | Fail e => Failed e
  | Crash q => Crashed q
  | Get n k =>
      if (n <=? lenN data)%N
      then fed (k (firstn (N.to_nat n) data)) (skipn (N.to_nat n) data) (used + N.to_nat n)
      else Short
  end.
