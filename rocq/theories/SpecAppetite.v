(** C118: how many bytes a reader waits for in one piece. *)
From Verif Require Import Base Reader.

(** What the reader waits for when [s] is all that has come: the size of the piece that is not there in full, for which it
    has set up a buffer of that size (src/binary/read_ex.rs 53-55, 63-74, 100-103). [None] if it does not wait. *)
Fixpoint wants {A} (p : P A) (s : bytes) : option N :=
  match p with
  | Get n k => if (n <=? lenN s)%N then wants (k (firstn (N.to_nat n) s)) (skipn (N.to_nat n) s) else Some n
  | _ => None
  end.

(** The limit that compressed.rs 17 sets, and the largest size of any Rust allocation. *)
Definition gigabyte : N := 2 ^ 30.
Definition largest_buffer : N := 2 ^ 63 - 1.
