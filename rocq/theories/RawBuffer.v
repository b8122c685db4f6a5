(** src/io/read_to_end.rs with its memory: the buffer is a vector whose length is set to its capacity before anything was written there (36-42, unsafe) and
    set back by the guard's [drop] (16-22). Transport.v has the same function on bytes. *)
From Verif Require Import Base Bytes Transport.
Open Scope list_scope.
Open Scope nat_scope.

(** A vector: as many cells as its capacity, [None] where nothing was ever written, and its length. *)
Record vec := mk_vec { v_cells : list (option N); v_len : nat }.

(** [Vec::reserve]: the room it makes is up to the allocator, and no cell beyond the length is copied. *)
Definition reserve (more : nat -> nat) (v : vec) (k : nat) : vec :=
  if v_len v + k <=? length (v_cells v) then v
  else mk_vec (firstn (v_len v) (v_cells v) ++ repeat None (k + more (v_len v))) (v_len v).

(** [poll_read] into [room] cells: as many bytes as there are and fit; the others are read next. *)
Definition poll_read (evs : list rd_event) (room : nat) : polled (res bytes) * list rd_event :=
  match evs with
  | [] => (PPending, [])
  | RPending :: evs' => (PPending, evs')
  | REof :: _ => (PReady (Ok []), evs)
  | RErr :: evs' => (PReady (Err EIo), evs')
  | RData d :: evs' =>
      (PReady (Ok (firstn room d)), match d, skipn room d with [], _ => evs | _, [] => evs' | _, r => RData r :: evs' end)
  end.

(** The cells from [i] on are written. *)
Definition write (cells : list (option N)) (i : nat) (d : bytes) : list (option N) :=
  firstn i cells ++ map Some d ++ skipn (i + length d) cells.

(** read_to_end.rs 24-57; [g] is the guard's length. Slicing with [g] beyond the vector's length panics. *)
Fixpoint raw_read (more : nat -> nat) (fuel : nat) (evs : list rd_event) (v : vec) (start g : nat) : polled (res nat) * vec * list rd_event :=
  match fuel with
  | O => (PReady (Panic PFuel), v, evs)
  | S n =>
      let v1 := if g =? v_len v then let w := reserve more v 32 in mk_vec (v_cells w) (length (v_cells w)) else v in
      if v_len v1 <? g then (PReady (Panic PIndex), mk_vec (v_cells v1) g, evs)
      else
        match poll_read evs (v_len v1 - g) with
        | (PPending, evs') => (PPending, mk_vec (v_cells v1) g, evs')
        | (PReady (Ok d), evs') =>
            if length d =? 0 then (PReady (Ok (g - start)), mk_vec (v_cells v1) g, evs')
            else raw_read more n evs' (mk_vec (write (v_cells v1) g d) (v_len v1)) start (g + length d)
        | (PReady (Err e), evs') => (PReady (Err e), mk_vec (v_cells v1) g, evs')
        | (PReady (Panic p), evs') => (PReady (Panic p), mk_vec (v_cells v1) g, evs')
        end
  end.
Definition read_into (more : nat -> nat) (fuel : nat) (evs : list rd_event) (v : vec) : polled (res nat) * vec * list rd_event :=
  raw_read more fuel evs v (v_len v) (v_len v).
