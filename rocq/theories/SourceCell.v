(** src/types/options.rs 26-58: [OptionsSource] as the memory its clones share. [get] hands out a reference to the options inside the mutex
    that outlives the lock (46-47, unsafe), so it matters that they are never written again. *)
From Verif Require Import Base Bytes Types Options.
Open Scope list_scope.

(** The contents of the mutex, and how often it was assigned to. *)
Record cell := mk_cell { ce_state : source; ce_writes : nat }.

(** A reference: it is to the options that are there after so many assignments. *)
Definition reference := nat.

(** Reading through a reference: the options, if nothing was assigned since; what is read then is freed memory. *)
Definition deref (c : cell) (r : reference) : option opts :=
  if (r =? ce_writes c)%nat then match ce_state c with Raw o => Some o | Text _ => None end else None.

Section Get.
Variable parse_url : bytes -> option url.
Variable tls : bool.

(** options.rs 43-58: [get]: the loop, which is under the lock. [from_url] cannot panic, so that the lock is never poisoned. *)
Fixpoint cell_get (fuel : nat) (c : cell) : res reference * cell :=
  match fuel with
  | O => (Panic PFuel, c)
  | S n =>
      match ce_state c with
      | Raw _ => (Ok (ce_writes c), c)
      | Text s =>
          match from_url parse_url tls s with
          | Ok o => cell_get n (mk_cell (Raw o) (S (ce_writes c)))
          | Err e => (Err e, c)
          | Panic p => (Panic p, c)
          end
      end
  end.

(** Whatever tasks and threads hold clones: their calls happen one after the other. The references come with the cell as it is
    afterwards. *)
Fixpoint gets (n : nat) (c : cell) : list (res reference) * cell :=
  match n with
  | O => ([], c)
  | S n => let (r, c1) := cell_get 2 c in let (rs, c2) := gets n c1 in (r :: rs, c2)
  end.
End Get.
