(** What C109 and C110 talk of. *)
From Verif Require Import Base Bytes.
Open Scope N_scope.

(** The number of bytes, the least significant first. *)
Definition le_number (b : bytes) : N := fold_right (fun x n => x + 256 * n) 0 b.

(** A hexadecimal digit in lower case. *)
Definition nibble (c : N) : option N :=
  if (48 <=? c) && (c <=? 57) then Some (c - 48) else if (97 <=? c) && (c <=? 102) then Some (c - 87) else None.

(** The number that hexadecimal digits denote. *)
Fixpoint hex_number (acc : N) (s : bytes) : option N :=
  match s with
  | [] => Some acc
  | c :: s => match nibble c with Some d => hex_number (16 * acc + d) s | None => None end
  end.

(** RFC 4122: five groups of digits, joined by hyphens. *)
Definition uuid_form (s : bytes) (n : N) : Prop :=
  exists a b c d e, s = a ++ [45] ++ b ++ [45] ++ c ++ [45] ++ d ++ [45] ++ e /\
    map (@length N) [a; b; c; d; e] = [8; 4; 4; 4; 12]%nat /\ hex_number 0 (a ++ b ++ c ++ d ++ e) = Some n.

(** A decimal number without leading zeros. *)
Definition plain_number (s : bytes) (n : N) : Prop :=
  exists ds, s = map (fun d => 48 + d) ds /\ Forall (fun d => d < 10) ds /\ fold_left (fun a d => 10 * a + d) ds 0 = n /\
    (ds = [0] \/ exists d r, ds = d :: r /\ d <> 0).

(** Four numbers and dots between them. *)
Definition dotted (s : bytes) (n : N) : Prop :=
  exists a b c d w x y z, s = w ++ [46] ++ x ++ [46] ++ y ++ [46] ++ z /\
    plain_number w a /\ plain_number x b /\ plain_number y c /\ plain_number z d /\
    a < 256 /\ b < 256 /\ c < 256 /\ d < 256 /\ n = a * 2 ^ 24 + b * 2 ^ 16 + c * 2 ^ 8 + d.
