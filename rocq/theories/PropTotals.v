(** C85: the totals and extremes of an answer are told apart from its rows. *)
From Coq Require Import String.
From Verif Require Import Base Bytes Reader Wire Types Text TypeNames Columns Block Compress Packets.
From Verif Require Import ReaderProofs SpecWire SpecCompress SpecPackets PacketsProofs PropPackets.
Open Scope list_scope. Open Scope nat_scope.

Section Totals.
Variable lz4_decompress : bytes -> N -> option bytes.
Variable tz_known : bytes -> bool.
Notation parse := (parse_packet lz4_decompress tz_known).

(** Whatever follows the number of the message, and however the number is written: a message with
    totals (7) or extremes (8) gives what the same message with rows (1) gives. *)
Theorem c85_refuted i l1 l7 l8 body :
  varint_of 1 l1 -> varint_of 7 l7 -> varint_of 8 l8 ->
  run (parse i) (l7 ++ body) = run (parse i) (l1 ++ body) /\
  run (parse i) (l8 ++ body) = run (parse i) (l1 ++ body).
Proof.
  intros V1 V7 V8. rewrite <- (app_nil_r body), !app_assoc.
  rewrite (number lz4_decompress tz_known i _ _ _ _ V1), (number lz4_decompress tz_known i _ _ _ _ V7),
    (number lz4_decompress tz_known i _ _ _ _ V8). split; reflexivity.
Qed.
End Totals.
Print Assumptions c85_refuted.

(** One row with a number 7, as rows, as totals and as extremes. *)
Definition one_row : block := mk_block info_default [(str "a", CVec U8 [7%Z])].
Definition one_row_bytes : bytes := match write_block one_row with Ok b => b | _ => [] end.
Definition read_as (n : N) := run (parse_packet (fun _ _ => None) (fun _ => true) (sample_info 54429)) (n :: 0%N :: one_row_bytes).
Example c85_case :
  write_block one_row = Ok one_row_bytes /\
  read_as 1%N = Ok (PkBlock one_row, []) /\ read_as 7%N = Ok (PkBlock one_row, []) /\ read_as 8%N = Ok (PkBlock one_row, []).
Proof. split; [vm_compute; reflexivity|]. split; [vm_compute; reflexivity|]. split; vm_compute; reflexivity. Qed.
