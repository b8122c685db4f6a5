(** Property C103. *)
From Coq Require Import String.
From Verif Require Import Base Bytes Utf8 Reader Wire SpecWire CityHash Types Text TypeNames Values Columns Casts Block Compress.
From Verif Require Import SpecCompress SpecFrames ReaderProofs CompressProofs FramesProofs PatientProofs.
Open Scope list_scope. Open Scope nat_scope.

Section Frames.
Variable lz4_decompress : bytes -> N -> option bytes.

(** C103. The frame reader: on any bytes, exactly what the positions of the bytes say. *)
Theorem c103_frame s : bytes_ok s ->
  run (read_frame lz4_decompress) s =
  match front_of lz4_decompress s with
  | Missing => Err EWouldBlock
  | Wrong => Err EOther
  | Fatal => Panic PArith
  | Holds d r => Ok (d, r)
  end.
Proof. exact (read_front lz4_decompress s). Qed.

(** Any bytes are frames with data up to one place, in one way. *)
Theorem c103_unpacks s : exists l e, unpacks lz4_decompress s l e /\
  forall l' e', unpacks lz4_decompress s l' e' -> l' = l /\ e' = e.
Proof.
  destruct (unpacks_total lz4_decompress s) as (l & e & U). exists l, e. split; [exact U|].
  exact (unpacks_unique lz4_decompress s l e U).
Qed.

(** Reading anything from them is reading it from the data, and what is reported when the data does not
    suffice is what the frames end with. Of the bytes, the frames are used up of which a byte was used. *)
Theorem c103_through A (p : P A) s l e : bytes_ok s -> unpacks lz4_decompress s l e ->
  (lenN (all_data l) < 2 ^ 64)%N ->
  run (through lz4_decompress p []) s =
  match fed p (all_data l) 0 with
  | Done a used => Ok (a, after s l used)
  | Failed e' => Err e'
  | Crashed q => Panic q
  | Short => reported e
  end.
Proof.
  intros B U L. destruct (through_exact lz4_decompress p e [] s l 0 B U L) as [H _].
  cbn [app] in H. rewrite H. destruct (fed p (all_data l) 0) as [a used| | |]; try reflexivity.
  unfold left_over. cbn [length]. rewrite !Nat.sub_0_r. reflexivity.
Qed.

(** So for a compressed block, against the same block uncompressed. *)
Theorem c103_block tz_known tz s l e : bytes_ok s -> unpacks lz4_decompress s l e ->
  (lenN (all_data l) < 2 ^ 64)%N ->
  match run (load_block lz4_decompress tz_known tz false) (all_data l) with
  | Ok (b, r) => exists used, length (all_data l) = used + length r /\
      run (load_block lz4_decompress tz_known tz true) s = Ok (b, after s l used)
  | Err EWouldBlock => run (load_block lz4_decompress tz_known tz true) s = reported e
  | Err e' => run (load_block lz4_decompress tz_known tz true) s = Err e'
  | Panic q => run (load_block lz4_decompress tz_known tz true) s = Panic q
  end.
Proof.
  intros B U L. unfold load_block.
  rewrite (c103_through _ (raw_load tz_known tz) s l e B U L).
  assert (H : forall A (p : P A) data u, patient p ->
    match run p data with
    | Ok (a, r) => exists used, fed p data u = Done a (u + used) /\ length data = used + length r
    | Err EWouldBlock => fed p data u = Short
    | Err e' => fed p data u = Failed e'
    | Panic q => fed p data u = Crashed q
    end).
  { clear. intros A p. induction p as [a|e'|q|n k IH]; intros data u Hp; cbn [run fed]; cbn [patient] in Hp.
    - exists 0. rewrite Nat.add_0_r. auto.
    - destruct e'; try reflexivity. destruct (Hp eq_refl).
    - reflexivity.
    - destruct (N.leb_spec n (lenN data)) as [H|H]; [|auto].
      specialize (IH (firstn (N.to_nat n) data) (skipn (N.to_nat n) data) (u + N.to_nat n) (Hp _)).
      destruct (run (k _) _) as [[a r]|e'|q]; [|exact IH|exact IH].
      destruct IH as (used & F & Ld). exists (N.to_nat n + used). rewrite F. split; [f_equal; lia|].
      rewrite skipn_length in Ld. unfold lenN in H. lia. }
  specialize (H _ (raw_load tz_known tz) (all_data l) 0 (patient_load tz_known tz)).
  destruct (run (raw_load tz_known tz) (all_data l)) as [[b r]|e'|q].
  - destruct H as (used & F & Ld). exists used. rewrite F. auto.
  - destruct e'; rewrite H; reflexivity.
  - rewrite H. reflexivity.
Qed.
End Frames.

Print Assumptions c103_frame.
Print Assumptions c103_unpacks.
Print Assumptions c103_through.
Print Assumptions c103_block.

(** Two frames and the beginning of a third whose method is not the known one: four bytes are read, the sixth is
    reported as garbled; without that beginning it is still to come. *)
Definition two_frames : bytes := compress_frame lz4_store [1; 2; 3]%N ++ compress_frame lz4_store [4; 5]%N.
Definition no_frame : bytes := repeat 0%N 16 ++ [2]%N.
Example c103_case :
  unpacks lz4_decode (two_frames ++ no_frame)
    [([1; 2; 3]%N, compress_frame lz4_store [4; 5]%N ++ no_frame); ([4; 5]%N, no_frame)] Garbled /\
  unpacks lz4_decode two_frames
    [([1; 2; 3]%N, compress_frame lz4_store [4; 5]%N); ([4; 5]%N, [])] Blocked /\
  run (through lz4_decode (Get 4 (fun l => Ret l)) []) (two_frames ++ no_frame) = Ok ([1; 2; 3; 4]%N, no_frame) /\
  run (through lz4_decode (Get 3 (fun l => Ret l)) []) (two_frames ++ no_frame) =
    Ok ([1; 2; 3]%N, compress_frame lz4_store [4; 5]%N ++ no_frame) /\
  run (through lz4_decode (Get 6 (fun l => Ret l)) []) (two_frames ++ no_frame) = Err EIo /\
  run (through lz4_decode (Get 6 (fun l => Ret l)) []) two_frames = Err EWouldBlock.
Proof.
  assert (U1 : unpacks lz4_decode (two_frames ++ no_frame)
    [([1; 2; 3]%N, compress_frame lz4_store [4; 5]%N ++ no_frame); ([4; 5]%N, no_frame)] Garbled).
  { eapply U_data; [vm_compute; reflexivity|discriminate|].
    eapply U_data; [vm_compute; reflexivity|discriminate|]. apply U_wrong. vm_compute. reflexivity. }
  assert (U2 : unpacks lz4_decode two_frames
    [([1; 2; 3]%N, compress_frame lz4_store [4; 5]%N); ([4; 5]%N, [])] Blocked).
  { eapply U_data; [vm_compute; reflexivity|discriminate|].
    eapply U_data; [vm_compute; reflexivity|discriminate|]. apply U_missing. vm_compute. reflexivity. }
  assert (B2 : bytes_ok two_frames).
  { apply Forall_forall. intros b Hb. revert b Hb. apply Forall_forall. vm_compute.
    repeat (apply Forall_cons; [reflexivity|]). apply Forall_nil. }
  assert (B1 : bytes_ok (two_frames ++ no_frame)).
  { apply Forall_app. split; [exact B2|]. vm_compute. repeat (apply Forall_cons; [reflexivity|]). apply Forall_nil. }
  split; [exact U1|]. split; [exact U2|].
  repeat split; (erewrite c103_through; [|eassumption|eassumption|vm_compute; reflexivity]); reflexivity.
Qed.
