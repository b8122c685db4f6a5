(** C01-C04: integers and strings on the wire. *)
From Verif Require Import Base Bytes Utf8 Reader Wire SpecWire ReaderProofs Utf8Proofs WireProofs.

(** C01. Every u64 is encoded in at most 10 bytes, in the shortest form there is,
    and read back, leaving what follows. *)
Theorem c01_uvarint_round_trip : forall v : N, (v < 2 ^ 64)%N ->
  exists l, enc_uvarint v = Ok l /\ is_varint l /\ varint_value l = v /\ (length l <= 10)%nat /\
    (forall l', is_varint l' -> varint_value l' = v -> (length l <= length l')%nat) /\
    (forall rest, run read_uvarint (l ++ rest) = Ok (v, rest)).
Proof.
  intros v Hv. destruct (enc_uvarint_ok v Hv) as [l [A [B [C [D [_ [E F]]]]]]].
  exists l. auto 10.
Qed.
Print Assumptions c01_uvarint_round_trip.

Example c01_example :
  enc_uvarint 300 = Ok [172; 2]%N /\ is_varint [172; 2]%N /\
  enc_uvarint (2 ^ 64 - 1) = Ok [255; 255; 255; 255; 255; 255; 255; 255; 255; 1]%N /\
  run read_uvarint [172; 2; 7]%N = Ok (300, [7])%N.
Proof. repeat split; try reflexivity; cbn; lia. Qed.

(** C02, the part that holds with overflow checks on. For every byte string: a
    number returned is the value of the digits read, below 2^64; "more bytes" means
    no complete number is there yet; overflow is only reported for a number that
    does not fit or is written with more than ten digits; a panic needs eleven
    continuation bytes. What is missing for C02 is the absence of that panic. *)
Theorem c02_read_uvarint_partial : forall inp, bytes_ok inp ->
  match run read_uvarint inp with
  | Ok (v, rest) => exists l, inp = l ++ rest /\ is_varint l /\ v = varint_value l /\ (v < 2 ^ 64)%N
  | Err EWouldBlock => forall l rest, inp = l ++ rest -> ~ is_varint l
  | Err EOverflow => exists l rest, inp = l ++ rest /\ is_varint l /\
       ((10 < length l)%nat \/ (2 ^ 64 <= varint_value l)%N)
  | Err _ => False
  | Panic _ => exists l rest, inp = l ++ rest /\ length l = 11%nat /\ Forall (fun b => (128 <= b)%N) l
  end.
Proof.
  intros inp H. pose proof (read_uvarint_spec inp H) as S.
  destruct (run read_uvarint inp) as [[v r]|e|q].
  - destruct S as [l [A [B [C [D _]]]]]. exists l. auto.
  - destruct e; try exact S. destruct S as [F _]. intros l rest -> Hl.
    apply Forall_app in F as [F _].
    exact (is_varint_not_all l [] l Hl (app_nil_r l) F eq_refl).
  - destruct S as [_ [l [r [A [B C]]]]]. exists l, r. auto.
Qed.
Print Assumptions c02_read_uvarint_partial.

(** C02 is false of the code compiled with overflow checks: eleven bytes with the
    top bit set make the shift amount 70. *)
Theorem c02_read_uvarint_panic_refuted : exists inp, bytes_ok inp /\
  run read_uvarint inp = Panic PArith.
Proof.
  exists (repeat 255%N 11). split; [|vm_compute; reflexivity].
  apply Forall_forall. intros x Hx. apply repeat_spec in Hx. lia.
Qed.
Print Assumptions c02_read_uvarint_panic_refuted.

(** C02 in full for a build without overflow checks. *)
Theorem c02_read_uvarint_release : forall inp, bytes_ok inp -> (lenN inp < 2 ^ 64)%N ->
  match run read_uvarint_release inp with
  | Ok (v, rest) => exists l, inp = l ++ rest /\ is_varint l /\ v = varint_value l /\ (v < 2 ^ 64)%N
  | Err EWouldBlock => forall l rest, inp = l ++ rest -> ~ is_varint l
  | Err EOverflow => exists l rest, inp = l ++ rest /\ is_varint l /\
       ((10 < length l)%nat \/ (2 ^ 64 <= varint_value l)%N)
  | _ => False
  end.
Proof.
  intros inp H HL. pose proof (read_uvarint_release_spec inp H HL) as S.
  destruct (run read_uvarint_release inp) as [[v r]|e|q].
  - destruct S as [l [A [B [C [D _]]]]]. exists l. auto.
  - destruct e; try exact S. intros l rest -> Hl.
    apply Forall_app in S as [F _].
    exact (is_varint_not_all l [] l Hl (app_nil_r l) F eq_refl).
  - exact S.
Qed.
Print Assumptions c02_read_uvarint_release.

Example c02_examples :
  run read_uvarint [128; 128]%N = Err EWouldBlock /\
  run read_uvarint [255; 255; 255; 255; 255; 255; 255; 255; 255; 2]%N = Err EOverflow /\
  run read_uvarint [128; 0; 9]%N = Ok (0, [9])%N /\
  run read_uvarint_release (repeat 255%N 11 ++ [0]%N) = Err EOverflow.
Proof. repeat split; vm_compute; reflexivity. Qed.

(** C03. Scalars are written little-endian in exactly their width and read back. *)
Theorem c03_scalar_round_trip : forall (t : scalar) (z : Z), scalar_ok t z = true ->
  length (enc_scalar t z) = width t /\
  bytes_ok (enc_scalar t z) /\
  positional (enc_scalar t z) = (z mod 2 ^ (8 * Z.of_nat (width t)))%Z /\
  forall rest, run (read_scalar t) (enc_scalar t z ++ rest) = Ok (z, rest).
Proof.
  intros t z H. split; [apply marshal_length|]. split; [apply marshal_bytes|].
  split; [apply marshal_positional|]. intros rest. apply run_read_scalar, H.
Qed.
Print Assumptions c03_scalar_round_trip.

Theorem c03_scalar_injective : forall t z1 z2, scalar_ok t z1 = true -> scalar_ok t z2 = true ->
  enc_scalar t z1 = enc_scalar t z2 -> z1 = z2.
Proof.
  intros t z1 z2 H1 H2 E. unfold enc_scalar in E.
  rewrite <- (unmarshal_marshal t z1 H1), <- (unmarshal_marshal t z2 H2), E. reflexivity.
Qed.
Print Assumptions c03_scalar_injective.

Example c03_example :
  scalar_ok I16 (-2) = true /\ enc_scalar I16 (-2) = [254; 255]%N /\
  enc_scalar U32 258 = [2; 1; 0; 0]%N /\ scalar_ok I64 (- 2 ^ 63) = true /\
  scalar_ok I64 (2 ^ 63) = false /\ scalar_ok I128 (- 2 ^ 127) = true /\
  run (read_scalar I16) [254; 255; 1]%N = Ok (-2, [1%N])%Z.
Proof. repeat split; vm_compute; reflexivity. Qed.

(** C04. A string is read back byte for byte and nothing else is consumed; the text
    reader returns it exactly when it is UTF-8; skipping consumes exactly it. *)
Theorem c04_string_round_trip : forall s, (lenN s <= isize_max)%N ->
  exists e, enc_string s = Ok e /\
    (exists l, e = l ++ s /\ is_varint l /\ varint_value l = lenN s) /\
    forall rest,
      run read_byte_string (e ++ rest) = Ok (s, rest) /\
      run skip_string (e ++ rest) = Ok (tt, rest) /\
      (is_utf8 s -> run read_string (e ++ rest) = Ok (s, rest)) /\
      (~ is_utf8 s -> run read_string (e ++ rest) = Err EOther).
Proof.
  intros s H. destruct (enc_string_read s H) as [e [E R]].
  exists e. split; [exact E|]. split.
  - pose proof isize_lt. destruct (enc_uvarint_ok (lenN s) ltac:(lia)) as [l [El [Hl [Vl _]]]].
    unfold enc_string in E. rewrite El in E. cbn in E. injection E as <-. eauto.
  - intros rest. destruct (R rest) as [A [B C]]. split; [exact A|]. split; [exact B|].
    rewrite C. split; intros U.
    + apply utf8_valid_spec in U. rewrite U. reflexivity.
    + destruct (utf8_valid s) eqn:V; [|reflexivity]. apply utf8_valid_spec in V. contradiction.
Qed.
Print Assumptions c04_string_round_trip.

(** Text handed out is always UTF-8, whatever the peer sends. *)
Theorem c04_text_is_utf8 : forall inp s rest, run read_string inp = Ok (s, rest) -> is_utf8 s.
Proof.
  intros inp s rest H. unfold read_string in H. rewrite run_bind in H.
  destruct (run read_uvarint inp) as [[n r]|?|?]; try discriminate.
  rewrite run_bind in H. destruct (run (alloc n) r) as [[[] r']|?|?]; try discriminate.
  cbn [run] in H. destruct (n <=? lenN r')%N; [|discriminate].
  destruct (utf8_valid (firstn (N.to_nat n) r')) eqn:V; [|discriminate].
  cbn in H. injection H as <- _. apply utf8_valid_spec, V.
Qed.
Print Assumptions c04_text_is_utf8.

Example c04_example :
  enc_string [104; 195; 169]%N = Ok [3; 104; 195; 169]%N /\ is_utf8 [104; 195; 169]%N /\
  ~ is_utf8 [237; 160; 128]%N /\
  run read_string [3; 237; 160; 128]%N = Err EOther.
Proof.
  split; [reflexivity|]. split; [apply utf8_valid_spec; reflexivity|].
  split; [|vm_compute; reflexivity].
  intros H. apply utf8_valid_spec in H. discriminate.
Qed.

(** A length above isize::MAX panics in the allocator before any byte is read. *)
Theorem c04_huge_length_refuted : exists inp, bytes_ok inp /\ run read_string inp = Panic PCapacity.
Proof.
  exists [255; 255; 255; 255; 255; 255; 255; 255; 255; 1]%N.
  split; [|vm_compute; reflexivity]. repeat constructor.
Qed.
Print Assumptions c04_huge_length_refuted.
