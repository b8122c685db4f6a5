(** Proofs about integers and strings on the wire. *)
From Verif Require Import Base Bytes Utf8 Reader Wire ReaderProofs SpecWire Utf8Proofs.

(** ** Finite checks over one byte *)
Definition byte_range : list N := map N.of_nat (seq 0 256).

Lemma byte_range_in b : (b < 256)%N -> In b byte_range.
Proof.
  intros H. unfold byte_range. apply in_map_iff. exists (N.to_nat b).
  split; [lia|]. apply in_seq. lia.
Qed.

Lemma byte_check (f : N -> bool) :
  forallb f byte_range = true -> forall b, (b < 256)%N -> f b = true.
Proof. intros H b Hb. rewrite forallb_forall in H. apply H, byte_range_in, Hb. Qed.

Lemma lor_128 a : (a < 256)%N -> N.lor a 128 = (a mod 128 + 128)%N.
Proof.
  intros H. apply N.eqb_eq.
  apply (byte_check (fun a => N.lor a 128 =? a mod 128 + 128)%N); [vm_compute; reflexivity|exact H].
Qed.

Lemma land_127 a : (a < 256)%N -> N.land a 127 = (a mod 128)%N.
Proof.
  intros H. apply N.eqb_eq.
  apply (byte_check (fun a => N.land a 127 =? a mod 128)%N); [vm_compute; reflexivity|exact H].
Qed.

(** ** Little-endian scalars *)
Lemma le_enc_length w n : length (le_enc w n) = w.
Proof. revert n. induction w; intros n; cbn; [reflexivity|]. rewrite IHw. reflexivity. Qed.

Lemma le_enc_ok w n : bytes_ok (le_enc w n).
Proof.
  revert n. induction w; intros n; cbn; [constructor|].
  constructor; [apply N.mod_lt; lia | apply IHw].
Qed.

Lemma pow256_succ w : (256 ^ N.of_nat (S w) = 256 * 256 ^ N.of_nat w)%N.
Proof. rewrite Nat2N.inj_succ, N.pow_succ_r'. reflexivity. Qed.

Lemma le_dec_enc w n : (n < 256 ^ N.of_nat w)%N -> le_dec (le_enc w n) = n.
Proof.
  revert n. induction w as [|w IH]; intros n H.
  - cbn in *. lia.
  - rewrite pow256_succ in H. cbn. rewrite IH by (apply N.div_lt_upper_bound; lia).
    pose proof (N.div_mod n 256 ltac:(lia)). lia.
Qed.

Lemma le_dec_bound l : bytes_ok l -> (le_dec l < 256 ^ lenN l)%N.
Proof.
  induction 1 as [|b l Hb Hl IH]; [cbn; lia|].
  unfold lenN in *. cbn [length]. rewrite pow256_succ. cbn [le_dec]. lia.
Qed.

Lemma le_enc_dec l : bytes_ok l -> le_enc (length l) (le_dec l) = l.
Proof.
  induction 1 as [|b l Hb Hl IH]; [reflexivity|].
  cbn [length le_enc le_dec].
  replace ((b + 256 * le_dec l) mod 256)%N with b.
  2:{ rewrite N.mul_comm, N.mod_add by lia. symmetry. apply N.mod_small, Hb. }
  replace ((b + 256 * le_dec l) / 256)%N with (le_dec l).
  2:{ rewrite N.mul_comm, N.div_add by lia. rewrite N.div_small by exact Hb. lia. }
  rewrite IH. reflexivity.
Qed.

Lemma le_dec_positional l : Z.of_N (le_dec l) = positional l.
Proof. induction l as [|b l IH]; cbn [le_dec positional]; lia. Qed.

Lemma pow256_two w : (256 ^ N.of_nat w = Z.to_N (2 ^ (8 * Z.of_nat w)))%N.
Proof.
  rewrite Z.pow_mul_r by lia. change (2 ^ 8)%Z with 256%Z.
  apply N2Z.inj. rewrite Z2N.id by (apply Z.pow_nonneg; lia).
  rewrite N2Z.inj_pow, nat_N_Z. reflexivity.
Qed.

Lemma to_unsigned_bound w z : (to_unsigned w z < 256 ^ N.of_nat w)%N.
Proof.
  rewrite pow256_two. unfold to_unsigned.
  assert (0 < 2 ^ (8 * Z.of_nat w))%Z by (apply Z.pow_pos_nonneg; lia).
  pose proof (Z.mod_pos_bound z (2 ^ (8 * Z.of_nat w)) ltac:(lia)). lia.
Qed.

Lemma pow8_even w : (0 < w)%nat -> exists h, (0 < h /\ 2 ^ (8 * Z.of_nat w) = 2 * h
  /\ h = 2 ^ (8 * Z.of_nat w - 1))%Z.
Proof.
  intros H. exists (2 ^ (8 * Z.of_nat w - 1))%Z. split; [apply Z.pow_pos_nonneg; lia|].
  split; [|reflexivity]. rewrite <- Z.pow_succ_r by lia. f_equal. lia.
Qed.

Lemma to_signed_unsigned w z :
  (0 < w)%nat -> (- 2 ^ (8 * Z.of_nat w - 1) <= z < 2 ^ (8 * Z.of_nat w - 1))%Z ->
  to_signed w (to_unsigned w z) = z.
Proof.
  intros Hw Hz. destruct (pow8_even w Hw) as [h [Hh [E Eh]]]. rewrite <- Eh in Hz.
  unfold to_signed, to_unsigned. rewrite E.
  assert (B := Z.mod_pos_bound z (2 * h) ltac:(lia)).
  rewrite Z2N.id by lia. rewrite Z.mod_mod by lia.
  replace (2 * h / 2)%Z with h by (rewrite Z.mul_comm, Z.div_mul; lia).
  destruct (Z.ltb_spec (z mod (2 * h)) h) as [L|L].
  - destruct (Z.neg_nonneg_cases z) as [N|N].
    + assert (M : (z mod (2 * h) = z + 2 * h)%Z).
      { symmetry. apply Z.mod_unique with (-1)%Z; [left; lia | lia]. } lia.
    + apply Z.mod_small. lia.
  - destruct (Z.neg_nonneg_cases z) as [N|N].
    + assert (M : (z mod (2 * h) = z + 2 * h)%Z).
      { symmetry. apply Z.mod_unique with (-1)%Z; [left; lia | lia]. } lia.
    + rewrite Z.mod_small in L by lia. lia.
Qed.

Lemma to_signed_range w n : (0 < w)%nat ->
  (- 2 ^ (8 * Z.of_nat w - 1) <= to_signed w n < 2 ^ (8 * Z.of_nat w - 1))%Z.
Proof.
  intros Hw. destruct (pow8_even w Hw) as [h [Hh [E Eh]]]. rewrite <- Eh.
  unfold to_signed. rewrite E. replace (2 * h / 2)%Z with h by (rewrite Z.mul_comm, Z.div_mul; lia).
  assert (B := Z.mod_pos_bound (Z.of_N n) (2 * h) ltac:(lia)).
  destruct (Z.ltb_spec (Z.of_N n mod (2 * h)) h); lia.
Qed.

Lemma to_unsigned_signed w n : (0 < w)%nat -> (n < 256 ^ N.of_nat w)%N ->
  to_unsigned w (to_signed w n) = n.
Proof.
  intros Hw Hn. rewrite pow256_two in Hn.
  destruct (pow8_even w Hw) as [h [Hh [E Eh]]].
  unfold to_signed, to_unsigned. rewrite E in *.
  replace (2 * h / 2)%Z with h by (rewrite Z.mul_comm, Z.div_mul; lia).
  rewrite (Z.mod_small (Z.of_N n)) by lia.
  destruct (Z.ltb_spec (Z.of_N n) h).
  - rewrite Z.mod_small by lia. lia.
  - replace (Z.of_N n - 2 * h)%Z with (Z.of_N n + (-1) * (2 * h))%Z by lia.
    rewrite Z.mod_add by lia. rewrite Z.mod_small by lia. lia.
Qed.

Lemma width_pos t : (0 < width t)%nat.
Proof. destruct t; cbn; lia. Qed.

Lemma marshal_length t z : length (marshal t z) = width t.
Proof. apply le_enc_length. Qed.

Lemma marshal_bytes t z : bytes_ok (marshal t z).
Proof. apply le_enc_ok. Qed.

Lemma le_dec_marshal t z : le_dec (marshal t z) = to_unsigned (width t) z.
Proof. apply le_dec_enc, to_unsigned_bound. Qed.

Lemma to_unsigned_small w z : (0 <= z < 2 ^ (8 * Z.of_nat w))%Z -> Z.of_N (to_unsigned w z) = z.
Proof. intros H. unfold to_unsigned. rewrite Z.mod_small by exact H. lia. Qed.

Lemma unmarshal_marshal t z : scalar_ok t z = true -> unmarshal t (marshal t z) = z.
Proof.
  intros H.
  assert (Hs : forall w, (0 < w)%nat ->
     (let h := (2 ^ (8 * Z.of_nat w - 1))%Z in ((- h <=? z) && (z <? h))%Z) = true ->
     to_signed w (to_unsigned w z) = z).
  { intros w Hw Hz. apply to_signed_unsigned; [exact Hw|]. cbn zeta in Hz.
    apply andb_true_iff in Hz as [H1 H2]. lia. }
  assert (Hu : forall w, ((0 <=? z) && (z <? 2 ^ (8 * Z.of_nat w)))%Z = true ->
     Z.of_N (to_unsigned w z) = z).
  { intros w Hz. apply to_unsigned_small. apply andb_true_iff in Hz as [H1 H2]. lia. }
  destruct t;
    try (unfold unmarshal; cbn [is_signed]; rewrite le_dec_marshal;
         (apply Hs; [apply width_pos|exact H]) || (apply Hu; exact H)).
  cbn in H. assert (z = 0 \/ z = 1)%Z as [-> | ->] by lia; reflexivity.
Qed.

(** What the client writes denotes the value, little-endian and modulo 2^(8w). *)
Lemma marshal_positional t z :
  positional (marshal t z) = (z mod 2 ^ (8 * Z.of_nat (width t)))%Z.
Proof.
  rewrite <- le_dec_positional, le_dec_marshal. unfold to_unsigned. rewrite Z2N.id; [reflexivity|].
  apply Z.mod_pos_bound. apply Z.pow_pos_nonneg; lia.
Qed.

Lemma unmarshal_ok t l : length l = width t -> bytes_ok l -> scalar_ok t (unmarshal t l) = true.
Proof.
  intros L B. pose proof (le_dec_bound l B) as Hb. unfold lenN in Hb. rewrite L, pow256_two in Hb.
  assert (Hs : forall w, (0 < w)%nat -> (let h := (2 ^ (8 * Z.of_nat w - 1))%Z in
     ((- h <=? to_signed w (le_dec l)) && (to_signed w (le_dec l) <? h))%Z) = true).
  { intros w Hw. cbn zeta. pose proof (to_signed_range w (le_dec l) Hw). lia. }
  destruct t; try (unfold unmarshal, scalar_ok; cbn [is_signed]; apply Hs; apply width_pos);
    try (unfold unmarshal, scalar_ok; cbn [is_signed]; cbn [width] in *; lia).
  cbn. destruct (hd 0 l =? 0)%N; reflexivity.
Qed.

(** Except for bool (any non-zero byte is true), reading loses nothing. *)
Lemma marshal_unmarshal t l : t <> SBool -> length l = width t -> bytes_ok l ->
  marshal t (unmarshal t l) = l.
Proof.
  intros Ht L B. pose proof (le_dec_bound l B) as Hb. unfold lenN in Hb. rewrite L in Hb.
  unfold marshal.
  assert (E : to_unsigned (width t) (unmarshal t l) = le_dec l).
  { destruct t; try congruence; unfold unmarshal; cbn [is_signed];
      try (apply to_unsigned_signed; [apply width_pos|exact Hb]);
      unfold to_unsigned; rewrite pow256_two in Hb; rewrite Z.mod_small by lia; lia. }
  rewrite E, <- L. apply le_enc_dec, B.
Qed.

Lemma run_read_scalar t z r :
  scalar_ok t z = true -> run (read_scalar t) (marshal t z ++ r) = Ok (z, r).
Proof.
  intros H. unfold read_scalar. rewrite run_get.
  - cbn. rewrite unmarshal_marshal by exact H. reflexivity.
  - unfold lenN. rewrite marshal_length. reflexivity.
Qed.

Lemma scalar_u_ok t z : is_signed t = false -> t <> SBool ->
  (0 <= z < 2 ^ (8 * Z.of_nat (width t)))%Z -> scalar_ok t z = true.
Proof. intros H H' Hz. destruct t; try discriminate; try congruence; cbn in *; lia. Qed.

(** ** Variable-length integers *)
Lemma run_read_u8 b r : (b < 256)%N -> run read_u8 (b :: r) = Ok (b, r).
Proof.
  intros H. unfold read_u8. rewrite run_bind. unfold read_scalar.
  change (b :: r) with ([b] ++ r). rewrite run_get by reflexivity.
  cbn [run unmarshal is_signed le_dec]. f_equal. f_equal. lia.
Qed.

Lemma run_read_u8_nil : run read_u8 [] = Err EWouldBlock.
Proof. reflexivity. Qed.
Global Opaque read_u8.

Lemma put_uvarint_spec room v :
  (v < 128 ^ N.of_nat room)%N -> (0 < room)%nat ->
  exists l, put_uvarint room v = Ok l /\ is_varint l /\ varint_value l = v /\
    (length l <= room)%nat /\ bytes_ok l /\
    (forall k, (0 < k)%nat -> (v < 128 ^ N.of_nat k)%N -> (length l <= k)%nat).
Proof.
  revert v. induction room as [|room IH]; intros v Hv Hr; [lia|].
  cbn [put_uvarint]. destruct (N.leb_spec 128 v) as [H|H].
  - rewrite N.shiftr_div_pow2. change (2 ^ 7)%N with 128%N.
    rewrite Nat2N.inj_succ, N.pow_succ_r' in Hv.
    assert (Hd : (v / 128 < 128 ^ N.of_nat room)%N) by (apply N.div_lt_upper_bound; lia).
    destruct room as [|room']; [cbn in Hd; lia|].
    destruct (IH (v / 128)%N Hd ltac:(lia)) as [l [-> [Hl [Vl [Ll [Ol Ml]]]]]].
    cbn [rbind]. eexists. split; [reflexivity|].
    rewrite lor_128 by lia.
    split; [|split; [|split; [|split]]].
    + destruct l as [|b l]; [contradiction Hl|]. cbn [is_varint]. split; [lia|exact Hl].
    + cbn [varint_value]. rewrite Vl. lia.
    + cbn. lia.
    + constructor; [lia|exact Ol].
    + intros k Hk Hvk. destruct k as [|k]; [lia|].
      rewrite Nat2N.inj_succ, N.pow_succ_r' in Hvk.
      assert (Hd' : (v / 128 < 128 ^ N.of_nat k)%N) by (apply N.div_lt_upper_bound; lia).
      destruct k as [|k]; [cbn in Hd'; lia|].
      specialize (Ml (S k) ltac:(lia) Hd'). cbn. lia.
  - exists [(v mod 256)%N]. repeat split.
    + cbn. lia.
    + cbn. lia.
    + cbn. lia.
    + constructor; [lia|constructor].
    + intros k Hk _. cbn. lia.
Qed.

Lemma varint_value_bound l : (varint_value l < 128 ^ lenN l)%N.
Proof.
  induction l as [|b l IH]; [cbn; lia|]. rewrite lenN_cons.
  replace (1 + lenN l)%N with (N.succ (lenN l)) by lia. rewrite N.pow_succ_r'.
  cbn [varint_value]. lia.
Qed.

Lemma is_varint_nonempty l : is_varint l -> (0 < length l)%nat.
Proof. destruct l; cbn; [contradiction|lia]. Qed.

Lemma is_varint_cons b l : l <> [] -> (is_varint (b :: l) <-> (128 <= b < 256)%N /\ is_varint l).
Proof. destruct l; [congruence|]. intros _. reflexivity. Qed.

Lemma is_varint_bytes l : is_varint l -> bytes_ok l.
Proof.
  induction l as [|b l IH]; intros H; [constructor|].
  destruct l as [|c l]; cbn in H; constructor; try lia; try constructor.
  - apply Forall_inv in IH; [exact IH | tauto].
  - assert (X : bytes_ok (c :: l)) by tauto. inversion X; assumption.
Qed.

Lemma lor_disjoint x y s : (x < 2 ^ s)%N -> N.lor x (N.shiftl y s) = (x + y * 2 ^ s)%N.
Proof.
  intros H. rewrite <- N.shiftl_mul_pow2.
  assert (D : N.land x (N.shiftl y s) = 0%N).
  { apply N.bits_inj. intros k. rewrite N.land_spec, N.bits_0.
    destruct (N.le_gt_cases s k) as [L|L].
    - replace (N.testbit x k) with false; [reflexivity|]. symmetry.
      destruct (N.eq_dec x 0) as [->|Nz]; [apply N.bits_0|].
      apply N.bits_above_log2. apply N.lt_le_trans with s; [|exact L].
      apply N.log2_lt_pow2; lia.
    - rewrite (N.shiftl_spec_low _ _ _ L). apply andb_false_r. }
  rewrite <- N.lxor_lor by exact D. symmetry. apply N.add_nocarry_lxor, D.
Qed.

Lemma pow2_7 i : (2 ^ (7 * N.succ i) = 128 * 2 ^ (7 * i))%N.
Proof. replace (7 * N.succ i)%N with (7 * i + 7)%N by lia. rewrite N.pow_add_r. change (2^7)%N with 128%N. lia. Qed.

Lemma pow2_7_bound i : (i <= 9)%N -> (2 ^ (7 * i) <= 2 ^ 63)%N.
Proof. intros H. apply N.pow_le_mono_r; lia. Qed.

Lemma pow2_7_split i : (i <= 9)%N -> (2 ^ 63 = 2 ^ (7 * i) * 2 ^ (63 - 7 * i))%N.
Proof. intros H. rewrite <- N.pow_add_r. f_equal. lia. Qed.

(** Outcome of the reading loop from the state reached after [i] continuation
    bytes. *)
Lemma read_uvarint_loop_spec fuel x i inp :
  (N.of_nat fuel + i = 12)%N -> (i <= 10)%N ->
  (i <= 9 -> x < 2 ^ (7 * i))%N -> bytes_ok inp ->
  match run (read_uvarint_loop fuel x (7 * i) i) inp with
  | Ok (v, r) => exists l, inp = l ++ r /\ is_varint l /\
       v = (x + 2 ^ (7 * i) * varint_value l)%N /\ (v < 2 ^ 64)%N /\ (lenN l + i <= 10)%N
  | Err EWouldBlock => Forall (fun b => 128 <= b)%N inp /\ (lenN inp + i <= 10)%N
  | Err EOverflow => exists l r, inp = l ++ r /\ is_varint l /\
       (10 < lenN l + i \/ 2 ^ 64 <= x + 2 ^ (7 * i) * varint_value l)%N
  | Err _ => False
  | Panic q => q = PArith /\ exists l r, inp = l ++ r /\ Forall (fun b => 128 <= b)%N l /\
       (lenN l + i = 11)%N
  end.
Proof.
  revert x i inp. induction fuel as [|fuel IH]; intros x i inp Hf Hp Hx Hb; [lia|].
  cbn [read_uvarint_loop]. rewrite run_bind.
  destruct inp as [|b inp].
  - rewrite run_read_u8_nil. split; [constructor|]. unfold lenN. cbn [length]. lia.
  - inversion Hb as [|? ? Hb0 Hbs]; subst.
    rewrite run_read_u8 by assumption.
    destruct (N.ltb_spec b 128) as [Hlt|Hge].
    + (* last byte *)
      destruct (N.ltb_spec 9 i) as [H9|H9]; cbn [orb].
      * cbn [run]. exists [b], inp. split; [reflexivity|]. split; [exact Hlt|]. left. unfold lenN. cbn [length]. lia.
      * specialize (Hx H9). destruct (N.eqb_spec i 9) as [->|Hi].
        -- destruct (N.ltb_spec 1 b) as [H1|H1]; cbn [andb].
           ++ cbn [run]. exists [b], inp. split; [reflexivity|]. split; [exact Hlt|]. right.
              cbn [varint_value]. change (2 ^ (7 * 9))%N with (2^63)%N.
              change (2^64)%N with (2 * 2^63)%N. rewrite N.mod_small by lia. lia.
           ++ rewrite run_bind. unfold lift, shl64. change (7 * 9 <? 64)%N with true. cbv iota. cbn [run].
              exists [b]. split; [reflexivity|]. split; [exact Hlt|].
              rewrite N.mod_small.
              2:{ rewrite N.shiftl_mul_pow2. change (7 * 9)%N with 63%N. change (2^64)%N with (2 * 2^63)%N. lia. }
              rewrite lor_disjoint by exact Hx. cbn [varint_value]. rewrite N.mod_small by lia.
              change (7 * 9)%N with 63%N in *. change (2^64)%N with (2 * 2^63)%N.
              unfold lenN. cbn [length]. split; [lia|]. split; lia.
        -- cbn [andb]. assert (Hi8 : (i <= 8)%N) by lia.
           assert (Bd : (b * 2 ^ (7 * i) < 2 ^ 63)%N).
           { apply N.lt_le_trans with (2 ^ (7 * N.succ i))%N.
             - rewrite pow2_7. apply N.mul_lt_mono_pos_r; [|exact Hlt].
               apply N.neq_0_lt_0, N.pow_nonzero. lia.
             - apply pow2_7_bound. lia. }
           pose proof (pow2_7_bound i H9) as Bi.
           change (2^64)%N with (2 * 2^63)%N.
           rewrite run_bind. unfold lift, shl64. destruct (N.ltb_spec (7 * i) 64); [|lia]. cbn [run].
           exists [b]. split; [reflexivity|]. split; [exact Hlt|].
           rewrite N.mod_small.
           2:{ rewrite N.shiftl_mul_pow2. change (2^64)%N with (2 * 2^63)%N. lia. }
           rewrite lor_disjoint by exact Hx. cbn [varint_value]. rewrite N.mod_small by lia.
           unfold lenN. cbn [length]. split; [lia|]. split; lia.
    + (* continuation byte *)
      rewrite run_bind. unfold lift, shl64 at 1.
      destruct (N.ltb_spec (7 * i) 64) as [Hs|Hs].
      * assert (H9 : (i <= 9)%N) by lia. specialize (Hx H9). cbn [run].
        rewrite land_127 by assumption.
        assert (Hi1 : (7 * i + 7 = 7 * (i + 1))%N) by lia. rewrite Hi1.
        set (x' := N.lor x (N.shiftl (b mod 128) (7 * i) mod 2 ^ 64)).
        assert (Hx' : (i + 1 <= 9 -> x' = x + 2 ^ (7 * i) * (b mod 128) /\ x' < 2 ^ (7 * (i + 1)))%N).
        { intros H8. unfold x'. assert (Hm : (b mod 128 < 128)%N) by (apply N.mod_lt; lia).
          assert (E : (7 * (i + 1) = 7 * N.succ i)%N) by lia.
          assert (Bd : (b mod 128 * 2 ^ (7 * i) < 2 ^ 63)%N).
          { apply N.lt_le_trans with (2 ^ (7 * N.succ i))%N.
            - rewrite pow2_7. apply N.mul_lt_mono_pos_r; [|exact Hm].
              apply N.neq_0_lt_0, N.pow_nonzero. lia.
            - apply pow2_7_bound. lia. }
          rewrite N.mod_small.
          2:{ rewrite N.shiftl_mul_pow2. change (2^64)%N with (2 * 2^63)%N. lia. }
          rewrite lor_disjoint by exact Hx. rewrite E, pow2_7. split; [lia|].
          assert (M : (b mod 128 * 2 ^ (7 * i) <= 127 * 2 ^ (7 * i))%N) by (apply N.mul_le_mono_r; lia).
          lia. }
        destruct fuel as [|fuel]; [lia|].
        assert (IHx : (i + 1 <= 9 -> x' < 2 ^ (7 * (i + 1)))%N) by (intros Q; apply Hx', Q).
        pose proof (IH x' (i + 1)%N inp ltac:(lia) ltac:(lia) IHx Hbs) as H.
        destruct (run (read_uvarint_loop (S fuel) x' (7 * (i + 1)) (i + 1)) inp) as [[v r]|e|q].
        -- destruct H as [l [-> [Hl [-> [Hv Hlen]]]]]. exists (b :: l).
           split; [reflexivity|].
           assert (Hne : l <> []) by (intros ->; exact Hl).
           split; [apply is_varint_cons; [exact Hne|split;[lia|exact Hl]]|].
           assert (L1 : (1 <= lenN l)%N) by (apply is_varint_nonempty in Hl; unfold lenN; lia).
           destruct (Hx' ltac:(lia)) as [Ex _].
           split.
           { cbn [varint_value]. rewrite Ex. replace (7 * (i + 1))%N with (7 * N.succ i)%N by lia.
             rewrite pow2_7. ring. }
           split; [exact Hv|]. rewrite lenN_cons. lia.
        -- destruct e; try exact H.
           ++ destruct H as [H L]. split; [constructor; assumption|]. rewrite lenN_cons. lia.
           ++ destruct H as [l [r [-> [Hl HO]]]]. exists (b :: l), r.
              split; [reflexivity|].
              assert (Hne : l <> []) by (intros ->; exact Hl).
              split; [apply is_varint_cons; [exact Hne|split;[lia|exact Hl]]|].
              rewrite lenN_cons. destruct HO as [HO|HO]; [left; lia|].
              destruct (N.le_gt_cases (i + 1) 9) as [H8|H8].
              ** right. destruct (Hx' H8) as [Ex _]. rewrite Ex in HO.
                 replace (7 * (i + 1))%N with (7 * N.succ i)%N in HO by lia. rewrite pow2_7 in HO.
                 cbn [varint_value].
                 replace (x + 2 ^ (7 * i) * (b mod 128 + 128 * varint_value l))%N
                   with (x + 2 ^ (7 * i) * (b mod 128) + 128 * 2 ^ (7 * i) * varint_value l)%N by ring.
                 exact HO.
              ** left. assert (L1 : (1 <= lenN l)%N) by (apply is_varint_nonempty in Hl; unfold lenN; lia). lia.
        -- destruct H as [-> [l [r [-> [Hl HL]]]]]. split; [reflexivity|].
           exists (b :: l), r. split; [reflexivity|]. split; [constructor; assumption|].
           rewrite lenN_cons. lia.
      * cbn [run]. split; [reflexivity|]. exists [b], inp. split; [reflexivity|].
        split; [repeat constructor; exact Hge|]. unfold lenN. cbn [length]. lia.
Qed.

Lemma read_uvarint_spec inp : bytes_ok inp ->
  match run read_uvarint inp with
  | Ok (v, r) => exists l, inp = l ++ r /\ is_varint l /\
       v = varint_value l /\ (v < 2 ^ 64)%N /\ (length l <= 10)%nat
  | Err EWouldBlock => Forall (fun b => 128 <= b)%N inp /\ (length inp <= 10)%nat
  | Err EOverflow => exists l r, inp = l ++ r /\ is_varint l /\
       ((10 < length l)%nat \/ (2 ^ 64 <= varint_value l)%N)
  | Err _ => False
  | Panic q => q = PArith /\ exists l r, inp = l ++ r /\ Forall (fun b => 128 <= b)%N l /\
       length l = 11%nat
  end.
Proof.
  intros Hb.
  pose proof (read_uvarint_loop_spec 12 0 0 inp eq_refl ltac:(lia) ltac:(intros; cbn; lia) Hb) as H.
  unfold read_uvarint. change (7 * 0)%N with 0%N in H.
  destruct (run (read_uvarint_loop 12 0 0 0) inp) as [[v r]|e|q].
  - destruct H as [l [-> [Hl [-> [Hv HL]]]]]. exists l. repeat split; try assumption.
    + change (2 ^ 0)%N with 1%N. lia.
    + unfold lenN in HL. lia.
  - destruct e; try exact H.
    + destruct H as [H HL]. split; [exact H|]. unfold lenN in HL. lia.
    + destruct H as [l [r [-> [Hl HO]]]]. exists l, r. repeat split; try assumption.
      change (2 ^ 0)%N with 1%N in HO. unfold lenN in HO. lia.
  - destruct H as [-> [l [r [-> [Hl HL]]]]]. split; [reflexivity|]. exists l, r.
    repeat split; try assumption. unfold lenN in HL. lia.
Qed.

Lemma is_varint_prefix_free l l' r r' :
  is_varint l -> is_varint l' -> l ++ r = l' ++ r' -> l = l' /\ r = r'.
Proof.
  revert l'. induction l as [|b l IH]; intros l' H H' E; [contradiction|].
  destruct l' as [|b' l']; [contradiction|]. cbn in E. injection E as <- E.
  destruct l as [|c l].
  - destruct l' as [|c' l']; [auto|]. cbn in H, H'. lia.
  - destruct l' as [|c' l'].
    + cbn in H, H'. lia.
    + apply is_varint_cons in H; [|discriminate]. apply is_varint_cons in H'; [|discriminate].
      destruct H as [_ H], H' as [_ H'].
      destruct (IH (c' :: l') H H' E) as [Ea Eb]. rewrite Ea, Eb. split; reflexivity.
Qed.

Lemma is_varint_not_all l r l' :
  is_varint l -> l' ++ r = l -> Forall (fun b => 128 <= b)%N l' -> r <> [].
Proof.
  revert l'. induction l as [|b l IH]; intros l' H E F; [contradiction|].
  destruct l' as [|b' l'].
  - cbn in E. subst. discriminate.
  - cbn in E. injection E as -> E. apply Forall_cons_iff in F as [F0 F].
    destruct l as [|c l].
    + cbn in H. lia.
    + apply is_varint_cons in H; [|discriminate]. destruct H as [_ H].
      apply (IH l'); assumption.
Qed.

Lemma run_read_uvarint l r :
  is_varint l -> (length l <= 10)%nat -> (varint_value l < 2 ^ 64)%N ->
  run read_uvarint (l ++ r) = Ok (varint_value l, r).
Proof.
  intros H L V.
  assert (E : run read_uvarint l = Ok (varint_value l, [])).
  { pose proof (read_uvarint_spec l (is_varint_bytes l H)) as S.
    destruct (run read_uvarint l) as [[v r']|e|q].
    - destruct S as [l' [E [Hl' [-> _]]]].
      rewrite <- (app_nil_r l) in E.
      destruct (is_varint_prefix_free _ _ _ _ H Hl' E) as [-> <-]. reflexivity.
    - destruct e; try contradiction.
      + destruct S as [F _]. exfalso. apply (is_varint_not_all l [] l H); [apply app_nil_r|exact F|reflexivity].
      + destruct S as [l' [r' [E [Hl' HO]]]].
        rewrite <- (app_nil_r l) in E.
        destruct (is_varint_prefix_free _ _ _ _ H Hl' E) as [-> _]. lia.
    - destruct S as [_ [l' [r' [E [F HL]]]]]. exfalso.
      apply (f_equal (@length N)) in E. rewrite app_length in E. lia. }
  apply (run_extend _ _ _ _ r) in E. exact E.
Qed.

Lemma enc_uvarint_ok v : (v < 2 ^ 64)%N ->
  exists l, enc_uvarint v = Ok l /\ is_varint l /\ varint_value l = v /\ (length l <= 10)%nat /\
    bytes_ok l /\ (forall r, run read_uvarint (l ++ r) = Ok (v, r)) /\
    (forall l', is_varint l' -> varint_value l' = v -> (length l <= length l')%nat).
Proof.
  intros Hv. unfold enc_uvarint, max_varint_len64.
  destruct (put_uvarint_spec 10 v) as [l [E [Hl [Vl [Ll [Ol Ml]]]]]]; [|lia|].
  { apply N.lt_le_trans with (2^64)%N; [exact Hv|]. vm_compute. discriminate. }
  exists l. repeat split; try assumption.
  - intros r. rewrite <- Vl. apply run_read_uvarint; try assumption. rewrite Vl. exact Hv.
  - intros l' Hl' Vl'. apply Ml.
    + apply is_varint_nonempty, Hl'.
    + rewrite <- Vl'. apply varint_value_bound.
Qed.

(** The compiled-without-checks loop. *)
Lemma varint_value_app l l' :
  varint_value (l ++ l') = (varint_value l + 2 ^ (7 * lenN l) * varint_value l')%N.
Proof.
  induction l as [|b l IH].
  - cbn [app varint_value]. change (2 ^ (7 * lenN (@nil N)))%N with 1%N. lia.
  - cbn [app varint_value]. rewrite IH, lenN_cons.
    replace (7 * (1 + lenN l))%N with (7 * N.succ (lenN l))%N by lia. rewrite pow2_7. ring.
Qed.

Lemma is_varint_app pre l : Forall (fun b => 128 <= b < 256)%N pre -> is_varint l -> is_varint (pre ++ l).
Proof.
  intros F Hl. induction F as [|b pre Hb F IH]; [exact Hl|].
  cbn [app]. apply is_varint_cons; [|split; assumption].
  destruct pre; [|discriminate]. cbn. intros ->. exact Hl.
Qed.

Lemma varint_value_pre pre : (varint_value pre < 2 ^ (7 * lenN pre))%N.
Proof.
  pose proof (varint_value_bound pre) as H. change 128%N with (2^7)%N in H.
  rewrite <- N.pow_mul_r in H. exact H.
Qed.

Lemma read_uvarint_release_spec inp : bytes_ok inp -> (lenN inp < 2 ^ 64)%N ->
  match run read_uvarint_release inp with
  | Ok (v, r) => exists l, inp = l ++ r /\ is_varint l /\
       v = varint_value l /\ (v < 2 ^ 64)%N /\ (length l <= 10)%nat
  | Err EWouldBlock => Forall (fun b => 128 <= b)%N inp
  | Err EOverflow => exists l r, inp = l ++ r /\ is_varint l /\
       ((10 < length l)%nat \/ (2 ^ 64 <= varint_value l)%N)
  | _ => False
  end.
Proof.
  intros Hb HL. unfold read_uvarint_release.
  set (I := fun (st : N * N * N) (inp' : bytes) =>
     let '(x, s, i) := st in
     exists pre, inp = pre ++ inp' /\ Forall (fun b => 128 <= b < 256)%N pre /\ i = lenN pre /\
       (i <= 9 -> s = 7 * i /\ x = varint_value pre)%N).
  apply (ploop_inv _ I (fun o => match o with
  | Ok (v, r) => exists l, inp = l ++ r /\ is_varint l /\
       v = varint_value l /\ (v < 2 ^ 64)%N /\ (length l <= 10)%nat
  | Err EWouldBlock => Forall (fun b => 128 <= b)%N inp
  | Err EOverflow => exists l r, inp = l ++ r /\ is_varint l /\
       ((10 < length l)%nat \/ (2 ^ 64 <= varint_value l)%N)
  | _ => False
  end)); [|exists []; split; [reflexivity|split; [constructor|split; [reflexivity|intros _; split; reflexivity]]]|exact HL].
  intros [[x s] i] inp' [pre [E [F [Ei Hs]]]]. rewrite run_bind.
  destruct inp' as [|b r].
  - rewrite run_read_u8_nil. rewrite E, app_nil_r. eapply Forall_impl; [|exact F]. cbn. lia.
  - assert (Hb0 : (b < 256)%N).
    { unfold bytes_ok in Hb. rewrite E in Hb. apply Forall_app in Hb as [_ Hb]. inversion Hb; assumption. }
    rewrite run_read_u8 by exact Hb0.
    destruct (N.ltb_spec b 128) as [Hlt|Hge].
    + assert (Ha : is_varint (pre ++ [b])) by (apply is_varint_app; [exact F|exact Hlt]).
      assert (Ea : inp = (pre ++ [b]) ++ r) by (rewrite <- app_assoc; exact E).
      assert (Va : varint_value (pre ++ [b]) = (varint_value pre + b * 2 ^ (7 * i))%N).
      { rewrite varint_value_app, <- Ei. cbn [varint_value]. rewrite (N.mod_small b) by lia. ring. }
      assert (La : lenN (pre ++ [b]) = (i + 1)%N).
      { rewrite lenN_app, <- Ei. reflexivity. }
      destruct (N.ltb_spec 9 i) as [H9|H9]; cbn [orb].
      * exists (pre ++ [b]), r. repeat split; try assumption. left. unfold lenN in La. lia.
      * destruct (Hs H9) as [-> ->].
        pose proof (varint_value_pre pre) as Bp. rewrite <- Ei in Bp.
        pose proof (pow2_7_bound i H9) as Bi.
        destruct (N.eqb_spec i 9) as [E9|Hi].
        -- destruct (N.ltb_spec 1 b) as [H1|H1]; cbn [andb].
           ++ exists (pre ++ [b]), r. repeat split; try assumption. right. rewrite Va, E9.
              change (2 ^ (7 * 9))%N with (2^63)%N. change (2^64)%N with (2 * 2^63)%N. lia.
           ++ cbn [run]. exists (pre ++ [b]). split; [exact Ea|]. split; [exact Ha|].
              unfold shl64_release. rewrite E9 in *. change (7 * 9)%N with 63%N in *. change (63 mod 64)%N with 63%N.
              rewrite N.mod_small.
              2:{ rewrite N.shiftl_mul_pow2. change (2^64)%N with (2 * 2^63)%N. lia. }
              rewrite lor_disjoint by exact Bp. rewrite Va.
              change (2^64)%N with (2 * 2^63)%N. unfold lenN in La. split; [lia|]. split; lia.
        -- cbn [andb]. cbn [run]. exists (pre ++ [b]). split; [exact Ea|]. split; [exact Ha|].
           assert (Bd : (b * 2 ^ (7 * i) < 2 ^ 63)%N).
           { apply N.lt_le_trans with (2 ^ (7 * N.succ i))%N.
             - rewrite pow2_7. apply N.mul_lt_mono_pos_r; [|exact Hlt].
               apply N.neq_0_lt_0, N.pow_nonzero. lia.
             - apply pow2_7_bound. lia. }
           unfold shl64_release. rewrite (N.mod_small (7 * i)) by lia.
           rewrite N.mod_small.
           2:{ rewrite N.shiftl_mul_pow2. change (2^64)%N with (2 * 2^63)%N. lia. }
           rewrite lor_disjoint by exact Bp. rewrite Va.
           change (2^64)%N with (2 * 2^63)%N. unfold lenN in La. split; [lia|]. split; lia.
    + cbn [run]. split; [|cbn; lia].
      exists (pre ++ [b]). split; [rewrite <- app_assoc; exact E|].
      split; [apply Forall_app; split; [exact F|repeat constructor; lia]|].
      split; [rewrite lenN_app, <- Ei; reflexivity|].
      intros H8. destruct (Hs ltac:(lia)) as [-> ->].
      pose proof (varint_value_pre pre) as Bp. rewrite <- Ei in Bp.
      assert (Hm : (b mod 128 < 128)%N) by (apply N.mod_lt; lia).
      split; [rewrite N.mod_small; change (2^32)%N with 4294967296%N; lia|].
      rewrite land_127 by exact Hb0. unfold shl64_release. rewrite (N.mod_small (7 * i)) by lia.
      assert (Bd : (b mod 128 * 2 ^ (7 * i) < 2 ^ 63)%N).
      { apply N.lt_le_trans with (2 ^ (7 * N.succ i))%N.
        - rewrite pow2_7. apply N.mul_lt_mono_pos_r; [|exact Hm].
          apply N.neq_0_lt_0, N.pow_nonzero. lia.
        - apply pow2_7_bound. lia. }
      rewrite N.mod_small.
      2:{ rewrite N.shiftl_mul_pow2. change (2^64)%N with (2 * 2^63)%N. lia. }
      rewrite lor_disjoint by exact Bp. rewrite varint_value_app, <- Ei. cbn [varint_value].
      rewrite N.mul_0_r, N.add_0_r. ring.
Qed.

(** ** Strings *)
Lemma enc_string_ok s : (lenN s < 2 ^ 64)%N ->
  exists l, enc_uvarint (lenN s) = Ok l /\ enc_string s = Ok (l ++ s) /\
    forall r, run read_uvarint (l ++ r) = Ok (lenN s, r).
Proof.
  intros H. destruct (enc_uvarint_ok _ H) as [l [E [_ [_ [_ [_ [R _]]]]]]].
  exists l. unfold enc_string. rewrite E. cbn. auto.
Qed.

Lemma isize_lt : (isize_max < 2 ^ 64)%N.
Proof. reflexivity. Qed.

Lemma run_alloc n s : (n <= isize_max)%N -> run (alloc n) s = Ok (tt, s).
Proof. intros H. unfold alloc. destruct (N.leb_spec n isize_max); [reflexivity|lia]. Qed.

Lemma enc_string_read s : (lenN s <= isize_max)%N ->
  exists e, enc_string s = Ok e /\
    forall r, run read_byte_string (e ++ r) = Ok (s, r) /\
              run skip_string (e ++ r) = Ok (tt, r) /\
              run read_string (e ++ r) = if utf8_valid s then Ok (s, r) else Err EOther.
Proof.
  intros H. pose proof isize_lt.
  destruct (enc_string_ok s ltac:(lia)) as [l [_ [E R]]].
  exists (l ++ s). split; [exact E|]. intros r.
  unfold read_byte_string, skip_string, read_string.
  rewrite !run_bind, <- app_assoc, !R.
  rewrite !run_bind, !run_alloc by exact H.
  rewrite !run_get by reflexivity. split; [reflexivity|]. split.
  - destruct (N.leb_spec (lenN s) max_stack_buffer_len).
    + rewrite run_get by reflexivity. reflexivity.
    + rewrite run_bind, run_alloc, run_get by (exact H || reflexivity). reflexivity.
  - destruct (utf8_valid s); reflexivity.
Qed.
