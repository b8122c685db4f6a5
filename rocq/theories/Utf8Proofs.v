(** The UTF-8 validator accepts exactly the encodings of Unicode scalar values. *)
From Verif Require Import Base Utf8 SpecWire.

Ltac Zify.zify_post_hook ::= idtac.

(** Base-64 digits of a code point. *)
Lemma digits64 c : exists q1 q2 q3 r0 r1 r2 : N,
  (c mod 64 = r0 /\ c / 64 = q1 /\ q1 mod 64 = r1 /\ c / 4096 = q2 /\ q2 mod 64 = r2 /\ c / 262144 = q3
   /\ c = 64 * q1 + r0 /\ q1 = 64 * q2 + r1 /\ q2 = 64 * q3 + r2 /\ r0 < 64 /\ r1 < 64 /\ r2 < 64)%N.
Proof.
  exists (c / 64)%N, (c / 4096)%N, (c / 262144)%N, (c mod 64)%N, ((c / 64) mod 64)%N, ((c / 4096) mod 64)%N.
  assert (E1 : (c / 4096 = c / 64 / 64)%N) by (rewrite N.div_div by lia; reflexivity).
  assert (E2 : (c / 262144 = c / 4096 / 64)%N) by (rewrite N.div_div by lia; reflexivity).
  repeat split; try reflexivity; try (apply N.mod_lt; lia).
  - apply N.div_mod; lia.
  - rewrite E1 at 1. apply N.div_mod; lia.
  - rewrite E2. apply N.div_mod; lia.
Qed.

Lemma div_digits q r : (r < 64 -> (64 * q + r) / 64 = q /\ (64 * q + r) mod 64 = r)%N.
Proof.
  intros H. rewrite N.add_comm, N.mul_comm. split.
  - rewrite N.div_add by lia. rewrite N.div_small by exact H. lia.
  - rewrite N.mod_add by lia. apply N.mod_small, H.
Qed.

(** Decide the test the computation is stuck on. *)
Ltac known b :=
  first [ assert (b = true) as -> by (unfold cont, in_range; lia)
        | assert (b = false) as -> by (unfold cont, in_range; lia) ].
Ltac utf8_cases :=
  repeat (cbv beta iota; cbn [andb orb];
    match goal with
    | |- (if ?b || ?c then _ else _) = _ =>
        first [known b | known c | (let X := fresh in destruct b eqn:X; unfold in_range in X)]
    | |- (if ?b then _ else _) = _ => first [known b | (let X := fresh in destruct b eqn:X; unfold in_range in X)]
    | |- ?b && _ && _ && _ = _ => known b
    | |- ?b && _ && _ = _ => known b
    | |- ?b && _ = _ => known b
    end); cbv beta iota; cbn [andb orb]; try reflexivity.

Lemma utf8_valid_encode c l : unicode_scalar c -> utf8_valid (utf8_encode c ++ l) = utf8_valid l.
Proof.
  intros [H1 H2]. unfold utf8_encode.
  destruct (digits64 c) as (q1 & q2 & q3 & r0 & r1 & r2 & E1 & E2 & E3 & E4 & E5 & E6 & C1 & C2 & C3 & B0 & B1 & B2).
  rewrite E6, E4, E5, E2, E3, E1. clear E1 E2 E3 E4 E5 E6.
  destruct (N.ltb_spec c 0x80) as [A|A].
  { cbn [app utf8_valid]. destruct (N.ltb_spec c 128); [reflexivity|lia]. }
  destruct (N.ltb_spec c 0x800) as [B|B].
  { cbn [app utf8_valid]. utf8_cases.
  }
  destruct (N.ltb_spec c 0x10000) as [C|C].
  { cbn [app utf8_valid]. utf8_cases.
  }
  cbn [app utf8_valid]. utf8_cases.
Qed.

Lemma utf8_of_is l : is_utf8 l -> utf8_valid l = true.
Proof.
  intros [cs [F ->]]. induction F as [|c cs Hc F IH]; [reflexivity|].
  cbn [map concat]. rewrite utf8_valid_encode by exact Hc. exact IH.
Qed.

Lemma is_utf8_cons c l : unicode_scalar c -> is_utf8 l -> is_utf8 (utf8_encode c ++ l).
Proof.
  intros Hc [cs [F ->]]. exists (c :: cs). split; [constructor; assumption|reflexivity].
Qed.

Lemma in_range_spec lo hi b : in_range lo hi b = true <-> (lo <= b <= hi)%N.
Proof. unfold in_range. rewrite andb_true_iff, N.leb_le, N.leb_le. reflexivity. Qed.

Lemma utf8_valid_is n l : (length l <= n)%nat -> utf8_valid l = true -> is_utf8 l.
Proof.
  revert l. induction n as [|n IH]; intros l L H.
  { destruct l; [|cbn in L; lia]. exists []. split; [constructor|reflexivity]. }
  destruct l as [|b0 l1]; [exists []; split; [constructor|reflexivity]|].
  cbn [utf8_valid] in H. cbn [length] in L.
  destruct (N.ltb_spec b0 128) as [A|A].
  { change (b0 :: l1) with ([b0] ++ l1).
    replace [b0] with (utf8_encode b0) by (unfold utf8_encode; destruct (N.ltb_spec b0 0x80); [reflexivity|lia]).
    apply is_utf8_cons; [unfold unicode_scalar; lia|apply IH; [lia|exact H]]. }
  destruct l1 as [|b1 l2]; [discriminate|]. cbn [length] in L.
  destruct (in_range 194 223 b0) eqn:R.
  { apply in_range_spec in R. apply andb_true_iff in H as [H1 H]. apply in_range_spec in H1.
    assert (exists c, c = ((b0 - 0xC0) * 64 + (b1 - 0x80))%N) as [c Ec] by eauto.
    replace (b0 :: b1 :: l2) with (utf8_encode c ++ l2).
    2:{ unfold utf8_encode. assert (0x80 <= c < 0x800)%N by lia.
        destruct (N.ltb_spec c 0x80); [lia|]. destruct (N.ltb_spec c 0x800); [|lia].
        cbn [app]. destruct (digits64 c) as (q1 & q2 & q3 & r0 & r1 & r2 & E1' & E2' & E3' & E4' & E5' & E6' & C1' & C2' & C3' & B0' & B1' & B2').
        rewrite E1', E2'. f_equal; [|f_equal]; lia. }
    apply is_utf8_cons; [unfold unicode_scalar; lia|apply IH; [lia|exact H]]. }
  destruct l2 as [|b2 l3]; [discriminate|]. cbn [length] in L.
  assert (K3 : (128 <= b1 <= 191)%N -> (128 <= b2 <= 191)%N -> (224 <= b0 <= 239)%N ->
     (b0 = 224 -> 160 <= b1)%N -> (b0 = 237 -> b1 <= 159)%N -> utf8_valid l3 = true ->
     is_utf8 (b0 :: b1 :: b2 :: l3)).
  { intros B1 B2 B0 C0 C1 V.
    assert (exists c, c = ((b0 - 0xE0) * 4096 + (b1 - 0x80) * 64 + (b2 - 0x80))%N) as [c Ec] by eauto.
    replace (b0 :: b1 :: b2 :: l3) with (utf8_encode c ++ l3).
    2:{ unfold utf8_encode. assert (0x800 <= c < 0x10000)%N by lia.
        destruct (N.ltb_spec c 0x80); [lia|]. destruct (N.ltb_spec c 0x800); [lia|].
        destruct (N.ltb_spec c 0x10000); [|lia].
        cbn [app]. destruct (digits64 c) as (q1 & q2 & q3 & r0 & r1 & r2 & E1' & E2' & E3' & E4' & E5' & E6' & C1' & C2' & C3' & B0' & B1' & B2').
        rewrite E4', E2', E3', E1'. f_equal; [|f_equal; [|f_equal]]; lia. }
    apply is_utf8_cons; [unfold unicode_scalar; lia|apply IH; [lia|exact V]]. }
  destruct (N.eqb_spec b0 224) as [E0|E0].
  { apply andb_true_iff in H as [H V]. apply andb_true_iff in H as [H1 H2].
    apply in_range_spec in H1, H2. apply K3; try assumption; lia. }
  destruct (in_range 225 236 b0 || in_range 238 239 b0) eqn:R2.
  { apply orb_true_iff in R2. rewrite !in_range_spec in R2.
    apply andb_true_iff in H as [H V]. apply andb_true_iff in H as [H1 H2].
    apply in_range_spec in H1, H2. apply K3; try assumption; lia. }
  destruct (N.eqb_spec b0 237) as [E1|E1].
  { apply andb_true_iff in H as [H V]. apply andb_true_iff in H as [H1 H2].
    apply in_range_spec in H1, H2. apply K3; try assumption; lia. }
  clear K3. destruct l3 as [|b3 l4]; [discriminate|]. cbn [length] in L.
  assert (K4 : (128 <= b1 <= 191)%N -> (128 <= b2 <= 191)%N -> (128 <= b3 <= 191)%N -> (240 <= b0 <= 244)%N ->
     (b0 = 240 -> 144 <= b1)%N -> (b0 = 244 -> b1 <= 143)%N -> utf8_valid l4 = true ->
     is_utf8 (b0 :: b1 :: b2 :: b3 :: l4)).
  { intros B1 B2 B3 B0 C0 C1 V.
    assert (exists c, c = ((b0 - 0xF0) * 262144 + (b1 - 0x80) * 4096 + (b2 - 0x80) * 64 + (b3 - 0x80))%N) as [c Ec] by eauto.
    replace (b0 :: b1 :: b2 :: b3 :: l4) with (utf8_encode c ++ l4).
    2:{ unfold utf8_encode. assert (0x10000 <= c < 0x110000)%N by lia.
        destruct (N.ltb_spec c 0x80); [lia|]. destruct (N.ltb_spec c 0x800); [lia|].
        destruct (N.ltb_spec c 0x10000); [lia|].
        cbn [app]. destruct (digits64 c) as (q1 & q2 & q3 & r0 & r1 & r2 & E1' & E2' & E3' & E4' & E5' & E6' & C1' & C2' & C3' & B0' & B1' & B2').
        rewrite E6', E4', E5', E2', E3', E1'. f_equal; [|f_equal; [|f_equal; [|f_equal]]]; lia. }
    apply is_utf8_cons; [unfold unicode_scalar; lia|apply IH; [lia|exact V]]. }
  destruct (N.eqb_spec b0 240) as [E2|E2].
  { apply andb_true_iff in H as [H V]. apply andb_true_iff in H as [H H3]. apply andb_true_iff in H as [H1 H2].
    apply in_range_spec in H1, H2, H3. apply K4; try assumption; lia. }
  destruct (in_range 241 243 b0) eqn:R3.
  { apply in_range_spec in R3.
    apply andb_true_iff in H as [H V]. apply andb_true_iff in H as [H H3]. apply andb_true_iff in H as [H1 H2].
    apply in_range_spec in H1, H2, H3. apply K4; try assumption; lia. }
  destruct (N.eqb_spec b0 244) as [E3|E3]; [|discriminate].
  apply andb_true_iff in H as [H V]. apply andb_true_iff in H as [H H3]. apply andb_true_iff in H as [H1 H2].
  apply in_range_spec in H1, H2, H3. apply K4; try assumption; lia.
Qed.

Lemma utf8_valid_spec l : utf8_valid l = true <-> is_utf8 l.
Proof. split; [apply (utf8_valid_is (length l)); lia | apply utf8_of_is]. Qed.

Lemma ascii_utf8 l : ascii_only l = true -> utf8_valid l = true.
Proof.
  induction l as [|b l IH]; [reflexivity|]. cbn. intros H. apply andb_true_iff in H as [-> H].
  apply IH, H.
Qed.

