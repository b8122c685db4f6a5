(** Reading and writing the fields of messages. *)
From Coq Require Import String.
From Verif Require Import Base Bytes Utf8 Reader Wire Types Text TypeNames Columns Casts Block Compress Packets
  ReaderProofs SpecWire SpecCompress SpecPackets WireProofs Utf8Proofs CompressProofs.
Open Scope list_scope.
Open Scope nat_scope.

Lemma read_varint_of n l r : varint_of n l -> run read_uvarint (l ++ r) = Ok (n, r).
Proof. intros (V & L & <- & B). apply run_read_uvarint; assumption. Qed.

Lemma text_cases s l r : text_of s l ->
  run skip_string (l ++ r) = Ok (tt, r) /\
  run read_string (l ++ r) = if utf8_valid s then Ok (s, r) else Err EOther.
Proof.
  intros (L & v & V & ->). unfold skip_string, read_string.
  rewrite !run_bind, <- !app_assoc, !(read_varint_of _ _ _ V).
  rewrite run_bind, run_alloc by exact L. rewrite run_get by reflexivity. split.
  - destruct (N.leb_spec (lenN s) max_stack_buffer_len).
    + rewrite run_get by reflexivity. reflexivity.
    + rewrite run_bind, run_alloc, run_get by (exact L || reflexivity). reflexivity.
  - destruct (utf8_valid s); reflexivity.
Qed.
Lemma skip_text_of s l r : text_of s l -> run skip_string (l ++ r) = Ok (tt, r).
Proof. intros H. apply (text_cases s l r H). Qed.
Lemma read_utext_of s l r : utext_of s l -> run read_string (l ++ r) = Ok (s, r).
Proof.
  intros [U H]. rewrite (proj2 (text_cases s l r H)). rewrite (proj2 (utf8_valid_spec s) U). reflexivity.
Qed.
Lemma read_flag_of b l r : flag_of b l -> run read_bool (l ++ r) = Ok (b, r).
Proof.
  intros ->. unfold read_bool. rewrite run_bind.
  replace [if b then 1%N else 0%N] with (marshal SBool (if b then 1 else 0)%Z) by (destruct b; reflexivity).
  rewrite run_read_scalar by (destruct b; reflexivity). destruct b; reflexivity.
Qed.
Lemma read_fixed_of n l r : fixed_of 4 n l -> run (read_scalar U32) (l ++ r) = Ok (Z.of_N n, r).
Proof.
  intros (B & L & V). unfold read_scalar. rewrite run_get by (unfold lenN; rewrite L; reflexivity).
  cbn [run unmarshal is_signed]. rewrite le_dec_positional, V. reflexivity.
Qed.

Lemma print_digits_length fuel n : length (print_digits fuel n) <= fuel.
Proof.
  revert n. induction fuel as [|f IH]; intros n; cbn [print_digits length]; [lia|].
  destruct (n <? 10)%N; cbn [length]; [lia|]. rewrite app_length. cbn [length]. specialize (IH (n / 10)%N). lia.
Qed.
Lemma print_N_size n : (n < 2 ^ 64)%N -> (lenN (print_N n) <= isize_max)%N.
Proof.
  intros H. unfold print_N, lenN.
  pose proof (print_digits_length (S (N.size_nat n)) n) as L.
  assert (S64 : N.size_nat n <= 64).
  { destruct n as [|p]; [cbn; lia|]. 
    assert (G : forall p k, (N.pos p < 2 ^ N.of_nat k)%N -> Pos.size_nat p <= k).
    { clear. induction p as [p IH|p IH|]; intros k Hk; cbn [Pos.size_nat]; (destruct k as [|k]; [cbn in Hk; lia|]);
      rewrite Nat2N.inj_succ, N.pow_succ_r' in Hk; try (apply le_n_S, IH; lia); lia. }
    cbn [N.size_nat]. apply (G p 64). exact H. }
  assert (M : (100 <= isize_max)%N) by (vm_compute; discriminate). lia.
Qed.

(** ** Writing *)
Definition encodes (x : res bytes) (p : bytes -> Prop) : Prop := exists l, x = Ok l /\ p l.

Lemma encodes_varint n : (n < 2 ^ 64)%N -> encodes (enc_uvarint n) (varint_of n).
Proof.
  intros H. destruct (enc_uvarint_ok n H) as (l & E & V & W & L & _). exists l.
  split; [exact E|]. repeat split; assumption.
Qed.
Lemma encodes_text s : (lenN s <= isize_max)%N -> encodes (enc_string s) (text_of s).
Proof.
  intros H. pose proof isize_lt. destruct (encodes_varint (lenN s) ltac:(lia)) as (l & E & V).
  unfold enc_string. exists (l ++ s). rewrite E. split; [reflexivity|]. split; [exact H|]. exists l. auto.
Qed.
Lemma encodes_flag (b : bool) : encodes (Ok (enc_scalar SBool (if b then 1 else 0)%Z)) (flag_of b).
Proof. eexists. split; [reflexivity|]. destruct b; reflexivity. Qed.

Lemma seqR_fields xs ps : Forall2 encodes xs ps -> exists l, seqR xs = Ok l /\ fields ps l.
Proof.
  induction 1 as [|x p xs ps (a & -> & Ha) F (b & Eb & Hb)].
  - exists []. split; reflexivity.
  - exists (a ++ b). cbn [seqR rbind]. rewrite Eb. split; [reflexivity|]. cbn [fields]. eauto.
Qed.
Lemma seqR_app xs ys : seqR (xs ++ ys) = do a <- seqR xs; do b <- seqR ys; Ok (a ++ b).
Proof.
  induction xs as [|x xs IH]; cbn [seqR app rbind].
  - destruct (seqR ys); reflexivity.
  - rewrite IH. destruct x; cbn [rbind]; try reflexivity. destruct (seqR xs); cbn [rbind]; try reflexivity.
    destruct (seqR ys); cbn [rbind]; try reflexivity. rewrite app_assoc. reflexivity.
Qed.
Lemma fields_app ps qs l : fields (ps ++ qs) l <-> exists a b, l = a ++ b /\ fields ps a /\ fields qs b.
Proof.
  revert l. induction ps as [|p ps IH]; intros l; cbn [fields app].
  - split; [intros H; exists [], l; auto|]. intros (a & b & -> & -> & H). exact H.
  - split.
    + intros (a & b & -> & Ha & Hb). apply IH in Hb. destruct Hb as (c & d & -> & Hc & Hd).
      exists (a ++ c), d. rewrite app_assoc. eauto 10.
    + intros (a & b & -> & (c & d & -> & Hc & Hd) & Hb). exists c, (d ++ b). rewrite app_assoc.
      split; [reflexivity|]. split; [exact Hc|]. apply IH. eauto.
Qed.
Lemma fields_one (p : bytes -> Prop) l : fields [p] l <-> p l.
Proof.
  cbn [fields]. split.
  - intros (a & b & -> & H & ->). rewrite app_nil_r. exact H.
  - intros H. exists l, []. rewrite app_nil_r. auto.
Qed.

(** ** The fields can be told apart *)
Definition prefix_free {A} (p : A -> bytes -> Prop) : Prop :=
  forall x y l k r s, p x l -> p y k -> l ++ r = k ++ s -> x = y /\ r = s.
Lemma varint_free : prefix_free varint_of.
Proof.
  intros x y l k r s (V & _ & <- & _) (W & _ & <- & _) E.
  destruct (is_varint_prefix_free _ _ _ _ V W E) as [-> ->]. auto.
Qed.
Lemma app_same_length {A} (a b c d : list A) : length a = length c -> a ++ b = c ++ d -> a = c /\ b = d.
Proof.
  revert c. induction a as [|x a IH]; intros [|y c] L E; cbn in L; try discriminate; [auto|].
  cbn in E. injection E as -> E. destruct (IH c ltac:(lia) E) as [-> ->]. auto.
Qed.
Lemma text_free : prefix_free text_of.
Proof.
  intros x y l k r s (_ & v & V & ->) (_ & w & W & ->) E. rewrite <- !app_assoc in E.
  destruct (varint_free _ _ _ _ _ _ V W E) as [L E2].
  apply app_same_length in E2; [exact E2|]. unfold lenN in L. lia.
Qed.
Lemma flag_free : prefix_free flag_of.
Proof.
  intros x y l k r s -> -> E. cbn [app] in E. injection E as F ->.
  destruct x, y; try discriminate F; auto.
Qed.

Lemma peel {A} (p : A -> bytes -> Prop) x y ps qs u v r s : prefix_free p ->
  fields (p x :: ps) u -> fields (p y :: qs) v -> u ++ r = v ++ s ->
  x = y /\ exists u' v', fields ps u' /\ fields qs v' /\ u' ++ r = v' ++ s.
Proof.
  intros F (a & u' & -> & Ha & Hu) (b & v' & -> & Hb & Hv) E. rewrite <- !app_assoc in E.
  destruct (F _ _ _ _ _ _ Ha Hb E) as [-> E']. split; [reflexivity|]. eauto.
Qed.
Lemma peel_opt {A} (p : A -> bytes -> Prop) x y ps qs u v r s : prefix_free p -> is_some x = is_some y ->
  fields (opt p x ++ ps) u -> fields (opt p y ++ qs) v -> u ++ r = v ++ s ->
  x = y /\ exists u' v', fields ps u' /\ fields qs v' /\ u' ++ r = v' ++ s.
Proof.
  intros F S Hu Hv E. destruct x as [x|], y as [y|]; try discriminate S; cbn [opt app] in Hu, Hv.
  - destruct (peel p x y _ _ _ _ _ _ F Hu Hv E) as [-> H]. auto.
  - split; [reflexivity|]. eauto.
Qed.

Lemma settings_free revision numeric ss ts ps qs u v r s :
  Forall (setting_at revision numeric) ss -> Forall (setting_at revision numeric) ts ->
  fields (flat_map setting_layout ss ++ text_of [] :: ps) u ->
  fields (flat_map setting_layout ts ++ text_of [] :: qs) v -> u ++ r = v ++ s ->
  ss = ts /\ exists u' v', fields ps u' /\ fields qs v' /\ u' ++ r = v' ++ s.
Proof.
  revert ts u v. induction ss as [|x ss IH]; intros [|y ts] u v Hs Ht Hu Hv E.
  - destruct (peel _ _ _ _ _ _ _ _ _ text_free Hu Hv E) as [_ H]. auto.
  - exfalso. inversion Ht as [|? ? (N & _) _ ]; subst. cbn [flat_map setting_layout app] in Hu, Hv.
    destruct (peel _ _ _ _ _ _ _ _ _ text_free Hu Hv E) as [X _]. congruence.
  - exfalso. inversion Hs as [|? ? (N & _) _ ]; subst. cbn [flat_map setting_layout app] in Hu, Hv.
    destruct (peel _ _ _ _ _ _ _ _ _ text_free Hu Hv E) as [X _]. congruence.
  - inversion Hs as [|? ? (_ & Fx & Vx) Hs']; inversion Ht as [|? ? (_ & Fy & Vy) Ht']; subst.
    destruct x as [n f w], y as [n' f' w']. cbn [ss_name ss_flag ss_value] in *.
    cbn [flat_map] in Hu, Hv. unfold setting_layout in Hu at 1. unfold setting_layout in Hv at 1.
    cbn [ss_name ss_flag ss_value] in Hu, Hv. rewrite <- !app_assoc in Hu, Hv.
    cbn [app] in Hu, Hv.
    destruct (peel _ _ _ _ _ _ _ _ _ text_free Hu Hv E) as [-> (u1 & v1 & Hu1 & Hv1 & E1)].
    rewrite <- !app_assoc in Hu1, Hv1.
    assert (SF : is_some f = is_some f') by congruence.
    destruct (peel_opt _ _ _ _ _ _ _ _ _ flag_free SF Hu1 Hv1 E1) as [-> (u2 & v2 & Hu2 & Hv2 & E2)].
    cbn [app] in Hu2, Hv2.
    destruct w as [t|k], w' as [t'|k'].
    + destruct (peel _ _ _ _ _ _ _ _ _ text_free Hu2 Hv2 E2) as [-> (u3 & v3 & Hu3 & Hv3 & E3)].
      destruct (IH _ _ _ Hs' Ht' Hu3 Hv3 E3) as [-> H]. auto.
    + exfalso. destruct (54429 <=? revision)%N, (numeric n'); discriminate.
    + exfalso. destruct (54429 <=? revision)%N, (numeric n'); discriminate.
    + destruct (peel _ _ _ _ _ _ _ _ _ varint_free Hu2 Hv2 E2) as [-> (u3 & v3 & Hu3 & Hv3 & E3)].
      destruct (IH _ _ _ Hs' Ht' Hu3 Hv3 E3) as [-> H]. auto.
Qed.

Ltac peel_step F Hu Hv E :=
  let u := fresh "u" in let v := fresh "v" in let X := fresh "X" in
  let a := fresh in let b := fresh in let c := fresh in
  destruct (peel _ _ _ _ _ _ _ _ _ F Hu Hv E) as [X (u & v & a & b & c)];
  clear Hu Hv E; rename a into Hu; rename b into Hv; rename c into E.

Lemma client_free revision c d ps qs u v r s :
  is_some (qc_quota_key c) = (54060 <=? revision)%N -> is_some (qc_patch c) = (54401 <=? revision)%N ->
  is_some (qc_quota_key d) = (54060 <=? revision)%N -> is_some (qc_patch d) = (54401 <=? revision)%N ->
  fields (client_layout c ++ ps) u -> fields (client_layout d ++ qs) v -> u ++ r = v ++ s ->
  c = d /\ exists u' v', fields ps u' /\ fields qs v' /\ u' ++ r = v' ++ s.
Proof.
  intros Q1 P1 Q2 P2 Hu Hv E.
  destruct c as [a0 a1 a2 a3 a4 a5 a6 a7 a8 a9 a10 a11 a12],
    d as [b0 b1 b2 b3 b4 b5 b6 b7 b8 b9 b10 b11 b12]. unfold client_layout in Hu, Hv.
  cbn [qc_kind qc_initial_user qc_initial_id qc_address qc_interface qc_os_user qc_hostname qc_client qc_major
       qc_minor qc_revision qc_quota_key qc_patch] in *.
  cbn [app] in Hu, Hv.
  peel_step varint_free Hu Hv E. do 3 peel_step text_free Hu Hv E. peel_step varint_free Hu Hv E.
  do 3 peel_step text_free Hu Hv E. do 3 peel_step varint_free Hu Hv E.
  rewrite <- !app_assoc in Hu, Hv.
  rewrite <- Q1 in Q2. rewrite <- P1 in P2. symmetry in Q2, P2.
  destruct (peel_opt _ _ _ _ _ _ _ _ _ text_free Q2 Hu Hv E) as [-> (? & ? & Hu1 & Hv1 & E1)].
  destruct (peel_opt _ _ _ _ _ _ _ _ _ varint_free P2 Hu1 Hv1 E1) as [-> (? & ? & Hu2 & Hv2 & E2)].
  subst. split; [reflexivity|]. eauto.
Qed.

(** What a server reads is determined by the bytes. *)
Lemma reads_query_unique revision numeric l m m' r r' :
  reads_query revision numeric l m r -> reads_query revision numeric l m' r' -> m = m' /\ r = r'.
Proof.
  intros ((C & G & S) & u & -> & Hu) ((C' & G' & S') & v & E & Hv).
  destruct m as [i c ss st co q], m' as [i' c' ss' st' co' q'].
  unfold query_layout in Hu, Hv.
  cbn [qm_id qm_client qm_settings qm_stage qm_compression qm_sql] in *. cbn [app] in Hu, Hv.
  peel_step varint_free Hu Hv E. peel_step text_free Hu Hv E.
  assert (T : c = c' /\ exists u v, fields (flat_map setting_layout ss ++ [text_of []; varint_of st; varint_of co; text_of q]) u /\
            fields (flat_map setting_layout ss' ++ [text_of []; varint_of st'; varint_of co'; text_of q']) v /\ u ++ r = v ++ r').
  { destruct c as [c|], c' as [c'|]; cbn [is_some] in C, C'; try congruence.
    - destruct (G _ eq_refl) as [g1 g2], (G' _ eq_refl) as [g3 g4].
      destruct (client_free revision c c' _ _ _ _ _ _ g1 g2 g3 g4 Hu Hv E) as [-> H]. auto.
    - split; [reflexivity|]. eauto. }
  destruct T as [-> (w & z & Hw & Hz & E')].
  destruct (settings_free revision numeric _ _ _ _ _ _ _ _ S S' Hw Hz E') as [-> (a & b & Ha & Hb & E'')].
  do 2 peel_step varint_free Ha Hb E''. peel_step text_free Ha Hb E''.
  cbn [fields] in Ha, Hb. subst. cbn [app] in E''. subst. auto.
Qed.
