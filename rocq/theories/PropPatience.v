(** C117: waiting for bytes can always end. *)
From Coq Require Import String Lia.
From Verif Require Import Base Bytes Utf8 Reader ReaderProofs Wire WireProofs Types Text TypeNames Values Columns Casts Block Compress Packets
  SpecWire SpecCompress CompressProofs LoadPanicProofs PatientProofs PropCompress.
Open Scope list_scope. Open Scope nat_scope.

(** The reader has come to a message, an error or a panic: it does not wait for bytes. *)
Definition ended {A} (r : res A) : Prop :=
  match r with Err EWouldBlock => False | Panic PFuel => False | _ => True end.

Definition zeros (n : nat) : bytes := repeat 0%N n.
Lemma zeros_add a b : zeros (a + b) = zeros a ++ zeros b. Proof. apply repeat_app. Qed.
Lemma zeros_len n : length (zeros n) = n. Proof. apply repeat_length. Qed.
Lemma skip_zeros n j : skipn n (zeros j) = zeros (j - n).
Proof. revert j. induction n as [|n IH]; intros [|j]; try reflexivity. apply IH. Qed.

Definition goes {A} (r : res A) : Prop := match r with Err EWouldBlock => False | _ => True end.

(** A reader that has waited is given exactly what it waits for. *)
Lemma one_more {A} (p : P A) : forall x b a r, ~ goes (run p x) -> run p (x ++ [b]) = Ok (a, r) -> r = [].
Proof.
  induction p as [c|e|q|n k IH]; intros x b a r W H; cbn [run] in *.
  - destruct (W I).
  - discriminate H.
  - discriminate H.
  - destruct (N.leb_spec n (lenN x)) as [L|L].
    + rewrite (proj2 (N.leb_le _ _)) in H by (unfold lenN in *; rewrite app_length; lia).
      rewrite firstn_app, skipn_app in H. replace (N.to_nat n - length x) with 0 in H by (unfold lenN in L; lia).
      cbn [firstn skipn] in H. rewrite app_nil_r in H. eapply IH; eassumption.
    + destruct (N.leb_spec n (lenN (x ++ [b]))) as [L'|L']; [|discriminate H].
      apply run_shorter in H. unfold lenN in *. rewrite skipn_length, app_length in *. cbn [length] in *. destruct r; [reflexivity|cbn in H; lia].
Qed.
Lemma goes_more {A} (p : P A) s m k : goes (run p (s ++ zeros m)) -> goes (run p (s ++ zeros (m + k))).
Proof.
  rewrite zeros_add, app_assoc. destruct (run p (s ++ zeros m)) as [[a r]|e|q] eqn:E; intros G.
  - rewrite (run_extend _ _ _ _ _ E). exact I.
  - assert (e <> EWouldBlock) by (intros ->; exact G). rewrite (run_extend_err _ _ _ _ E) by assumption. destruct e; try exact I. congruence.
  - rewrite (run_extend_panic _ _ _ _ E). exact I.
Qed.
Lemma goes_dec {A} (r : res A) : goes r \/ ~ goes r.
Proof. destruct r as [a|e|q]; [left; exact I| |left; exact I]. destruct e; cbn; tauto. Qed.
Lemma trimmed {A} (p : P A) s m : goes (run p (s ++ zeros m)) ->
  exists m0, m0 <= m /\ goes (run p (s ++ zeros m0)) /\ (m0 = 0 \/ forall a r, run p (s ++ zeros m0) = Ok (a, r) -> r = []).
Proof.
  induction m as [|m IH]; intros G; [exists 0; auto|].
  destruct (goes_dec (run p (s ++ zeros m))) as [Y|N].
  - destruct (IH Y) as (m0 & L & H). exists m0. split; [lia|exact H].
  - exists (S m). split; [lia|]. split; [exact G|]. right. intros a r H.
    replace (S m) with (m + 1) in H by lia. rewrite zeros_add, app_assoc in H. eapply one_more; eassumption.
Qed.

(** Zeros end the wait. *)
Definition tame {A} (p : P A) : Prop := forall s, (lenN s < 2 ^ 63)%N -> exists m, ended (run p (s ++ zeros m)).
Lemma tame_short {A} (p : P A) s : tame p -> (lenN s < 2 ^ 63)%N ->
  exists m, ended (run p (s ++ zeros m)) /\ forall a r, run p (s ++ zeros m) = Ok (a, r) -> length r <= length s.
Proof.
  intros T L. destruct (T s L) as (m & E).
  assert (G : goes (run p (s ++ zeros m))) by (destruct (run p (s ++ zeros m)) as [[? ?]|[]|]; try exact I; exact E).
  destruct (trimmed p s m G) as (m0 & L0 & G0 & H). exists m0. split.
  - replace m with (m0 + (m - m0)) in E by lia. rewrite zeros_add, app_assoc in E.
    destruct (run p (s ++ zeros m0)) as [[a r]|e|q] eqn:R; [exact I|destruct e; try exact I; destruct G0|].
    rewrite (run_extend_panic _ _ _ _ R) in E. exact E.
  - intros a r R. destruct H as [->|H].
    + cbn [zeros repeat] in R. rewrite app_nil_r in R. exact (run_shorter _ _ _ _ R).
    + rewrite (H a r R). cbn. lia.
Qed.
Lemma tame_bind {A B} (p : P A) (f : A -> P B) : tame p -> (forall a, tame (f a)) -> tame (pbind p f).
Proof.
  intros Tp Tf s L. destruct (tame_short p s Tp L) as (m & E & Hr).
  destruct (run p (s ++ zeros m)) as [[a r]|e|q] eqn:R.
  - assert (Lr : (lenN r < 2 ^ 63)%N) by (specialize (Hr a r eq_refl); unfold lenN in *; lia).
    destruct (Tf a r Lr) as (m' & E'). exists (m + m'). rewrite zeros_add, app_assoc, run_bind, (run_extend _ _ _ _ _ R). exact E'.
  - exists m. rewrite run_bind, R. exact E.
  - exists m. rewrite run_bind, R. exact E.
Qed.
Lemma tame_patient {A} (p : P A) : patient p -> calm (fun q => q <> PFuel) p -> tame p.
Proof.
  intros Hp Hc s L. assert (G : exists m, goes (run p (s ++ zeros m))).
  { clear Hc L. revert s. induction p as [a|e|q|n k IH]; intros s.
    - exists 0. exact I.
    - exists 0. cbn in *. destruct e; try exact I. congruence.
    - exists 0. exact I.
    - destruct (N.leb_spec n (lenN s)) as [H|H].
      + destruct (IH (firstn (N.to_nat n) s) (Hp _) (skipn (N.to_nat n) s)) as (m & G). exists m. cbn [run].
        rewrite (proj2 (N.leb_le _ _)) by (unfold lenN in *; rewrite app_length; lia).
        rewrite firstn_app, skipn_app. replace (N.to_nat n - length s) with 0 by (unfold lenN in H; lia).
        cbn [firstn skipn]. rewrite app_nil_r. exact G.
      + pose (d := N.to_nat n - length s). assert (D : N.to_nat n = length (s ++ zeros d)) by (rewrite app_length, zeros_len; unfold d, lenN in *; lia).
        destruct (IH (s ++ zeros d) (Hp _) []) as (m & G). exists (d + m). cbn [run]. rewrite zeros_add, app_assoc.
        rewrite (proj2 (N.leb_le _ _)) by (unfold lenN; rewrite app_length; lia).
        rewrite D, firstn_app, skipn_app, Nat.sub_diag, firstn_all, skipn_all. cbn [firstn skipn]. rewrite app_nil_r. exact G. }
  destruct G as (m & G). exists m. destruct (run p (s ++ zeros m)) as [?|[]|q] eqn:R; try exact I; [exact G|].
  specialize (Hc _ _ R). destruct q; try exact I. congruence.
Qed.

(** The header of a block is the one loop that is not counted: six zeros end it. *)
Local Transparent read_u8.
Lemma u8_is b r : run read_u8 (b :: r) = Ok (Z.to_N (unmarshal U8 [b]), r).
Proof.
  unfold read_u8. rewrite run_bind. unfold read_scalar. cbn [run]. rewrite (proj2 (N.leb_le _ _)) by (unfold lenN; cbn [length width]; lia).
  reflexivity.
Qed.
Lemma u8_zero j : run read_u8 (zeros (S j)) = Ok (0%N, zeros j).
Proof. change (zeros (S j)) with (0%N :: zeros j). rewrite u8_is. reflexivity. Qed.
Lemma u8_any b r : exists x, run read_u8 (b :: r) = Ok (x, r).
Proof. rewrite u8_is. eexists. reflexivity. Qed.
Definition rest_of (u : bytes) (j : nat) (r : bytes) (w : nat) : Prop :=
  (exists u', r = u' ++ zeros j /\ length u' < length u) \/ (exists d, d <= w /\ r = zeros (j - d)).
Lemma varint_zeros u j : 1 <= j ->
  match run read_uvarint (u ++ zeros j) with
  | Ok (_, r) => rest_of u j r 1
  | Err EWouldBlock => False
  | _ => True
  end.
Proof.
  intros J. unfold read_uvarint. generalize 12 as fuel. intros fuel. generalize 0%N at 1 as x. generalize 0%N at 1 as sh. generalize 0%N as i.
  revert u. induction fuel as [|fuel IH]; intros u i sh x; [exact I|]. cbn [read_uvarint_loop]. rewrite run_bind. destruct u as [|b u].
  - cbn [app]. destruct j as [|j]; [lia|]. rewrite u8_zero. change (0 <? 128)%N with true. cbn iota.
    destruct (_ || _); [exact I|]. unfold shl64. destruct (sh <? 64)%N; [|exact I]. cbn [lift pbind run].
    right. exists 1. split; [lia|]. f_equal. lia.
  - cbn [app]. destruct (u8_any b (u ++ zeros j)) as (y & ->). destruct (y <? 128)%N.
    + destruct (_ || _); [exact I|]. unfold shl64. destruct (sh <? 64)%N; [|exact I]. cbn [lift pbind run].
      left. exists u. split; [reflexivity|cbn; lia].
    + unfold shl64. destruct (sh <? 64)%N; [|exact I]. cbn [lift pbind].
      match goal with |- context [run (read_uvarint_loop fuel ?a ?b ?c) _] => specialize (IH u c b a); destruct (run (read_uvarint_loop fuel a b c) (u ++ zeros j)) as [[k r]|e|q] end;
        [|exact IH|exact I].
      destruct IH as [(u' & -> & L)|(d & L & ->)]; [left; exists u'; split; [reflexivity|cbn; lia]|right; exists d; auto].
Qed.
Lemma scalar_zeros t u j : width t <= j -> exists z r, run (read_scalar t) (u ++ zeros j) = Ok (z, r) /\
  ((exists u', r = u' ++ zeros j /\ length u' <= length u) \/ (exists d, d <= width t /\ r = zeros (j - d))).
Proof.
  intros J. unfold read_scalar. cbn [run]. rewrite (proj2 (N.leb_le _ _)) by (unfold lenN; rewrite app_length, zeros_len; lia).
  do 2 eexists. split; [reflexivity|]. rewrite Nat2N.id, skipn_app, skip_zeros. destruct (Nat.leb_spec (width t) (length u)) as [H|H].
  - left. exists (skipn (width t) u). replace (width t - length u) with 0 by lia. rewrite Nat.sub_0_r. split; [reflexivity|rewrite skipn_length; lia].
  - right. exists (width t - length u). rewrite skipn_all2 by lia. split; [lia|reflexivity].
Qed.
Definition primed (inp : bytes) : Prop := (exists j, 1 <= j /\ inp = zeros j) \/ (exists u j, 6 <= j /\ inp = u ++ zeros j).
Lemma tame_info : tame read_info.
Proof.
  intros s L. exists 6.
  assert (G : goes (run read_info (s ++ zeros 6))).
  { unfold read_info. apply (ploop_inv info_step (fun _ inp => primed inp) goes); [|right; exists s, 6; auto|].
    2: { unfold lenN in *. rewrite app_length, zeros_len. lia. }
    assert (Z : forall st j, run (info_step st) (zeros (S j)) = Ok (inr st, zeros j)).
    { intros st j. unfold info_step. rewrite run_bind. replace (run read_uvarint (zeros (S j))) with (@Ok (N * bytes) (0%N, zeros j)); [reflexivity|].
      unfold read_uvarint. cbn [read_uvarint_loop]. rewrite run_bind, u8_zero. reflexivity. }
    intros st inp [(j & J & ->)|(u & j & J & ->)]; [destruct j as [|j]; [lia|]; rewrite Z; exact I|].
    destruct u as [|b u]; [cbn [app]; destruct j as [|j]; [lia|]; rewrite Z; exact I|].
    unfold info_step. rewrite run_bind. pose proof (varint_zeros (b :: u) j) as V.
    destruct (run read_uvarint ((b :: u) ++ zeros j)) as [[tag r]|e|q]; [|destruct e; try exact I; apply V; lia|exact I].
    assert (V' : rest_of (b :: u) j r 1) by (apply V; lia). clear V.
    assert (SC : forall t, 1 <= width t <= 4 -> exists z r', run (read_scalar t) r = Ok (z, r') /\ primed r' /\ length r' < length ((b :: u) ++ zeros j)).
    { intros t W. destruct V' as [(u' & -> & Lu)|(d & D & ->)].
      - destruct (scalar_zeros t u' j) as (z & r' & E & H); [lia|]. exists z, r'. split; [exact E|].
        destruct H as [(u2 & -> & L2)|(d & D & ->)].
        + split; [right; exists u2, j; auto|]. rewrite !app_length. lia.
        + split; [left; exists (j - d); split; [lia|reflexivity]|]. rewrite app_length, !zeros_len. cbn [length]. lia.
      - destruct (scalar_zeros t [] (j - d)) as (z & r' & E & H); [lia|]. exists z, r'. split; [exact E|].
        destruct H as [(u2 & -> & L2)|(d2 & D2 & ->)].
        + destruct u2; [|cbn in L2; lia]. change ([] ++ zeros (j - d)) with (zeros (j - d)). split; [left; exists (j - d); split; [lia|reflexivity]|]. rewrite app_length, !zeros_len. cbn [length]. lia.
        + split; [left; exists (j - d - d2); split; [lia|reflexivity]|]. rewrite app_length, !zeros_len. cbn [length]. lia. }
    destruct (tag =? 1)%N.
    { rewrite run_bind. destruct (SC SBool) as (z & r' & -> & Pr & Lr); [cbn; lia|]. cbn [run]. auto. }
    destruct (tag =? 2)%N.
    { rewrite run_bind. destruct (SC I32) as (z & r' & -> & Pr & Lr); [cbn; lia|]. cbn [run]. auto. }
    destruct (tag =? 0)%N; exact I. }
  destruct (run read_info (s ++ zeros 6)) as [?|[]|q] eqn:R; try exact I; [exact G|].
  apply info_panics in R; [subst; exact I|]. unfold lenN in *. rewrite app_length, zeros_len. lia.
Qed.

Lemma calm_weaken {A} (Q R : panic -> Prop) (m : P A) : (forall q, Q q -> R q) -> calm Q m -> calm R m.
Proof. intros H C s p E. apply H, (C s p E). Qed.
Lemma patient_columns known tz i : patient (columns_of known tz i).
Proof.
  unfold columns_of. apply patient_bind; [apply patient_uvarint|intros nc]. apply patient_bind; [apply patient_uvarint|intros nr].
  apply patient_fold. intros b. apply patient_bind; [|intros c; apply patient_append].
  unfold read_column. repeat (apply patient_bind; [first [apply patient_string|unfold load_column; apply patient_data]|intros ?]). exact I.
Qed.
Section Packets.
Variable lz4_decompress : bytes -> N -> option bytes.
Variable tz_known : bytes -> bool.
Notation parse_packet := (parse_packet lz4_decompress tz_known).

Let F (p : panic) : Prop := p <> PFuel.
Lemma text_fuel q : text_panic q -> F q. Proof. intros [-> | ->]; discriminate. Qed.
Lemma message_fuel q : message_panic q -> F q. Proof. intros H ->. cbn in H. repeat (destruct H as [H|H]; [discriminate H|]). exact H. Qed.
Lemma tame_raw tz : tame (raw_load tz_known tz).
Proof.
  rewrite raw_load_eq. apply tame_bind; [exact tame_info|intros i]. apply tame_patient; [apply patient_columns|].
  apply (calm_weaken message_panic); [exact message_fuel|apply calm_columns].
Qed.
Ltac plain := apply tame_patient;
  [repeat (first [apply patient_uvarint|apply patient_string|progress PatientProofs.calm])
  |repeat (first [apply calm_varint; discriminate|apply calm_string; discriminate|apply calm_scalar|apply calm_ret|apply calm_fail
     |apply calm_bool|apply calm_bind; [|intros ?]|match goal with |- calm _ (if ?b then _ else _) => destruct b end])].
Lemma tame_packet i : ti_compress i = false -> tame (parse_packet i).
Proof.
  intros C. unfold Packets.parse_packet. apply tame_bind; [plain|intros k].
  destruct (k =? 0)%N; [unfold parse_server_info; plain|]. destruct (k =? 4)%N; [plain|].
  destruct (k =? 3)%N; [unfold parse_progress; plain|]. destruct (k =? 6)%N; [unfold parse_profile_info, read_bool; plain|].
  destruct (k =? 11)%N; [unfold parse_table_columns; plain|]. destruct (k =? 2)%N; [unfold parse_exception; plain|].
  destruct (_ || _); [|destruct (k =? 5)%N; plain].
  unfold parse_block. destruct (ti_timezone i) as [tz|]; [|plain].
  apply tame_bind.
  - apply tame_patient; [|apply calm_skip; discriminate]. unfold skip_string. apply patient_bind; [apply patient_uvarint|intros n]. PatientProofs.calm.
  - intros _. unfold load_block. rewrite C. apply tame_bind; [apply tame_raw|intros b]. plain.
Qed.

(** C117. Without compression, whatever bytes have come: if the client waits for more of a message, there are bytes that end the
    wait, in a message, an error or a panic. *)
Theorem c117_waits_partial : forall i s, ti_compress i = false -> (lenN s < 2 ^ 63)%N ->
  run (parse_packet i) s = Err EWouldBlock -> exists t, t <> [] /\ ended (run (parse_packet i) (s ++ t)).
Proof.
  intros i s C L W. destruct (tame_packet i C s L) as (m & E). exists (zeros m). split; [|exact E].
  intros Z. rewrite Z, app_nil_r, W in E. exact E.
Qed.
End Packets.

(** With compression a frame that carries no data is waited for for ever, whatever follows it. *)
Lemma varint_small b r : (b <? 128)%N = true -> Z.to_N (unmarshal U8 [b]) = b -> run read_uvarint (b :: r) = Ok (b, r).
Proof.
  intros H E. unfold read_uvarint. cbn [read_uvarint_loop]. rewrite run_bind, u8_is, E, H.
  change (9 <? 0)%N with false. change (0 =? 9)%N with false. cbn [orb andb]. unfold shl64. change (0 <? 64)%N with true. cbn [lift pbind run].
  rewrite N.shiftl_0_r, N.lor_0_l, N.mod_small; [reflexivity|]. apply N.ltb_lt in H. lia.
Qed.
Definition asks {A} (p : P A) : Prop := exists n k, p = Get n k /\ n <> 0%N.
Lemma asks_bind {A B} (p : P A) (f : A -> P B) : asks p -> asks (pbind p f).
Proof. intros (n & k & -> & H). do 2 eexists. split; [reflexivity|exact H]. Qed.
Lemma raw_gets known tz : asks (raw_load known tz).
Proof.
  rewrite raw_load_eq. apply asks_bind. unfold read_info, ploop. apply asks_bind. generalize loop_bound as p.
  assert (B : forall st, asks (info_step st)).
  { intros st. unfold info_step. apply asks_bind. unfold read_uvarint. cbn [read_uvarint_loop]. apply asks_bind.
    unfold read_u8. apply asks_bind. do 2 eexists. split; [reflexivity|discriminate]. }
  intros p. revert p. generalize info_default as st. intros st p. revert st. induction p as [p IH|p IH|]; intros st; cbn [iter_pos]; auto using asks_bind.
Qed.
Theorem c117_empty_frame_refuted :
  exists s, forall known tz rev t, run (parse_packet lz4_decode known (mk_tinfo (Some tz) rev true)) (s ++ t) = Err EWouldBlock.
Proof.
  destruct c11_empty_frame_refuted as (f & _ & H). exists (1 :: 0 :: f)%N. intros known tz rev t.
  unfold parse_packet. rewrite run_bind. cbn [app]. rewrite (varint_small 1) by reflexivity. cbn iota.
  change (1 =? 0)%N with false. change (1 =? 4)%N with false. change (1 =? 3)%N with false. change (1 =? 6)%N with false.
  change (1 =? 11)%N with false. change (1 =? 2)%N with false. change (1 =? 1)%N with true. cbn [orb].
  unfold parse_block. cbn [ti_timezone ti_compress]. rewrite run_bind. unfold skip_string. rewrite run_bind, (varint_small 0) by reflexivity.
  change (0 <=? max_stack_buffer_len)%N with true. cbn iota. cbn [run]. rewrite (proj2 (N.leb_le _ _)) by lia. cbn [N.to_nat firstn skipn run].
  rewrite run_bind. unfold load_block. destruct (raw_gets known tz) as (n & k & E & Hn). rewrite E. change (skipn (N.to_nat 0) (f ++ t)) with (f ++ t). rewrite (H _ n k t Hn). reflexivity.
Qed.

(** A message of which the first byte is there is waited for; so is the header of a block after any number of tags. *)
Example c117_case : forall known rev,
  let i := mk_tinfo (Some (str "UTC")) rev false in
  run (parse_packet lz4_decode known i) [1; 0; 1; 0; 2; 7]%N = Err EWouldBlock /\
  ended (run (parse_packet lz4_decode known i) ([1; 0; 1; 0; 2; 7]%N ++ zeros 6)) /\
  run (parse_packet lz4_decode known i) [3; 200]%N = Err EWouldBlock.
Proof.
  intros known rev i. repeat split; unfold parse_packet, i; rewrite ?run_bind; vm_compute; try reflexivity; exact I.
Qed.

Print Assumptions c117_waits_partial.
Print Assumptions c117_empty_frame_refuted.
