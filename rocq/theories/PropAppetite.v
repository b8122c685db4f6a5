(** C118: how many bytes the client waits for in one piece. *)
From Coq Require Import String Lia.
From Verif Require Import Base Bytes Utf8 Reader ReaderProofs Wire WireProofs Types Text TypeNames Values Columns Casts Block Compress Packets
  CompressProofs SureProofs PatientProofs SpecCompress SpecAppetite PropPatience.
Open Scope list_scope. Open Scope nat_scope.

Lemma wants_bind {A B} (p : P A) (f : A -> P B) : forall s a r, run p s = Ok (a, r) -> wants (pbind p f) s = wants (f a) r.
Proof.
  induction p as [c|e|q|n k IH]; intros s a r H; cbn [run pbind wants] in *; try discriminate H.
  - injection H as -> ->. reflexivity.
  - destruct (n <=? lenN s)%N; [|discriminate H]. apply IH, H.
Qed.
Lemma wants_waits {A} (p : P A) : forall s n, wants p s = Some n -> run p s = Err EWouldBlock.
Proof.
  induction p as [c|e|q|n k IH]; intros s m H; cbn [run wants] in *; try discriminate H.
  destruct (n <=? lenN s)%N; [exact (IH _ _ _ H)|reflexivity].
Qed.
Lemma waits_wants {A} (p : P A) : patient p -> forall s, run p s = Err EWouldBlock -> exists n, wants p s = Some n.
Proof.
  induction p as [c|e|q|n k IH]; intros Hp s H; cbn [run wants patient] in *; try discriminate H.
  - injection H as ->. congruence.
  - destruct (n <=? lenN s)%N; [exact (IH _ (Hp _) _ H)|eauto].
Qed.

(** Every piece is of at most [b] bytes. *)
Fixpoint modest (b : N) {A} (p : P A) : Prop :=
  match p with Get n k => (n <= b)%N /\ forall l, modest b (k l) | _ => True end.
Lemma modest_wants {A} b (p : P A) : modest b p -> forall s n, wants p s = Some n -> (n <= b)%N.
Proof.
  induction p as [c|e|q|n k IH]; intros M s m H; cbn [wants modest] in *; try discriminate H.
  destruct M as (L & M). destruct (n <=? lenN s)%N; [exact (IH _ (M _) _ _ H)|]. injection H as <-. exact L.
Qed.
Section Modest.
Variable b : N.
Lemma modest_bind {A B} (p : P A) (f : A -> P B) : modest b p -> (forall a, modest b (f a)) -> modest b (pbind p f).
Proof. intros Hp Hf. induction p as [| | |n k IH]; cbn in *; auto. destruct Hp as (L & Hp). split; [exact L|auto]. Qed.
Lemma modest_iter {S A} (body : S -> P (S + A)) : (forall s, modest b (body s)) -> forall p s, modest b (iter_pos body p s).
Proof.
  intros H. induction p as [p IH|p IH|]; intros s; cbn [iter_pos]; auto.
  - apply modest_bind; [apply H|intros [s1|a]; [|exact I]]. apply modest_bind; [apply IH|intros [s2|a]; [apply IH|exact I]].
  - apply modest_bind; [apply IH|intros [s2|a]; [apply IH|exact I]].
Qed.
Lemma modest_loop {S A} (body : S -> P (S + A)) s : (forall s, modest b (body s)) -> modest b (ploop body s).
Proof. intros H. unfold ploop. apply modest_bind; [apply modest_iter, H|intros [s'|a]; exact I]. Qed.
Lemma modest_repeat {A} n (p : P A) : (n <> 0%N -> modest b p) -> modest b (prepeatN n p).
Proof.
  intros H. destruct n as [|q]; [exact I|]. cbn [prepeatN]. assert (M : modest b p) by (apply H; discriminate). clear H.
  induction q as [q IH|q IH|]; cbn [prepeat_pos]; repeat (apply modest_bind; [assumption|intros ?]); exact I.
Qed.
Lemma modest_fold {S} n (f : S -> P S) s : (forall s, modest b (f s)) -> modest b (pfoldN n f s).
Proof.
  intros H. destruct n as [|q]; [exact I|]. cbn [pfoldN]. revert s. induction q as [q IH|q IH|]; intros s; cbn [pfold_pos];
    repeat (apply modest_bind; [first [apply H|apply IH]|intros ?]); first [exact I|apply IH|apply H].
Qed.
Lemma modest_lift {A} (r : res A) : modest b (lift r).
Proof. destruct r; exact I. Qed.
Lemma modest_scalar t : (N.of_nat (width t) <= b)%N -> modest b (read_scalar t).
Proof. intros H. split; [exact H|intros; exact I]. Qed.
Lemma modest_alloc {A} n (f : unit -> P A) : ((n <= isize_max)%N -> modest b (f tt)) -> modest b (pbind (alloc n) f).
Proof. intros H. unfold alloc. destruct (N.leb_spec n isize_max) as [L|L]; [exact (H L)|exact I]. Qed.
Lemma modest_mul {A} x y (f : N -> P A) : modest b (f (x * y)%N) -> modest b (pbind (mul_usize x y) f).
Proof. intros H. unfold mul_usize. destruct (_ <? _)%N; [exact H|exact I]. Qed.
Lemma modest_via {A} (p : P A) : modest b p -> modest b (via_io p).
Proof. induction p as [c|e|q|n k IH]; cbn; auto; [destruct e; intros _; exact I|]. intros (L & M). split; [exact L|auto]. Qed.
End Modest.
Lemma width_small t : (N.of_nat (width t) <= gigabyte)%N.
Proof. destruct t; discriminate. Qed.

(** Through the frames of a compressed stream. *)
Section Lz4.
Variable lz4_decompress : bytes -> N -> option bytes.
Lemma modest_frame : modest gigabyte (read_frame lz4_decompress).
Proof.
  unfold read_frame. apply modest_bind; [apply modest_scalar, width_small|intros lo]. apply modest_bind; [apply modest_scalar, width_small|intros hi].
  apply modest_bind; [apply modest_scalar, width_small|intros me]. destruct (negb _); [exact I|].
  apply modest_bind; [apply modest_scalar, width_small|intros c]. apply modest_bind; [apply modest_scalar, width_small|intros o].
  cbv zeta. destruct (N.ltb_spec max_compressed (Z.to_N c)) as [H|H]; [exact I|]. cbn [modest]. split.
  - unfold max_compressed in H. change gigabyte with 1073741824%N. lia.
  - intros body. destruct (negb _); [exact I|]. destruct (_ <? 9)%N; [exact I|]. destruct (_ <=? _)%N; [exact I|].
    destruct (lz4_decompress _ _); exact I.
Qed.
Lemma modest_through {A} (p : P A) : forall cur, modest gigabyte (through lz4_decompress p cur).
Proof.
  induction p as [c|e|q|n k IH]; intros cur; cbn [through]; [exact I|exact I|exact I|]. apply modest_bind; [|intros s; apply IH].
  unfold gather. apply modest_loop. intros [acc c]. unfold gather_step. destruct (_ <=? _)%N; [exact I|].
  apply modest_bind; [destruct c; [apply modest_via, modest_frame|exact I]|intros [|x c']; exact I].
Qed.

(** Without them. *)
Variable tz_known : bytes -> bool.
Notation big := largest_buffer.
Lemma max_is : isize_max = big. Proof. reflexivity. Qed.
Lemma modest_weaken {A} b b' (p : P A) : (b <= b')%N -> modest b p -> modest b' p.
Proof. intros H. induction p as [| | |n k IH]; cbn; auto. intros (L & M). split; [lia|auto]. Qed.
Lemma m_scalar t : modest big (read_scalar t).
Proof. apply modest_scalar. eapply N.le_trans; [apply width_small|discriminate]. Qed.
Local Transparent read_u8.
Lemma m_varint : modest big read_uvarint.
Proof.
  unfold read_uvarint. generalize 12 as fuel. intros fuel. generalize 0%N at 1 as x. generalize 0%N at 1 as s. generalize 0%N as i.
  induction fuel as [|fuel IH]; intros i s x; cbn [read_uvarint_loop]; [exact I|].
  apply modest_bind; [unfold read_u8; apply modest_bind; [apply m_scalar|intros ?; exact I]|intros c].
  destruct (_ <? 128)%N; [destruct (_ || _); [exact I|]|]; (apply modest_bind; [apply modest_lift|intros ?]); [exact I|apply IH].
Qed.
Lemma m_string : modest big read_string.
Proof.
  unfold read_string. apply modest_bind; [apply m_varint|intros n]. apply modest_alloc. intros L. split; [rewrite <- max_is; exact L|].
  intros l. destruct (utf8_valid l); exact I.
Qed.
Lemma m_skip : modest big skip_string.
Proof.
  unfold skip_string. apply modest_bind; [apply m_varint|intros n]. destruct (N.leb_spec n max_stack_buffer_len) as [H|H].
  - split; [|intros; exact I]. eapply N.le_trans; [exact H|discriminate].
  - apply modest_alloc. intros L. split; [rewrite <- max_is; exact L|intros; exact I].
Qed.
Lemma m_vec t n : modest big (read_vec t n).
Proof. unfold read_vec. cbv zeta. apply modest_alloc. intros L. split; [rewrite <- max_is; exact L|intros; exact I]. Qed.
Lemma m_strings n : modest big (read_strings n).
Proof.
  unfold read_strings. apply modest_alloc. intros _. apply modest_repeat. intros _. apply modest_bind; [apply m_varint|intros k].
  apply modest_mul, modest_alloc. intros L. split; [rewrite <- max_is; lia|intros; exact I].
Qed.
Lemma m_offsets n : modest big (read_offsets n).
Proof. unfold read_offsets. apply modest_bind; [apply m_vec|intros l]. exact I. Qed.
Lemma m_u64 : modest big read_u64.
Proof. unfold read_u64. apply modest_bind; [apply m_scalar|intros ?; exact I]. Qed.
Ltac modest := repeat
  match goal with
  | |- modest _ (Ret _) => exact I
  | |- modest _ (Crash _) => exact I
  | |- modest _ (Fail _) => exact I
  | |- modest _ read_u64 => apply m_u64
  | |- modest _ read_uvarint => apply m_varint
  | |- modest _ read_string => apply m_string
  | |- modest _ skip_string => apply m_skip
  | |- modest _ (read_scalar _) => apply m_scalar
  | |- modest _ (read_vec _ _) => apply m_vec
  | |- modest _ (read_strings _) => apply m_strings
  | |- modest _ (read_offsets _) => apply m_offsets
  | |- modest _ (lift _) => apply modest_lift
  | |- modest _ (pbind (alloc _) _) => apply modest_alloc; intros ?
  | |- modest _ (pbind (mul_usize _ _) _) => apply modest_mul
  | |- modest _ (pbind _ _) => apply modest_bind; [|intros ?]
  | |- modest _ (Get _ _) => split; [rewrite <- max_is; assumption|intros ?]
  | |- modest _ (if ?c then _ else _) => destruct c
  | |- modest _ (match ?x with _ => _ end) => destruct x
  end.
Lemma m_low load n : (forall m, modest big (load m)) -> modest big (load_low load n).
Proof. intros H. unfold load_low. modest; apply H. Qed.
Lemma m_data fuel : forall name size tz, modest big (load_data tz_known fuel name size tz).
Proof.
  induction fuel as [|fuel IH]; intros name size tz; [exact I|]. cbn [load_data].
  apply modest_bind; [apply modest_lift|intros [k|]; [|exact I]].
  destruct k; repeat (first [apply IH|apply m_low; intros m; apply IH|unfold get_timezone; progress modest]).
  apply modest_repeat; intros Z; split; [|intros; exact I].
  rewrite <- max_is. apply N.le_trans with (2 := H). nia.
Qed.
Lemma m_raw tz : modest big (raw_load tz_known tz).
Proof.
  unfold raw_load. apply modest_bind; [|intros i; modest].
  - unfold read_info. apply modest_loop. intros s. unfold info_step. modest.
  - apply modest_fold. intros bl. unfold read_column, load_column. modest. apply m_data.
Qed.

Notation parse_packet := (parse_packet lz4_decompress tz_known).
(** C118. A piece of a compressed block for which the client waits is of at most a gigabyte. *)
Theorem c118_frames : forall tz s n, wants (load_block lz4_decompress tz_known tz true) s = Some n -> (n <= gigabyte)%N.
Proof. intros tz s n. apply modest_wants, modest_through. Qed.

(** Of any other message it is of less than 2^63 bytes. *)
Theorem c118_limit_partial : forall i s n, wants (parse_packet i) s = Some n -> (n <= largest_buffer)%N.
Proof.
  intros i s n. apply modest_wants. unfold Packets.parse_packet, parse_server_info, parse_progress, parse_profile_info, parse_table_columns,
    parse_exception, parse_block, load_block, read_bool. modest.
  all: match goal with
       | |- modest _ (raw_load _ _) => apply m_raw
       | |- modest _ (through _ _ _) => apply (modest_weaken gigabyte); [discriminate|apply modest_through]
       end.
Qed.

(** That is all the waiting there is: it waits for a piece, of which it has less. *)
Theorem c118_waiting : forall s tz, run (raw_load tz_known tz) s = Err EWouldBlock <-> exists n, wants (raw_load tz_known tz) s = Some n.
Proof. intros s tz. split; [apply waits_wants, patient_load|intros (n & H); exact (wants_waits _ _ _ H)]. Qed.

(** Fifteen bytes make the client set up a buffer of any size and wait for it to be filled. *)
Theorem c118_texts_refuted : forall i n, (0 < n <= largest_buffer)%N ->
  exists s, (length s <= 15)%nat /\ wants (parse_packet i) s = Some n.
Proof.
  intros i n (H0 & H). destruct (enc_uvarint_ok n) as (l & _ & _ & _ & L & _ & R & _); [eapply N.le_lt_trans; [exact H|reflexivity]|].
  exists ([2; 0; 0; 0; 0]%N ++ l). split; [rewrite app_length; cbn [length]; lia|].
  unfold Packets.parse_packet. rewrite (wants_bind _ _ _ 2%N ([0; 0; 0; 0]%N ++ l)) by (apply varint_small; reflexivity).
  change (2 =? 0)%N with false. change (2 =? 4)%N with false. change (2 =? 3)%N with false. change (2 =? 6)%N with false.
  change (2 =? 11)%N with false. change (2 =? 2)%N with true. cbn iota. unfold parse_exception.
  rewrite (wants_bind _ _ _ 0%Z l).
  2: { unfold read_scalar. cbn [run]. rewrite (proj2 (N.leb_le _ _)) by (unfold lenN; rewrite app_length; cbn [width length]; lia). reflexivity. }
  specialize (R []). rewrite app_nil_r in R. 
  assert (S : wants read_string l = Some n).
  { unfold read_string. rewrite (wants_bind _ _ _ n []) by exact R. unfold alloc. rewrite (proj2 (N.leb_le _ _)) by exact H.
    cbn [pbind wants]. replace (n <=? lenN [])%N with false by (symmetry; apply N.leb_gt; exact H0). reflexivity. }
  clear R. revert S. generalize read_string at 1 2. intros p. 
  assert (W : forall B (f : bytes -> P B), wants p l = Some n -> wants (pbind p f) l = Some n).
  { intros B f. generalize l as s. induction p as [c|e|q|m k IH]; intros s E; cbn [wants pbind] in *; try discriminate E.
    destruct (m <=? lenN s)%N; [apply IH, E|exact E]. }
  apply W.
Qed.
End Lz4.

(** A name of a table of which two bytes have come; a frame whose header announces 4096 bytes. *)
Example c118_case : forall known rev c,
  wants (parse_packet lz4_decode known (mk_tinfo (Some (str "UTC")) rev c)) [1; 5; 116; 97]%N = Some 5%N.
Proof. intros known rev c. destruct c; unfold parse_packet; rewrite (wants_bind _ _ _ 1%N [5; 116; 97]%N) by reflexivity; vm_compute; reflexivity. Qed.
Example c118_frame_case : wants (read_frame lz4_decode) (repeat 0 16 ++ [130; 0; 16; 0; 0; 9; 0; 0; 0; 7])%N = Some 4087%N.
Proof. vm_compute. reflexivity. Qed.
Example c118_huge_case : forall known i, exists s, (length s <= 15)%nat /\ wants (parse_packet lz4_decode known i) s = Some (2 ^ 62)%N.
Proof. intros. apply c118_texts_refuted. split; [reflexivity|discriminate]. Qed.

Print Assumptions c118_frames.
Print Assumptions c118_limit_partial.
Print Assumptions c118_waiting.
Print Assumptions c118_texts_refuted.
