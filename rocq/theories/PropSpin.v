(** C83: sending comes to an end, whatever the socket does. *)
From Coq Require Import String.
From Verif Require Import Base Bytes Types Values Columns Text Block Packets Transport PropClient.
Open Scope list_scope.
Open Scope nat_scope.

(** A socket for ever: what its i-th [poll_write] does. The first [n] of them from [i] on. *)
Definition socket := nat -> wr_event.
Fixpoint ahead (s : socket) (i n : nat) : list wr_event :=
  match n with O => [] | S m => s i :: ahead s (S i) m end.

(** [poll_write] is given up as not ready at [i]. *)
Definition not_ready (s : socket) (i : nat) : Prop := s i = WPending.

(** [send] comes back to its caller after [n] writes at most: with a result, or because the
    socket is not ready at the last of them. Using up all [n] otherwise means it is still at it. *)
Definition comes_back lz4 show (s : socket) (t : transport) (n : nat) : Prop :=
  match send lz4 show (ahead s 0 n) t with
  | (PReady _, _, _, _) => True
  | (PPending, _, rest, _) => exists i, i < n /\ rest = ahead s (S i) (n - S i) /\ not_ready s i
  end.

(** The socket does not go on for ever accepting nothing. *)
Definition not_stuck (s : socket) : Prop := forall i, exists j, i <= j /\ s j <> WAccept 0.

Section Spin.
Variable lz4_compress : bytes -> bytes.
Variable show_float : Z -> bytes.
Notation send := (send lz4_compress show_float).

(** The same from the i-th write on. *)
Definition back (s : socket) (i : nat) (t : transport) (n : nat) : Prop :=
  match send (ahead s i n) t with
  | (PReady _, _, _, _) => True
  | (PPending, _, rest, _) => exists d, d < n /\ rest = ahead s (S (i + d)) (n - S d) /\ not_ready s (i + d)
  end.

(** A write of the buffer [wr] at [i], with the commands [cs] to follow. *)
Definition flushed (s : socket) (i : nat) (t : transport) (n : nat) : Prop :=
  match s i with
  | WAccept m => back s (S i) (set_out t (skipn m (t_wr t)) (t_cmds t)) n
  | _ => True
  end.
Lemma back_write s i t n : t_wr t <> [] -> flushed s i t n -> back s i t (S n).
Proof.
  unfold flushed, back. intros W H. cbn [ahead Transport.send]. destruct (t_wr t) as [|x w] eqn:Ew; [congruence|].
  destruct (s i) as [m| |] eqn:Es.
  - destruct (send (ahead s (S i) n) _) as [[[r t'] rest] out]. destruct r; [exact I|].
    destruct H as (d & H1 & H2 & H3). exists (S d). rewrite !Nat.add_succ_r. cbn [Nat.sub]. split; [lia|]. split; [exact H2|exact H3].
  - exists 0. rewrite Nat.add_0_r. cbn [Nat.sub]. rewrite Nat.sub_0_r. split; [lia|]. split; [reflexivity|exact Es].
  - exact I.
Qed.
Lemma back_command s i t n c cs bs : t_wr t = [] -> t_cmds t = c :: cs ->
  encode_command lz4_compress show_float c = Ok bs -> flushed s i (set_out t bs cs) n -> back s i t (S n).
Proof.
  unfold flushed, back. intros W C E H. cbn [ahead Transport.send]. rewrite W, C, E.
  destruct (s i) as [m| |] eqn:Es.
  - destruct (send (ahead s (S i) n) _) as [[[r t'] rest] out]. destruct r; [exact I|].
    destruct H as (d & H1 & H2 & H3). exists (S d). rewrite !Nat.add_succ_r. cbn [Nat.sub]. split; [lia|]. split; [exact H2|exact H3].
  - exists 0. rewrite Nat.add_0_r. cbn [Nat.sub]. rewrite Nat.sub_0_r. split; [lia|]. split; [reflexivity|exact Es].
  - exact I.
Qed.
Lemma set_out_same t : set_out t (t_wr t) (t_cmds t) = t.
Proof. destruct t; reflexivity. Qed.

(** While the socket accepts nothing the loop goes on; then some of the buffer goes. *)
Lemma back_waits s k : forall gap i t, t_wr t <> [] -> s (i + gap) <> WAccept 0 ->
  (forall i' m, m <> 0 -> exists n, back s i' (set_out t (skipn m (t_wr t)) (t_cmds t)) (k + n)) ->
  exists n, back s i t (k + n).
Proof.
  induction gap as [|gap IH]; intros i t W N H.
  - rewrite Nat.add_0_r in N. destruct (s i) as [[|m]| |] eqn:Es; [congruence| | |].
    + destruct (H (S i) (S m)) as (n & Hn); [lia|]. exists (S n). rewrite Nat.add_succ_r. apply back_write; [exact W|].
      unfold flushed. rewrite Es. exact Hn.
    + exists 1. rewrite Nat.add_1_r. apply back_write; [exact W|]. unfold flushed. rewrite Es. exact I.
    + exists 1. rewrite Nat.add_1_r. apply back_write; [exact W|]. unfold flushed. rewrite Es. exact I.
  - destruct (s i) as [[|m]| |] eqn:Es.
    + destruct (IH (S i) t) as (n & Hn); [exact W|rewrite Nat.add_succ_comm; exact N|exact H|].
      exists (S n). rewrite Nat.add_succ_r. apply back_write; [exact W|]. unfold flushed. rewrite Es. cbn [skipn]. rewrite set_out_same. exact Hn.
    + destruct (H (S i) (S m)) as (n & Hn); [lia|]. exists (S n). rewrite Nat.add_succ_r. apply back_write; [exact W|].
      unfold flushed. rewrite Es. exact Hn.
    + exists 1. rewrite Nat.add_1_r. apply back_write; [exact W|]. unfold flushed. rewrite Es. exact I.
    + exists 1. rewrite Nat.add_1_r. apply back_write; [exact W|]. unfold flushed. rewrite Es. exact I.
Qed.

Lemma back_all s : not_stuck s -> forall cs len t i, t_cmds t = cs -> length (t_wr t) <= len -> exists n, back s i t n.
Proof.
  intros N. induction cs as [|c cs IHc].
  - induction len as [|len IHl]; intros t i C L.
    + exists 0. unfold back. cbn [ahead Transport.send]. destruct (t_wr t); [rewrite C; exact I|cbn [length] in L; lia].
    + destruct (t_wr t) as [|x w] eqn:W.
      * exists 0. unfold back. cbn [ahead Transport.send]. rewrite W, C. exact I.
      * destruct (N i) as (j & Hj & Nj). replace j with (i + (j - i)) in Nj by lia.
        apply (back_waits s 0 (j - i) i t); [congruence|exact Nj|].
        intros i' m Hm. apply IHl; [exact C|]. cbn [set_out t_wr]. rewrite skipn_length, W. cbn [length] in *. lia.
  - induction len as [|len IHl]; intros t i C L.
    + destruct (t_wr t) eqn:W; [|cbn [length] in L; lia].
      destruct (encode_command lz4_compress show_float c) as [bs|e|p] eqn:E;
        [|exists 0; unfold back; cbn [ahead Transport.send]; rewrite W, C, E; exact I..].
      destruct (s i) as [m| |] eqn:Es;
        [|exists 1; eapply back_command; eauto; unfold flushed; rewrite Es; exact I..].
      destruct (IHc (length (skipn m bs)) (set_out t (skipn m bs) cs) (S i)) as (n & Hn); [reflexivity|cbn [set_out t_wr]; lia|].
      exists (S n). eapply back_command; eauto. unfold flushed. rewrite Es. exact Hn.
    + destruct (t_wr t) as [|x w] eqn:W; [apply IHl; [exact C|rewrite W; cbn [length]; lia]|].
      destruct (N i) as (j & Hj & Nj). replace j with (i + (j - i)) in Nj by lia.
      apply (back_waits s 0 (j - i) i t); [congruence|exact Nj|].
      intros i' m Hm. apply IHl; [exact C|]. cbn [set_out t_wr]. rewrite skipn_length, W. cbn [length] in *. lia.
Qed.

(** Sending comes back if the socket does not accept nothing for ever. Missing for the full
    property: [c83_refuted]. *)
Theorem c83_comes_back_partial s t : not_stuck s -> exists n, comes_back lz4_compress show_float s t n.
Proof.
  intros N. destruct (back_all s N (t_cmds t) (length (t_wr t)) t 0) as (n & H); [reflexivity|lia|].
  exists n. exact H.
Qed.

Lemma spins s : (forall i, s i = WAccept 0) -> forall n i t, t_wr t <> [] ->
  send (ahead s i n) t = (PPending, t, [], []).
Proof.
  intros Z. induction n as [|n IH]; intros i t W; cbn [ahead Transport.send].
  - destruct (t_wr t); [congruence|reflexivity].
  - destruct (t_wr t) as [|x w] eqn:Ew; [congruence|]. rewrite Z. cbn [skipn firstn app].
    rewrite <- Ew, set_out_same, IH by congruence. reflexivity.
Qed.

(** A socket that accepts nothing any more, as one does whose other end is shut, keeps [send] in
    its loop: no number of writes brings it back, nothing is sent and no error is reported. *)
Theorem c83_refuted s t : (forall i, s i = WAccept 0) -> t_wr t <> [] ->
  forall n, ~ comes_back lz4_compress show_float s t n /\ send (ahead s 0 n) t = (PPending, t, [], []).
Proof.
  intros Z W n. split; [|apply spins; assumption]. unfold comes_back. rewrite spins by assumption.
  intros (i & _ & _ & P). unfold not_ready in P. rewrite Z in P. discriminate P.
Qed.
End Spin.

Print Assumptions c83_comes_back_partial.
Print Assumptions c83_refuted.

(** A socket that takes two bytes at every third write, and a transport in the middle of one
    command with another queued; one that has stopped accepting. *)
Definition ex_slow : socket := fun i => if i mod 3 =? 2 then WAccept 2 else WAccept 0.
Definition ex_writing : transport := set_out (transport_new false) [1; 2; 3]%N [CmdPing].
Example c83_case :
  not_stuck ex_slow /\ comes_back ex_lz4 ex_show ex_slow ex_writing 20 /\
  ~ comes_back ex_lz4 ex_show (fun _ => WAccept 0) ex_writing 20.
Proof.
  split; [|split].
  - intros i. exists (3 * i + 2). split; [lia|]. unfold ex_slow.
    replace ((3 * i + 2) mod 3) with 2; [discriminate|].
    rewrite Nat.add_comm, Nat.mul_comm, Nat.mod_add by lia. reflexivity.
  - vm_compute. exact I.
  - apply c83_refuted; [reflexivity|discriminate].
Qed.
