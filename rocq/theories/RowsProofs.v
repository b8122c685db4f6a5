(** Proofs about rows. *)
From Verif Require Import Base Bytes Types Values Columns Block FromSql Packets Client SpecClient Rows SpecRows.
Open Scope list_scope. Open Scope nat_scope.

Lemma iterates_from b n : row_count b = Ok n -> forall d i, i + d = n ->
  iterates (mk_rows i b) (map (fun j => mk_row j b) (seq i d)).
Proof.
  intros R. induction d as [|d IH]; intros i H; cbn [seq map].
  - assert (rows_next (mk_rows i b) = Ok (None, mk_rows i b)) as E.
    { unfold rows_next. cbn [ws_block ws_row]. rewrite R. cbn [rbind]. destruct (Nat.leb_spec n i); [reflexivity|lia]. }
    exact (it_end _ _ E E).
  - apply (it_more _ (mk_rows (S i) b)); [|apply IH; lia].
    unfold rows_next. cbn [ws_block ws_row]. rewrite R. cbn [rbind]. destruct (Nat.leb_spec n i); [lia|reflexivity].
Qed.

Lemma iterates_one s l : iterates s l -> forall l', iterates s l' -> l = l'.
Proof.
  induction 1 as [s s' E E'|s s' r rs E _ IH]; intros l' H'; inversion H' as [? ? F F'|? ? ? ? F G]; subst.
  - reflexivity.
  - rewrite E in F. discriminate F.
  - rewrite E in F. discriminate F.
  - rewrite E in F. injection F as <- <-. f_equal. apply IH, G.
Qed.

Section Drive.
Variable lz4_compress : bytes -> bytes.
Variable show_float : Z -> bytes.
Variable server : nat -> list cmd -> reply.
Notation poll_rows := (poll_rows lz4_compress show_float server).
Notation drive_rows := (drive_rows lz4_compress show_float server).
Notation drive_blocks := (drive_blocks lz4_compress show_float server).
Notation poll_stream := (poll_stream lz4_compress show_float server).

(** The end of the poll that is under way, and then [m] more. *)
Definition finish (f F m : nat) (s : rstream) (k : client) : list (res row) * option row_streamed * rstream * client :=
  match poll_rows f s k with
  | (WItem r, s', k') => let '(l, e, s2, k2) := drive_rows F m s' k' in (r :: l, e, s2, k2)
  | (WWait, s', k') => drive_rows F m (mk_rstream (arrive_stream (t_blocks s')) (t_inner s')) k'
  | (x, s', k') => ([], Some x, s', k')
  end.
Lemma drive_rows_S F m s k : drive_rows F (S m) s k = finish F F m s k.
Proof. reflexivity. Qed.

Lemma drive_rest b n s k : row_count b = Ok n -> forall d i F m, i + d = n ->
  drive_rows (S F) (d + S m) (mk_rstream s (IRows (mk_rows i b))) k =
  let '(l, e, s2, k2) := finish F (S F) m (mk_rstream s INone) k in
  (map Ok (map (fun j => mk_row j b) (seq i d)) ++ l, e, s2, k2).
Proof.
  intros R. induction d as [|d IH]; intros i F m H.
  - cbn [Nat.add seq map app]. rewrite drive_rows_S. unfold finish at 1. cbn [Rows.poll_rows t_inner].
    unfold rows_next. cbn [ws_block ws_row]. rewrite R. cbn [rbind]. destruct (Nat.leb_spec n i); [|lia].
    cbn [t_blocks]. fold (finish F (S F) m (mk_rstream s INone) k). destruct (finish F (S F) m (mk_rstream s INone) k) as [[[l e] s2] k2]. reflexivity.
  - cbn [Nat.add]. rewrite drive_rows_S. unfold finish at 1. cbn [Rows.poll_rows t_inner].
    unfold rows_next. cbn [ws_block ws_row]. rewrite R. cbn [rbind]. destruct (Nat.leb_spec n i); [lia|].
    cbn [t_blocks]. rewrite (IH (S i)) by lia. destruct (finish F (S F) m (mk_rstream s INone) k) as [[[l e] s2] k2]. reflexivity.
Qed.

Definition counted (r : res block) : Prop :=
  match r with Ok b => exists n, row_count b = Ok n | Err _ => True | Panic _ => False end.

Lemma rows_length b n : row_count b = Ok n -> length (rows_of_item (Ok b)) = n.
Proof. intros R. cbn [rows_of_item]. unfold rows_upto, count. rewrite R, !map_length, seq_length. reflexivity. Qed.

Lemma drive_flat n : forall s k l e s2 k2, drive_blocks n s k = (l, Some e, s2, k2) -> Forall counted l ->
  forall f F m, 2 * n + 1 <= f -> 2 * n + 2 <= F -> length (rows_of l) + n <= m ->
  finish f F m (mk_rstream s INone) k = (rows_of l, Some (row_end e), mk_rstream s2 INone, k2).
Proof.
  induction n as [|n IH]; intros s k l e s2 k2 D C f F m Hf HF Hm; [discriminate D|].
  cbn [SpecClient.drive_blocks] in D. destruct f as [|f]; [lia|]. destruct F as [|F]; [lia|].
  destruct (poll_stream s k) as [[g s1] k1] eqn:P. destruct g as [r| | |p].
  - destruct (drive_blocks n s1 k1) as [[[l' e'] s'] k'] eqn:D'. injection D as <- -> -> ->.
    apply Forall_cons_iff in C. destruct C as [C C']. destruct r as [b|x|x]; [| |contradiction C].
    + destruct C as [c R]. cbn [rows_of flat_map] in Hm. rewrite app_length in Hm. rewrite (rows_length b c R) in Hm.
      fold (rows_of l') in Hm. unfold finish. cbn [Rows.poll_rows t_inner t_blocks]. rewrite P.
      destruct f as [|f]; [lia|]. cbn [Rows.poll_rows t_inner t_blocks]. unfold rows_next at 1, block_rows. cbn [ws_block ws_row].
      rewrite R. cbn [rbind]. cbn [rows_of flat_map rows_of_item]. unfold rows_upto, count. rewrite R. fold (rows_of l').
      destruct c as [|c]; cbn [Nat.leb].
      * cbn [seq map app]. fold (finish f (S F) m (mk_rstream s1 INone) k1). apply (IH s1 k1); auto; lia.
      * replace m with (c + S (m - c - 1)) by lia. rewrite (drive_rest b (S c) s1 k1 R c 1) by lia.
        rewrite (IH s1 k1 l' e s2 k2 D' C') by lia. reflexivity.
    + cbn [rows_of flat_map rows_of_item app length] in Hm. fold (rows_of l') in Hm.
      unfold finish. cbn [Rows.poll_rows t_inner t_blocks]. rewrite P.
      destruct f as [|f]; [lia|]. cbn [Rows.poll_rows t_inner t_blocks].
      destruct m as [|m]; [lia|]. rewrite drive_rows_S. unfold finish at 1. cbn [Rows.poll_rows t_inner t_blocks].
      fold (finish F (S F) m (mk_rstream s1 INone) k1). rewrite (IH s1 k1 l' e s2 k2 D' C') by lia. reflexivity.
  - injection D as <- <- <- <-. unfold finish. cbn [Rows.poll_rows t_inner t_blocks]. rewrite P. reflexivity.
  - unfold finish. cbn [Rows.poll_rows t_inner t_blocks]. rewrite P. cbn [t_blocks t_inner].
    destruct m as [|m]; [lia|]. rewrite drive_rows_S. apply (IH (arrive_stream s1) k1); auto; lia.
  - injection D as <- <- <- <-. unfold finish. cbn [Rows.poll_rows t_inner t_blocks]. rewrite P. reflexivity.
Qed.
End Drive.
