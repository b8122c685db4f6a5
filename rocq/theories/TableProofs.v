(** Lemmas about printed tables. *)
From Coq Require Import String Lia.
From Verif Require Import Base Bytes Utf8 Types Text Decimal DateTime Values Columns Block Print SpecNum SpecPrint.
Open Scope list_scope. Open Scope nat_scope.

Lemma chars_app a b : chars (a ++ b) = chars a + chars b.
Proof. unfold chars. rewrite filter_app, app_length. reflexivity. Qed.
Lemma chars_len s : chars s <= List.length s.
Proof. unfold chars. induction s as [|x s IH]; [reflexivity|]. cbn [filter]. destruct (negb _); cbn [List.length]; lia. Qed.
Lemma chars_spaces n : chars (repeat 32%N n) = n.
Proof. induction n as [|n IH]; [reflexivity|]. cbn [repeat]. change (chars (32%N :: repeat 32%N n)) with (S (chars (repeat 32%N n))). rewrite IH. reflexivity. Qed.
Lemma chars_dashes n : chars (List.concat (repeat dash n)) = n.
Proof. induction n as [|n IH]; [reflexivity|]. cbn [repeat List.concat]. rewrite chars_app, IH. reflexivity. Qed.

Lemma width_max cells t : In t cells -> List.length t <= column_width cells.
Proof.
  unfold column_width. induction cells as [|c cells IH]; intros H; [destruct H|]. cbn [map fold_right]. destruct H as [-> |H]; [lia|].
  specialize (IH H). lia.
Qed.
Definition total (lens : list nat) : nat := fold_right (fun n s => n + 3 + s) 1 lens.
Lemma print_cells_boxed lens : forall cells, Forall2 (fun n c => chars c <= n) lens cells ->
  boxed (map (fun n => n + 2) lens) cells (print_cells lens cells).
Proof.
  induction lens as [|n lens IH]; intros cells F; inversion F; subst; cbn [map print_cells]; [constructor|].
  unfold right_aligned. rewrite <- app_assoc. apply boxed_text; [apply IH; assumption|lia|match goal with |- context [characters ?t] => change (characters t) with (chars t) end; lia].
Qed.
Lemma boxed_chars ws ts line : boxed ws ts line -> chars line = fold_right (fun w s => w + 1 + s) 1 ws.
Proof.
  induction 1 as [|w ws t ts p line _ IH P E]; [reflexivity|]. rewrite !chars_app, chars_spaces, IH. change (characters t) with (chars t) in E. cbn [fold_right].
  change (chars stroke) with 1. change (chars [32%N]) with 1. lia.
Qed.
Lemma boxed_total lens : fold_right (fun w s => w + 1 + s) 1 (map (fun n => n + 2) lens) = total lens.
Proof. unfold total. induction lens as [|n lens IH]; [reflexivity|]. cbn [map fold_right]. lia. Qed.
Lemma boxed_lines ws ts line : boxed ws ts line -> Forall (fun t => ~ In line_feed t) ts -> ~ In line_feed line.
Proof.
  induction 1 as [|w ws t ts p line _ IH P E]; intros F; [unfold line_feed, stroke; cbn; intuition discriminate|].
  inversion_clear F as [|? ? T F']. rewrite !in_app_iff. intros [H|[H|[H|[H|H]]]].
  - unfold line_feed, stroke in H. cbn in H. intuition discriminate.
  - apply repeat_spec in H. discriminate H.
  - exact (T H).
  - cbn in H. destruct H as [H|[]]. discriminate H.
  - exact (IH F' H).
Qed.
(** A ruled line without its line feeds. *)
Definition rule_line (lens : list nat) (a b c : N) : bytes := print_line lens (corner a) (corner b) (corner c).
Lemma rule_chars lens a b c : lens <> [] -> is_cont a = true -> is_cont b = true -> is_cont c = true -> chars (rule_line lens a b c) = total lens.
Proof.
  intros NE A B C. assert (forall x, is_cont x = true -> chars (corner x) = 1) as K.
  { intros x X. unfold chars, corner. cbn [filter]. rewrite X. reflexivity. }
  unfold rule_line, print_line. rewrite !chars_app, (K a A), (K c C). unfold total.
  enough (1 + chars (concat_sep (corner b) (map (fun n => List.concat (repeat dash (n + 2))) lens)) = fold_right (fun n s => n + 3 + s) 0 lens) as G.
  { clear NE. assert (forall l, fold_right (fun n s => n + 3 + s) 1 l = fold_right (fun n s => n + 3 + s) 0 l + 1) as T.
    { induction l as [|m l IHl]; [reflexivity|]. cbn [fold_right]. lia. } rewrite T. lia. }
  clear a c A C. induction lens as [|n lens IH]; [congruence|]. destruct lens as [|m lens].
  - cbn [map concat_sep fold_right]. rewrite chars_dashes. lia.
  - cbn [map concat_sep]. cbn [map] in IH. rewrite !chars_app, chars_dashes, (K b B). cbn [fold_right] in *. specialize (IH ltac:(discriminate)).
    cbn [concat_sep] in IH. lia.
Qed.
Lemma rule_lines lens a b c : a <> line_feed -> b <> line_feed -> c <> line_feed -> ~ In line_feed (rule_line lens a b c).
Proof.
  intros A B C. assert (forall x, x <> line_feed -> ~ In line_feed (corner x)) as K.
  { intros x X. unfold corner. cbn. unfold line_feed in *. intuition congruence. }
  assert (forall n, ~ In line_feed (List.concat (repeat dash n))) as D.
  { induction n as [|n IH]; [intros []|]. cbn [repeat List.concat]. rewrite in_app_iff. intros [H|H]; [|exact (IH H)]. unfold dash, line_feed in H. cbn in H. intuition discriminate. }
  unfold rule_line, print_line. rewrite !in_app_iff. intros [H|[H|H]]; [exact (K a A H)| |exact (K c C H)].
  revert H. induction lens as [|n lens IH]; [intros []|]. destruct lens as [|m lens]; cbn [map concat_sep]; [apply D|].
  rewrite !in_app_iff. intros [H|[H|H]]; [exact (D _ H)|exact (K b B H)|exact (IH H)].
Qed.
Lemma mapM_map {A B} (f : A -> res B) (g : A -> B) l : (forall a, In a l -> f a = Ok (g a)) -> mapM f l = Ok (map g l).
Proof.
  induction l as [|a l IH]; intros H; [reflexivity|]. cbn [mapM map]. rewrite (H a (or_introl eq_refl)), IH; [reflexivity|]. intros x X. apply H. right. exact X.
Qed.
Lemma mapM_forall2 {A B} (f : A -> res B) l bs : Forall2 (fun a b => f a = Ok b) l bs -> mapM f l = Ok bs.
Proof. induction 1 as [|a b l bs E _ IH]; [reflexivity|]. cbn [mapM]. rewrite E, IH. reflexivity. Qed.
Lemma rows_unlines (f : nat -> bytes) n k : forall a, a + S k = n ->
  newline ++ List.concat (map (fun j => f j ++ (if j + 1 =? n then [] else newline)) (seq a (S k))) = unlines (map f (seq a (S k))).
Proof.
  induction k as [|k IH]; intros a E.
  - cbn [seq map List.concat unlines]. replace (a + 1 =? n) with true by (symmetry; apply Nat.eqb_eq; lia). rewrite !app_nil_r. reflexivity.
  - cbn [seq map List.concat unlines] in *. replace (a + 1 =? n) with false by (symmetry; apply Nat.eqb_neq; lia).
    rewrite <- (IH (S a)) by lia. rewrite <- !app_assoc. reflexivity.
Qed.
Lemma unlines_app a b : unlines (a ++ b) = unlines a ++ unlines b.
Proof. induction a as [|x a IH]; [reflexivity|]. cbn [app unlines]. rewrite IH, app_assoc. reflexivity. Qed.
