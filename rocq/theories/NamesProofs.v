(** Taking apart type names. *)
From Coq Require Import String.
From Verif Require Import Base Bytes Utf8 Types Text TypeNames SpecWire Utf8Proofs Utf8SliceProofs SpecNames.
From Verif Require LoadTypeProofs.
Import LoadTypeProofs (quiet, strip_prefix_app, starts_with_app).
Open Scope list_scope. Open Scope nat_scope.

Lemma skipn_add {A} m : forall n (l : list A), skipn n (skipn m l) = skipn (m + n) l.
Proof. induction m as [|m IH]; intros n l; [reflexivity|]. destruct l; [destruct n; reflexivity|]. apply IH. Qed.
Lemma between_utf8 p x q : char_boundary (p ++ x ++ q) (length p) = true -> char_boundary (p ++ x ++ q) (length p + length x) = true ->
  is_utf8 (p ++ x ++ q) -> is_utf8 x.
Proof.
  intros A B U. apply boundary_app in A. destruct (utf8_cut _ _ U A) as [_ V].
  rewrite app_assoc, <- app_length in B. apply boundary_app in B.
  apply (utf8_cut _ _ V). destruct B as [B|[B|B]]; [left; apply app_eq_nil in B; tauto|auto|auto].
Qed.
Lemma slice_inv s a b x : str_slice s a b = Ok x ->
  exists p q, s = p ++ x ++ q /\ length p = a /\ a + length x = b /\ (is_utf8 s -> is_utf8 x).
Proof.
  unfold str_slice. destruct (Nat.leb_spec a b) as [L1|]; [|discriminate]. destruct (Nat.leb_spec b (length s)) as [L2|]; [|discriminate].
  destruct (char_boundary s a) eqn:A; [|discriminate]. destruct (char_boundary s b) eqn:B; [|discriminate]. cbn [andb].
  intros H. injection H as <-. exists (firstn a s), (skipn b s).
  assert (E : s = firstn a s ++ firstn (b - a) (skipn a s) ++ skipn b s).
  { rewrite <- (firstn_skipn a s) at 1. f_equal. rewrite <- (firstn_skipn (b - a) (skipn a s)) at 1. f_equal.
    rewrite skipn_add. f_equal. lia. }
  assert (LA : length (firstn a s) = a) by (rewrite firstn_length; lia).
  split; [exact E|]. split; [exact LA|]. split; [rewrite firstn_length, skipn_length; lia|].
  intros U. apply (between_utf8 (firstn a s) _ (skipn b s)); rewrite <- E; [rewrite LA; exact A| |exact U].
  rewrite LA, firstn_length, skipn_length. replace (a + Nat.min (b - a) (length s - a)) with b by lia. exact B.
Qed.

Lemma slice_one s i b : is_utf8 s -> nth_error s i = Some b -> (b < 128)%N -> str_slice s i (i + 1) = Ok [b].
Proof.
  intros U H B. apply nth_error_split in H as (p & q & -> & <-). destruct (utf8_at _ _ _ U B) as [P Q].
  exact (slice_utf8 p [b] q P (utf8_ascii [b] ltac:(repeat constructor; exact B)) Q).
Qed.

(** ** White space *)
Lemma blank_nil : blank [].
Proof. exists []. split; [constructor|reflexivity]. Qed.
Lemma blank_cons c s : In c white -> blank s -> blank (utf8_encode c ++ s).
Proof. intros C (cs & F & ->). exists (c :: cs). split; [constructor; assumption|reflexivity]. Qed.
Lemma blank_snoc c s : In c white -> blank s -> blank (s ++ utf8_encode c).
Proof.
  intros C (cs & F & ->). exists (cs ++ [c]). split; [apply Forall_app; split; [exact F|constructor; [exact C|constructor]]|].
  rewrite map_app, concat_app. cbn [map concat]. rewrite app_nil_r. reflexivity.
Qed.
Lemma blank_utf8 s : blank s -> is_utf8 s.
Proof.
  intros (cs & F & ->). exists cs. split; [|reflexivity]. revert F. apply Forall_impl. intros c H.
  repeat (destruct H as [<-|H]; [split; [reflexivity|lia]|]). contradiction H.
Qed.
Lemma ws1_white a : ws1 a = true -> exists c, In c white /\ [a] = utf8_encode c.
Proof.
  unfold ws1. intros H. assert (a = 9 \/ a = 10 \/ a = 11 \/ a = 12 \/ a = 13 \/ a = 32)%N as K.
  { apply orb_true_iff in H as [H|H]; [apply andb_true_iff in H as [H1 H2]; apply N.leb_le in H1, H2; lia|apply N.eqb_eq in H; lia]. }
  exists a. split; [cbn; intuition auto|]. repeat (destruct K as [->|K]; [reflexivity|]). subst. reflexivity.
Qed.
Lemma ws2_white a b : ws2 a b = true -> exists c, In c white /\ [a; b] = utf8_encode c.
Proof.
  unfold ws2. intros H. apply andb_true_iff in H as [A H]. apply N.eqb_eq in A as ->.
  apply orb_true_iff in H as [H|H]; apply N.eqb_eq in H as ->; [exists 133%N|exists 160%N]; (split; [cbn; tauto|reflexivity]).
Qed.
Lemma ws3_white a b c : ws3 a b c = true -> exists d, In d white /\ [a; b; c] = utf8_encode d.
Proof.
  unfold ws3. intros H. repeat rewrite orb_true_iff in H. repeat rewrite andb_true_iff in H. repeat rewrite orb_true_iff in H.
  repeat rewrite andb_true_iff in H. repeat rewrite N.eqb_eq in H. repeat rewrite N.leb_le in H.
  destruct H as [[[H|H]|H]|H].
  - destruct H as [[-> ->] ->]. exists 5760%N. split; [cbn; tauto|reflexivity].
  - destruct H as [[-> ->] H].
    assert (c = 128 \/ c = 129 \/ c = 130 \/ c = 131 \/ c = 132 \/ c = 133 \/ c = 134 \/ c = 135 \/ c = 136 \/ c = 137 \/ c = 138 \/ c = 168 \/ c = 169 \/ c = 175)%N as K by lia.
    clear H. exists (8064 + c)%N. repeat (destruct K as [->|K]; [split; [cbn; tauto|reflexivity]|]). subst. split; [cbn; tauto|reflexivity].
  - destruct H as [[-> ->] ->]. exists 8287%N. split; [cbn; tauto|reflexivity].
  - destruct H as [[-> ->] ->]. exists 12288%N. split; [cbn; tauto|reflexivity].
Qed.
Lemma space_front_inv s r : space_front s = Some r -> exists c, In c white /\ s = utf8_encode c ++ r.
Proof.
  destruct s as [|a s]; [discriminate|]. cbn [space_front]. destruct (ws1 a) eqn:W1.
  { intros H. injection H as <-. destruct (ws1_white a W1) as (c & C & E). exists c. rewrite <- E. auto. }
  destruct s as [|b s]; [discriminate|]. destruct (ws2 a b) eqn:W2.
  { intros H. injection H as <-. destruct (ws2_white a b W2) as (c & C & E). exists c. rewrite <- E. auto. }
  destruct s as [|d s]; [discriminate|]. destruct (ws3 a b d) eqn:W3; [|discriminate].
  intros H. injection H as <-. destruct (ws3_white a b d W3) as (c & C & E). exists c. rewrite <- E. auto.
Qed.
Lemma space_back_inv s r : space_back s = Some r -> exists c, In c white /\ rev s = rev r ++ utf8_encode c.
Proof.
  destruct s as [|a s]; [discriminate|]. cbn [space_back]. destruct (ws1 a) eqn:W1.
  { intros H. injection H as <-. destruct (ws1_white a W1) as (c & C & E). exists c. rewrite <- E. auto. }
  destruct s as [|b s]; [discriminate|]. destruct (ws2 b a) eqn:W2.
  { intros H. injection H as <-. destruct (ws2_white b a W2) as (c & C & E). exists c. rewrite <- E. split; [exact C|]. cbn [rev]. rewrite <- app_assoc. reflexivity. }
  destruct s as [|d s]; [discriminate|]. destruct (ws3 d b a) eqn:W3; [|discriminate].
  intros H. injection H as <-. destruct (ws3_white d b a W3) as (c & C & E). exists c. rewrite <- E. split; [exact C|]. cbn [rev]. rewrite <- !app_assoc. reflexivity.
Qed.
Lemma trim_inv s : exists a b, blank a /\ blank b /\ s = a ++ trim s ++ b.
Proof.
  assert (F : forall n s, exists a, blank a /\ s = a ++ strip_while space_front n s).
  { induction n as [|n IH]; intros t; cbn [strip_while]; [exists []; split; [apply blank_nil|reflexivity]|].
    destruct (space_front t) as [r|] eqn:E; [|exists []; split; [apply blank_nil|reflexivity]].
    destruct (space_front_inv t r E) as (c & C & ->). destruct (IH r) as (a & A & R).
    exists (utf8_encode c ++ a). split; [apply blank_cons; assumption|]. rewrite <- app_assoc, <- R. reflexivity. }
  assert (B : forall n s, exists b, blank b /\ rev s = rev (strip_while space_back n s) ++ b).
  { induction n as [|n IH]; intros t; cbn [strip_while]; [exists []; split; [apply blank_nil|rewrite app_nil_r; reflexivity]|].
    destruct (space_back t) as [r|] eqn:E; [|exists []; split; [apply blank_nil|rewrite app_nil_r; reflexivity]].
    destruct (space_back_inv t r E) as (c & C & R). destruct (IH r) as (a & A & R').
    exists (a ++ utf8_encode c). split; [apply blank_snoc; assumption|]. rewrite R, R', app_assoc. reflexivity. }
  destruct (F (length s) s) as (a & A & E). fold (trim_start s) in E.
  destruct (B (length (trim_start s)) (rev (trim_start s))) as (b & Bb & E'). rewrite rev_involutive in E'.
  exists a, b. split; [exact A|]. split; [exact Bb|]. unfold trim, trim_end. rewrite <- E'. exact E.
Qed.
Lemma trim_utf8 s : is_utf8 s -> is_utf8 (trim s).
Proof.
  intros U. destruct (trim_inv s) as (a & b & A & B & E). rewrite E in U.
  apply (utf8_app_r _ b (blank_utf8 b B)). apply (utf8_app_l a _ (blank_utf8 a A)). exact U.
Qed.
Lemma trim_length s : length (trim s) <= length s.
Proof. destruct (trim_inv s) as (a & b & _ & _ & E). rewrite E at 2. rewrite !app_length. lia. Qed.

(** ** The names in a name *)
Definition nested (k : kind) : list bytes :=
  match k with
  | KNullable i | KArray i | KAgg _ i | KLow i => [i]
  | KMap k v => [k; v]
  | _ => []
  end.
Definition inner_of (s i : bytes) : Prop :=
  is_utf8 i /\ length i < length s /\ forall n, inside n i -> inside n s.

Lemma app_split {A} (k r p t : list A) : k ++ r = p ++ t -> length k <= length p -> exists c, p = k ++ c /\ r = c ++ t.
Proof.
  revert p. induction k as [|x k IH]; intros p E L; [exists p; auto|]. destruct p as [|y p]; [cbn in L; lia|].
  injection E as -> E. destruct (IH p E) as (c & -> & ->); [cbn in L; lia|]. exists c. auto.
Qed.
Lemma keyword_slice k r x : str_slice (k ++ r) (length k + 1) (length (k ++ r) - 1) = Ok x ->
  (exists c d, k ++ r = k ++ c :: x ++ [d]) /\ (is_utf8 (k ++ r) -> is_utf8 x) /\ length x < length (k ++ r).
Proof.
  intros H. destruct (slice_inv _ _ _ _ H) as (p & q & E & P & Q & U).
  destruct (app_split k r p (x ++ q) E) as (c & -> & ->); [lia|]. rewrite app_length in P.
  destruct c as [|c [|c1 c2]]; cbn [length] in P; [lia| |lia].
  rewrite !app_length in Q. cbn [length app] in Q.
  assert (length q = 1) as Lq by lia. destruct q as [|d [|d1 d2]]; cbn [length] in Lq; [lia| |lia].
  split; [exists c, d; reflexivity|]. split; [exact U|]. rewrite !app_length. cbn [length]. lia.
Qed.
Lemma keyword_panic k r p : is_utf8 k -> is_utf8 (k ++ r) -> str_slice (k ++ r) (length k + 1) (length (k ++ r) - 1) = Panic p -> ~ delimited r.
Proof.
  intros K U H (c & y & d & -> & C & D).
  assert (str_slice ((k ++ [c]) ++ y ++ [d]) (length (k ++ [c])) (length (k ++ [c]) + length y) = Ok y) as E.
  { assert (is_utf8 [c]) as Uc by (apply utf8_ascii; repeat constructor; exact C).
    assert (is_utf8 [d]) as Ud by (apply utf8_ascii; repeat constructor; exact D).
    apply slice_utf8; [apply utf8_app; assumption| |exact Ud].
    apply (utf8_app_r _ [d] Ud). apply (utf8_app_l (k ++ [c])); [apply utf8_app; assumption|]. rewrite <- app_assoc. exact U. }
  rewrite <- app_assoc in E. cbn [app] in E. rewrite app_length in E. cbn [length] in E.
  replace (length (k ++ c :: y ++ [d]) - 1) with (length k + 1 + length y) in H by (rewrite !app_length; cbn [length]; rewrite app_length; cbn [length]; lia).
  congruence.
Qed.

Lemma nullable_inner s i : is_utf8 s -> parse_nullable s = Ok (Some i) -> inner_of s i.
Proof.
  intros U. unfold parse_nullable. destruct (starts_with _ s) eqn:S; [|discriminate]. apply starts_with_app in S as [r ->].
  destruct (str_slice _ _ _) as [x|e|p] eqn:E; [|discriminate|discriminate]. cbn [rbind].
  destruct (starts_with _ x); [discriminate|]. intros H. injection H as <-.
  destruct (keyword_slice (str "Nullable") r x E) as ((c & d & Q) & V & L). split; [auto|]. split; [exact L|].
  intros n N. rewrite Q. apply in_nullable. exact N.
Qed.
Lemma array_inner s i : is_utf8 s -> parse_array s = Ok (Some i) -> inner_of s i.
Proof.
  intros U. unfold parse_array. destruct (starts_with _ s) eqn:S; [|discriminate]. apply starts_with_app in S as [r ->].
  destruct (str_slice _ _ _) as [x|e|p] eqn:E; [|discriminate|discriminate]. cbn [rbind].
  intros H. injection H as <-.
  destruct (keyword_slice (str "Array") r x E) as ((c & d & Q) & V & L). split; [auto|]. split; [exact L|].
  intros n N. rewrite Q. apply in_array. exact N.
Qed.

Lemma find_byte_inv b s c : find_byte b s = Some c -> exists x y, s = x ++ b :: y /\ ~ In b x /\ length x = c.
Proof.
  revert c. induction s as [|z s IH]; intros c H; [discriminate|]. cbn [find_byte] in H.
  destruct (N.eqb_spec z b) as [->|N]; [injection H as <-; exists [], s; auto|].
  destruct (find_byte b s) as [j|]; [|discriminate]. injection H as <-. destruct (IH j eq_refl) as (x & y & -> & I & L).
  exists (z :: x), y. split; [reflexivity|]. split; [intros [E|E]; auto|cbn; lia].
Qed.
Lemma find_char_inv b s c : find_char b s = Some c -> exists x y, s = x ++ b :: y /\ ~ In b x /\ (ascii x -> c = length x).
Proof.
  revert c. induction s as [|z s IH]; intros c H; [discriminate|]. cbn [find_char] in H.
  destruct (N.eqb_spec z b) as [->|N]; [injection H as <-; exists [], s; auto|].
  destruct (find_char b s) as [j|]; [|discriminate]. injection H as <-. destruct (IH j eq_refl) as (x & y & -> & I & L).
  exists (z :: x), y. split; [reflexivity|]. split; [intros [E|E]; auto|]. intros A. inversion_clear A as [|? ? Z A'].
  rewrite (not_cont z Z). cbn [length]. rewrite L by exact A'. reflexivity.
Qed.
Lemma ascii_dec x : ascii x \/ ~ ascii x.
Proof.
  destruct (ascii_only x) eqn:E; [left|right].
  - unfold ascii_only in E. rewrite forallb_forall in E. apply Forall_forall. intros b B. apply N.ltb_lt, E, B.
  - intros A. unfold ascii in A. rewrite Forall_forall in A. apply not_true_iff_false in E. apply E. apply forallb_forall. intros b B. apply N.ltb_lt, A, B.
Qed.
Lemma comma_slices x y : is_utf8 (x ++ 44%N :: y) ->
  str_slice (x ++ 44%N :: y) 0 (length x) = Ok x /\
  str_slice (x ++ 44%N :: y) (length x + 1) (length (x ++ 44%N :: y)) = Ok y /\ is_utf8 x /\ is_utf8 y.
Proof.
  intros U. destruct (utf8_at _ _ _ U eq_refl) as [X Y].
  assert (is_utf8 [44%N]) as C by (apply utf8_ascii; repeat constructor).
  split; [|split; [|auto]].
  - exact (slice_utf8 [] x (44%N :: y) utf8_nil X (utf8_app [44%N] y C Y)).
  - pose proof (slice_utf8 (x ++ [44%N]) y [] (utf8_app _ _ X C) Y utf8_nil) as H.
    rewrite app_nil_r, <- app_assoc in H. cbn [app] in H. rewrite app_length in H. cbn [length] in H.
    rewrite app_length. cbn [length]. replace (length x + S (length y)) with (length x + 1 + length y) by lia. exact H.
Qed.

Lemma map_inner s k v : is_utf8 s -> ~ odd_key s -> parse_map s = Ok (Some (k, v)) -> inner_of s k /\ inner_of s v.
Proof.
  intros U NO. unfold parse_map. destruct (starts_with _ s) eqn:S; [|discriminate]. apply starts_with_app in S as [r ->].
  destruct (str_slice _ _ _) as [body|e|p] eqn:E; [|discriminate|discriminate]. cbn [rbind].
  destruct (keyword_slice (str "Map") r body E) as ((c & d & Q) & V & L).
  destruct (find_char 44 body) as [j|] eqn:F; [|discriminate]. destruct (find_char_inv _ _ _ F) as (x & y & -> & I & J).
  rewrite <- app_assoc in Q. cbn [app] in Q.
  assert (ascii x) as A.
  { destruct (ascii_dec x) as [A|A]; [exact A|]. destruct NO. exists c, x, y, d. auto. }
  rewrite (J A). destruct (comma_slices x y (V U)) as (E1 & E2 & X & Y). rewrite E1. cbn [rbind]. rewrite E2. cbn [rbind].
  intros H. injection H as <- <-. rewrite app_length in L. cbn [length] in L. pose proof (trim_length x). pose proof (trim_length y).
  split; (split; [apply trim_utf8; assumption|]; split; [lia|]; intros n N; rewrite Q).
  - destruct (trim_inv x) as (a & b & Ba & Bb & T). rewrite T. apply in_key; [rewrite <- T|..]; assumption.
  - destruct (trim_inv y) as (a & b & Ba & Bb & T). rewrite T. apply in_value; assumption.
Qed.
Lemma map_panic s p : is_utf8 s -> ~ odd_key s -> parse_map s = Panic p -> exists r, s = str "Map" ++ r /\ ~ delimited r.
Proof.
  intros U NO. unfold parse_map. destruct (starts_with _ s) eqn:S; [|discriminate]. apply starts_with_app in S as [r ->].
  destruct (str_slice _ _ _) as [body|e|p'] eqn:E; [|discriminate|].
  - cbn [rbind]. destruct (keyword_slice (str "Map") r body E) as ((c & d & Q) & V & L).
    destruct (find_char 44 body) as [j|] eqn:F; [|discriminate]. destruct (find_char_inv _ _ _ F) as (x & y & -> & I & J).
    rewrite <- app_assoc in Q. cbn [app] in Q.
    destruct (ascii_dec x) as [A|A]; [|destruct NO; exists c, x, y, d; auto].
    rewrite (J A). destruct (comma_slices x y (V U)) as (E1 & E2 & X & Y). rewrite E1. cbn [rbind]. rewrite E2. discriminate.
  - intros _. exists r. split; [reflexivity|]. refine (keyword_panic (str "Map") r p' _ U E). apply utf8_ascii. repeat constructor.
Qed.

Lemma drop_while_inv f s : exists p, s = p ++ drop_while f s /\ Forall (fun b => f b = true) p.
Proof.
  induction s as [|b s (p & E & F)]; [exists []; auto|]. cbn [drop_while]. destruct (f b) eqn:B; [|exists []; auto].
  exists (b :: p). cbn [app]. rewrite <- E. auto.
Qed.
Lemma trim_matches_inv f s : exists p q, s = p ++ trim_matches f s ++ q /\ Forall (fun b => f b = true) p /\ Forall (fun b => f b = true) q.
Proof.
  destruct (drop_while_inv f s) as (p & E & P). destruct (drop_while_inv f (rev (drop_while f s))) as (q & E' & Q).
  exists p, (rev q). split; [|split; [exact P|apply Forall_rev, Q]]. unfold trim_matches.
  rewrite <- rev_app_distr, <- E', rev_involutive. exact E.
Qed.
Lemma paren_ascii p : Forall (fun b => is_paren b = true) p -> Forall (fun b => (b < 128)%N) p.
Proof. apply Forall_impl. intros b H. unfold is_paren in H. apply orb_true_iff in H as [H|H]; apply N.eqb_eq in H; lia. Qed.
Lemma paren_or p : Forall (fun b => is_paren b = true) p -> Forall (fun c => c = 40%N \/ c = 41%N) p.
Proof. apply Forall_impl. intros b H. unfold is_paren in H. apply orb_true_iff in H as [H|H]; apply N.eqb_eq in H; auto. Qed.

Lemma agg_cut s : is_utf8 s -> starts_with (str "SimpleAggregateFunction(") s = true ->
  exists r p q args, s = str "SimpleAggregateFunction(" ++ r /\ str_slice s 23 (length s) = Ok (40%N :: r) /\
    trim_matches is_paren (40%N :: r) = args /\ r = p ++ args ++ q /\
    Forall (fun b => is_paren b = true) p /\ Forall (fun b => is_paren b = true) q /\ is_utf8 args.
Proof.
  intros U S. apply starts_with_app in S as [r ->]. exists r.
  assert (is_utf8 r) as R by (apply (utf8_app_l (str "SimpleAggregateFunction(")); [apply utf8_ascii; repeat constructor|exact U]).
  assert (str_slice (str "SimpleAggregateFunction(" ++ r) 23 (length (str "SimpleAggregateFunction(" ++ r)) = Ok (40%N :: r)) as E.
  { assert (is_utf8 (str "SimpleAggregateFunction")) as U1 by (apply utf8_ascii; repeat constructor).
    assert (is_utf8 [40%N]) as U2 by (apply utf8_ascii; repeat constructor).
    pose proof (slice_utf8 (str "SimpleAggregateFunction") (40%N :: r) [] U1 (utf8_app [40%N] r U2 R) utf8_nil) as H.
    rewrite app_nil_r in H. exact H. }
  destruct (drop_while_inv is_paren r) as (p & E1 & P).
  destruct (drop_while_inv is_paren (rev (drop_while is_paren r))) as (q & E2 & Q).
  exists p, (rev q), (trim_matches is_paren (40%N :: r)).
  assert (trim_matches is_paren (40%N :: r) = rev (drop_while is_paren (rev (drop_while is_paren r)))) as T by reflexivity.
  assert (r = p ++ trim_matches is_paren (40%N :: r) ++ rev q) as D.
  { rewrite T, <- rev_app_distr, <- E2, rev_involutive. exact E1. }
  split; [reflexivity|]. split; [exact E|]. split; [reflexivity|]. split; [exact D|]. split; [exact P|]. split; [apply Forall_rev, Q|].
  rewrite D in R. apply (utf8_app_r _ (rev q)); [apply utf8_ascii, paren_ascii, Forall_rev, Q|].
  apply (utf8_app_l p); [apply utf8_ascii, paren_ascii, P|exact R].
Qed.
Lemma agg_inner s f i : is_utf8 s -> parse_agg s = Ok (Some (f, i)) -> inner_of s i.
Proof.
  intros U. unfold parse_agg. destruct (starts_with _ s) eqn:S; [|discriminate]. destruct (ends_with_byte 41 s); [|discriminate]. cbn [andb].
  destruct (agg_cut s U S) as (r & p & q & args & E & -> & T & D & P & Q & UA). cbn [rbind]. rewrite T.
  destruct (find_byte 44 args) as [j|] eqn:F; [|discriminate]. destruct (find_byte_inv _ _ _ F) as (x & y & -> & I & <-).
  destruct (comma_slices x y UA) as (E1 & E2 & X & Y). rewrite E1. cbn [rbind]. rewrite E2. cbn [rbind].
  destruct (agg_parse (trim x)) as [g|]; [|discriminate]. intros H. injection H as -> <-.
  pose proof (trim_length y). split; [apply trim_utf8, Y|]. split; [rewrite E, D, !app_length; cbn [length]; lia|].
  intros n N. destruct (trim_inv y) as (a & b & Ba & Bb & Ty). rewrite E, D, <- app_assoc. cbn [app]. rewrite Ty.
  rewrite (app_assoc p x). apply in_agg; [|assumption|assumption|apply paren_or, Q|exact N].
  intros K. apply in_app_or in K as [K|K]; [|auto]. apply paren_or in P. rewrite Forall_forall in P. destruct (P _ K) as [|]; discriminate.
Qed.
Lemma agg_quiet s p : is_utf8 s -> parse_agg s <> Panic p.
Proof.
  intros U. unfold parse_agg. destruct (starts_with _ s) eqn:S; [|discriminate]. destruct (ends_with_byte 41 s); [|discriminate]. cbn [andb].
  destruct (agg_cut s U S) as (r & p' & q & args & E & -> & T & D & P & Q & UA). cbn [rbind]. rewrite T.
  destruct (find_byte 44 args) as [j|] eqn:F; [|discriminate]. destruct (find_byte_inv _ _ _ F) as (x & y & -> & I & <-).
  destruct (comma_slices x y UA) as (E1 & E2 & X & Y). rewrite E1. cbn [rbind]. rewrite E2. discriminate.
Qed.
Lemma decimal_quiet s p : is_utf8 s -> parse_decimal s <> Panic p.
Proof.
  intros U. unfold parse_decimal. destruct (_ <? _); [discriminate|]. destruct (negb _); [discriminate|].
  destruct (decimal_scan s 0 s None None None) as [[[nb [po|]] [pc|]]|] eqn:D; try discriminate.
  destruct (LoadTypeProofs.decimal_scan_inv s s 0 None None None nb (Some po) (Some pc) eq_refl eq_refl) as [HO HC];
    [discriminate|discriminate|exact D|].
  destruct (HO po eq_refl) as (P1 & P2 & P3). destruct (HC pc eq_refl) as (C1 & C2).
  assert (O : po < pc).
  { destruct (Nat.lt_trichotomy po pc) as [X|[->|X]]; [exact X|congruence|].
    exfalso. apply P3. rewrite <- C2.
    assert (Q : nth pc s 0%N = nth pc (firstn po s) 0%N).
    { rewrite <- (firstn_skipn po s) at 1. apply app_nth1. rewrite firstn_length. lia. }
    rewrite Q. apply nth_In. rewrite firstn_length. lia. }
  destruct (nth_error_split s po (nth_error_nth' s 0%N P1)) as (a & t & E & La). rewrite P2 in E.
  assert (nth_error t (pc - po - 1) = Some 41%N) as N.
  { rewrite <- C2. pose proof (nth_error_nth' s 0%N C1) as N. rewrite E in N at 1. rewrite nth_error_app2 in N by lia.
    rewrite La in N. replace (pc - po) with (S (pc - po - 1)) in N by lia. exact N. }
  destruct (nth_error_split t _ N) as (x & q & -> & Lx). rewrite E in U |- *.
  destruct (utf8_at _ _ _ U eq_refl) as [Ua Ut]. destruct (utf8_at _ _ _ Ut eq_refl) as [Ux Uq].
  assert (is_utf8 [40%N]) as U1 by (apply utf8_ascii; repeat constructor).
  assert (is_utf8 [41%N]) as U2 by (apply utf8_ascii; repeat constructor).
  pose proof (slice_utf8 (a ++ [40%N]) x (41%N :: q) (utf8_app _ _ Ua U1) Ux (utf8_app [41%N] q U2 Uq)) as H.
  rewrite <- app_assoc in H. cbn [app] in H. rewrite app_length in H. cbn [length] in H.
  rewrite <- La. replace pc with (length a + 1 + length x) by lia. rewrite H. discriminate.
Qed.

(** ** LowCardinality *)
Lemma scan_up_inv b s : forall fuel lo j, scan_up b s fuel lo = Ok j -> length s <= fuel + lo ->
  lo <= j /\ (forall i, lo <= i < j -> nth_error s i <> Some b) /\ (j < length s -> nth_error s j = Some b).
Proof.
  induction fuel as [|fuel IH]; intros lo j H L.
  - cbn [scan_up] in H. injection H as <-. split; [lia|]. split; [intros i; lia|intros; lia].
  - cbn [scan_up] in H. destruct (Nat.ltb_spec lo (length s)) as [B|B].
    + destruct (str_slice s lo (lo + 1)) as [c|e|p] eqn:E; [|discriminate|discriminate]. cbn [rbind] in H.
      destruct (slice_inv _ _ _ _ E) as (p & q & Es & Lp & Lc & _). destruct c as [|c [|c1 c2]]; cbn [length] in Lc; try lia.
      assert (nth_error s lo = Some c) as N by (rewrite Es, nth_error_app2, Lp, Nat.sub_diag by lia; reflexivity).
      unfold bytes_eqb in H. destruct (bytes_eq_dec [c] [b]) as [Q|Q].
      * injection H as <-. injection Q as ->. split; [lia|]. split; [intros i; lia|auto].
      * destruct (IH _ _ H) as (I1 & I2 & I3); [lia|]. split; [lia|]. split; [|exact I3]. intros i Hi.
        destruct (Nat.eq_dec i lo) as [->|]; [rewrite N; congruence|apply I2; lia].
    + injection H as <-. split; [lia|]. split; [intros i; lia|lia].
Qed.
Lemma scan_down_inv b s lo : forall hi j, hi < length s -> scan_down b s lo hi = Ok j ->
  j <= hi /\ (forall i, j < i <= hi -> nth_error s i <> Some b) /\ (lo < j -> nth_error s j = Some b).
Proof.
  assert (W : forall hi, hi < length s -> forall c, str_slice s hi (hi + 1) = Ok c -> exists x, c = [x] /\ nth_error s hi = Some x).
  { intros hi B c E. destruct (slice_inv _ _ _ _ E) as (p & q & Es & Lp & Lc & _). destruct c as [|c [|c1 c2]]; cbn [length] in Lc; try lia.
    exists c. split; [reflexivity|]. rewrite Es, nth_error_app2, Lp, Nat.sub_diag by lia. reflexivity. }
  induction hi as [|hi IH]; intros j B H; cbn [scan_down] in H.
  - destruct (Nat.ltb_spec lo 0); [lia|]. injection H as <-. split; [lia|]. split; [intros i; lia|lia].
  - destruct (Nat.ltb_spec lo (S hi)) as [L|L]; [|injection H as <-; split; [lia|]; split; [intros i; lia|lia]].
    destruct (str_slice s (S hi) (S hi + 1)) as [c|e|p] eqn:E; [|discriminate|discriminate]. cbn [rbind] in H.
    destruct (W _ B _ E) as (x & -> & N). unfold bytes_eqb in H. destruct (bytes_eq_dec [x] [b]) as [Q|Q].
    + injection H as <-. injection Q as ->. split; [lia|]. split; [intros i; lia|auto].
    + destruct (IH _ ltac:(lia) H) as (I1 & I2 & I3). split; [lia|]. split; [|exact I3]. intros i Hi.
      destruct (Nat.eq_dec i (S hi)) as [->|]; [rewrite N; congruence|apply I2; lia].
Qed.

(** What the scans find. *)
Lemma low_found r lo hi : let s := str "LowCardinality" ++ r in
  scan_up 40 s (length s) 14 = Ok lo -> scan_down 41 s lo (length s - 1) = Ok hi -> lo < hi ->
  exists p x q, r = p ++ 40%N :: x ++ 41%N :: q /\ ~ In 40%N p /\ ~ In 41%N q /\ lo + 1 = length (str "LowCardinality" ++ p ++ [40%N]) /\
    hi = lo + 1 + length x.
Proof.
  intros s U D L.
  assert (14 <= length s) as L14 by (unfold s; rewrite app_length; cbn; lia).
  destruct (scan_up_inv _ _ _ _ _ U) as (U1 & U2 & U3); [lia|].
  assert (length s - 1 < length s) as L1 by lia.
  destruct (scan_down_inv _ _ _ _ _ L1 D) as (D1 & D2 & D3).
  specialize (U3 ltac:(lia)). specialize (D3 L).
  destruct (nth_error_split s lo U3) as (a & t & E & La).
  destruct (app_split (str "LowCardinality") r a (40%N :: t) E) as (p & -> & ->); [cbn; lia|].
  assert (nth_error t (hi - lo - 1) = Some 41%N) as N.
  { remember (hi - lo - 1) as m eqn:M. rewrite <- D3, E, nth_error_app2 by lia. rewrite La. replace (hi - lo) with (S m) by lia. reflexivity. }
  destruct (nth_error_split t _ N) as (x & q & -> & Lx). exists p, x, q. split; [reflexivity|].
  rewrite app_length in La. split; [|split; [|split; [rewrite !app_length; cbn [length]; lia|lia]]].
  - intros I. destruct (In_nth_error _ _ I) as (i & Hi). apply (U2 (14 + i)).
    + assert (i < length p) by (apply nth_error_Some; congruence). change (length (str "LowCardinality")) with 14 in La. lia.
    + unfold s. rewrite nth_error_app2 by (cbn; lia). replace (14 + i - length (str "LowCardinality")) with i by (cbn; lia).
      rewrite nth_error_app1 by (apply nth_error_Some; congruence). exact Hi.
  - intros I. destruct (In_nth_error _ _ I) as (i & Hi). assert (i < length q) as Li by (apply nth_error_Some; congruence).
    apply (D2 (hi + 1 + i)).
    + rewrite E, !app_length. cbn [length]. rewrite app_length. cbn [length]. lia.
    + rewrite E, nth_error_app2 by (rewrite app_length; lia). rewrite app_length, La.
      replace (hi + 1 + i - lo) with (S (hi - lo + i)) by lia. cbn [nth_error].
      rewrite nth_error_app2 by lia. replace (hi - lo + i - length x) with (S i) by lia. exact Hi.
Qed.
Lemma low_inner s i : is_utf8 s -> parse_low_cardinality s = Ok (Some i) -> inner_of s i.
Proof.
  intros U. unfold parse_low_cardinality. destruct (starts_with _ s) eqn:S; [|discriminate]. apply starts_with_app in S as [r ->].
  destruct (scan_up _ _ _ _) as [lo|e|p] eqn:E1; [|discriminate|discriminate]. cbn [rbind].
  destruct (scan_down _ _ _ _) as [hi|e|p] eqn:E2; [|discriminate|discriminate]. cbn [rbind].
  destruct (Nat.leb_spec hi lo) as [|L]; [discriminate|].
  destruct (low_found r lo hi E1 E2 L) as (p & x & q & E & P & Q & L1 & L2).
  rewrite E in U |- *. rewrite app_assoc in U. destruct (utf8_at _ _ _ U eq_refl) as [U1 U2]. destruct (utf8_at _ _ _ U2 eq_refl) as [U3 U4].
  assert (is_utf8 [40%N]) as C1 by (apply utf8_ascii; repeat constructor).
  assert (is_utf8 [41%N]) as C2 by (apply utf8_ascii; repeat constructor).
  pose proof (slice_utf8 ((str "LowCardinality" ++ p) ++ [40%N]) x (41%N :: q) (utf8_app _ _ U1 C1) U3 (utf8_app [41%N] q C2 U4)) as H.
  replace (length ((str "LowCardinality" ++ p) ++ [40%N])) with (lo + 1) in H by (rewrite L1; rewrite <- app_assoc; reflexivity).
  rewrite <- L2 in H. rewrite <- !app_assoc in H. cbn [app] in H. rewrite H. cbn [rbind].
  intros K. injection K as <-. pose proof (trim_length x). split; [apply trim_utf8, U3|].
  split; [rewrite !app_length; cbn [length]; rewrite app_length; cbn [length]; lia|].
  intros n N. destruct (trim_inv x) as (a & b & Ba & Bb & T). rewrite T. apply in_low; assumption.
Qed.
Lemma scan_up_quiet b s j : is_utf8 s -> (forall i c, i < j -> nth_error s i = Some c -> (c < 128)%N) -> nth_error s j = Some b -> (b < 128)%N ->
  forall fuel lo p, lo <= j -> scan_up b s fuel lo <> Panic p.
Proof.
  intros U A N B. induction fuel as [|fuel IH]; intros lo p L; cbn [scan_up]; [discriminate|].
  destruct (Nat.ltb_spec lo (length s)) as [H|H]; [|discriminate].
  destruct (nth_error s lo) as [c|] eqn:E; [|apply nth_error_None in E; lia].
  destruct (Nat.eq_dec lo j) as [->|Ne].
  - rewrite N in E. injection E as <-. rewrite (slice_one s j b U N B). cbn [rbind]. unfold bytes_eqb. destruct (bytes_eq_dec [b] [b]); [discriminate|congruence].
  - rewrite (slice_one s lo c U E) by (apply (A lo c); [lia|exact E]). cbn [rbind]. destruct (bytes_eqb _ _); [discriminate|]. apply IH. lia.
Qed.
Lemma scan_down_quiet b s j lo : is_utf8 s -> (forall i c, j < i -> nth_error s i = Some c -> (c < 128)%N) -> nth_error s j = Some b -> (b < 128)%N ->
  forall hi p, j <= hi -> hi < length s -> scan_down b s lo hi <> Panic p.
Proof.
  intros U A N B. induction hi as [|hi IH]; intros p L H; cbn [scan_down].
  - destruct (lo <? 0); [|discriminate]. replace j with 0 in N by lia. rewrite (slice_one s 0 b U N B). cbn [rbind].
    unfold bytes_eqb. destruct (bytes_eq_dec [b] [b]); discriminate.
  - destruct (lo <? S hi); [|discriminate]. destruct (Nat.eq_dec j (S hi)) as [->|Ne].
    + rewrite (slice_one s (S hi) b U N B). cbn [rbind]. unfold bytes_eqb. destruct (bytes_eq_dec [b] [b]); [discriminate|congruence].
    + destruct (nth_error s (S hi)) as [c|] eqn:E; [|apply nth_error_None in E; lia].
      rewrite (slice_one s (S hi) c U E) by (apply (A (S hi) c); [lia|exact E]). cbn [rbind]. destruct (bytes_eqb _ _); [discriminate|]. apply IH; lia.
Qed.
Lemma low_panic s p : is_utf8 s -> parse_low_cardinality s = Panic p -> odd s.
Proof.
  intros U. unfold parse_low_cardinality. destruct (starts_with _ s) eqn:S; [|discriminate]. pose proof S as S'. apply starts_with_app in S' as [r ->].
  intros H. apply odd_low.
  - intros A. assert (LoadTypeProofs.ascii (str "LowCardinality" ++ r)) as A' by (apply LoadTypeProofs.ascii_app; split; [repeat constructor|exact A]).
    pose proof (LoadTypeProofs.quiet_low _ A') as Q. unfold parse_low_cardinality in Q. rewrite S, H in Q. exact Q.
  - intros (a & y & b & -> & Ia & Ib & Aa & Ab).
    assert (length (str "LowCardinality") = 14) as L14 by reflexivity.
    assert (forall i c, i < 14 + length a -> nth_error (str "LowCardinality" ++ a ++ 40%N :: y ++ 41%N :: b) i = Some c -> (c < 128)%N) as A1.
    { intros i c Hi N. rewrite app_assoc, nth_error_app1 in N by (rewrite app_length; lia). apply nth_error_In in N.
      assert (ascii (str "LowCardinality" ++ a)) as Q by (apply Forall_app; split; [repeat constructor|exact Aa]). unfold ascii in Q. rewrite Forall_forall in Q. auto. }
    assert (nth_error (str "LowCardinality" ++ a ++ 40%N :: y ++ 41%N :: b) (14 + length a) = Some 40%N) as N1.
    { rewrite app_assoc, nth_error_app2, app_length by (rewrite app_length; lia). replace (14 + length a - _) with 0 by lia. reflexivity. }
    assert (nth_error (str "LowCardinality" ++ a ++ 40%N :: y ++ 41%N :: b) (15 + length a + length y) = Some 41%N) as N2.
    { rewrite app_assoc, nth_error_app2, app_length by (rewrite app_length; lia). replace (15 + length a + length y - _) with (Datatypes.S (length y)) by lia.
      cbn [nth_error]. rewrite nth_error_app2, Nat.sub_diag by lia. reflexivity. }
    assert (forall i c, 15 + length a + length y < i -> nth_error (str "LowCardinality" ++ a ++ 40%N :: y ++ 41%N :: b) i = Some c -> (c < 128)%N) as A2.
    { intros i c Hi N. rewrite app_assoc, nth_error_app2 in N by (rewrite app_length; lia). rewrite app_length in N.
      replace (i - _) with (Datatypes.S (length y + Datatypes.S (i - (16 + length a + length y)))) in N by lia. cbn [nth_error] in N.
      rewrite nth_error_app2 in N by lia. replace (length y + _ - length y) with (Datatypes.S (i - (16 + length a + length y))) in N by lia. cbn [nth_error] in N.
      apply nth_error_In in N. unfold ascii in Ab. rewrite Forall_forall in Ab. auto. }
    destruct (scan_up _ _ _ _) as [lo|e|p'] eqn:E1; [|discriminate|].
    2: { eapply scan_up_quiet in E1; [exact E1|exact U|exact A1|exact N1|reflexivity|lia]. }
    cbn [rbind] in H. destruct (scan_down _ _ _ _) as [hi|e|p'] eqn:E2; [|discriminate|].
    2: { eapply scan_down_quiet in E2; [exact E2|exact U|exact A2|exact N2|reflexivity| |]; rewrite !app_length; cbn [length]; rewrite app_length; cbn [length]; lia. }
    cbn [rbind] in H. destruct (Nat.leb_spec hi lo) as [|L]; [discriminate|].
    destruct (low_found _ lo hi E1 E2 L) as (p0 & x & q & E & _ & _ & L1 & L2).
    rewrite E in U, H. rewrite app_assoc in U. destruct (utf8_at _ _ _ U eq_refl) as [U1 U2]. destruct (utf8_at _ _ _ U2 eq_refl) as [U3 U4].
    assert (is_utf8 [40%N]) as C1 by (apply utf8_ascii; repeat constructor).
    assert (is_utf8 [41%N]) as C2 by (apply utf8_ascii; repeat constructor).
    pose proof (slice_utf8 ((str "LowCardinality" ++ p0) ++ [40%N]) x (41%N :: q) (utf8_app _ _ U1 C1) U3 (utf8_app [41%N] q C2 U4)) as K.
    replace (length ((str "LowCardinality" ++ p0) ++ [40%N])) with (lo + 1) in K by (rewrite L1; rewrite <- app_assoc; reflexivity).
    rewrite <- L2 in K. rewrite <- !app_assoc in K. cbn [app] in K. rewrite K in H. discriminate H.
Qed.

(** ** Names of any kind *)
Lemma classify_inner s k i : is_utf8 s -> ~ odd_key s -> classify s = Ok (Some k) -> In i (nested k) -> inner_of s i.
Proof.
  intros U NO. unfold classify. destruct (match_str simple_names s) as [k0|] eqn:M.
  { intros H. injection H as <-. intros I. exfalso. revert I.
    assert (forall l, Forall (fun p => nested (snd p) = []) l -> forall k, match_str l s = Some k -> nested k = []) as G.
    { induction l as [|[n k1] l IH]; intros F k2 E; [discriminate|]. inversion_clear F as [|? ? F1 F2]. cbn [match_str] in E.
      destruct (eq_ignore_case s n); [injection E as <-; exact F1|exact (IH F2 _ E)]. }
    rewrite (G simple_names) with (k := k0) by (exact M || (repeat constructor)). intros []. }
  destruct (parse_nullable s) as [[x|]|e|p] eqn:E1; [| |discriminate|discriminate]; cbn [rbind].
  { intros H. injection H as <-. intros [<-|[]]. apply nullable_inner; assumption. }
  destruct (parse_fixed_string s) as [[x|]|e|p] eqn:E2; [| |discriminate|discriminate]; cbn [rbind].
  { intros H. injection H as <-. intros []. }
  destruct (parse_array s) as [[x|]|e|p] eqn:E3; [| |discriminate|discriminate]; cbn [rbind].
  { intros H. injection H as <-. intros [<-|[]]. apply array_inner; assumption. }
  destruct (parse_map s) as [[[x y]|]|e|p] eqn:E4; [| |discriminate|discriminate]; cbn [rbind].
  { intros H. injection H as <-. destruct (map_inner s x y U NO E4) as [X Y]. intros [<-|[<-|[]]]; assumption. }
  destruct (parse_decimal s) as [[[[x y] z]|]|e|p] eqn:E5; [| |discriminate|discriminate]; cbn [rbind].
  { intros H. injection H as <-. intros []. }
  destruct (parse_enum8 s); [intros H; injection H as <-; intros []|].
  destruct (parse_enum16 s); [intros H; injection H as <-; intros []|].
  destruct (parse_date_time s); [intros H; injection H as <-; intros []|].
  destruct (parse_date_time64 s) as [[? ?]|]; [intros H; injection H as <-; intros []|].
  destruct (parse_agg s) as [[[x y]|]|e|p] eqn:E6; [| |discriminate|discriminate]; cbn [rbind].
  { intros H. injection H as <-. intros [<-|[]]. apply (agg_inner s x y); assumption. }
  destruct (parse_low_cardinality s) as [[x|]|e|p] eqn:E7; [| |discriminate|discriminate]; cbn [rbind]; [|discriminate].
  intros H. injection H as <-. intros [<-|[]]. apply low_inner; assumption.
Qed.
Lemma keyword_odd k r p : In k [str "Nullable"; str "FixedString"; str "Array"; str "Map"] -> is_utf8 (k ++ r) ->
  str_slice (k ++ r) (length k + 1) (length (k ++ r) - 1) = Panic p -> odd (k ++ r).
Proof.
  intros I U E. apply odd_keyword; [exact I|]. refine (keyword_panic k r p _ U E).
  destruct I as [<-|[<-|[<-|[<-|[]]]]]; apply utf8_ascii; repeat constructor.
Qed.
Lemma classify_odd s p : is_utf8 s -> ~ odd_key s -> classify s = Panic p -> odd s.
Proof.
  intros U NO. unfold classify. destruct (match_str simple_names s) as [k0|] eqn:M; [discriminate|].
  destruct (parse_nullable s) as [[x|]|e|p'] eqn:E1; [discriminate| |discriminate|]; cbn [rbind].
  2: { intros _. unfold parse_nullable in E1. destruct (starts_with _ s) eqn:S; [|discriminate]. apply starts_with_app in S as [r ->].
       destruct (str_slice _ _ _) as [x|e|p2] eqn:E; [discriminate|discriminate|]. apply (keyword_odd (str "Nullable") r p2); [cbn; tauto|exact U|exact E]. }
  destruct (parse_fixed_string s) as [[x|]|e|p'] eqn:E2; [discriminate| |discriminate|]; cbn [rbind].
  2: { intros _. unfold parse_fixed_string in E2. destruct (starts_with _ s) eqn:S; [|discriminate]. apply starts_with_app in S as [r ->].
       destruct (str_slice _ _ _) as [x|e|p2] eqn:E; [discriminate|discriminate|]. apply (keyword_odd (str "FixedString") r p2); [cbn; tauto|exact U|exact E]. }
  destruct (parse_array s) as [[x|]|e|p'] eqn:E3; [discriminate| |discriminate|]; cbn [rbind].
  2: { intros _. unfold parse_array in E3. destruct (starts_with _ s) eqn:S; [|discriminate]. apply starts_with_app in S as [r ->].
       destruct (str_slice _ _ _) as [x|e|p2] eqn:E; [discriminate|discriminate|]. apply (keyword_odd (str "Array") r p2); [cbn; tauto|exact U|exact E]. }
  destruct (parse_map s) as [[[x y]|]|e|p'] eqn:E4; [discriminate| |discriminate|]; cbn [rbind].
  2: { intros _. destruct (map_panic s p' U NO E4) as (r & -> & D). apply odd_keyword; [cbn; tauto|exact D]. }
  destruct (parse_decimal s) as [[[[x y] z]|]|e|p'] eqn:E5; [discriminate| |discriminate|destruct (decimal_quiet s p' U E5)]; cbn [rbind].
  destruct (parse_enum8 s); [discriminate|].
  destruct (parse_enum16 s); [discriminate|].
  destruct (parse_date_time s); [discriminate|].
  destruct (parse_date_time64 s) as [[? ?]|]; [discriminate|].
  destruct (parse_agg s) as [[[x y]|]|e|p'] eqn:E6; [discriminate| |discriminate|destruct (agg_quiet s p' U E6)]; cbn [rbind].
  destruct (parse_low_cardinality s) as [[x|]|e|p'] eqn:E7; [discriminate|discriminate|discriminate|]; cbn [rbind].
  intros _. exact (low_panic s p' U E7).
Qed.

(** ** Odd names panic *)
Lemma slice_bounds s a b x : str_slice s a b = Ok x -> char_boundary s a = true /\ char_boundary s b = true.
Proof. unfold str_slice. destruct (a <=? b); [|discriminate]. destruct (b <=? _); [|discriminate]. destruct (char_boundary s a); [|discriminate]. destruct (char_boundary s b); [auto|discriminate]. Qed.
Lemma slice_cases s a b : (exists x, str_slice s a b = Ok x) \/ str_slice s a b = Panic PIndex.
Proof. unfold str_slice. destruct (_ && _); [left; eexists; reflexivity|right; reflexivity]. Qed.
Lemma not_delimited k r : is_utf8 k -> is_utf8 (k ++ r) -> ~ delimited r -> str_slice (k ++ r) (length k + 1) (length (k ++ r) - 1) = Panic PIndex.
Proof.
  intros K U D. destruct (slice_cases (k ++ r) (length k + 1) (length (k ++ r) - 1)) as [[x E]|E]; [|exact E]. exfalso. apply D.
  destruct (keyword_slice k r x E) as ((c & d & Q) & _ & _). apply app_inv_head in Q. subst r. exists c, x, d. split; [reflexivity|].
  destruct (slice_bounds _ _ _ _ E) as [B1 B2]. pose proof (utf8_app_l k _ K U) as V. split.
  - destruct (N.lt_ge_cases c 128) as [L|L]; [exact L|exfalso]. destruct (utf8_wide _ _ V L) as (y & t & Et & Cy).
    change (k ++ c :: x ++ [d]) with (k ++ [c] ++ (x ++ [d])) in B1. rewrite app_assoc in B1.
    replace (length k + 1) with (length (k ++ [c])) in B1 by (rewrite app_length; reflexivity). apply boundary_app in B1.
    destruct B1 as [B|[B|(b & t' & B & Cb)]]; [destruct k; discriminate B|destruct x; discriminate B|]. rewrite Et in B. injection B as -> _. congruence.
  - destruct (N.lt_ge_cases d 128) as [L|L]; [exact L|exfalso].
    change (c :: x ++ [d]) with ((c :: x) ++ [d]) in *. rewrite app_assoc in U, B2. pose proof (utf8_last _ _ U L) as C.
    replace (length ((k ++ c :: x) ++ [d]) - 1) with (length (k ++ c :: x)) in B2 by (rewrite (app_length (k ++ c :: x)); cbn [length]; lia).
    apply boundary_app in B2. destruct B2 as [B|[B|(b & t' & B & Cb)]]; [destruct k; discriminate B|discriminate B|]. injection B as <- <-. congruence.
Qed.
Lemma one_ascii s i c : is_utf8 s -> i < length s -> str_slice s i (i + 1) = Ok c -> exists b, nth_error s i = Some b /\ (b < 128)%N.
Proof.
  intros U L E. destruct (slice_inv _ _ _ _ E) as (p & q & Es & Lp & Lc & V). destruct c as [|c [|c1 c2]]; cbn [length] in Lc; try lia.
  exists c. split; [rewrite Es, nth_error_app2, Lp, Nat.sub_diag by lia; reflexivity|].
  destruct (N.lt_ge_cases c 128) as [B|B]; [exact B|exfalso]. destruct (utf8_wide c [] (V U) B) as (? & ? & X & _). discriminate X.
Qed.
Lemma scan_up_ascii b s : is_utf8 s -> forall fuel lo j, scan_up b s fuel lo = Ok j -> forall i c, lo <= i < j -> nth_error s i = Some c -> (c < 128)%N.
Proof.
  intros U. induction fuel as [|fuel IH]; intros lo j H i c Hi N; cbn [scan_up] in H; [injection H as <-; lia|].
  destruct (Nat.ltb_spec lo (length s)) as [B|B]; [|injection H as <-; lia].
  destruct (str_slice s lo (lo + 1)) as [x|e|p] eqn:E; [|discriminate|discriminate]. cbn [rbind] in H.
  destruct (bytes_eqb x [b]); [injection H as <-; lia|].
  destruct (Nat.eq_dec i lo) as [->|Ne]; [|apply (IH _ _ H i); [lia|exact N]].
  destruct (one_ascii s lo x U B E) as (b' & N' & A). congruence.
Qed.
Lemma scan_down_ascii b s lo : is_utf8 s -> forall hi j, hi < length s -> scan_down b s lo hi = Ok j -> forall i c, j < i <= hi -> nth_error s i = Some c -> (c < 128)%N.
Proof.
  intros U. induction hi as [|hi IH]; intros j B H i c Hi N; [lia|]. cbn [scan_down] in H.
  destruct (lo <? S hi); [|injection H as <-; lia].
  destruct (str_slice s (S hi) (S hi + 1)) as [x|e|p] eqn:E; [|discriminate|discriminate]. cbn [rbind] in H.
  destruct (bytes_eqb x [b]); [injection H as <-; lia|].
  destruct (Nat.eq_dec i (S hi)) as [->|Ne]; [|apply (IH _ ltac:(lia) H i); [lia|exact N]].
  destruct (one_ascii s (S hi) x U B E) as (b' & N' & A). congruence.
Qed.
Lemma scan_up_cases b s : forall fuel lo, (exists j, scan_up b s fuel lo = Ok j) \/ scan_up b s fuel lo = Panic PIndex.
Proof.
  induction fuel as [|fuel IH]; intros lo; cbn [scan_up]; [eauto|]. destruct (_ <? _); [|eauto].
  destruct (slice_cases s lo (lo + 1)) as [[x ->]| ->]; [|auto]. cbn [rbind]. destruct (bytes_eqb _ _); eauto.
Qed.
Lemma scan_down_cases b s lo : forall hi, (exists j, scan_down b s lo hi = Ok j) \/ scan_down b s lo hi = Panic PIndex.
Proof.
  induction hi as [|hi IH]; cbn [scan_down]; (destruct (_ <? _); [|eauto]).
  - destruct (slice_cases s 0 (0 + 1)) as [[x ->]| ->]; [|auto]. cbn [rbind]. destruct (bytes_eqb _ _); eauto.
  - destruct (slice_cases s (S hi) (S hi + 1)) as [[x ->]| ->]; [|auto]. cbn [rbind]. destruct (bytes_eqb _ _); eauto.
Qed.
Lemma low_odd x : is_utf8 (str "LowCardinality" ++ x) -> ~ ascii x -> ~ enclosed x -> parse_low_cardinality (str "LowCardinality" ++ x) = Panic PIndex.
Proof.
  intros U NA NE. set (s := str "LowCardinality" ++ x) in *. unfold parse_low_cardinality.
  replace (starts_with (str "LowCardinality") s) with true by reflexivity.
  assert (14 + length x = length s) as Ls by (unfold s; rewrite app_length; reflexivity).
  destruct (scan_up_cases 40 s (length s) 14) as [[lo E1]| ->]; [|reflexivity]. rewrite E1. cbn [rbind].
  destruct (scan_down_cases 41 s lo (length s - 1)) as [[hi E2]| ->]; [|reflexivity]. exfalso.
  destruct (scan_up_inv _ _ _ _ _ E1) as (U1 & U2 & U3); [lia|].
  assert (x <> []) as Nx by (intros ->; apply NA; constructor).
  assert (1 <= length x) as Lx by (destruct x; [congruence|cbn; lia]).
  assert (length s - 1 < length s) as L1 by lia.
  destruct (scan_down_inv _ _ _ _ _ L1 E2) as (D1 & D2 & D3).
  assert (forall i c, nth_error x i = Some c -> nth_error s (14 + i) = Some c) as Sx.
  { intros i c N. unfold s. rewrite nth_error_app2 by (cbn; lia). replace (14 + i - _) with i by (cbn; lia). exact N. }
  assert (forall i c, nth_error x i = Some c -> 14 + i < lo \/ hi < 14 + i -> (c < 128)%N) as A.
  { intros i c N [H|H].
    - apply (scan_up_ascii 40 s U _ _ _ E1 (14 + i)); [lia|apply Sx, N].
    - assert (i < length x) by (apply nth_error_Some; congruence).
      apply (scan_down_ascii 41 s lo U _ _ L1 E2 (14 + i)); [lia|apply Sx, N]. }
  destruct (Nat.le_gt_cases hi lo) as [L|L].
  - apply NA. apply Forall_forall. intros c C. destruct (In_nth_error _ _ C) as (i & N).
    destruct (Nat.eq_dec (14 + i) lo) as [Q|Q]; [|apply (A i c N); lia].
    assert (i < length x) by (apply nth_error_Some; congruence). specialize (U3 ltac:(lia)). rewrite <- Q in U3.
    pose proof (Sx i c N) as N'. rewrite U3 in N'. injection N' as <-. reflexivity.
  - apply NE. destruct (low_found x lo hi E1 E2 L) as (p & y & q & E & P & Q & K1 & K2). exists p, y, q. split; [exact E|]. split; [exact P|]. split; [exact Q|].
    rewrite !app_length in K1. change (length (str "LowCardinality")) with 14 in K1. cbn [length] in K1.
    split; apply Forall_forall; intros c C; destruct (In_nth_error _ _ C) as (i & N).
    + assert (i < length p) by (apply nth_error_Some; congruence). apply (A i c); [|left; lia]. rewrite E, nth_error_app1 by lia. exact N.
    + apply (A (length p + 1 + length y + 1 + i) c); [|right; lia]. rewrite E, nth_error_app2 by lia.
      replace (length p + 1 + length y + 1 + i - length p) with (S (length y + S i)) by lia. cbn [nth_error]. rewrite nth_error_app2 by lia.
      replace (length y + S i - length y) with (S i) by lia. exact N.
Qed.
Lemma odd_panics s : is_utf8 s -> odd s -> classify s = Panic PIndex.
Proof.
  intros U O. destruct O as [k x I D|x A E].
  - assert (is_utf8 k) as K by (destruct I as [<-|[<-|[<-|[<-|[]]]]]; apply utf8_ascii; repeat constructor).
    pose proof (not_delimited k x K U D) as P. unfold classify.
    destruct I as [<-|[<-|[<-|[<-|[]]]]].
    + replace (match_str simple_names (str "Nullable" ++ x)) with (@None kind) by reflexivity.
      unfold parse_nullable. change (starts_with (str "Nullable") (str "Nullable" ++ x)) with true. cbv iota. change 9 with (length (str "Nullable") + 1). rewrite P. reflexivity.
    + replace (match_str simple_names (str "FixedString" ++ x)) with (@None kind) by reflexivity.
      replace (parse_nullable (str "FixedString" ++ x)) with (@Ok (option bytes) None) by reflexivity. cbn [rbind].
      unfold parse_fixed_string. change (starts_with (str "FixedString") (str "FixedString" ++ x)) with true. cbv iota. change 12 with (length (str "FixedString") + 1). rewrite P. reflexivity.
    + replace (match_str simple_names (str "Array" ++ x)) with (@None kind) by reflexivity.
      replace (parse_nullable (str "Array" ++ x)) with (@Ok (option bytes) None) by reflexivity. cbn [rbind].
      replace (parse_fixed_string (str "Array" ++ x)) with (@Ok (option N) None) by reflexivity. cbn [rbind].
      unfold parse_array. change (starts_with (str "Array") (str "Array" ++ x)) with true. cbv iota. change 6 with (length (str "Array") + 1). rewrite P. reflexivity.
    + replace (match_str simple_names (str "Map" ++ x)) with (@None kind) by reflexivity.
      replace (parse_nullable (str "Map" ++ x)) with (@Ok (option bytes) None) by reflexivity. cbn [rbind].
      replace (parse_fixed_string (str "Map" ++ x)) with (@Ok (option N) None) by reflexivity. cbn [rbind].
      replace (parse_array (str "Map" ++ x)) with (@Ok (option bytes) None) by reflexivity. cbn [rbind].
      unfold parse_map. change (starts_with (str "Map") (str "Map" ++ x)) with true. cbv iota. change 4 with (length (str "Map") + 1). rewrite P. reflexivity.
  - pose proof (low_odd x U A E) as P. set (s := str "LowCardinality" ++ x) in *. unfold classify.
    replace (match_str simple_names s) with (@None kind) by reflexivity.
    replace (parse_nullable s) with (@Ok (option bytes) None) by reflexivity. cbn [rbind].
    replace (parse_fixed_string s) with (@Ok (option N) None) by reflexivity. cbn [rbind].
    replace (parse_array s) with (@Ok (option bytes) None) by reflexivity. cbn [rbind].
    replace (parse_map s) with (@Ok (option (bytes * bytes)) None) by reflexivity. cbn [rbind].
    assert (parse_decimal s = Ok None) as ->.
    { unfold parse_decimal. destruct (_ <? _); [reflexivity|]. reflexivity. }
    cbn [rbind].
    replace (parse_enum8 s) with (@None (list (bytes * Z))) by reflexivity.
    replace (parse_enum16 s) with (@None (list (bytes * Z))) by reflexivity.
    replace (parse_date_time s) with (@None (option bytes)) by reflexivity.
    replace (parse_date_time64 s) with (@None (N * option bytes)) by reflexivity.
    replace (parse_agg s) with (@Ok (option (agg_func * bytes)) None) by reflexivity. cbn [rbind].
    rewrite P. reflexivity.
Qed.
Lemma classify_no_err s e : classify s <> Err e.
Proof.
  assert (S : forall s a b e, str_slice s a b <> Err e) by (intros t a b e'; destruct (slice_cases t a b) as [[x ->]| ->]; discriminate).
  assert (B : forall X (f : bytes -> res X) s a b e, (forall x, f x <> Err e) -> (do x <- str_slice s a b; f x) <> Err e).
  { intros X f t a b e' H. destruct (slice_cases t a b) as [[x ->]| ->]; [apply H|discriminate]. }
  unfold classify. destruct (match_str _ s); [discriminate|].
  assert (parse_nullable s <> Err e) as P1 by (unfold parse_nullable; destruct (starts_with _ _); [apply B; discriminate|discriminate]).
  destruct (parse_nullable s) as [[x|]|e1|p]; [discriminate| |cbn; congruence|discriminate]. cbn [rbind].
  assert (parse_fixed_string s <> Err e) as P2 by (unfold parse_fixed_string; destruct (starts_with _ _); [apply B; discriminate|discriminate]).
  destruct (parse_fixed_string s) as [[x|]|e1|p]; [discriminate| |cbn; congruence|discriminate]. cbn [rbind].
  assert (parse_array s <> Err e) as P3 by (unfold parse_array; destruct (starts_with _ _); [apply B; discriminate|discriminate]).
  destruct (parse_array s) as [[x|]|e1|p]; [discriminate| |cbn; congruence|discriminate]. cbn [rbind].
  assert (parse_map s <> Err e) as P4.
  { unfold parse_map; destruct (starts_with _ _); [|discriminate]. apply B. intros x. destruct (find_char 44 x); [|discriminate]. apply B. intros y. apply B. discriminate. }
  destruct (parse_map s) as [[[x y]|]|e1|p]; [discriminate| |cbn; congruence|discriminate]. cbn [rbind].
  assert (parse_decimal s <> Err e) as P5.
  { unfold parse_decimal. destruct (_ <? _); [discriminate|]. destruct (negb _); [discriminate|]. destruct (decimal_scan _ _ _ _ _ _) as [[[nb [po|]] [pc|]]|]; try discriminate. apply B. discriminate. }
  destruct (parse_decimal s) as [[[[x y] z]|]|e1|p]; [discriminate| |cbn; congruence|discriminate]. cbn [rbind].
  destruct (parse_enum8 s); [discriminate|]. destruct (parse_enum16 s); [discriminate|].
  destruct (parse_date_time s); [discriminate|]. destruct (parse_date_time64 s) as [[? ?]|]; [discriminate|].
  assert (parse_agg s <> Err e) as P6.
  { unfold parse_agg; destruct (_ && _); [|discriminate]. apply B. intros x. destruct (find_byte _ _); [|discriminate]. apply B. intros y. apply B. discriminate. }
  destruct (parse_agg s) as [[[x y]|]|e1|p]; [discriminate| |cbn; congruence|discriminate]. cbn [rbind].
  assert (parse_low_cardinality s <> Err e) as P7.
  { unfold parse_low_cardinality; destruct (starts_with _ _); [|discriminate].
    destruct (scan_up_cases 40 s (length s) 14) as [[lo ->]| ->]; [|discriminate]. cbn [rbind].
    destruct (scan_down_cases 41 s lo (length s - 1)) as [[hi ->]| ->]; [|discriminate]. cbn [rbind]. destruct (_ <=? _); [discriminate|]. apply B. discriminate. }
  destruct (parse_low_cardinality s) as [[x|]|e1|p]; [discriminate|discriminate|cbn; congruence|discriminate].
Qed.

(** ** Any string at all *)
Definition shrinks {X} (l : X -> list bytes) (s : bytes) (r : res (option X)) : Prop :=
  match r with
  | Ok (Some x) => Forall (fun i => length i < length s) (l x)
  | Ok None => True
  | Err _ => False
  | Panic p => p = PIndex
  end.
Lemma slice_len s a b x : str_slice s a b = Ok x -> a + length x = b /\ b <= length s.
Proof. intros E. destruct (slice_inv _ _ _ _ E) as (p & q & -> & L & M & _). split; [exact M|]. rewrite !app_length. lia. Qed.
Ltac on_slice x H :=
  match goal with |- context [str_slice ?s ?a ?b] => destruct (slice_cases s a b) as [[x H]|H]; rewrite H; cbn [rbind]; [apply slice_len in H|reflexivity] end.
Lemma classify_any s : shrinks nested s (classify s).
Proof.
  unfold classify. destruct (match_str simple_names s) as [k0|] eqn:M.
  { assert (forall l, Forall (fun p => nested (snd p) = []) l -> forall k, match_str l s = Some k -> nested k = []) as G.
    { induction l as [|[n k1] l IH]; intros F k2 E; [discriminate|]. inversion_clear F as [|? ? F1 F2]. cbn [match_str] in E.
      destruct (eq_ignore_case s n); [injection E as <-; exact F1|exact (IH F2 _ E)]. }
    cbn [shrinks]. rewrite (G simple_names) with (k := k0) by (exact M || (repeat constructor)). constructor. }
  assert (shrinks (fun i => [i]) s (parse_nullable s)) as P.
  { unfold parse_nullable. destruct (starts_with _ _); [|exact I]. on_slice x H. cbn [shrinks]. destruct (starts_with _ x); [exact I|]. repeat constructor. lia. }
  destruct (parse_nullable s) as [[x|]|e|p]; [exact P| |destruct P|exact P]. cbn [rbind]. clear P.
  assert (shrinks (fun i => []) s (parse_fixed_string s)) as P.
  { unfold parse_fixed_string. destruct (starts_with _ _); [|exact I]. on_slice x H. cbn [shrinks]. destruct (parse_uint _ _); [constructor|exact I]. }
  destruct (parse_fixed_string s) as [[x|]|e|p]; [constructor| |destruct P|exact P]. cbn [rbind]. clear P.
  assert (shrinks (fun i => [i]) s (parse_array s)) as P.
  { unfold parse_array. destruct (starts_with _ _); [|exact I]. on_slice x H. cbn [shrinks]. repeat constructor. lia. }
  destruct (parse_array s) as [[x|]|e|p]; [exact P| |destruct P|exact P]. cbn [rbind]. clear P.
  assert (shrinks (fun i => [fst i; snd i]) s (parse_map s)) as P.
  { unfold parse_map. destruct (starts_with _ _); [|exact I]. on_slice x H. destruct (find_char 44 x) as [c|]; [|exact I].
    on_slice y Hy. on_slice z Hz. cbn [shrinks fst snd].
    pose proof (trim_length y). pose proof (trim_length z). repeat constructor; lia. }
  destruct (parse_map s) as [[[x y]|]|e|p]; [exact P| |destruct P|exact P]. cbn [rbind]. clear P.
  assert (shrinks (fun i => []) s (parse_decimal s)) as P.
  { unfold parse_decimal. destruct (_ <? _); [exact I|]. destruct (negb _); [exact I|].
    destruct (decimal_scan _ _ _ _ _ _) as [[[nb [po|]] [pc|]]|]; try exact I. on_slice x H. cbn [shrinks].
    match goal with |- match ?o with Some _ => _ | None => _ end => destruct o; [constructor|exact I] end. }
  destruct (parse_decimal s) as [[[[x y] z]|]|e|p]; [constructor| |destruct P|exact P]. cbn [rbind]. clear P.
  destruct (parse_enum8 s); [constructor|]. destruct (parse_enum16 s); [constructor|].
  destruct (parse_date_time s); [constructor|]. destruct (parse_date_time64 s) as [[? ?]|]; [constructor|].
  assert (shrinks (fun i => [snd i]) s (parse_agg s)) as P.
  { unfold parse_agg. destruct (_ && _); [|exact I]. on_slice x H.
    destruct (trim_matches_inv is_paren x) as (p & q & E & _). apply (f_equal (@length _)) in E. rewrite !app_length in E.
    destruct (find_byte 44 _) as [c|]; [|exact I]. on_slice y Hy. on_slice z Hz. pose proof (trim_length z).
    cbn [shrinks]. destruct (agg_parse _); [|exact I]. repeat constructor. cbn [snd]. lia. }
  destruct (parse_agg s) as [[[x y]|]|e|p]; [exact P| |destruct P|exact P]. cbn [rbind]. clear P.
  assert (shrinks (fun i => [i]) s (parse_low_cardinality s)) as P.
  { unfold parse_low_cardinality; destruct (starts_with _ _); [|exact I].
    destruct (scan_up_cases 40 s (length s) 14) as [[lo ->]| ->]; [|reflexivity]. cbn [rbind].
    destruct (scan_down_cases 41 s lo (length s - 1)) as [[hi ->]| ->]; [|reflexivity]. cbn [rbind]. destruct (_ <=? _); [exact I|].
    on_slice x H. pose proof (trim_length x). repeat constructor. lia. }
  destruct (parse_low_cardinality s) as [[x|]|e|p]; [exact P|exact I|destruct P|exact P].
Qed.
