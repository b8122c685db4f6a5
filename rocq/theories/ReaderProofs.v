(** General facts about reader programs, each by one induction on the program. *)
From Verif Require Import Base Reader.

Lemma lenN_app {A} (l r : list A) : lenN (l ++ r) = (lenN l + lenN r)%N.
Proof. unfold lenN. rewrite app_length. lia. Qed.

Lemma lenN_cons {A} (x : A) (l : list A) : lenN (x :: l) = (1 + lenN l)%N.
Proof. unfold lenN. cbn [length]. lia. Qed.

Lemma to_nat_lenN {A} (l : list A) : N.to_nat (lenN l) = length l.
Proof. unfold lenN. lia. Qed.

Lemma firstn_lenN_app {A} (l r : list A) : firstn (N.to_nat (lenN l)) (l ++ r) = l.
Proof. rewrite to_nat_lenN, firstn_app, Nat.sub_diag, firstn_all. cbn. apply app_nil_r. Qed.

Lemma skipn_lenN_app {A} (l r : list A) : skipn (N.to_nat (lenN l)) (l ++ r) = r.
Proof. rewrite to_nat_lenN, skipn_app, Nat.sub_diag, skipn_all. reflexivity. Qed.

Lemma run_bind {A B} (p : P A) (f : A -> P B) s :
  run (pbind p f) s =
  match run p s with
  | Ok (a, r) => run (f a) r
  | Err e => Err e
  | Panic q => Panic q
  end.
Proof.
  revert s. induction p as [a|e|q|n k IH]; intros s; cbn; try reflexivity.
  destruct (n <=? lenN s)%N; [apply IH | reflexivity].
Qed.

Lemma run_get {A} n (k : bytes -> P A) l r :
  lenN l = n -> run (Get n k) (l ++ r) = run (k l) r.
Proof.
  intros <-. cbn [run].
  rewrite lenN_app.
  destruct (N.leb_spec (lenN l) (lenN l + lenN r)); [|lia].
  rewrite firstn_lenN_app, skipn_lenN_app. reflexivity.
Qed.

Lemma run_get_short {A} n (k : bytes -> P A) s :
  (lenN s < n)%N -> run (Get n k) s = Err EWouldBlock.
Proof. intros H. cbn. destruct (N.leb_spec n (lenN s)); [lia|reflexivity]. Qed.

(** Splitting off [n] available bytes. *)
Lemma split_avail (s : bytes) n :
  (n <= lenN s)%N ->
  lenN (firstn (N.to_nat n) s) = n /\
  s = firstn (N.to_nat n) s ++ skipn (N.to_nat n) s.
Proof.
  intros H. split.
  - unfold lenN in *. rewrite firstn_length. lia.
  - symmetry. apply firstn_skipn.
Qed.

(** A successful parse consumes a prefix and leaves the rest. *)
Lemma run_consumes {A} (p : P A) s a r :
  run p s = Ok (a, r) -> exists u, s = u ++ r.
Proof.
  revert s. induction p as [a0|e|q|n k IH]; intros s; cbn; intros H; try discriminate.
  - injection H as -> ->. exists []. reflexivity.
  - destruct (N.leb_spec n (lenN s)) as [Hn|Hn]; [|discriminate].
    apply IH in H. destruct H as [u Hu].
    exists (firstn (N.to_nat n) s ++ u).
    rewrite <- app_assoc, <- Hu. symmetry. apply firstn_skipn.
Qed.

(** Bytes after a complete message do not matter. *)
Lemma run_extend {A} (p : P A) s a r t :
  run p s = Ok (a, r) -> run p (s ++ t) = Ok (a, r ++ t).
Proof.
  revert s. induction p as [a0|e|q|n k IH]; intros s; intros H; try discriminate.
  - cbn in *. injection H as -> ->. reflexivity.
  - cbn [run] in H. destruct (N.leb_spec n (lenN s)) as [Hn|Hn]; [|discriminate].
    destruct (split_avail s n Hn) as [Hl Hs].
    rewrite Hs at 1. rewrite <- app_assoc, run_get by exact Hl. apply IH, H.
Qed.

Lemma run_extend_err {A} (p : P A) s e t :
  run p s = Err e -> e <> EWouldBlock -> run p (s ++ t) = Err e.
Proof.
  revert s. induction p as [a0|e0|q|n k IH]; intros s H He; try discriminate.
  - cbn in *. exact H.
  - cbn [run] in H. destruct (N.leb_spec n (lenN s)) as [Hn|Hn]; [|congruence].
    destruct (split_avail s n Hn) as [Hl Hs].
    rewrite Hs at 1. rewrite <- app_assoc, run_get by exact Hl. apply IH; assumption.
Qed.

Lemma run_extend_panic {A} (p : P A) s q t :
  run p s = Panic q -> run p (s ++ t) = Panic q.
Proof.
  revert s. induction p as [a0|e0|q0|n k IH]; intros s H; try discriminate.
  - cbn in *. exact H.
  - cbn [run] in H. destruct (N.leb_spec n (lenN s)) as [Hn|Hn]; [|congruence].
    destruct (split_avail s n Hn) as [Hl Hs].
    rewrite Hs at 1. rewrite <- app_assoc, run_get by exact Hl. apply IH; assumption.
Qed.

(** Prefixes: if [u ++ r] starts with a message [u], each strict prefix of [u]
    asks for more. *)
Lemma app_split_longer {A} (v w u1 u2 : list A) :
  v ++ w = u1 ++ u2 -> (length u1 <= length v)%nat ->
  exists v2, v = u1 ++ v2 /\ u2 = v2 ++ w.
Proof.
  revert v. induction u1 as [|x u1 IH]; intros v H L.
  - exists v. split; [reflexivity | symmetry; exact H].
  - destruct v as [|y v]; [cbn in L; lia|].
    cbn in H, L. injection H as -> H. destruct (IH v H ltac:(lia)) as [v2 [-> ->]].
    exists v2. split; reflexivity.
Qed.

Lemma run_strict_prefix {A} (p : P A) u r a v w :
  run p (u ++ r) = Ok (a, r) ->
  u = v ++ w -> w <> [] ->
  run p v = Err EWouldBlock.
Proof.
  revert u v. induction p as [a0|e0|q0|n k IH]; intros u v H Hu Hw; try discriminate.
  - cbn in H. injection H as _ Hr.
    exfalso. apply (f_equal (@length N)) in Hr. rewrite Hu, !app_length in Hr.
    destruct w; [congruence|]. cbn in Hr. lia.
  - cbn [run] in H |- *.
    destruct (N.leb_spec n (lenN v)) as [Hv|Hv]; [|reflexivity].
    destruct (N.leb_spec n (lenN (u ++ r))) as [Hn|Hn]; [|discriminate].
    destruct (split_avail v n Hv) as [Hl Hs].
    set (v1 := firstn (N.to_nat n) v) in *. set (v2 := skipn (N.to_nat n) v) in *.
    assert (E : u ++ r = v1 ++ (v2 ++ w) ++ r).
    { rewrite Hu, Hs, <- !app_assoc. reflexivity. }
    rewrite E in H. rewrite <- Hl, firstn_lenN_app, skipn_lenN_app in H.
    apply (IH v1 (v2 ++ w)); auto.
Qed.

(** Reading twice the same input gives the same result whatever the rest. *)
Lemma run_app_invariant {A} (p : P A) u r r' a :
  run p (u ++ r) = Ok (a, r) -> run p (u ++ r') = Ok (a, r').
Proof.
  revert u. induction p as [a0|e0|q0|n k IH]; intros u H; try discriminate.
  - cbn in *. injection H as -> Hr. assert (u = []) as ->.
    { apply (f_equal (@length N)) in Hr. rewrite app_length in Hr.
      destruct u; [reflexivity|cbn in Hr; lia]. }
    reflexivity.
  - cbn [run] in H. destruct (N.leb_spec n (lenN (u ++ r))) as [Hn|Hn]; [|discriminate].
    destruct (N.le_gt_cases n (lenN u)) as [Hu|Hu].
    + destruct (split_avail u n Hu) as [Hl Hs].
      set (v1 := firstn (N.to_nat n) u) in *. set (v2 := skipn (N.to_nat n) u) in *.
      rewrite Hs in H |- *. rewrite <- app_assoc in H |- *.
      rewrite <- Hl, firstn_lenN_app, skipn_lenN_app in H.
      rewrite run_get by exact Hl. apply IH, H.
    + apply run_consumes in H. destruct H as [x Hx].
      apply (f_equal (@length N)) in Hx. rewrite skipn_length, app_length in Hx.
      rewrite app_length in Hx. unfold lenN in *. rewrite app_length in Hn. lia.
Qed.

(** Counted loops. *)
Lemma run_prepeat {A} (p : P A) (enc : A -> bytes) l r :
  (forall a r', In a l -> run p (enc a ++ r') = Ok (a, r')) ->
  run (prepeat (length l) p) (concat (map enc l) ++ r) = Ok (l, r).
Proof.
  induction l as [|x l IH]; intros H; [reflexivity|].
  cbn [length prepeat map concat]. rewrite run_bind, <- app_assoc, H by (left; reflexivity).
  rewrite run_bind, IH by (intros a r' Ha; apply H; right; exact Ha). reflexivity.
Qed.

(** Loops with binary fuel behave like loops with unary fuel. *)
Fixpoint iter_nat {S A} (body : S -> P (S + A)) (n : nat) (s : S) : P (S + A) :=
  match n with
  | O => Ret (inl s)
  | Datatypes.S n' =>
      let! r := body s in
      match r with inl s' => iter_nat body n' s' | inr a => Ret (inr a) end
  end.

Lemma iter_nat_add {S A} (body : S -> P (S + A)) n m s inp :
  run (iter_nat body (n + m) s) inp =
  run (let! r := iter_nat body n s in
       match r with inl s' => iter_nat body m s' | inr a => Ret (inr a) end) inp.
Proof.
  revert s inp. induction n as [|n IH]; intros s inp; [reflexivity|].
  cbn [iter_nat Nat.add]. rewrite !run_bind.
  destruct (run (body s) inp) as [[[s'|a] r]|e|q]; cbn; try reflexivity.
  rewrite IH, run_bind. reflexivity.
Qed.

Lemma iter_pos_nat {S A} (body : S -> P (S + A)) p s inp :
  run (iter_pos body p s) inp = run (iter_nat body (Pos.to_nat p) s) inp.
Proof.
  revert s inp. induction p as [p IH|p IH|]; intros s inp.
  - replace (Pos.to_nat p~1) with (1 + (Pos.to_nat p + Pos.to_nat p))%nat by lia.
    cbn [iter_pos Nat.add iter_nat]. rewrite !run_bind.
    destruct (run (body s) inp) as [[[s'|a] r]|e|q]; try reflexivity.
    rewrite iter_nat_add, !run_bind, IH.
    destruct (run (iter_nat body (Pos.to_nat p) s') r) as [[[s''|a] r'']|e|q]; try reflexivity.
    apply IH.
  - replace (Pos.to_nat p~0) with (Pos.to_nat p + Pos.to_nat p)%nat by lia.
    cbn [iter_pos]. rewrite iter_nat_add, !run_bind, IH.
    destruct (run (iter_nat body (Pos.to_nat p) s) inp) as [[[s''|a] r'']|e|q]; try reflexivity.
    apply IH.
  - change (Pos.to_nat 1) with 1%nat. cbn [iter_pos iter_nat]. rewrite run_bind.
    destruct (run (body s) inp) as [[[s'|a] r]|e|q]; reflexivity.
Qed.

Definition bound_nat : nat := Pos.to_nat loop_bound.

Lemma bound_nat_spec n : (n <= bound_nat)%nat <-> (N.of_nat n <= 2 ^ 64)%N.
Proof.
  assert (E : N.of_nat bound_nat = (2 ^ 64)%N).
  { unfold bound_nat. rewrite positive_nat_N. reflexivity. }
  lia.
Qed.
Lemma bound_nat_eq : Pos.to_nat loop_bound = bound_nat.
Proof. unfold bound_nat. reflexivity. Qed.
Global Opaque bound_nat.

Lemma ploop_run {S A} (body : S -> P (S + A)) s inp :
  run (ploop body s) inp =
  match run (iter_nat body bound_nat s) inp with
  | Ok (inl _, _) => Panic PFuel
  | Ok (inr a, r) => Ok (a, r)
  | Err e => Err e
  | Panic q => Panic q
  end.
Proof.
  unfold ploop. rewrite run_bind, iter_pos_nat, bound_nat_eq.
  destruct (run (iter_nat body bound_nat s) inp) as [[[s'|a] r]|e|q]; reflexivity.
Qed.

Lemma iter_nat_done {S A} (body : S -> P (S + A)) k n s inp a r :
  run (iter_nat body k s) inp = Ok (inr a, r) -> (k <= n)%nat ->
  run (iter_nat body n s) inp = Ok (inr a, r).
Proof.
  revert n s inp. induction k as [|k IH]; intros n s inp H L; [discriminate|].
  destruct n as [|n]; [lia|]. cbn [iter_nat] in *. rewrite run_bind in *.
  destruct (run (body s) inp) as [[[s'|a'] r']|e|q]; try discriminate; [|exact H].
  apply IH; [exact H|lia].
Qed.

Lemma ploop_ok {S A} (body : S -> P (S + A)) k s inp a r :
  run (iter_nat body k s) inp = Ok (inr a, r) -> (N.of_nat k <= 2 ^ 64)%N ->
  run (ploop body s) inp = Ok (a, r).
Proof.
  intros H L. rewrite ploop_run.
  rewrite (iter_nat_done body k bound_nat s inp a r H) by (apply bound_nat_spec, L).
  reflexivity.
Qed.

Lemma iter_nat_err {S A} (body : S -> P (S + A)) k n s inp e :
  run (iter_nat body k s) inp = Err e -> (k <= n)%nat -> run (iter_nat body n s) inp = Err e.
Proof.
  revert n s inp. induction k as [|k IH]; intros n s inp H L; [discriminate H|].
  destruct n as [|n]; [lia|]. cbn [iter_nat] in *. rewrite run_bind in *.
  destruct (run (body s) inp) as [[[s'|a] r]|e'|q]; try exact H. apply IH; [exact H|lia].
Qed.

Lemma ploop_err {S A} (body : S -> P (S + A)) k s inp e :
  run (iter_nat body k s) inp = Err e -> (N.of_nat k <= 2 ^ 64)%N -> run (ploop body s) inp = Err e.
Proof.
  intros H L. rewrite ploop_run.
  rewrite (iter_nat_err body k bound_nat s inp e H) by (apply bound_nat_spec, L). reflexivity.
Qed.

(** A loop that reads at least a byte per round ends within the bound on any
    buffer shorter than 2^64 bytes: an invariant argument. *)
Lemma iter_nat_inv {S A} (body : S -> P (S + A)) (I : S -> bytes -> Prop)
    (Q : res (A * bytes) -> Prop) n s inp :
  (forall s inp, I s inp ->
     match run (body s) inp with
     | Ok (inl s', r) => I s' r /\ (length r < length inp)%nat
     | Ok (inr a, r) => Q (Ok (a, r))
     | Err e => Q (Err e)
     | Panic q => Q (Panic q)
     end) ->
  I s inp -> (length inp < n)%nat ->
  match run (iter_nat body n s) inp with
  | Ok (inl _, _) => False
  | Ok (inr a, r) => Q (Ok (a, r))
  | Err e => Q (Err e)
  | Panic q => Q (Panic q)
  end.
Proof.
  intros Hb. revert s inp. induction n as [|n IH]; intros s inp HI L; [lia|].
  cbn [iter_nat]. rewrite run_bind. specialize (Hb s inp HI).
  destruct (run (body s) inp) as [[[s'|a] r]|e|q]; try exact Hb.
  destruct Hb as [HI' L']. apply IH; [exact HI'|lia].
Qed.

Lemma ploop_inv {S A} (body : S -> P (S + A)) (I : S -> bytes -> Prop)
    (Q : res (A * bytes) -> Prop) s inp :
  (forall s inp, I s inp ->
     match run (body s) inp with
     | Ok (inl s', r) => I s' r /\ (length r < length inp)%nat
     | Ok (inr a, r) => Q (Ok (a, r))
     | Err e => Q (Err e)
     | Panic q => Q (Panic q)
     end) ->
  I s inp -> (lenN inp < 2 ^ 64)%N ->
  Q (run (ploop body s) inp).
Proof.
  intros Hb HI L. rewrite ploop_run.
  assert (L' : (length inp < bound_nat)%nat).
  { assert (H : (Datatypes.S (length inp) <= bound_nat)%nat); [|lia].
    apply bound_nat_spec. unfold lenN in L. lia. }
  pose proof (iter_nat_inv body I Q bound_nat s inp Hb HI L') as H.
  destruct (run (iter_nat body bound_nat s) inp) as [[[s'|a] r]|e|q]; [contradiction| | |];
  exact H.
Qed.

(** Counted loops with a binary count. *)
Lemma prepeat_add {A} (p : P A) n m s :
  run (prepeat (n + m) p) s =
  run (let! xs := prepeat n p in let! ys := prepeat m p in Ret (xs ++ ys)) s.
Proof.
  revert s. induction n as [|n IH]; intros s.
  - cbn [Nat.add prepeat pbind]. rewrite run_bind. destruct (run (prepeat m p) s) as [[ys r]|e|q]; reflexivity.
  - cbn [Nat.add prepeat]. rewrite !run_bind. destruct (run p s) as [[x r]|e|q]; try reflexivity.
    rewrite !run_bind, IH, run_bind. destruct (run (prepeat n p) r) as [[xs r']|e|q]; try reflexivity.
    cbn [run]. rewrite !run_bind. destruct (run (prepeat m p) r') as [[ys r'']|e|q]; reflexivity.
Qed.

Lemma prepeat_pos_nat {A} (p : P A) q s :
  run (prepeat_pos q p) s = run (prepeat (Pos.to_nat q) p) s.
Proof.
  revert s. induction q as [q IH|q IH|]; intros s.
  - replace (Pos.to_nat q~1) with (1 + (Pos.to_nat q + Pos.to_nat q))%nat by lia.
    cbn [prepeat_pos Nat.add prepeat]. rewrite !run_bind. destruct (run p s) as [[x r]|e|z]; try reflexivity.
    rewrite !run_bind, prepeat_add, run_bind, IH.
    destruct (run (prepeat (Pos.to_nat q) p) r) as [[xs r']|e|z]; try reflexivity.
    rewrite !run_bind, IH. destruct (run (prepeat (Pos.to_nat q) p) r') as [[ys r'']|e|z]; reflexivity.
  - replace (Pos.to_nat q~0) with (Pos.to_nat q + Pos.to_nat q)%nat by lia.
    cbn [prepeat_pos]. rewrite prepeat_add, !run_bind, IH.
    destruct (run (prepeat (Pos.to_nat q) p) s) as [[xs r']|e|z]; try reflexivity.
    rewrite !run_bind, IH. destruct (run (prepeat (Pos.to_nat q) p) r') as [[ys r'']|e|z]; reflexivity.
  - change (Pos.to_nat 1) with 1%nat. cbn [prepeat_pos prepeat]. rewrite !run_bind.
    destruct (run p s) as [[x r]|e|z]; reflexivity.
Qed.

Lemma prepeatN_nat {A} (p : P A) n s : run (prepeatN n p) s = run (prepeat (N.to_nat n) p) s.
Proof. destruct n as [|q]; [reflexivity|]. cbn [prepeatN]. rewrite prepeat_pos_nat. reflexivity. Qed.

Lemma run_prepeatN {A} (p : P A) (enc : A -> bytes) l n r :
  N.to_nat n = length l ->
  (forall a r', In a l -> run p (enc a ++ r') = Ok (a, r')) ->
  run (prepeatN n p) (concat (map enc l) ++ r) = Ok (l, r).
Proof. intros E H. rewrite prepeatN_nat, E. apply run_prepeat, H. Qed.
