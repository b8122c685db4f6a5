(** Cutting text at characters. *)
From Coq Require Import String.
From Verif Require Import Base Utf8 Text SpecWire Utf8Proofs.
Open Scope list_scope. Open Scope nat_scope.

Lemma enc_shape c : unicode_scalar c -> exists b t, utf8_encode c = b :: t /\ is_cont b = false /\
  Forall (fun x => is_cont x = true) t /\ ((b < 128)%N <-> t = []).
Proof.
  intros [U _]. unfold utf8_encode.
  assert (K : forall x, is_cont (128 + x mod 64)%N = true).
  { intros x. pose proof (N.mod_upper_bound x 64 ltac:(discriminate)). unfold is_cont.
    destruct (N.leb_spec 128 (128 + x mod 64)); [|lia]. destruct (N.ltb_spec (128 + x mod 64) 192); [reflexivity|lia]. }
  assert (B : forall x, (192 <= x)%N -> is_cont x = false).
  { intros x H. unfold is_cont. destruct (N.ltb_spec x 192); [lia|apply andb_false_r]. }
  destruct (N.ltb_spec c 128); [|destruct (N.ltb_spec c 2048); [|destruct (N.ltb_spec c 65536)]].
  - exists c, []. split; [reflexivity|]. split; [|split; [constructor|tauto]].
    unfold is_cont. destruct (N.leb_spec 128 c); [lia|reflexivity].
  - do 2 eexists. split; [reflexivity|]. split; [apply B; lia|]. split; [repeat constructor; apply K|]. split; [lia|discriminate].
  - do 2 eexists. split; [reflexivity|]. split; [apply B; lia|]. split; [repeat constructor; apply K|]. split; [lia|discriminate].
  - do 2 eexists. split; [reflexivity|]. split; [apply B; lia|]. split; [repeat constructor; apply K|]. split; [lia|discriminate].
Qed.

Lemma utf8_nil : is_utf8 [].
Proof. exists []. split; [constructor|reflexivity]. Qed.
Lemma utf8_app a b : is_utf8 a -> is_utf8 b -> is_utf8 (a ++ b).
Proof.
  intros (cs & F & ->) (ds & G & ->). exists (cs ++ ds). split; [apply Forall_app; auto|].
  rewrite map_app, concat_app. reflexivity.
Qed.
Lemma utf8_ascii s : Forall (fun b => (b < 128)%N) s -> is_utf8 s.
Proof.
  intros H. apply utf8_valid_spec, ascii_utf8. apply forallb_forall. rewrite Forall_forall in H.
  intros b Hb. apply N.ltb_lt. auto.
Qed.
Lemma utf8_head b r : is_utf8 (b :: r) -> is_cont b = false.
Proof.
  intros ([|c cs] & F & E); [discriminate|]. inversion_clear F as [|? ? U F']. destruct (enc_shape c U) as (b' & t & E' & B & _).
  cbn [map concat] in E. rewrite E' in E. injection E as -> _. exact B.
Qed.
Lemma utf8_app_l p r : is_utf8 p -> is_utf8 (p ++ r) -> is_utf8 r.
Proof.
  intros (cs & F & ->). induction F as [|c cs U F IH]; [auto|]. cbn [map concat]. rewrite <- app_assoc. intros H. apply IH.
  apply utf8_valid_spec. rewrite <- (utf8_valid_encode c) by exact U. apply utf8_valid_spec. exact H.
Qed.

(** A text can be cut in front of a byte that begins a character. *)
Lemma utf8_cut p r : is_utf8 (p ++ r) -> (p = [] \/ r = [] \/ exists b r', r = b :: r' /\ is_cont b = false) ->
  is_utf8 p /\ is_utf8 r.
Proof.
  intros (cs & F & E). revert p E. induction F as [|c cs U F IH]; intros p E B.
  - apply app_eq_nil in E as [-> ->]. split; apply utf8_nil.
  - destruct (enc_shape c U) as (b & t & Ec & Hb & Ht & _). cbn [map concat] in E. rewrite Ec in E.
    destruct p as [|x p]; [cbn [app] in E; subst r; split; [apply utf8_nil|]; exists (c :: cs); split; [constructor; assumption|cbn [map concat]; rewrite Ec; reflexivity]|].
    injection E as -> E.
    assert (length t <= length p \/ length p < length t) as [L|L] by lia.
    + (* the character ends within [p] *)
      assert (p = t ++ skipn (length t) p) as P.
      { rewrite <- (firstn_skipn (length t) p) at 1. f_equal.
        assert (firstn (length t) (p ++ r) = firstn (length t) (t ++ concat (map utf8_encode cs))) as Q by (rewrite E; reflexivity).
        rewrite !firstn_app in Q. replace (length t - length p) with 0 in Q by lia.
        rewrite Nat.sub_diag, !firstn_O, !app_nil_r, (firstn_all2 t) in Q by lia. exact Q. }
      set (p' := skipn (length t) p) in *. rewrite P in E. rewrite <- app_assoc in E. apply app_inv_head in E.
      destruct (IH p' E) as [I1 I2].
      { destruct B as [B|B]; [discriminate|]. tauto. }
      split; [|exact I2]. rewrite P. change (is_utf8 ((b :: t) ++ p')). rewrite <- Ec. apply is_utf8_cons; assumption.
    + (* the cut is within the character *)
      exfalso. destruct B as [B|[B|(y & r' & -> & B)]]; [discriminate| |].
      * subst r. rewrite app_nil_r in E. rewrite E, app_length in L. lia.
      * assert (nth_error (t ++ concat (map utf8_encode cs)) (length p) = Some y) as N.
        { rewrite <- E. rewrite nth_error_app2, Nat.sub_diag by lia. reflexivity. }
        rewrite nth_error_app1 in N by lia. rewrite Forall_forall in Ht. rewrite (Ht y (nth_error_In _ _ N)) in B. discriminate B.
Qed.
Lemma utf8_app_r r q : is_utf8 q -> is_utf8 (r ++ q) -> is_utf8 r.
Proof.
  intros Q H. apply (utf8_cut r q H). right. destruct q as [|b q]; [auto|]. right. exists b, q. split; [reflexivity|].
  exact (utf8_head _ _ Q).
Qed.
Lemma not_cont b : (b < 128)%N -> is_cont b = false.
Proof. intros H. unfold is_cont. destruct (N.leb_spec 128 b); [lia|reflexivity]. Qed.
Lemma utf8_at p b r : is_utf8 (p ++ b :: r) -> (b < 128)%N -> is_utf8 p /\ is_utf8 r.
Proof.
  intros H B. destruct (utf8_cut p (b :: r) H) as [P R]; [right; right; exists b, r; split; [reflexivity|apply not_cont, B]|].
  split; [exact P|]. apply (utf8_app_l [b]); [apply utf8_ascii; repeat constructor; exact B|exact R].
Qed.
Lemma utf8_wide b r : is_utf8 (b :: r) -> (128 <= b)%N -> exists x r', r = x :: r' /\ is_cont x = true.
Proof.
  intros ([|c cs] & F & E) B; [discriminate|]. inversion_clear F as [|? ? U F']. destruct (enc_shape c U) as (b' & t & E' & _ & T & Z).
  cbn [map concat] in E. rewrite E' in E. injection E as -> E. destruct t as [|x t]; [assert (b' < 128)%N by tauto; lia|].
  inversion_clear T. subst r. exists x. eexists. split; [reflexivity|assumption].
Qed.
Lemma utf8_last p d : is_utf8 (p ++ [d]) -> (128 <= d)%N -> is_cont d = true.
Proof.
  intros H D. destruct (is_cont d) eqn:C; [reflexivity|]. exfalso.
  destruct (utf8_cut p [d] H) as [_ Q]; [right; right; exists d, []; auto|].
  destruct (utf8_wide d [] Q D) as (x & r & E & _). discriminate E.
Qed.

(** [&s[a..b]] *)
Lemma boundary_app p r : char_boundary (p ++ r) (length p) = true <->
  (p = [] \/ r = [] \/ exists b r', r = b :: r' /\ is_cont b = false).
Proof.
  unfold char_boundary. destruct p as [|x p].
  - cbn [length Nat.eqb orb]. tauto.
  - change (length (x :: p) =? 0) with false. cbn [orb]. destruct r as [|b r].
    + rewrite app_nil_r, Nat.eqb_refl. tauto.
    + rewrite app_length. destruct (Nat.eqb_spec (length (x :: p)) (length (x :: p) + length (b :: r))) as [E|_]; [cbn [length] in E; lia|].
      destruct (Nat.ltb_spec (length (x :: p)) (length (x :: p) + length (b :: r))) as [_|E]; [|cbn [length] in E; lia].
      rewrite app_nth2, Nat.sub_diag by lia. cbn [nth andb orb]. split.
      * intros H. right. right. exists b, r. split; [reflexivity|]. destruct (is_cont b); [discriminate|reflexivity].
      * intros [H|[H|(b' & r' & H & C)]]; [discriminate|discriminate|]. injection H as -> ->. rewrite C. reflexivity.
Qed.
Lemma utf8_boundary p r : is_utf8 p -> is_utf8 r -> char_boundary (p ++ r) (length p) = true.
Proof.
  intros P R. apply boundary_app. destruct r as [|b r]; [auto|]. right. right. exists b, r. split; [reflexivity|]. exact (utf8_head _ _ R).
Qed.
Lemma slice_app p x q : char_boundary (p ++ x ++ q) (length p) = true -> char_boundary ((p ++ x) ++ q) (length (p ++ x)) = true ->
  str_slice (p ++ x ++ q) (length p) (length p + length x) = Ok x.
Proof.
  intros A B. unfold str_slice. rewrite <- app_length. rewrite A. rewrite app_assoc, B.
  destruct (Nat.leb_spec (length p) (length (p ++ x))) as [_|L]; [|rewrite app_length in L; lia].
  destruct (Nat.leb_spec (length (p ++ x)) (length ((p ++ x) ++ q))) as [_|L]; [|rewrite !app_length in L; lia].
  cbn [andb]. f_equal. rewrite <- app_assoc, skipn_app, skipn_all2, Nat.sub_diag by lia. cbn [app skipn].
  rewrite app_length. replace (length p + length x - length p) with (length x) by lia.
  rewrite firstn_app, Nat.sub_diag, firstn_O, app_nil_r. apply firstn_all2. lia.
Qed.
Lemma slice_utf8 p x q : is_utf8 p -> is_utf8 x -> is_utf8 q -> str_slice (p ++ x ++ q) (length p) (length p + length x) = Ok x.
Proof.
  intros P X Q. apply slice_app; apply utf8_boundary; auto using utf8_app.
Qed.
