(** Lemmas: clear cells print differently. *)
From Coq Require Import String Lia.
From Verif Require Import Base Bytes Utf8 Types Text Decimal DateTime Values Columns Block Print SpecNum SpecPrint TextProofs DecimalProofs PropDecimal PrintProofs.
Open Scope list_scope. Open Scope Z_scope.

Lemma local_parts s : -719528 * 86400 <= s < 2932897 * 86400 ->
  iso_date (civil (s / 86400)) (date_text (s / 86400)) /\ iso_clock (s mod 86400) (clock_text (s mod 86400)).
Proof.
  intros H. split.
  - apply date_iso. split; [apply Z.div_le_lower_bound; lia|apply Z.div_lt_upper_bound; lia].
  - apply clock_iso, Z.mod_pos_bound. lia.
Qed.
Lemma local_inj a b r s : -719528 * 86400 <= a < 2932897 * 86400 -> -719528 * 86400 <= b < 2932897 * 86400 ->
  local_text a ++ r = local_text b ++ s -> a = b /\ r = s.
Proof.
  intros A B E. destruct (local_parts a A) as [DA CA], (local_parts b B) as [DB CB]. unfold local_text in E. rewrite <- !app_assoc in E.
  destruct (iso_date_inj _ _ _ _ _ _ DA DB E) as [D E']. apply civil_inj in D. apply app_same_length in E' as [_ E']; [|reflexivity].
  destruct (iso_clock_inj _ _ _ _ _ _ CA CB E') as [C ->]. split; [|reflexivity].
  rewrite (Z.div_mod a 86400), (Z.div_mod b 86400), D, C by lia. reflexivity.
Qed.

Section Clear.
Variable float_text : nat -> Z -> bytes.
Variable ipv6_text : bytes -> bytes.
Variable offset : bytes -> Z -> Z.
Variable rfc2822 : Z -> N -> bytes -> res bytes.
Variable zone : bytes.
Notation show := (show_ref float_text ipv6_text offset rfc2822 false).
Notation clear := (clear offset zone).

Definition entry (kv : value * value) : res bytes :=
  do x <- show (fst kv); do y <- show (snd kv); Ok (x ++ str "-" ++ y).
Lemma show_array t vs : show (VArray t vs) = do cells <- mapM show vs; Ok (listed cells).
Proof.
  cbn [show_ref]. f_equal. induction vs as [|v vs IH]; [reflexivity|]. cbn [mapM]. rewrite <- IH. reflexivity.
Qed.
Lemma show_map k w kvs : show (VMap k w kvs) = do cells <- mapM entry kvs; Ok (listed cells).
Proof.
  cbn [show_ref]. f_equal. induction kvs as [|[a b] kvs IH]; [reflexivity|]. cbn [mapM]. rewrite <- IH. unfold entry. cbn [fst snd].
  destruct (show a); [|reflexivity|reflexivity]. cbn [rbind]. destruct (show b); reflexivity.
Qed.
Lemma mapM_ok {A B} (f : A -> res B) l : Forall (fun a => exists b, f a = Ok b) l -> exists bs, mapM f l = Ok bs /\ Forall2 (fun a b => f a = Ok b) l bs.
Proof.
  induction 1 as [|a l (b & E) _ (bs & IH & F)]; [exists []; split; [reflexivity|constructor]|].
  exists (b :: bs). cbn [mapM]. rewrite E, IH. split; [reflexivity|constructor; assumption].
Qed.
Lemma mapM_inv {A B} (f : A -> res B) l : forall bs, mapM f l = Ok bs -> Forall2 (fun a b => f a = Ok b) l bs.
Proof.
  induction l as [|a l IH]; intros bs E; cbn [mapM] in E; [injection E as <-; constructor|].
  destruct (f a) as [b|e|p] eqn:F; try discriminate E. cbn [rbind] in E. destruct (mapM f l) as [bs'|e|p]; try discriminate E. injection E as <-.
  constructor; [exact F|]. apply IH. reflexivity.
Qed.
Definition starts (t : sqltype) (x : bytes) : Prop :=
  exists c r, x = c :: r /\ c <> 93%N /\ (never_null t = true -> c <> 78%N).
Lemma digit_starts t c r : is_digit c = true -> starts t (c :: r).
Proof. intros D. exists c, r. split; [reflexivity|]. apply is_digit_iff in D. lia. Qed.
Lemma print_Z_starts t z r : starts t (print_Z z ++ r).
Proof.
  unfold print_Z. destruct (z <? 0); [exists 45%N, (print_N (Z.to_N (- z)) ++ r); split; [reflexivity|]; split; discriminate|].
  destruct (print_N_head (Z.to_N z)) as (c & x & -> & D). apply digit_starts, D.
Qed.
Lemma fixed_starts t w z a r : fixed (S w) z a -> starts t (a ++ r).
Proof.
  intros (ds & -> & D & L & _). destruct ds as [|d ds]; [discriminate L|]. apply digit_starts. apply (digit_chars (d :: ds)) in D. inversion_clear D. assumption.
Qed.
Lemma clear_shows t : forall v, clear t v -> exists x, show v = Ok x /\ starts t x.
Proof.
  induction t as [s| |n| |d| | | |t IH|t IH|t IH|p s|vals|vals|f t IH|k IHk w IHw]; intros v C; cbn [SpecPrint.clear] in C; try (destruct C; fail).
  - destruct s; try (destruct C; fail); try (destruct C as (z & ->); eexists; split; [reflexivity|]; rewrite <- (app_nil_r (num_text _ _ _)); apply print_Z_starts).
    destruct C as [-> | ->]; (eexists; split; [reflexivity|]); eexists _, _; (split; [reflexivity|]); split; discriminate.
  - destruct C as (d & -> & B). eexists. split; [reflexivity|]. assert (iso_date (civil (Z.of_N d)) (date_text (Z.of_N d))) as I by (apply date_iso; lia).
    destruct (civil (Z.of_N d)) as [[y m] dd]. destruct I as (a & b & c & A & _ & _ & ->). eapply fixed_starts, A.
  - destruct d; try (destruct C; fail). destruct C as (s & o & -> & B & O & X). eexists. split; [reflexivity|]. unfold local_text.
    rewrite X. destruct (local_parts (Z.of_N s + o)) as [I _]; [change (2 ^ 32)%N with 4294967296%N in B; lia|].
    destruct (civil _) as [[y m] dd]. destruct I as (a & b & c & A & _ & _ & ->). rewrite <- app_assoc. eapply fixed_starts, A.
  - destruct C as (b & -> & L & _). eexists. split; [reflexivity|]. unfold ipv4_text. destruct (rev b) as [|c r] eqn:R.
    { apply (f_equal (@List.length _)) in R. rewrite rev_length, L in R. discriminate R. }
    cbn [map concat_sep]. destruct (map print_N r); [|]; destruct (print_N_head c) as (h & x & -> & D); apply digit_starts, D.
  - destruct C as (b & -> & L & F). eexists. split; [reflexivity|]. unfold uuid_text.
    do 17 (destruct b as [|? b]; try discriminate L). cbn [firstn skipn rev app]. cbn [hex flat_map app concat_sep].
    eexists _, _. split; [reflexivity|]. repeat match goal with H : Forall _ (_ :: _) |- _ => inversion_clear H end.
    unfold hex_digit. match goal with |- context [(?q <? 10)%N] => assert (q < 16)%N by (apply N.div_lt_upper_bound; lia); destruct (N.ltb_spec q 10) end; lia.
  - destruct C as (NN & [-> |(w & -> & C)]).
    + eexists. split; [reflexivity|]. eexists _, _. split; [reflexivity|]. split; discriminate.
    + destruct (IH w C) as (x & E & c & r & -> & N1 & N2). exists (c :: r). split; [exact E|]. exists c, r. split; [reflexivity|]. split; [exact N1|discriminate].
  - destruct C as (vs & -> & F). rewrite show_array. destruct (mapM_ok show vs) as (xs & -> & _).
    { eapply Forall_impl; [|exact F]. intros v Cv. destruct (IH v Cv) as (x & E & _). eauto. }
    eexists. split; [reflexivity|]. eexists _, _. split; [reflexivity|]. split; discriminate.
  - destruct (IH v C) as (x & E & c & r & -> & N1 & N2). exists (c :: r). split; [exact E|]. exists c, r. auto.
  - destruct C as (u & nb & -> & _ & H). eexists. split; [reflexivity|]. pose proof (c43_decimal_text_partial (mk_decimal u nb p s) H) as (g & ip & fp & -> & I & _ & _ & NE & _).
    unfold decimal_text. destruct g; [eexists _, _; split; [reflexivity|]; split; discriminate|]. destruct ip as [|i ip]; [congruence|].
    apply digit_starts. apply (digit_chars (i :: ip)) in I. inversion_clear I. assumption.
  - destruct C as (z & ->). eexists. split; [reflexivity|]. eexists _, _. split; [reflexivity|]. split; discriminate.
  - destruct C as (z & ->). eexists. split; [reflexivity|]. eexists _, _. split; [reflexivity|]. split; discriminate.
  - destruct (IH v C) as (x & E & c & r & -> & N1 & N2). exists (c :: r). split; [exact E|]. exists c, r. auto.
  - destruct C as (kvs & -> & F). rewrite show_map. destruct (mapM_ok entry kvs) as (xs & -> & _).
    { eapply Forall_impl; [|exact F]. intros [a b] [Ca Cb]. cbn [fst snd] in *. destruct (IHk a Ca) as (x & E & _). destruct (IHw b Cb) as (y & E' & _).
      unfold entry. cbn [fst snd]. rewrite E, E'. eexists. reflexivity. }
    eexists. split; [reflexivity|]. eexists _, _. split; [reflexivity|]. split; discriminate.
Qed.
Lemma list_stop {A} (ok : A -> Prop) (f : A -> res bytes) :
  (forall a, ok a -> exists x, f a = Ok x /\ exists c r, x = c :: r /\ c <> 93%N) ->
  (forall a b x y r s, ok a -> ok b -> f a = Ok x -> f b = Ok y -> stops r -> stops s -> x ++ r = y ++ s -> a = b /\ r = s) ->
  forall l m xs ys r s, Forall ok l -> Forall ok m -> Forall2 (fun a b => f a = Ok b) l xs -> Forall2 (fun a b => f a = Ok b) m ys ->
  concat_sep (str ", ") xs ++ str "]" ++ r = concat_sep (str ", ") ys ++ str "]" ++ s -> l = m /\ r = s.
Proof.
  intros HS HD. induction l as [|a l IH]; intros m xs ys r s L M X Y E.
  - inversion X; subst. destruct m as [|b m]; inversion Y as [|? y ? ys' FY Y']; subst; [cbn in E; injection E as ->; auto|]. exfalso.
    inversion_clear M as [|? ? B _]. destruct (HS b B) as (z & Z & c & q & -> & N).
    rewrite Z in FY. injection FY as <-. cbn [concat_sep] in E. destruct ys'; cbn in E; injection E as E _; apply N; symmetry; exact E.
  - inversion X as [|? x ? xs' FX X']; subst. inversion_clear L as [|? ? A' L'].
    destruct m as [|b m]; inversion Y as [|? y ? ys' FY Y']; subst.
    + exfalso. destruct (HS a A') as (z & Z & c & q & -> & N). rewrite Z in FX. injection FX as <-. cbn [concat_sep] in E.
      destruct xs'; cbn in E; injection E as E _; apply N; exact E.
    + inversion_clear M as [|? ? B M'].
      assert (forall (u : bytes) us t, concat_sep (str ", ") (u :: us) ++ str "]" ++ t = u ++ (match us with [] => [] | _ => str ", " ++ concat_sep (str ", ") us end) ++ str "]" ++ t) as CS.
      { intros u us t. destruct us; [reflexivity|]. cbn [concat_sep]. rewrite <- !app_assoc. reflexivity. }
      rewrite !CS in E. match type of E with _ ++ ?R = _ ++ ?S => assert (stops R) as R1 by (destruct xs'; reflexivity); assert (stops S) as S1 by (destruct ys'; reflexivity) end.
      destruct (HD a b x y _ _ A' B FX FY R1 S1 E) as [-> E'].
      destruct xs' as [|x' xs'], ys' as [|y' ys']; cbn [app] in E'.
      * injection E' as ->. inversion X'; subst. inversion Y'; subst. auto.
      * discriminate E'.
      * discriminate E'.
      * rewrite <- !app_assoc in E'. apply app_same_length in E' as [_ E']; [|reflexivity].
        destruct (IH m _ _ _ _ L' M' X' Y' E') as [-> ->]. auto.
Qed.
Lemma clear_stop t : forall a b x y r s, clear t a -> clear t b -> show a = Ok x -> show b = Ok y -> stops r -> stops s -> x ++ r = y ++ s -> a = b /\ r = s.
Proof.
  induction t as [q| |n| |d| | | |t IH|t IH|t IH|p q|vals|vals|f t IH|k IHk w IHw]; intros a b x y r s A B X Y R S E; cbn [SpecPrint.clear] in A, B; try (destruct A; fail).
  - destruct q; try (destruct A; fail); try (destruct A as (z & ->), B as (z' & ->); cbn [show_ref num_text] in X, Y; injection X as <-; injection Y as <-; apply print_Z_stop in E as [-> ->]; auto).
    destruct A as [-> | ->], B as [-> | ->]; cbn in X, Y; injection X as <-; injection Y as <-; cbn in E; try discriminate E; injection E as ->; auto.
  - destruct A as (d & -> & DA), B as (d' & -> & DB). cbn [show_ref] in X, Y. injection X as <-. injection Y as <-.
    destruct (iso_date_inj _ _ _ _ _ _ (date_iso (Z.of_N d) ltac:(lia)) (date_iso (Z.of_N d') ltac:(lia)) E) as [D ->]. apply civil_inj in D. split; [f_equal; lia|reflexivity].
  - destruct d; try (destruct A; fail). destruct A as (u & o & -> & U & O & XO), B as (u' & o' & -> & U' & O' & XO'). cbn [show_ref] in X, Y. injection X as <-. injection Y as <-.
    rewrite XO, (XO (Z.of_N u')) in E. change (2 ^ 32)%N with 4294967296%N in *. apply local_inj in E as [E ->]; [|lia|lia]. split; [f_equal; lia|reflexivity].
  - destruct A as (u & -> & LA & FA), B as (u' & -> & LB & FB). cbn [show_ref] in X, Y. injection X as <-. injection Y as <-. unfold ipv4_text in E.
    apply byte_stop_list in E as [E ->]; [|rewrite !rev_length; lia|exact R|exact S]. split; [|reflexivity]. f_equal. rewrite <- (rev_involutive u), E. apply rev_involutive.
  - destruct A as (u & -> & LA & FA), B as (u' & -> & LB & FB). cbn [show_ref] in X, Y. injection X as <-. injection Y as <-.
    apply app_same_length in E as [E ->]; [|rewrite !uuid_len by assumption; reflexivity]. apply uuid_inj in E; auto. subst. auto.
  - destruct A as (NN & A), B as (_ & B).
    destruct A as [-> |(v & -> & A)], B as [-> |(v' & -> & B)].
    + cbn in X, Y. injection X as <-. injection Y as <-. injection E as ->. auto.
    + exfalso. cbn [show_ref] in X, Y. injection X as <-. destruct (clear_shows t v' B) as (z & Z & c & q & -> & _ & N). rewrite Z in Y. injection Y as <-. injection E as E _. apply (N NN). symmetry. exact E.
    + exfalso. cbn [show_ref] in X, Y. injection Y as <-. destruct (clear_shows t v A) as (z & Z & c & q & -> & _ & N). rewrite Z in X. injection X as <-. injection E as E _. apply (N NN). exact E.
    + destruct (IH v v' x y r s A B X Y R S E) as [-> ->]. auto.
  - destruct A as (vs & -> & FA), B as (vs' & -> & FB). rewrite show_array in X, Y.
    destruct (mapM show vs) as [xs|e|p] eqn:MX; try discriminate X. destruct (mapM show vs') as [ys|e|p] eqn:MY; try discriminate Y. injection X as <-. injection Y as <-.
    unfold listed in E. rewrite <- !app_assoc in E. apply app_same_length in E as [_ E]; [|reflexivity].
    destruct (list_stop (clear t) show) with (l := vs) (m := vs') (xs := xs) (ys := ys) (r := r) (s := s) as [-> ->]; auto using mapM_inv.
    intros v C. destruct (clear_shows t v C) as (z & Z & c & q & -> & N & _). eauto 6.
  - eapply IH; eassumption.
  - destruct A as (u & nb & -> & -> & HA), B as (u' & nb' & -> & -> & HB). cbn [show_ref] in X, Y. injection X as <-. injection Y as <-.
    pose proof (expansion_stop _ _ _ _ _ _ _ (c43_decimal_text_partial (mk_decimal u _ p q) HA) (c43_decimal_text_partial (mk_decimal u' _ p q) HB) E) as [D ->]. cbn in D. subst. auto.
  - destruct A as (z & ->), B as (z' & ->). cbn [show_ref] in X, Y. injection X as <-. injection Y as <-. unfold enum8_text in E. rewrite <- !app_assoc in E.
    apply app_same_length in E as [_ E]; [|reflexivity]. apply print_Z_stop in E as [-> E]; [|reflexivity|reflexivity]. injection E as ->. auto.
  - destruct A as (z & ->), B as (z' & ->). cbn [show_ref] in X, Y. injection X as <-. injection Y as <-. unfold enum16_text in E. rewrite <- !app_assoc in E.
    apply app_same_length in E as [_ E]; [|reflexivity]. apply print_Z_stop in E as [-> E]; [|reflexivity|reflexivity]. injection E as ->. auto.
  - eapply IH; eassumption.
  - destruct A as (vs & -> & FA), B as (vs' & -> & FB). rewrite show_map in X, Y.
    destruct (mapM entry vs) as [xs|e|p] eqn:MX; try discriminate X. destruct (mapM entry vs') as [ys|e|p] eqn:MY; try discriminate Y. injection X as <-. injection Y as <-.
    unfold listed in E. rewrite <- !app_assoc in E. apply app_same_length in E as [_ E]; [|reflexivity].
    destruct (list_stop (fun kv => clear k (fst kv) /\ clear w (snd kv)) entry) with (l := vs) (m := vs') (xs := xs) (ys := ys) (r := r) (s := s) as [-> ->]; auto using mapM_inv.
    + intros [v v'] [C C']. cbn [fst snd] in *. destruct (clear_shows k v C) as (z & Z & c & q & -> & N & _). destruct (clear_shows w v' C') as (z' & Z' & _).
      unfold entry. cbn [fst snd]. rewrite Z, Z'. eexists. split; [reflexivity|]. exists c, (q ++ str "-" ++ z'). split; [reflexivity|exact N].
    + intros [v v'] [u u'] x y r' s' [C1 C2] [C3 C4] X Y R' S' E'. cbn [fst snd] in *. unfold entry in X, Y. cbn [fst snd] in X, Y.
      destruct (show v) as [xv|e|p] eqn:V1; try discriminate X. destruct (show v') as [xv'|e|p] eqn:V2; try discriminate X. injection X as <-.
      destruct (show u) as [xu|e|p] eqn:U1; try discriminate Y. destruct (show u') as [xu'|e|p] eqn:U2; try discriminate Y. injection Y as <-.
      rewrite <- !app_assoc in E'. match type of E' with _ ++ ?R0 = _ ++ ?S0 => destruct (IHk v u xv xu R0 S0 C1 C3 V1 U1 eq_refl eq_refl E') as [-> E2] end.
      injection E2 as E2. destruct (IHw v' u' xv' xu' _ _ C2 C4 V2 U2 R' S' E2) as [-> ->]. auto.
Qed.
End Clear.
