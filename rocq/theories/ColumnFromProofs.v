(** Columns made from vectors: lemmas behind PropToSql.v. *)
From Verif Require Import Base Bytes Utf8 Types Decimal DateTime Values TypeNames Columns SpecColumns Block FromSql SpecFromSql ToSql SpecToSql.
From Verif Require Import PushProofs FromSqlProofs ToSqlProofs.
Open Scope nat_scope.

(** A column that holds a list of things, each shown as a cell. *)
Lemma holds_list {A} (mk : list A -> col) (g : A -> value) l :
  (forall l, clen (mk l) = Ok (length l)) ->
  (forall l i, at_ (mk l) i = do x <- index l i; Ok (g x)) -> holds (mk l) (map g l).
Proof.
  intros H1 H2. split; [rewrite H1, map_length; reflexivity|]. intros i v Hi. rewrite H2.
  rewrite nth_error_map in Hi. unfold index, or_panic. destruct (nth_error l i); [|discriminate Hi].
  injection Hi as <-. reflexivity.
Qed.

Lemma holds_ip k bs : Forall (fun b => length b = ip_size k) bs -> holds (CIp k (concat bs)) (map (ip_value k) bs).
Proof.
  intros H. assert (G : forall bs buf vs, Forall (fun b => length b = ip_size k) bs ->
    length buf mod ip_size k = 0 -> holds (CIp k buf) vs ->
    holds (CIp k (buf ++ concat bs)) (vs ++ map (ip_value k) bs)).
  { clear. assert (ip_size k <> 0) as H0 by (destruct k; discriminate).
    induction bs as [|b bs IH]; intros buf vs F M H; cbn [concat map].
    - rewrite !app_nil_r. exact H.
    - apply Forall_cons_iff in F. destruct F as [F1 F2].
      specialize (IH (buf ++ b) (vs ++ [ip_value k b]) F2). rewrite <- !app_assoc in IH. apply IH.
      + rewrite app_length, F1. apply mod_add_r; auto.
      + exact (step_holds _ _ _ _ _ (step_ip k buf b M F1) H). }
  apply (G bs [] []); auto.
  - rewrite Nat.mod_0_l; [reflexivity|]. destruct k; discriminate.
  - apply holds_empty. cbn [clen length]. rewrite Nat.div_0_l by (destruct k; discriminate). reflexivity.
Qed.

Lemma mapM_all {A B} (f : A -> res B) (P : A -> Prop) (g : A -> B) xs : (forall x, P x -> f x = Ok (g x)) ->
  Forall P xs -> mapM f xs = Ok (map g xs).
Proof.
  intros H F. induction F as [|x xs Hx F IH]; [reflexivity|]. cbn [mapM map]. rewrite (H x Hx). cbn [rbind].
  rewrite IH. reflexivity.
Qed.

Lemma made_holds c f us xs : holds c us -> stands (frust f) (ctype c) ->
  Forall2 (fun x u => exists y, from_sql (frust f) u = Ok y /\ back x y) xs us -> made_of c f xs.
Proof.
  intros [H1 H2] S F. assert (length xs = length us) as L by (clear - F; induction F; cbn [length]; congruence). split; [congruence|]. split; [exact S|].
  intros i x Hx. clear H1 S L. revert i c us F H2 Hx. 
  assert (G : forall xs us, Forall2 (fun x u => exists y, from_sql (frust f) u = Ok y /\ back x y) xs us ->
    forall i x, nth_error xs i = Some x -> exists u, nth_error us i = Some u /\ exists y, from_sql (frust f) u = Ok y /\ back x y).
  { induction 1 as [|a u' l us' Ha F IH]; intros [|i] b Hb; try discriminate Hb; cbn [nth_error] in *.
    - injection Hb as <-. eauto.
    - apply IH, Hb. }
  intros i c us F H2 Hx. destruct (G _ _ F i x Hx) as (u & U & y & Y1 & Y2). exists u, y. auto.
Qed.
Lemma Forall2_map_all {A B} (P : A -> Prop) (R : A -> B -> Prop) (g : A -> B) xs :
  (forall x, P x -> R x (g x)) -> Forall P xs -> Forall2 R xs (map g xs).
Proof. intros H F. induction F; cbn [map]; constructor; auto. Qed.
Lemma Forall_both {A} (P Q : A -> Prop) xs : Forall P xs -> Forall Q xs -> Forall (fun x => P x /\ Q x) xs.
Proof. intros F G. rewrite Forall_forall in *. auto. Qed.

(** What the elements are stored as. *)
Definition x_num (x : rval) : Z := match x with XNum _ z | XEnum8 z | XEnum16 z => z | _ => 0%Z end.
Definition x_bytes (x : rval) : bytes := match x with XText b | XBytes b => b | _ => [] end.
Definition x_date (x : rval) : N := match x with XDate d => get_days d | _ => 0%N end.
Definition x_time (x : rval) : Z * N * bytes := match x with XTime s n tz => (s, n, tz) | _ => (0%Z, 0%N, []) end.
Definition x_decimal (x : rval) : decimal := match x with XDecimal d => d | _ => mk_decimal 0 N64 0 0 end.
Definition x_address (k : ip_kind) (x : rval) : bytes :=
  match k, x with
  | IpV4, XIpv4 b => rev b | IpV6, XIpv6 b => b | IpUuid, XUuid b => flip_halves b
  | _, _ => repeat 0%N (ip_size k)
  end.
Definition chrono_value (t : Z * N * bytes) : value := let '(s, _, z) := t in VDateTime (as_u32 s) z.

Definition und (o : option decimal) : Z := match o with Some d => d_underlying d | None => 0%Z end.
Lemma decimals_ok s0 : forall ds p sc acc, (sc = None \/ sc = Some s0) ->
  (forall d, In (Some d) ds -> d_scale d = s0) ->
  exists p' sc', decimals (p, sc, acc) ds = Ok (p', sc', acc ++ map und ds) /\
    (sc' = None \/ sc' = Some s0) /\ ((exists d, In (Some d) ds) -> sc' = Some s0) /\ (sc = Some s0 -> sc' = Some s0).
Proof.
  induction ds as [|[d|] ds IH]; intros p sc acc Hs Hd; cbn [decimals map].
  - exists p, sc. rewrite app_nil_r. repeat split; auto. intros [d []].
  - unfold decimal_round. pose proof (Hd d (or_introl eq_refl)) as Ed. rewrite Ed.
    destruct Hs as [->| ->].
    + cbn [rbind]. destruct (IH (N.max p (d_precision d)) (Some s0) (acc ++ [internal N64 d])) as (p' & sc' & A & B & C & D); auto.
      { intros d' Hd'. apply Hd. right. exact Hd'. }
      exists p', sc'. rewrite A, <- app_assoc. repeat split; auto.
    + rewrite N.eqb_refl. cbn [rbind].
      destruct (IH (N.max p (d_precision d)) (Some s0) (acc ++ [internal N64 d])) as (p' & sc' & A & B & C & D); auto.
      { intros d' Hd'. apply Hd. right. exact Hd'. }
      exists p', sc'. rewrite A, <- app_assoc. repeat split; auto.
  - destruct (IH p sc (acc ++ [0%Z])) as (p' & sc' & A & B & C & D); auto.
    { intros d' Hd'. apply Hd. right. exact Hd'. }
    exists p', sc'. rewrite A, <- app_assoc. repeat split; auto.
    intros [d [E|Hd']]; [discriminate E|]. apply C. eauto.
Qed.
Lemma decimal_column_ok s0 ds : (forall d, In (Some d) ds -> d_scale d = s0) ->
  exists p s, decimal_column ds = Ok (CDecimal (map und ds) p s N64) /\ ((exists d, In (Some d) ds) -> s = s0).
Proof.
  intros H. destruct (decimals_ok s0 ds 18 None [] (or_introl eq_refl) H) as (p & sc & A & B & C & D).
  unfold decimal_column. rewrite A. cbn [rbind app]. eexists p, _. split; [reflexivity|].
  intros E. rewrite (C E). reflexivity.
Qed.

Lemma plain_made l xs s0 : Forall (ltyped l) xs -> Forall (lroom l) xs -> Forall (of_scale s0) xs ->
  exists c, plain_column l xs = Ok c /\ made_of c (FVec l) xs.
Proof.
  intros T R O. pose proof (Forall_both _ _ _ T R) as TR.
  destruct l; cbn [plain_column].
  - rewrite (mapM_all the_num (ltyped (LNum s)) x_num) by (auto; intros [] H; try contradiction H; reflexivity).
    eexists. split; [reflexivity|]. eapply made_holds.
    + apply (holds_list (CVec s) (VNum s)); reflexivity.
    + constructor.
    + rewrite map_map. eapply Forall2_map_all; [|exact T]. intros [] H; try contradiction H. destruct H as [-> H].
      cbn. destruct (scalar_eq_dec s s); [|congruence]. eexists. split; reflexivity.
  - rewrite (mapM_all the_bytes (ltyped LText) x_bytes) by (auto; intros [] H; try contradiction H; reflexivity).
    eexists. split; [reflexivity|]. eapply made_holds.
    + apply (holds_list CString VString); reflexivity.
    + constructor. left. reflexivity.
    + rewrite map_map. eapply Forall2_map_all; [|exact T]. intros [] H; try contradiction H. cbn in H |- *.
      unfold as_str. rewrite H. eexists. split; reflexivity.
  - rewrite (mapM_all the_bytes (ltyped LBytes) x_bytes) by (auto; intros [] H; try contradiction H; reflexivity).
    eexists. split; [reflexivity|]. eapply made_holds.
    + apply (holds_list CString VString); reflexivity.
    + constructor. left. reflexivity.
    + rewrite map_map. eapply Forall2_map_all; [|exact T]. intros [] H; try contradiction H.
      eexists. split; reflexivity.
  - rewrite (mapM_all the_date (ltyped LDate) x_date) by (auto; intros [] H; try contradiction H; reflexivity).
    eexists. split; [reflexivity|]. eapply made_holds.
    + apply (holds_list (fun l => CDate l default_tz) VDate); reflexivity.
    + constructor.
    + rewrite map_map. eapply Forall2_map_all; [|exact TR]. intros [] [H H']; try contradiction H.
      cbn [frust lrust from_sql x_date]. eexists. split; [reflexivity|]. cbn [lroom] in H'. rewrite (get_days_small _ H').
      rewrite Z2N.id by lia. reflexivity.
  - rewrite (mapM_all the_time (ltyped LTime) x_time) by (auto; intros [] H; try contradiction H; reflexivity).
    eexists. split; [reflexivity|]. eapply made_holds.
    + apply (holds_list (fun l => CChrono l (first_zone (map x_time xs))) chrono_value); [reflexivity|].
      intros l i. cbn [at_]. destruct (index l i) as [[[? ?] ?]| |]; reflexivity.
    + constructor.
    + rewrite map_map. eapply Forall2_map_all; [|exact TR]. intros [] [H H']; try contradiction H.
      cbn [frust lrust from_sql x_time chrono_value into_time]. eexists. split; [reflexivity|].
      cbn [lroom] in H'. rewrite (as_u32_nonneg _ H'), Z2N.id by lia. reflexivity.
  - rewrite (mapM_all (the_address IpV4) (ltyped LIpv4) (x_address IpV4)) by (auto; intros [] H; try contradiction H; reflexivity).
    eexists. split; [reflexivity|]. eapply made_holds.
    + apply holds_ip. rewrite Forall_map. eapply Forall_impl; [|exact T]. intros [] H; try contradiction H.
      cbn. rewrite rev_length. exact H.
    + constructor.
    + rewrite map_map. eapply Forall2_map_all; [|exact T]. intros [] H; try contradiction H.
      cbn [frust lrust from_sql x_address ip_value]. eexists. split; [reflexivity|]. rewrite rev_involutive. reflexivity.
  - rewrite (mapM_all (the_address IpV6) (ltyped LIpv6) (x_address IpV6)) by (auto; intros [] H; try contradiction H; reflexivity).
    eexists. split; [reflexivity|]. eapply made_holds.
    + apply holds_ip. rewrite Forall_map. eapply Forall_impl; [|exact T]. intros [] H; try contradiction H. exact H.
    + constructor.
    + rewrite map_map. eapply Forall2_map_all; [|exact T]. intros [] H; try contradiction H.
      eexists. split; reflexivity.
  - rewrite (mapM_all (the_address IpUuid) (ltyped LUuid) (x_address IpUuid)) by (auto; intros [] H; try contradiction H; reflexivity).
    eexists. split; [reflexivity|]. eapply made_holds.
    + apply holds_ip. rewrite Forall_map. eapply Forall_impl; [|exact T]. intros [] H; try contradiction H.
      exact (flip_length _ H).
    + constructor.
    + rewrite map_map. eapply Forall2_map_all; [|exact T]. intros [] H; try contradiction H.
      cbn [frust lrust from_sql x_address ip_value]. eexists. split; [reflexivity|]. rewrite (flip_flip _ H). reflexivity.
  - rewrite (mapM_all the_decimal (ltyped LDecimal) x_decimal) by (auto; intros [] H; try contradiction H; reflexivity).
    cbn [rbind]. destruct (decimal_column_ok s0 (map Some (map x_decimal xs))) as (p & s & A & B).
    { intros d Hd. apply in_map_iff in Hd. destruct Hd as (d' & E & Hd). injection E as ->.
      apply in_map_iff in Hd. destruct Hd as (x & <- & Hx). rewrite Forall_forall in O, T.
      specialize (O x Hx). specialize (T x Hx). destruct x; try contradiction T. exact O. }
    rewrite A. eexists. split; [reflexivity|]. eapply made_holds.
    + apply (holds_list (fun l => CDecimal l p s N64) (fun z => VDecimal (mk_decimal z N64 p s))); reflexivity.
    + constructor.
    + rewrite !map_map. apply (Forall2_map_all (fun x => In x xs)); [|apply Forall_forall; auto].
      intros x Hx. rewrite Forall_forall in O, T. specialize (O x Hx). specialize (T x Hx).
      destruct x; try contradiction T. cbn [frust lrust from_sql x_decimal und]. eexists. split; [reflexivity|].
      cbn [back d_underlying d_scale]. split; [reflexivity|]. cbn [of_scale] in O. rewrite O. apply B.
      exists d. apply in_map_iff. exists d. split; [reflexivity|]. apply in_map_iff. exists (XDecimal d). auto.
  - rewrite (mapM_all the_num (ltyped LEnum8) x_num) by (auto; intros [] H; try contradiction H; reflexivity).
    eexists. split; [reflexivity|]. eapply made_holds.
    + apply (holds_list (CEnum8 []) (VEnum8 [])); reflexivity.
    + constructor.
    + rewrite map_map. eapply Forall2_map_all; [|exact T]. intros [] H; try contradiction H. eexists. split; reflexivity.
  - rewrite (mapM_all the_num (ltyped LEnum16) x_num) by (auto; intros [] H; try contradiction H; reflexivity).
    eexists. split; [reflexivity|]. eapply made_holds.
    + apply (holds_list (CEnum16 []) (VEnum16 [])); reflexivity.
    + constructor.
    + rewrite map_map. eapply Forall2_map_all; [|exact T]. intros [] H; try contradiction H. eexists. split; reflexivity.
Qed.

Lemma back_whole x : back x (whole x).
Proof. destruct x as [| | | | | | | | | | |o| |]; cbn; auto. destruct o as [[]|]; cbn; auto. Qed.

(** Columns filled by pushing. *)
Lemma pushed_made c f g xs : wf c -> clen c = Ok 0 -> low_rows c = 0%N -> stands (frust f) (ctype c) ->
  (forall x, In x xs -> exists v u y, g x = Ok v /\ weight v = cells x /\ reads_as c v = Some u /\
    from_sql (frust f) u = Ok y /\ back x y) ->
  (total [xs] < 2 ^ 64)%N -> exists c', pushed c g xs = Ok c' /\ made_of c' f xs.
Proof.
  intros W L0 R0 S H B.
  assert (exists vs us, mapM g xs = Ok vs /\ weights vs = fold_right (fun x m => (cells x + m)%N) 0%N xs /\
    mapO (reads_as c) vs = Some us /\
    Forall2 (fun x u => exists y, from_sql (frust f) u = Ok y /\ back x y) xs us) as (vs & us & A1 & A2 & A3 & A4).
  { clear B. induction xs as [|x xs IH]; [exists [], []; repeat split; constructor|].
    destruct IH as (vs & us & A1 & A2 & A3 & A4); [intros x' Hx'; apply H; right; exact Hx'|].
    destruct (H x (or_introl eq_refl)) as (v & u & y & B1 & B2 & B3 & B4 & B5).
    exists (v :: vs), (u :: us). cbn [mapM mapO]. rewrite B1, B3. cbn [rbind]. rewrite A1, A3.
    split; [reflexivity|]. split; [cbn [weights fold_right]; fold (weights vs); rewrite A2, B2; reflexivity|].
    split; [reflexivity|]. constructor; eauto. }
  cbn [total fold_right] in B.
  destruct (push_all c vs us W A3) as (c' & P & St); [rewrite R0, A2; lia|].
  exists c'. unfold pushed. rewrite A1. cbn [rbind]. split; [exact P|].
  eapply made_holds; [|rewrite (st_type _ _ _ _ St); exact S|exact A4].
  change us with ([] ++ us). eapply step_holds; [exact St|]. apply holds_empty, L0.
Qed.

(** Columns with null marks put in place by hand. *)
Lemma nullable_made l os i us : holds i us -> stands (lrust l) (ctype i) ->
  Forall2 (fun o u => match o with
                      | None => True
                      | Some x => exists y, from_sql (lrust l) u = Ok y /\ back (XOption (Some x)) (XOption (Some y))
                      end) os us -> made_of (CNullable i (map mark os)) (FOption l) (map XOption os).
Proof.
  intros [H1 H2] S F. 
  assert (length os = length us) as L by (clear - F; induction F; cbn [length]; congruence).
  eapply made_holds with (us := map (fun ou => match fst ou with None => VNull (ctype i) | Some _ => VSome (snd ou) end) (combine os us)).
  - split.
    + cbn [clen]. rewrite H1, !map_length, combine_length, L, Nat.min_id. cbn [rbind].
      try rewrite Nat.eqb_refl; reflexivity.
    + intros k v Hv. cbn [at_]. rewrite nth_error_map in Hv.
      destruct (nth_error (combine os us) k) as [[o u]|] eqn:E; [|discriminate Hv]. injection Hv as <-.
      assert (nth_error os k = Some o /\ nth_error us k = Some u) as [E1 E2].
      { clear - E. revert os us E. induction k as [|k IH]; intros [|o' os] [|u' us] E; try discriminate E; cbn in *.
        - injection E as -> ->. auto.
        - apply IH, E. }
      rewrite (H2 k u E2). unfold index, or_panic. rewrite nth_error_map, E1. cbn [option_map rbind fst snd].
      destruct o; reflexivity.
  - cbn [ctype frust]. constructor. exact S.
  - clear - F. induction F as [|o u os us Ho F IH]; cbn [map combine]; constructor; auto.
    destruct o as [x|]; cbn [fst snd].
    + destruct Ho as (y & Y1 & Y2). exists (XOption (Some y)). split; [|exact Y2]. cbn [frust from_sql]. rewrite Y1. reflexivity.
    + exists (XOption None). split; reflexivity.
Qed.

Lemma mapM_map {A B C} (g : A -> B) (f : B -> res C) xs : mapM f (map g xs) = mapM (fun x => f (g x)) xs.
Proof. induction xs as [|x xs IH]; [reflexivity|]. cbn [map mapM]. destruct (f (g x)); cbn [rbind]; congruence. Qed.

Definition opart {A} (zero : A) (g : rval -> A) (o : option rval) : A := match o with Some x => g x | None => zero end.
Definition under_option (P : rval -> Prop) (o : option rval) : Prop := match o with Some x => P x | None => True end.

Lemma parts_all {A} (zero : A) (f : rval -> res A) (P : rval -> Prop) g os :
  (forall x, P x -> f x = Ok (g x)) -> Forall (under_option P) os ->
  mapM (optional_part zero f) os = Ok (map (opart zero g) os).
Proof.
  intros H F. apply (mapM_all _ (under_option P)); [|exact F]. intros [x|] Hx; cbn [optional_part opart]; auto.
Qed.

Lemma by_hand_made {A} l os (mk : list A -> col) (val : A -> value) zero g (P : rval -> Prop) (c : res col) :
  holds (mk (map (opart zero g) os)) (map val (map (opart zero g) os)) ->
  stands (lrust l) (ctype (mk (map (opart zero g) os))) -> Forall (under_option P) os ->
  (forall x, P x -> exists y, from_sql (lrust l) (val (g x)) = Ok y /\ back (XOption (Some x)) (XOption (Some y))) ->
  c = Ok (mk (map (opart zero g) os)) ->
  exists c', (do i <- c; Ok (CNullable i (map mark os))) = Ok c' /\ made_of c' (FOption l) (map XOption os).
Proof.
  intros H S F G ->. eexists. split; [reflexivity|]. eapply nullable_made; [exact H|exact S|].
  rewrite map_map. eapply Forall2_map_all; [|exact F]. intros [x|] Hx; cbn [opart]; auto.
Qed.

Lemma optional_made l xs s0 : Forall (ftyped (FOption l)) xs -> Forall (froom (FOption l)) xs -> Forall (of_scale s0) xs ->
  (total [xs] < 2 ^ 64)%N -> exists c, optional_column l xs = Ok c /\ made_of c (FOption l) xs.
Proof.
  intros T R O B.
  assert (exists os, xs = map XOption os) as [os ->].
  { clear - T. induction T as [|x xs Hx T [os ->]]; [exists []; reflexivity|].
    destruct x as [| | | | | | | | | | |o| |]; try contradiction Hx. exists (o :: os). reflexivity. }
  assert (T' : Forall (under_option (ltyped l)) os).
  { rewrite Forall_map in T. eapply Forall_impl; [|exact T]. intros [x|] Hx; exact Hx. }
  assert (TR : Forall (under_option (fun x => ltyped l x /\ lroom l x)) os).
  { rewrite Forall_map in T, R. pose proof (Forall_both _ _ _ T R) as F. eapply Forall_impl; [|exact F].
    intros [x|] Hx; [exact Hx|exact I]. }
  unfold optional_column. rewrite mapM_map. cbn [the_option].
  rewrite (mapM_all _ (fun _ => True) (fun o => o)) by (auto; apply Forall_forall; auto).
  rewrite map_id. cbn [rbind].
  assert (Bypush : forall c t f, 
    wf c -> clen c = Ok 0 -> low_rows c = 0%N -> stands (lrust l) (ctype c) ->
    (exists w, reads_as c (value_default t) = Some w) ->
    (forall x, ltyped l x -> lroom l x -> exists v u, f x = Ok v /\ weight v = cells x /\ reads_as c v = Some u /\
      from_sql (lrust l) u = Ok (whole x)) ->
    exists c', (do vs <- mapM (optional_value t f) os; push_each push (CNullable c []) vs) = Ok c' /\
      made_of c' (FOption l) (map XOption os)).
  { intros c t f W L0 R0 S [w D] H.
    set (g := fun x => match x with XOption o => optional_value t f o | _ => Panic PUnreachable end).
    destruct (pushed_made (CNullable c []) (FOption l) g (map XOption os)) as (c' & A & M).
    - cbn [wf]. auto.
    - cbn [clen]. rewrite L0. reflexivity.
    - exact R0.
    - cbn [frust ctype]. constructor. exact S.
    - intros x Hx. apply in_map_iff in Hx. destruct Hx as (o & <- & Ho). destruct o as [x|].
      + rewrite Forall_forall in TR. destruct (TR _ Ho) as [Tx Rx].
        destruct (H x Tx Rx) as (v & u & A1 & A2 & A3 & A4). exists (VSome v), (VSome u), (XOption (Some (whole x))).
        cbn [g optional_value]. rewrite A1. split; [reflexivity|]. split; [exact A2|]. cbn [reads_as]. rewrite A3.
        split; [reflexivity|]. cbn [frust from_sql]. rewrite A4. split; [reflexivity|]. apply (back_whole (XOption (Some x))).
      + exists (VNull t), (VNull (ctype c)), (XOption None). cbn [g optional_value reads_as]. rewrite D.
        repeat split.
    - exact B.
    - exists c'. split; [|exact M]. unfold pushed in A. rewrite mapM_map in A. exact A. }
  destruct l.
  - apply Bypush; try reflexivity; [constructor|eexists; cbn; destruct (scalar_eq_dec s s); [reflexivity|congruence]|].
    intros [] Hx _; try contradiction Hx. destruct Hx as [-> _]. exists (VNum s z), (VNum s z). cbn.
    destruct (scalar_eq_dec s s); [auto|congruence].
  - apply Bypush; try reflexivity; [constructor; left; reflexivity|eexists; reflexivity|].
    intros [] Hx _; try contradiction Hx. exists (VString b), (VString b). cbn in Hx |- *. unfold as_str. rewrite Hx. auto.
  - apply Bypush; try reflexivity; [constructor; left; reflexivity|eexists; reflexivity|].
    intros [] Hx _; try contradiction Hx. exists (VString b), (VString b). cbn. auto.
  - apply Bypush; try reflexivity; [constructor|eexists; reflexivity|].
    intros [] Hx Rx; try contradiction Hx. cbn [lroom] in Rx. exists (VDate (get_days days)), (VDate (get_days days)).
    rewrite (get_days_small _ Rx). cbn [date_value the_date rbind weight cells reads_as lrust from_sql whole].
    rewrite (get_days_small _ Rx).
    destruct (N.ltb_spec (Z.to_N days) 65536); [|lia]. rewrite Z2N.id by lia. auto.
  - rewrite (parts_all None _ (ltyped LTime) (fun x => Some (x_time x))); [|intros [] Hx; try contradiction Hx; reflexivity|exact T'].
    cbn [rbind]. set (tz := first_zone _).
    rewrite map_map. rewrite (map_ext _ (opart (0%Z, 0%N, tz) x_time)) by (intros [x|]; reflexivity).
    apply (by_hand_made LTime os (fun l => CChrono l (first_zone (map (opart (0%Z, 0%N, tz) x_time) os))) chrono_value
      (0%Z, 0%N, tz) x_time (fun x => ltyped LTime x /\ lroom LTime x)
      (Ok (CChrono (map (opart (0%Z, 0%N, tz) x_time) os) (first_zone (map (opart (0%Z, 0%N, tz) x_time) os))))).
    + apply (holds_list (fun l => CChrono l _) chrono_value); [reflexivity|].
      intros l i. cbn [at_]. destruct (index l i) as [[[? ?] ?]| |]; reflexivity.
    + constructor.
    + exact TR.
    + intros [] [Hx Rx]; try contradiction Hx. cbn [lrust from_sql x_time chrono_value into_time]. eexists. split; [reflexivity|].
      cbn [lroom] in Rx. rewrite (as_u32_nonneg _ Rx), Z2N.id by lia. reflexivity.
    + reflexivity.
  - eapply (by_hand_made LIpv4 os (fun bs => CIp IpV4 (concat bs)) (ip_value IpV4) (repeat 0%N 4) (x_address IpV4)) with (P := ltyped LIpv4).
    + apply holds_ip. rewrite Forall_map. eapply Forall_impl; [|exact T']. intros [[]|] Hx; try contradiction Hx; [|reflexivity].
      cbn. rewrite rev_length. exact Hx.
    + constructor.
    + exact T'.
    + intros [] Hx; try contradiction Hx. cbn [lrust from_sql x_address ip_value]. rewrite rev_involutive. eexists. split; reflexivity.
    + rewrite (parts_all _ _ (ltyped LIpv4) (x_address IpV4)); [reflexivity|intros [] Hx; try contradiction Hx; reflexivity|exact T'].
  - eapply (by_hand_made LIpv6 os (fun bs => CIp IpV6 (concat bs)) (ip_value IpV6) (repeat 0%N 16) (x_address IpV6)) with (P := ltyped LIpv6).
    + apply holds_ip. rewrite Forall_map. eapply Forall_impl; [|exact T']. intros [[]|] Hx; try contradiction Hx; [|reflexivity].
      exact Hx.
    + constructor.
    + exact T'.
    + intros [] Hx; try contradiction Hx. eexists. split; reflexivity.
    + rewrite (parts_all _ _ (ltyped LIpv6) (x_address IpV6)); [reflexivity|intros [] Hx; try contradiction Hx; reflexivity|exact T'].
  - eapply (by_hand_made LUuid os (fun bs => CIp IpUuid (concat bs)) (ip_value IpUuid) (repeat 0%N 16) (x_address IpUuid)) with (P := ltyped LUuid).
    + apply holds_ip. rewrite Forall_map. eapply Forall_impl; [|exact T']. intros [[]|] Hx; try contradiction Hx; [|reflexivity].
      exact (flip_length _ Hx).
    + constructor.
    + exact T'.
    + intros [] Hx; try contradiction Hx. cbn [lrust from_sql x_address ip_value]. rewrite (flip_flip _ Hx). eexists. split; reflexivity.
    + rewrite (parts_all _ _ (ltyped LUuid) (x_address IpUuid)); [reflexivity|intros [] Hx; try contradiction Hx; reflexivity|exact T'].
  - rewrite (parts_all None _ (ltyped LDecimal) (fun x => Some (x_decimal x))); [|intros [] Hx; try contradiction Hx; reflexivity|exact T'].
    cbn [rbind]. set (ds := map _ os).
    assert (Hd : forall d, In (Some d) ds -> d_scale d = s0).
    { intros d Hin. apply in_map_iff in Hin. destruct Hin as (o & E & Ho). destruct o as [x|]; [|discriminate E]. injection E as <-.
      rewrite Forall_forall in O, T'. specialize (T' _ Ho). specialize (O _ (in_map XOption _ _ Ho)).
      destruct x; try contradiction T'. exact O. }
    destruct (decimal_column_ok s0 ds Hd) as (p & s & A & Sc).
    eapply (by_hand_made LDecimal os (fun l => CDecimal l p s N64) (fun z => VDecimal (mk_decimal z N64 p s)) 0%Z
      (fun x => d_underlying (x_decimal x))) with (P := fun x => ltyped LDecimal x /\ d_scale (x_decimal x) = s).
    + apply (holds_list (fun l => CDecimal l p s N64) (fun z => VDecimal (mk_decimal z N64 p s))); reflexivity.
    + constructor.
    + rewrite Forall_forall in T' |- *. intros [x|] Ho; [|exact I]. split; [exact (T' _ Ho)|].
      assert (In (Some (x_decimal x)) ds) as Hin by exact (in_map _ _ _ Ho).
      rewrite Sc by eauto. apply Hd, Hin.
    + intros [] [Hx Rx]; try contradiction Hx. cbn [lrust from_sql x_decimal]. eexists. split; [reflexivity|].
      cbn [back d_underlying d_scale]. split; [reflexivity|]. symmetry. exact Rx.
    + rewrite A. subst ds. rewrite map_map. rewrite (map_ext _ (opart 0%Z (fun x => d_underlying (x_decimal x)))) by (intros [x|]; reflexivity).
      reflexivity.
  - eapply (by_hand_made LEnum8 os (CEnum8 []) (VEnum8 []) 0%Z x_num) with (P := ltyped LEnum8).
    + apply (holds_list (CEnum8 []) (VEnum8 [])); reflexivity.
    + constructor.
    + exact T'.
    + intros [] Hx; try contradiction Hx. eexists. split; reflexivity.
    + rewrite (parts_all _ _ (ltyped LEnum8) x_num); [reflexivity|intros [] Hx; try contradiction Hx; reflexivity|exact T'].
  - eapply (by_hand_made LEnum16 os (CEnum16 []) (VEnum16 []) 0%Z x_num) with (P := ltyped LEnum16).
    + apply (holds_list (CEnum16 []) (VEnum16 [])); reflexivity.
    + constructor.
    + exact T'.
    + intros [] Hx; try contradiction Hx. eexists. split; reflexivity.
    + rewrite (parts_all _ _ (ltyped LEnum16) x_num); [reflexivity|intros [] Hx; try contradiction Hx; reflexivity|exact T'].
Qed.

Lemma array_elem_ok l e inner : nests l = Some e -> plain_column l [] = Ok inner ->
  wf (CArray inner []) /\ clen (CArray inner []) = Ok 0 /\ low_rows (CArray inner []) = 0%N /\
  elem_stands e (ctype inner) /\ elem_tag e (ctype inner) = true /\
  forall x, ltyped l x -> lroom l x -> exists v u, array_elem l x = Ok v /\ weight v = cells x /\
    reads_as inner v = Some u /\ elem_from e u = Ok (whole x).
Proof.
  intros N C. destruct l; try discriminate N; injection N as <-; cbn in C; injection C as <-;
    (split; [repeat split; constructor|split; [reflexivity|split; [reflexivity|split; [constructor|split]]]]);
    try reflexivity; try (intros [] Hx Rx; try contradiction Hx).
  - cbn. destruct (scalar_eq_dec s s); [reflexivity|congruence].
  - destruct Hx as [-> _]. exists (VNum s z), (VNum s z). cbn. destruct (scalar_eq_dec s s); [auto|congruence].
  - exists (VString b), (VString b). cbn in Hx |- *. unfold as_str. rewrite Hx. auto.
  - cbn [lroom] in Rx. exists (VDate (get_days days)), (VDate (get_days days)).
    rewrite (get_days_small _ Rx). cbn [array_elem weight cells reads_as elem_from into_date whole].
    rewrite (get_days_small _ Rx).
    destruct (N.ltb_spec (Z.to_N days) 65536); [|lia]. rewrite Z2N.id by lia. auto.
  - cbn [lroom] in Rx. exists (VDateTime (as_u32 secs) tz), (VDateTime (as_u32 secs) tz).
    rewrite (as_u32_nonneg _ Rx). cbn [array_elem weight cells reads_as elem_from into_time whole].
    rewrite (as_u32_nonneg _ Rx).
    destruct (N.ltb_spec (Z.to_N secs) (2 ^ 32)); [|lia]. rewrite Z2N.id by lia. auto.
  - exists (VEnum8 [] z), (VEnum8 [] z). cbn. auto.
  - exists (VEnum16 [] z), (VEnum16 [] z). cbn. auto.
Qed.

Lemma array_made l xs : nests l <> None -> Forall (ftyped (FArray l)) xs -> Forall (froom (FArray l)) xs ->
  (total [xs] < 2 ^ 64)%N -> exists c, array_column l xs = Ok c /\ made_of c (FArray l) xs.
Proof.
  intros Nn T R B. destruct (nests l) as [e|] eqn:N; [|congruence].
  assert (exists inner, plain_column l [] = Ok inner) as [inner C].
  { destruct l; try discriminate N; eexists; reflexivity. }
  destruct (array_elem_ok l e inner N C) as (W & L0 & R0 & S & Tg & G).
  unfold array_column. rewrite C. cbn [rbind].
  assert (Fr : frust (FArray l) = RVec e) by (cbn [frust]; rewrite N; reflexivity).
  apply pushed_made; auto.
  - rewrite Fr. constructor. exact S.
  - intros x Hx. rewrite Forall_forall in T, R. specialize (T x Hx). specialize (R x Hx). rewrite Fr.
    destruct x; try contradiction T. destruct T as [_ T]. cbn [froom] in R.
    assert (exists vs us, mapM (array_elem l) xs0 = Ok vs /\ weights vs = cells (XVec xs0) /\
      mapO (reads_as inner) vs = Some us /\ mapM (elem_from e) us = Ok (map whole xs0)) as (vs & us & A1 & A2 & A3 & A4).
    { clear Hx. induction xs0 as [|x ys IH]; [exists [], []; repeat split|].
      apply Forall_cons_iff in T, R. destruct T as [T1 T], R as [R1 R].
      destruct (IH T R) as (vs & us & A1 & A2 & A3 & A4). destruct (G x T1 R1) as (v & u & B1 & B2 & B3 & B4).
      exists (v :: vs), (u :: us). cbn [mapM mapO map]. rewrite B1, B3, B4. cbn [rbind]. rewrite A1, A3, A4.
      repeat split. cbn [weights fold_right]. fold (weights vs). rewrite B2, A2. reflexivity. }
    exists (VArray (ctype inner) vs), (VArray (ctype inner) us), (whole (XVec xs0)).
    cbn [array_value]. rewrite A1. split; [reflexivity|]. split; [exact A2|]. split; [rewrite reads_array, A3; reflexivity|].
    split; [|apply back_whole]. cbn [from_sql]. rewrite Tg, A4. reflexivity.
Qed.

Lemma map_made f kl hk s ks xs : frust f = RMap (has_rust hk) (RNum s) ->
  (forall x, ftyped f x -> has_typed (HMap hk (HNum s)) x) ->
  (forall x, In x xs -> good_key hk = true) ->
  plain_column kl [] = Ok ks -> from_type (sql_type_of hk) [] = Ok ks -> stands (has_rust hk) (ctype ks) ->
  wf ks -> clen ks = Ok 0 -> low_rows ks = 0%N ->
  Forall (ftyped f) xs -> (total [xs] < 2 ^ 64)%N ->
  exists c, map_column kl hk s xs = Ok c /\ made_of c f xs.
Proof.
  intros Fr Ty G C F S W L0 R0 T B. unfold map_column. rewrite C. cbn [rbind plain_column mapM].
  apply pushed_made; auto.
  - cbn [wf]. repeat split; auto; constructor.
  - cbn [low_rows]. rewrite R0. reflexivity.
  - rewrite Fr. cbn [ctype]. constructor; [exact S|constructor].
  - intros x Hx. rewrite Forall_forall in T. specialize (Ty x (T x Hx)). clear T.
    destruct (has_good (HMap hk (HNum s)) x [] (CMap ks (CVec s []) []) Ty) as (v & u & A1 & A2 & A3 & A4 & A5).
    + destruct x; try exact I. cbn [has_room]. split; [exact (G _ Hx)|]. apply Forall_forall. intros kv _. exact I.
    + cbn [sql_type_of from_type]. rewrite F. reflexivity.
    + exists v, u, (whole x). rewrite Fr. repeat split; auto using back_whole.
Qed.

Lemma column_from_made f xs s0 : exists_from f -> Forall (ftyped f) xs -> Forall (froom f) xs -> Forall (of_scale s0) xs ->
  (total [xs] < 2 ^ 64)%N -> exists c, column_from f xs = Ok c /\ made_of c f xs.
Proof.
  intros E T R O B. destruct f; cbn [column_from].
  - eapply plain_made; eauto.
  - eapply optional_made; eauto.
  - apply array_made; auto.
  - eapply map_made; eauto; try reflexivity. constructor. left. reflexivity.
  - eapply map_made; eauto; try reflexivity; [|constructor].
    intros x Hx. rewrite Forall_forall in R. exact (R x Hx).
Qed.

(** Blocks. *)
Lemma named_column b j k c : NoDup (map fst (b_cols b)) -> nth_error (b_cols b) j = Some (k, c) ->
  get_column b (ByName k) = Ok (k, c) /\ get_column b (ByPos j) = Ok (k, c).
Proof.
  intros D H. assert (P : get_column b (ByPos j) = Ok (k, c)).
  { unfold get_column, get_index. cbn [rbind]. unfold index, or_panic. rewrite H. reflexivity. }
  split; [|exact P]. rewrite <- P. unfold get_column, get_index.
  destruct (nth_error_split _ _ H) as (pre & post & E & L).
  rewrite E in D |- *. rewrite (find_name_at k pre c post); [cbn; congruence|].
  rewrite map_app in D. cbn [map fst] in D. apply NoDup_remove_2 in D. intros I. apply D. apply in_or_app. auto.
Qed.
Lemma block_columns_made n cols : forall b, (b_cols b <> [] -> row_count b = Ok n) ->
  Forall (fun nfx => lossless (snd (fst nfx)) (snd nfx) /\ length (snd nfx) = n) cols ->
  exists new, block_columns b cols = Ok (mk_block (b_info b) (b_cols b ++ new)) /\
    Forall2 (fun nfx kc => fst kc = fst (fst nfx) /\ made_of (snd kc) (snd (fst nfx)) (snd nfx)) cols new.
Proof.
  induction cols as [|[[name f] xs] cols IH]; intros b R F.
  - exists []. cbn. rewrite app_nil_r. split; [destruct b; reflexivity|constructor].
  - apply Forall_cons_iff in F. destruct F as [[(E & T & Rm & [s S] & B) L] F]. cbn [fst snd] in *.
    destruct (column_from_made f xs s E T Rm S B) as (c & C & M).
    cbn [block_columns]. unfold block_column. rewrite C. cbn [rbind].
    assert (A : append_column b (name, c) = Ok (mk_block (b_info b) (b_cols b ++ [(name, c)]))).
    { unfold append_column. cbn [snd]. rewrite (proj1 M). cbn [rbind]. destruct (b_cols b) eqn:Eb; [reflexivity|].
      rewrite R by discriminate. cbn [rbind]. rewrite L, Nat.eqb_refl. reflexivity. }
    rewrite A. cbn [rbind]. destruct (IH (mk_block (b_info b) (b_cols b ++ [(name, c)]))) as (new & N & G).
    + intros _. unfold row_count in *. cbn [b_cols]. destruct (b_cols b) as [|[k0 c0] cs]; cbn [app].
      * rewrite (proj1 M), L. reflexivity.
      * apply R. discriminate.
    + exact F.
    + exists ((name, c) :: new). rewrite N. cbn [b_info b_cols]. rewrite <- app_assoc. split; [reflexivity|].
      constructor; [|exact G]. split; [reflexivity|exact M].
Qed.

(** Columns of addresses. *)
Lemma concat_length {A} w (ls : list (list A)) : Forall (fun l => length l = w) ls -> length (concat ls) = length ls * w.
Proof. induction 1 as [|l ls H F IH]; [reflexivity|]. cbn [concat length]. rewrite app_length, IH, H. lia. Qed.

Definition kind_of_address (l : ltype) : option ip_kind :=
  match l with LIpv4 => Some IpV4 | LIpv6 => Some IpV6 | LUuid => Some IpUuid | _ => None end.
Lemma address_length l k x : kind_of_address l = Some k -> ltyped l x -> length (x_address k x) = ip_size k.
Proof.
  intros K T. destruct l; try discriminate K; injection K as <-; destruct x; try contradiction T; cbn in *.
  - rewrite rev_length. exact T.
  - exact T.
  - exact (flip_length _ T).
Qed.
Lemma address_plain l k xs : kind_of_address l = Some k -> Forall (ltyped l) xs ->
  plain_column l xs = Ok (CIp k (concat (map (x_address k) xs))) /\
  length (concat (map (x_address k) xs)) = length xs * ip_size k.
Proof.
  intros K T. split.
  - destruct l; try discriminate K; injection K as <-; cbn [plain_column].
    + rewrite (mapM_all (the_address IpV4) (ltyped LIpv4) (x_address IpV4)) by (auto; intros [] H; try contradiction H; reflexivity). reflexivity.
    + rewrite (mapM_all (the_address IpV6) (ltyped LIpv6) (x_address IpV6)) by (auto; intros [] H; try contradiction H; reflexivity). reflexivity.
    + rewrite (mapM_all (the_address IpUuid) (ltyped LUuid) (x_address IpUuid)) by (auto; intros [] H; try contradiction H; reflexivity). reflexivity.
  - rewrite (concat_length (ip_size k)), map_length; [reflexivity|]. rewrite Forall_map. eapply Forall_impl; [|exact T].
    intros x. apply address_length, K.
Qed.
Lemma address_optional l k os : kind_of_address l = Some k -> Forall (under_option (ltyped l)) os ->
  let buf := concat (map (opart (repeat 0%N (ip_size k)) (x_address k)) os) in
  optional_column l (map XOption os) = Ok (CNullable (CIp k buf) (map mark os)) /\
  length buf = length os * ip_size k.
Proof.
  intros K T buf. split.
  - unfold optional_column. rewrite mapM_map. cbn [the_option].
    rewrite (mapM_all _ (fun _ => True) (fun o => o)) by (auto; apply Forall_forall; auto).
    rewrite map_id. cbn [rbind].
    destruct l; try discriminate K; injection K as <-; cbn [ip_size] in buf.
    + rewrite (parts_all _ _ (ltyped LIpv4) (x_address IpV4)); [reflexivity|intros [] Hx; try contradiction Hx; reflexivity|exact T].
    + rewrite (parts_all _ _ (ltyped LIpv6) (x_address IpV6)); [reflexivity|intros [] Hx; try contradiction Hx; reflexivity|exact T].
    + rewrite (parts_all _ _ (ltyped LUuid) (x_address IpUuid)); [reflexivity|intros [] Hx; try contradiction Hx; reflexivity|exact T].
  - unfold buf. rewrite (concat_length (ip_size k)), map_length; [reflexivity|]. rewrite Forall_map. eapply Forall_impl; [|exact T].
    intros [x|]; cbn [under_option opart]; [apply address_length, K|intros _; apply repeat_length].
Qed.
