(** Facts about Transport.v. *)
From Verif Require Import Base Bytes Reader Wire Types Block Compress Packets Transport
  ReaderProofs SpecTransport.
Open Scope list_scope.
Open Scope nat_scope.

(** A parse of a part of the input says what it will say of the whole, or waits. *)
Lemma partial_result {A} (p : P A) s more :
  match run p s with
  | Ok (a, r) => run p (s ++ more) = Ok (a, r ++ more)
  | Err EWouldBlock => True
  | Err e => run p (s ++ more) = Err e
  | Panic q => run p (s ++ more) = Panic q
  end.
Proof.
  destruct (run p s) as [[a r]|e|q] eqn:E.
  - apply run_extend, E.
  - destruct e; try exact I; apply run_extend_err; try exact E; discriminate.
  - apply run_extend_panic, E.
Qed.

Lemma error_eq_wb (e : error) : e = EWouldBlock \/ e <> EWouldBlock.
Proof. destruct e; auto; right; discriminate. Qed.

(** ** Reading *)
Definition pop (tail : list rd_event) : list rd_event := match tail with RPending :: m => m | l => l end.
Definition waits (tail : list rd_event) : Prop := match tail with [] => True | RPending :: _ => True | _ => False end.

Lemma received_app a b : received (a ++ b) = received a ++ received b.
Proof. unfold received. rewrite map_app, concat_app. reflexivity. Qed.

Lemma read_giving ds tail rd n : Forall giving ds ->
  read_to_end (ds ++ tail) rd n = read_to_end tail (rd ++ received ds) (n + length (received ds)).
Proof.
  revert rd n. induction ds as [|e ds IH]; intros rd n F.
  - cbn [app]. change (received []) with (@nil N). rewrite app_nil_r, Nat.add_0_r. reflexivity.
  - inversion F as [|? ? G F']; subst. destruct e as [d| | |]; try contradiction. cbn [giving] in G.
    cbn [app read_to_end]. destruct d as [|b d]; [congruence|].
    change (length (b :: d) =? 0)%nat with false. cbv iota. rewrite IH by exact F'.
    change (received (RData (b :: d) :: ds)) with ((b :: d) ++ received ds).
    rewrite <- app_assoc, app_length, Nat.add_assoc. reflexivity.
Qed.
Lemma fill_waits ds tail rd : Forall giving ds -> waits tail ->
  fill (ds ++ tail) rd = (FPending, rd ++ received ds, pop tail).
Proof.
  intros F W. unfold fill, fill_once. rewrite read_giving by exact F.
  destruct tail as [|[d| | |] tail]; try contradiction; reflexivity.
Qed.
Lemma fill_eof ds rest rd : Forall giving ds ->
  fill (ds ++ REof :: rest) rd = (FDone, rd ++ received ds, REof :: rest).
Proof.
  intros F. unfold fill, fill_once. rewrite read_giving by exact F. cbn [read_to_end Nat.add].
  destruct (length (received ds)) as [|k]; reflexivity.
Qed.
(** The loop never goes round a third time. *)
Lemma read_to_end_ready evs rd n : forall k rd' evs',
  read_to_end evs rd n = (PReady (Ok k), rd', evs') -> forall rd, fill_once evs' rd = (FDone, rd, evs').
Proof.
  revert rd n. induction evs as [|e evs IH]; intros rd n k rd' evs' H; [discriminate H|].
  destruct e as [d| | |]; cbn [read_to_end] in H; try discriminate H.
  - destruct (length d =? 0)%nat eqn:E; [|exact (IH _ _ _ _ _ H)].
    injection H as <- <- <-. intros r. unfold fill_once. cbn [read_to_end]. rewrite E. reflexivity.
  - injection H as <- <- <-. intros r. reflexivity.
Qed.
Lemma fill_no_more evs rd rd' evs' : fill evs rd <> (FMore, rd', evs').
Proof.
  unfold fill. destruct (fill_once evs rd) as [[f r] e] eqn:E.
  destruct f; try discriminate. unfold fill_once in E.
  destruct (read_to_end evs rd 0) as [[[x|] r'] e'] eqn:R; [|discriminate E].
  destruct x as [[|k]|er|q]; try discriminate E. injection E as <- <-.
  rewrite (read_to_end_ready _ _ _ _ _ _ R). discriminate.
Qed.

Section Delivery.
Variable lz4_decompress : bytes -> N -> option bytes.
Variable tz_known : bytes -> bool.
Notation message i := (run (parse_packet lz4_decompress tz_known i)).
Notation poll := (poll_next lz4_decompress tz_known).
Notation drive := (drive lz4_decompress tz_known).
Notation decodes := (decodes lz4_decompress tz_known).
Notation unfinished := (unfinished lz4_decompress tz_known).

Definition sound (t : transport) : Prop := t_done t = false /\ (t_incomplete t = true -> unfinished (t_info t) (t_rd t)).

Lemma message_nil i : message i [] = Err EWouldBlock.
Proof.
  unfold parse_packet. rewrite run_bind. assert (E : run Wire.read_uvarint [] = Err EWouldBlock) by (vm_compute; reflexivity).
  rewrite E. reflexivity.
Qed.

(** One poll: it goes by the buffer if that decides, and else reads all there is first. *)
Definition polled_from (t : transport) (rd : bytes) (evs : list rd_event)
    (x : polled (option (res packet)) * transport * list rd_event) : Prop :=
  match message (t_info t) rd with
  | Ok (p, rest) => exists t', x = (PReady (Some (Ok p)), t', evs) /\ t_rd t' = rest /\
                      t_info t' = learnt (t_info t) p /\ t_incomplete t' = false /\ t_done t' = false
  | Err EWouldBlock => exists t', x = (PPending, t', evs) /\ t_rd t' = rd /\ t_info t' = t_info t /\ sound t' /\
                         t_incomplete t' = true
  | Err e => exists t', x = (PReady (Some (Err e)), t', evs)
  | Panic q => exists t', x = (PReady (Some (Panic q)), t', evs)
  end.
Lemma poll_cases t ds tail : sound t -> Forall giving ds -> waits tail ->
  (t_incomplete t = false /\ message (t_info t) (t_rd t) <> Err EWouldBlock /\
   polled_from t (t_rd t) (ds ++ tail) (poll t (ds ++ tail))) \/
  (unfinished (t_info t) (t_rd t) /\
   polled_from t (t_rd t ++ received ds) (pop tail) (poll t (ds ++ tail))).
Proof.
  intros (D & I) F W. unfold poll_next. rewrite D, (fill_waits ds tail (t_rd t) F W).
  assert (READ : polled_from t (t_rd t ++ received ds) (pop tail)
    (let (r, t') := try_parse_msg lz4_decompress tz_known (set_rd t (t_rd t ++ received ds)) in
     match r with
     | PPending => (PPending, set_incomplete t' true, pop tail)
     | PReady x => (PReady (Some x), set_incomplete t' false, pop tail)
     end)).
  { unfold try_parse_msg, polled_from. cbn [t_info t_rd set_rd].
    destruct (message (t_info t) (t_rd t ++ received ds)) as [[p r]|e|q] eqn:E.
    - eexists. split; [reflexivity|]. destruct t; cbn in *. repeat split; auto; destruct p; reflexivity.
    - destruct e; try (eexists; reflexivity).
      eexists. split; [reflexivity|]. cbn [t_info t_rd set_rd set_incomplete t_incomplete].
      split; [reflexivity|]. split; [reflexivity|]. split; [|reflexivity].
      split; [exact D|]. intros _. exact E.
    - eexists; reflexivity. }
  destruct (t_incomplete t) eqn:Inc; cbn [negb andb].
  - right. split; [apply I; reflexivity|exact READ].
  - destruct (length (t_rd t) =? 0) eqn:Len; cbn [negb].
    + right. split; [|exact READ]. apply Nat.eqb_eq in Len. destruct (t_rd t); [|discriminate Len]. apply message_nil.
    + assert (T : try_parse_msg lz4_decompress tz_known t =
        match message (t_info t) (t_rd t) with
        | Ok (pk, rest) => (PReady (Ok pk), set_rd (set_info t (after (t_info t) pk)) rest)
        | Err EWouldBlock => (PPending, t)
        | Err e => (PReady (Err e), set_rd t (left_over (parse_packet lz4_decompress tz_known (t_info t)) (t_rd t)))
        | Panic q => (PReady (Panic q), t)
        end) by reflexivity.
      rewrite T. unfold polled_from.
      destruct (message (t_info t) (t_rd t)) as [[p r]|e|q] eqn:E.
      * left. split; [reflexivity|]. split; [discriminate|]. eexists. split; [reflexivity|].
        destruct t; cbn in *. repeat split; auto; destruct p; reflexivity.
      * destruct e; try (left; split; [reflexivity|]; split; [discriminate|]; eexists; reflexivity).
        right. split; [exact E|exact READ].
      * left. split; [reflexivity|]. split; [discriminate|]. eexists; reflexivity.
Qed.

Lemma drive_pending k t evs t' evs' : poll t evs = (PPending, t', evs') -> drive (S k) t evs = drive k t' evs'.
Proof. intros H. cbn [SpecTransport.drive]. rewrite H. reflexivity. Qed.
Lemma drive_packet k t evs p t' evs' : poll t evs = (PReady (Some (Ok p)), t', evs') ->
  drive (S k) t evs = let '(ps, e, t'', evs'') := drive k t' evs' in (p :: ps, e, t'', evs'').
Proof. intros H. cbn [SpecTransport.drive]. rewrite H. reflexivity. Qed.

Lemma poll_buffered t evs : t_done t = false -> t_incomplete t = false -> message (t_info t) (t_rd t) <> Err EWouldBlock ->
  polled_from t (t_rd t) evs (poll t evs).
Proof.
  intros D Inc NW. unfold poll_next. rewrite Inc. cbn [negb andb].
  destruct (length (t_rd t) =? 0) eqn:Len; cbn [negb].
  { exfalso. apply NW. apply Nat.eqb_eq in Len. destruct (t_rd t); [|discriminate Len]. apply message_nil. }
  assert (T : try_parse_msg lz4_decompress tz_known t =
    match message (t_info t) (t_rd t) with
    | Ok (pk, rest) => (PReady (Ok pk), set_rd (set_info t (after (t_info t) pk)) rest)
    | Err EWouldBlock => (PPending, t)
    | Err e => (PReady (Err e), set_rd t (left_over (parse_packet lz4_decompress tz_known (t_info t)) (t_rd t)))
    | Panic q => (PReady (Panic q), t)
    end) by reflexivity.
  rewrite T. unfold polled_from.
  destruct (message (t_info t) (t_rd t)) as [[p r]|e|q] eqn:E.
  - eexists. split; [reflexivity|]. destruct t; cbn in *. repeat split; auto; destruct p; reflexivity.
  - destruct e; try (eexists; reflexivity). congruence.
  - eexists; reflexivity.
Qed.

(** Messages that are all in the buffer. *)
Lemma drive_buffered ps : forall t i' tail evs,
  t_done t = false -> t_incomplete t = false -> decodes (t_info t) (t_rd t) ps i' tail ->
  exists t', t_done t' = false /\ t_rd t' = tail /\ t_info t' = i' /\ t_incomplete t' = false /\
    forall k', drive (length ps + k') t evs = (let '(qs, e, t'', evs'') := drive k' t' evs in (ps ++ qs, e, t'', evs'')).
Proof.
  induction ps as [|p ps IH]; intros t i' tail evs So Inc D.
  - inversion D; subst. exists t. do 4 (split; [auto|]). intros k'. cbn [length Nat.add app].
    destruct (drive k' t evs) as [[[? ?] ?] ?]. reflexivity.
  - inversion D as [|? u l ? ? ? ? NE M D' E1 E2]; subst.
    pose proof (poll_buffered t evs So Inc) as P. rewrite <- E2 in P. unfold polled_from in P.
    rewrite M in P. destruct (P ltac:(discriminate)) as (t' & P' & R & Inf & Inc' & Dn).
    rewrite <- Inf in D'. rewrite <- R in D'.
    destruct (IH t' i' tail evs) as (t2 & S2 & R2 & I2 & C2 & H2); auto.
    exists t2. do 4 (split; [assumption|]). intros k'. cbn [length Nat.add].
    rewrite (drive_packet _ _ _ _ _ _ P'), H2.
    destruct (drive k' t2 evs) as [[[? ?] ?] ?]. reflexivity.
Qed.

(** Any reads that give bytes or are not ready: cut off at the first that is not ready. *)
Lemma flow_split evs : Forall flowing evs -> exists ds tail, evs = ds ++ tail /\ Forall giving ds /\
  (tail = [] \/ exists m, tail = RPending :: m /\ Forall flowing m).
Proof.
  induction 1 as [|e evs Fe F (ds & tail & -> & G & T)].
  - exists [], []. repeat split; auto; constructor.
  - destruct e as [d| | |]; try contradiction.
    + exists (RData d :: ds), tail. repeat split; auto; constructor; auto.
    + exists [], (RPending :: ds ++ tail). repeat split; [constructor|]. right. eauto.
Qed.
Lemma received_flow ds m : received (ds ++ RPending :: m) = received ds ++ received m.
Proof. rewrite received_app. reflexivity. Qed.

Lemma decodes_first i whole p ps i' tail rd d : decodes i whole (p :: ps) i' tail -> whole = rd ++ d ->
  (exists x, message i rd = Ok (p, x) /\ decodes (learnt i p) (x ++ d) ps i' tail) \/ unfinished i rd.
Proof.
  intros D W. inversion D as [|? u l ? ? ? ? NE M D' E1 E2]; subst.
  pose proof (partial_result (parse_packet lz4_decompress tz_known i) rd d) as Q.
  rewrite <- E2, M in Q. destruct (message i rd) as [[a x]|e|q] eqn:E.
  - injection Q as -> ->. left. eauto.
  - destruct e; try discriminate Q. right. exact E.
  - discriminate Q.
Qed.
Lemma unfinished_part i rd d : unfinished i (rd ++ d) -> unfinished i rd.
Proof.
  unfold SpecTransport.unfinished. intros U. pose proof (partial_result (parse_packet lz4_decompress tz_known i) rd d) as Q.
  rewrite U in Q. destruct (message i rd) as [[a x]|e|q]; [discriminate Q| |discriminate Q].
  destruct e; try discriminate Q. reflexivity.
Qed.

(** The main fact. [S] is what comes after the reads in question: nothing, or a read that is not
    ready and anything. All messages that are complete in the bytes so far are delivered before
    [S] is passed. *)
Lemma drive_flow n : forall pre ps t S i' tail,
  length pre + length ps <= n ->
  sound t -> Forall flowing pre -> waits S ->
  decodes (t_info t) (t_rd t ++ received pre) ps i' tail -> unfinished i' tail ->
  exists k t', sound t' /\ t_rd t' = tail /\ t_info t' = i' /\ k <= length pre + length ps + 1 /\
    forall k', drive (k + k') t (pre ++ S) = (let '(qs, e, t'', evs'') := drive k' t' (pop S) in (ps ++ qs, e, t'', evs'')).
Proof.
  induction n as [|n IH]; intros pre ps t S i' tail Hn So F W D U.
  - destruct pre; [|cbn in Hn; lia]. destruct ps; [|cbn in Hn; lia]. inversion D; subst.
    change (received []) with (@nil N) in *. rewrite app_nil_r in *.
    pose proof (unfinished_part _ _ _ ltac:(rewrite app_nil_r; exact U)) as U'.
    destruct (poll_cases t [] S So ltac:(constructor) W) as [(_ & NU & _)|(_ & P)]; [contradiction|].
    change (received []) with (@nil N) in P. rewrite app_nil_r in P. unfold polled_from in P. rewrite U in P.
    destruct P as (t' & P & R & Inf & So' & _). exists 1, t'. do 3 (split; [auto|]). split; [cbn; lia|].
    intros k'. cbn [Nat.add app]. rewrite (drive_pending _ _ _ _ _ P).
    destruct (drive k' t' (pop S)) as [[[? ?] ?] ?]. reflexivity.
  - destruct (flow_split pre F) as (ds & tl & -> & G & T).
    assert (W' : waits (tl ++ S)) by (destruct T as [->|(m & -> & _)]; cbn [app]; auto; exact I).
    rewrite <- app_assoc.
    destruct (poll_cases t ds (tl ++ S) So G W') as [(Inc & NU & P)|(U0 & P)].
    + (* the buffer decides *)
      destruct ps as [|p ps].
      { exfalso. inversion D; subst. apply NU. apply unfinished_part in U. exact U. }
      destruct (decodes_first _ _ _ _ _ _ _ _ D eq_refl) as [(x & M & D')|U0]; [|contradiction].
      unfold polled_from in P. rewrite M in P. destruct P as (t' & P & R & Inf & Inc' & Dn).
      rewrite <- Inf, <- R in D'.
      destruct (IH (ds ++ tl) ps t' S i' tail) as (k & t2 & S2 & R2 & I2 & K & H2); auto.
      { cbn [length] in Hn. lia. }
      { split; [exact Dn|]. rewrite Inc'. discriminate. }
      exists (1 + k), t2. do 3 (split; [assumption|]). split; [cbn [length]; lia|]. intros k'.
      change (1 + k + k') with (Datatypes.S (k + k')).
      rewrite (drive_packet _ _ _ _ _ _ P). rewrite <- app_assoc in H2. rewrite H2.
      destruct (drive k' t2 (pop S)) as [[[? ?] ?] ?]. reflexivity.
    + destruct T as [->|(m & -> & Fm)].
      * (* all bytes are read now *)
        rewrite app_nil_r in *. cbn [app] in *.
        destruct ps as [|p ps].
        { inversion D; subst. unfold polled_from in P. rewrite U in P. destruct P as (t' & P & R & Inf & So' & _).
          exists 1, t'. do 3 (split; [auto|]). split; [lia|]. intros k'. cbn [Nat.add app].
          rewrite (drive_pending _ _ _ _ _ P). destruct (drive k' t' (pop S)) as [[[? ?] ?] ?]. reflexivity. }
        destruct (decodes_first _ _ _ _ _ _ (t_rd t ++ received ds) [] D ltac:(rewrite app_nil_r; reflexivity))
          as [(x & M & D')|U1].
        2:{ inversion D as [|? u l ? ? ? ? NE M D' E1 E2]; subst. exfalso.
            unfold SpecTransport.unfinished in U1. rewrite <- E2, M in U1. discriminate. }
        rewrite app_nil_r in D'.
        unfold polled_from in P. rewrite M in P. destruct P as (t' & P & R & Inf & Inc' & Dn).
        rewrite <- Inf, <- R in D'.
        destruct (drive_buffered ps t' i' tail (pop S) Dn Inc' D') as (t2 & S2 & R2 & I2 & C2 & H2).
        exists (1 + length ps), t2. split; [split; [exact S2|rewrite C2; discriminate]|].
        do 2 (split; [assumption|]). split; [cbn [length]; lia|]. intros k'.
        change (1 + length ps + k') with (Datatypes.S (length ps + k')).
        rewrite (drive_packet _ _ _ _ _ _ P), H2.
        destruct (drive k' t2 (pop S)) as [[[? ?] ?] ?]. reflexivity.
      * (* the bytes up to the next moment of waiting *)
        rewrite received_flow, app_assoc in D. cbn [app pop] in P. rewrite app_length in Hn. cbn [length] in Hn.
        destruct ps as [|p ps].
        { inversion D; subst. pose proof (unfinished_part _ _ _ U) as U1.
          unfold polled_from in P. rewrite U1 in P. destruct P as (t' & P & R & Inf & So' & _).
          destruct (IH m [] t' S (t_info t) ((t_rd t ++ received ds) ++ received m)) as (k & t2 & S2 & R2 & I2 & K & H2); auto.
          { cbn [length] in *. lia. }
          { rewrite R, Inf. constructor. }
          exists (1 + k), t2. do 3 (split; [assumption|]). split; [rewrite app_length; cbn [length] in *; lia|].
          intros k'. change (1 + k + k') with (Datatypes.S (k + k')). cbn [app].
          rewrite (drive_pending _ _ _ _ _ P). apply H2. }
        destruct (decodes_first _ _ _ _ _ _ _ _ D eq_refl) as [(x & M & D')|U1].
        { unfold polled_from in P. rewrite M in P. destruct P as (t' & P & R & Inf & Inc' & Dn).
          rewrite <- Inf, <- R in D'.
          destruct (IH m ps t' S i' tail) as (k & t2 & S2 & R2 & I2 & K & H2); auto.
          { cbn [length] in *. lia. }
          { split; [exact Dn|]. rewrite Inc'. discriminate. }
          exists (1 + k), t2. do 3 (split; [assumption|]). split; [rewrite app_length; cbn [length] in *; lia|].
          intros k'. change (1 + k + k') with (Datatypes.S (k + k')). cbn [app].
          rewrite (drive_packet _ _ _ _ _ _ P), H2.
          destruct (drive k' t2 (pop S)) as [[[? ?] ?] ?]. reflexivity. }
        { unfold polled_from in P. unfold SpecTransport.unfinished in U1. rewrite U1 in P.
          destruct P as (t' & P & R & Inf & So' & _). rewrite <- R, <- Inf in D.
          destruct (IH m (p :: ps) t' S i' tail) as (k & t2 & S2 & R2 & I2 & K & H2); auto.
          { cbn [length] in *. lia. }
          exists (1 + k), t2. do 3 (split; [assumption|]). split; [rewrite app_length; cbn [length] in *; lia|].
          intros k'. change (1 + k + k') with (Datatypes.S (k + k')). cbn [app].
          rewrite (drive_pending _ _ _ _ _ P). apply H2. }
Qed.
End Delivery.

Section Ends.
Variable lz4_decompress : bytes -> N -> option bytes.
Variable tz_known : bytes -> bool.
Notation message i := (run (parse_packet lz4_decompress tz_known i)).
Notation poll := (poll_next lz4_decompress tz_known).
Notation drive := (drive lz4_decompress tz_known).
Notation decodes := (decodes lz4_decompress tz_known).
Notation unfinished := (unfinished lz4_decompress tz_known).
Notation sound := (sound lz4_decompress tz_known).

(** No more reads. *)
Lemma drive_idle k : forall t, sound t -> unfinished (t_info t) (t_rd t) ->
  exists t', drive k t [] = ([], Going, t', []) /\ t_rd t' = t_rd t /\ t_info t' = t_info t.
Proof.
  induction k as [|k IH]; intros t So U; [exists t; auto|].
  destruct (poll_cases lz4_decompress tz_known t [] [] So ltac:(constructor) I) as [(_ & NU & _)|(_ & P)]; [contradiction|].
  change (received []) with (@nil N) in P. rewrite app_nil_r in P. unfold polled_from in P. rewrite U in P.
  destruct P as (t' & P & R & Inf & So' & _). cbn [app pop] in P.
  rewrite (drive_pending _ _ _ _ _ _ _ P). rewrite <- R, <- Inf. apply IH; [exact So'|].
  rewrite R, Inf. exact U.
Qed.

(** The connection closes with or after the last bytes. *)
Lemma poll_close t ds rest : sound t -> unfinished (t_info t) (t_rd t) -> Forall giving ds ->
  exists t', poll t (ds ++ REof :: rest) = (PReady None, t', REof :: rest).
Proof.
  intros (D & I) U G. unfold poll_next. rewrite D, (fill_eof ds rest (t_rd t) G).
  destruct (negb (t_incomplete t) && negb (length (t_rd t) =? 0)); [|eexists; reflexivity].
  assert (T : try_parse_msg lz4_decompress tz_known t = (PPending, t)).
  { unfold try_parse_msg. unfold SpecTransport.unfinished in U. rewrite U. reflexivity. }
  rewrite T. eexists; reflexivity.
Qed.

(** Waiting is only reported when the socket was not ready, and with no complete message around. *)
Lemma read_pending evs : forall rd n rd' evs', read_to_end evs rd n = (PPending, rd', evs') ->
  exists ds, Forall giving ds /\ (evs = ds /\ evs' = [] \/ evs = ds ++ RPending :: evs').
Proof.
  induction evs as [|e evs IH]; intros rd n rd' evs' H.
  - injection H as <- <-. exists []. split; [constructor|]. auto.
  - destruct e as [d| | |]; cbn [read_to_end] in H; try discriminate H.
    + destruct (length d =? 0) eqn:E; [discriminate H|]. destruct (IH _ _ _ _ H) as (ds & G & C).
      exists (RData d :: ds). split.
      * constructor; [|exact G]. cbn [giving]. intros ->. discriminate E.
      * destruct C as [[-> ->]| ->]; auto.
    + injection H as <- <-. exists []. split; [constructor|]. auto.
Qed.
Lemma poll_pending t evs t' evs' : sound t -> poll t evs = (PPending, t', evs') ->
  unfinished (t_info t') (t_rd t') /\
  exists ds, Forall giving ds /\ (evs = ds /\ evs' = [] \/ evs = ds ++ RPending :: evs').
Proof.
  intros (D & I) H. unfold poll_next in H. rewrite D in H.
  assert (K : forall rd f evs2, fill evs (t_rd t) = (f, rd, evs2) ->
     match f with FPending => exists ds, Forall giving ds /\ (evs = ds /\ evs2 = [] \/ evs = ds ++ RPending :: evs2) | _ => True end).
  { intros rd f evs2 Hf. destruct f; auto. unfold fill, fill_once in Hf.
    destruct (read_to_end evs (t_rd t) 0) as [[[x|] r1] e1] eqn:R.
    - destruct x as [[|k]|er|q]; try discriminate Hf.
      pose proof (read_to_end_ready _ _ _ _ _ _ R r1) as Q. unfold fill_once in Q. rewrite Q in Hf. discriminate Hf.
    - injection Hf as <- <-. exact (read_pending _ _ _ _ _ R). }
  assert (READ : forall x, (match fill evs (t_rd t) with
    | (FDone, rd, evs') => (PReady None, set_done (set_rd t rd), evs')
    | (FErr, rd, evs') => (PReady (Some (Err EIo)), set_rd t rd, evs')
    | (FPending, rd, evs') =>
        let (r, t') := try_parse_msg lz4_decompress tz_known (set_rd t rd) in
        match r with
        | PPending => (PPending, set_incomplete t' true, evs')
        | PReady x => (PReady (Some x), set_incomplete t' false, evs')
        end
    | (FMore, rd, evs') => (PReady (Some (Panic PFuel)), set_rd t rd, evs')
    end) = (PPending, t', evs') -> x = evs' -> unfinished (t_info t') (t_rd t') /\
     exists ds, Forall giving ds /\ (evs = ds /\ evs' = [] \/ evs = ds ++ RPending :: evs')).
  { intros x Hx _. destruct (fill evs (t_rd t)) as [[f rd] evs2] eqn:F. specialize (K _ _ _ eq_refl).
    destruct f; try discriminate Hx.
    destruct (try_parse_msg lz4_decompress tz_known (set_rd t rd)) as [r t2] eqn:T.
    destruct r; [discriminate Hx|]. injection Hx as <- <-. split; [|exact K].
    unfold try_parse_msg in T. cbn [t_info t_rd set_rd] in T. unfold SpecTransport.unfinished.
    destruct (message (t_info t) rd) as [[p r]|e|q] eqn:E; [discriminate T| |discriminate T].
    destruct e; try discriminate T. injection T as <-. exact E. }
  destruct (negb (t_incomplete t) && negb (length (t_rd t) =? 0)).
  - destruct (try_parse_msg lz4_decompress tz_known t) as [r t2]. destruct r; [discriminate H|].
    exact (READ _ H eq_refl).
  - exact (READ _ H eq_refl).
Qed.

(** An error or a panic in the data is reported after the messages before it. *)
Lemma drive_fails n : forall pre ps t S i' tail,
  length pre + length ps <= n ->
  sound t -> Forall flowing pre -> waits S ->
  decodes (t_info t) (t_rd t ++ received pre) ps i' tail ->
  forall e, match e with Failed x => x <> EWouldBlock /\ message i' tail = Err x | Crashed q => message i' tail = Panic q | _ => False end ->
  exists t' evs', forall k, length pre + length ps + 1 <= k -> drive k t (pre ++ S) = (ps, e, t', evs').
Proof.
  induction n as [|n IH]; intros pre ps t S i' tail Hn So F W D e He.
  - destruct pre; [|cbn in Hn; lia]. destruct ps; [|cbn in Hn; lia]. inversion D; subst.
    change (received []) with (@nil N) in *. rewrite app_nil_r in *. cbn [app].
    destruct (poll_cases lz4_decompress tz_known t [] S So ltac:(constructor) W) as [(_ & _ & P)|(U & _)].
    + unfold polled_from in P. cbn [app] in P. destruct e as [| |x|q]; try contradiction.
      * destruct He as [Nx He]. rewrite He in P. destruct x; try congruence; destruct P as (t' & P); exists t', S;
        intros [|k] Hk; try (cbn in Hk; lia); cbn [SpecTransport.drive]; rewrite P; reflexivity.
      * rewrite He in P. destruct P as (t' & P). exists t', S.
        intros [|k] Hk; [cbn in Hk; lia|]. cbn [SpecTransport.drive]. rewrite P. reflexivity.
    + exfalso. unfold SpecTransport.unfinished in U. rewrite U in He. destruct e; try contradiction; [|discriminate He].
      destruct He as [Ne He]. congruence.
  - destruct (flow_split pre F) as (ds & tl & -> & G & T).
    assert (W' : waits (tl ++ S)) by (destruct T as [->|(m & -> & _)]; cbn [app]; auto; exact I).
    rewrite <- app_assoc.
    assert (END : forall rd d i' evs, rd ++ d = tail -> t_info t = i' -> message i' rd <> Err EWouldBlock ->
              match e with Failed x => x <> EWouldBlock /\ message i' tail = Err x | Crashed q => message i' tail = Panic q | _ => False end ->
              polled_from lz4_decompress tz_known t rd evs (poll t (ds ++ tl ++ S)) ->
              exists t' evs', forall k, 1 <= k -> drive k t (ds ++ tl ++ S) = ([], e, t', evs')).
    { intros rd d i2 evs <- <- NU He2 P.
      pose proof (partial_result (parse_packet lz4_decompress tz_known (t_info t)) rd d) as Q.
      unfold polled_from in P. destruct (message (t_info t) rd) as [[a x]|x|q] eqn:E.
      - exfalso. destruct e as [| |x0|q]; try contradiction; [destruct He2 as [_ He2]|]; rewrite Q in He2; discriminate He2.
      - destruct e as [| |x0|q]; try contradiction.
        + destruct He2 as [Nx He2].
          assert (x = x0) as -> by (destruct x; try congruence; rewrite Q in He2; congruence).
          destruct x0; try congruence; destruct P as (t' & P); exists t', evs;
          intros [|k] Hk; try lia; cbn [SpecTransport.drive]; rewrite P; reflexivity.
        + exfalso. destruct x; try congruence; rewrite Q in He2; discriminate He2.
      - destruct e as [| |x0|q0]; try contradiction.
        + exfalso. destruct He2 as [_ He2]. rewrite Q in He2. discriminate He2.
        + rewrite Q in He2. injection He2 as ->. destruct P as (t' & P). exists t', evs.
          intros [|k] Hk; try lia; cbn [SpecTransport.drive]; rewrite P; reflexivity. }
    destruct (poll_cases lz4_decompress tz_known t ds (tl ++ S) So G W') as [(Inc & NU & P)|(U0 & P)].
    + destruct ps as [|p ps].
      { inversion D; subst. destruct (END (t_rd t) (received (ds ++ tl)) (t_info t) (ds ++ tl ++ S)) as (t' & evs' & H); auto.
        exists t', evs'. intros k Hk. apply H. lia. }
      destruct (decodes_first _ _ _ _ _ _ _ _ _ _ D eq_refl) as [(x & M & D')|U0]; [|contradiction].
      unfold polled_from in P. rewrite M in P. destruct P as (t' & P & R & Inf & Inc' & Dn).
      rewrite <- Inf, <- R in D'.
      destruct (IH (ds ++ tl) ps t' S i' tail) with (e := e) as (t2 & evs2 & H2); auto.
      { cbn [length] in Hn. lia. }
      { split; [exact Dn|]. rewrite Inc'. discriminate. }
      exists t2, evs2. intros [|k] Hk; [lia|]. rewrite (drive_packet _ _ _ _ _ _ _ _ P).
      rewrite <- app_assoc in H2. rewrite H2 by (cbn [length] in Hk; lia). reflexivity.
    + destruct T as [->|(m & -> & Fm)].
      * rewrite app_nil_r in *. cbn [app] in *.
        destruct ps as [|p ps].
        { inversion D; subst. destruct (END (t_rd t ++ received ds) [] (t_info t) (pop S)) as (t' & evs' & H); auto.
          - apply app_nil_r.
          - destruct e as [| |x|q]; try contradiction; [destruct He as [Ne He]|]; rewrite He; congruence.
          - exists t', evs'. intros k Hk. apply H. lia. }
        destruct (decodes_first _ _ _ _ _ _ _ _ (t_rd t ++ received ds) [] D ltac:(rewrite app_nil_r; reflexivity))
          as [(x & M & D')|U1].
        2:{ inversion D as [|? u l ? ? ? ? NE M D' E1 E2]; subst. exfalso.
            unfold SpecTransport.unfinished in U1. rewrite <- E2, M in U1. discriminate. }
        rewrite app_nil_r in D'.
        unfold polled_from in P. rewrite M in P. destruct P as (t' & P & R & Inf & Inc' & Dn).
        rewrite <- Inf, <- R in D'.
        destruct (drive_buffered lz4_decompress tz_known ps t' i' tail (pop S) Dn Inc' D') as (t2 & S2 & R2 & I2 & C2 & H2).
        assert (B : polled_from lz4_decompress tz_known t2 (t_rd t2) (pop S) (poll t2 (pop S))).
        { apply poll_buffered; auto. rewrite R2, I2. destruct e as [| |x0|q]; try contradiction; [destruct He as [Ne He]|]; rewrite He; congruence. }
        unfold polled_from in B. rewrite R2, I2 in B.
        assert (exists t3, poll t2 (pop S) = (PReady (Some match e with Failed x => Err x | Crashed q => Panic q | _ => Err EIo end), t3, pop S)) as (t3 & P3).
        { destruct e as [| |x0|q]; try contradiction.
          - destruct He as [Ne He]. rewrite He in B. destruct x0; try congruence; destruct B as (t3 & B); eauto.
          - rewrite He in B. destruct B as (t3 & B). eauto. }
        exists t3, (pop S). intros k Hk. cbn [length] in Hk.
        assert (exists k', k = Datatypes.S (length ps + Datatypes.S k')) as (k' & ->)
          by (exists (k - 2 - length ps); lia).
        rewrite (drive_packet _ _ _ _ _ _ _ _ P), H2. cbn [SpecTransport.drive]. rewrite P3.
        destruct e; try contradiction; rewrite app_nil_r; reflexivity.
      * rewrite received_flow, app_assoc in D. cbn [app pop] in P. rewrite app_length in Hn. cbn [length] in Hn.
        destruct ps as [|p ps].
        { inversion D; subst.
          destruct (message (t_info t) (t_rd t ++ received ds)) as [[a x]|x|q] eqn:E.
          - destruct (END (t_rd t ++ received ds) (received m) (t_info t) (m ++ S)) as (t' & evs' & H); auto.
            + rewrite E. discriminate.
            + exists t', evs'. intros k Hk. apply H. lia.
          - destruct (error_eq_wb x) as [->|NW].
            + unfold polled_from in P. rewrite E in P. destruct P as (t' & P & R & Inf & So' & _).
              destruct (IH m [] t' S (t_info t) ((t_rd t ++ received ds) ++ received m)) with (e := e) as (t2 & evs2 & H2); auto.
              { cbn [length] in *. lia. }
              { rewrite R, Inf. constructor. }
              exists t2, evs2. intros [|k] Hk; [lia|]. cbn [app]. rewrite (drive_pending _ _ _ _ _ _ _ P).
              apply H2. rewrite app_length in Hk. cbn [length] in *. lia.
            + destruct (END (t_rd t ++ received ds) (received m) (t_info t) (m ++ S)) as (t' & evs' & H); auto.
              * rewrite E. congruence.
              * exists t', evs'. intros k Hk. apply H. lia.
          - destruct (END (t_rd t ++ received ds) (received m) (t_info t) (m ++ S)) as (t' & evs' & H); auto.
            + rewrite E. discriminate.
            + exists t', evs'. intros k Hk. apply H. lia. }
        destruct (decodes_first _ _ _ _ _ _ _ _ _ _ D eq_refl) as [(x & M & D')|U1].
        { unfold polled_from in P. rewrite M in P. destruct P as (t' & P & R & Inf & Inc' & Dn).
          rewrite <- Inf, <- R in D'.
          destruct (IH m ps t' S i' tail) with (e := e) as (t2 & evs2 & H2); auto.
          { cbn [length] in *. lia. }
          { split; [exact Dn|]. rewrite Inc'. discriminate. }
          exists t2, evs2. intros [|k] Hk; [lia|]. cbn [app].
          rewrite (drive_packet _ _ _ _ _ _ _ _ P), H2; [reflexivity|]. rewrite app_length in Hk. cbn [length] in *. lia. }
        { unfold polled_from in P. unfold SpecTransport.unfinished in U1. rewrite U1 in P.
          destruct P as (t' & P & R & Inf & So' & _). rewrite <- R, <- Inf in D.
          destruct (IH m (p :: ps) t' S i' tail) with (e := e) as (t2 & evs2 & H2); auto.
          { cbn [length] in *. lia. }
          exists t2, evs2. intros [|k] Hk; [lia|]. cbn [app].
          rewrite (drive_pending _ _ _ _ _ _ _ P). apply H2. rewrite app_length in Hk. cbn [length] in *. lia. }
Qed.
End Ends.

(** ** Writing *)
Section Sending.
Variable lz4_compress : bytes -> bytes.
Variable show_float : Z -> bytes.
Notation encode := (encode_command lz4_compress show_float).
Notation all_bytes := (all_bytes lz4_compress show_float).

(** What one call of [send] does to the queue. [bad]: the command that could not be encoded. *)
Definition sent_some (t : transport) (out : bytes) (t' : transport) (bad : list cmd) : Prop :=
  exists good g, all_bytes good g /\ out ++ t_wr t' = t_wr t ++ g /\ t_cmds t = good ++ bad ++ t_cmds t'.

Lemma all_bytes_nil : all_bytes [] [].
Proof. exists []. split; [constructor|reflexivity]. Qed.
Lemma all_bytes_cons c b cs l : encode c = Ok b -> all_bytes cs l -> all_bytes (c :: cs) (b ++ l).
Proof. intros E (bs & F & ->). exists (b :: bs). split; [constructor; assumption|reflexivity]. Qed.
Lemma all_bytes_app a x b y : all_bytes a x -> all_bytes b y -> all_bytes (a ++ b) (x ++ y).
Proof.
  intros (bs & F & ->) (cs & G & ->). exists (bs ++ cs). split; [apply Forall2_app; assumption|].
  symmetry. apply concat_app.
Qed.

Lemma send_spec evs : forall t r t' evs' out,
  send lz4_compress show_float evs t = (r, t', evs', out) ->
  match r with
  | PPending => sent_some t out t' [] /\ length evs' <= length evs /\ (evs = [] \/ length evs' < length evs)
  | PReady (Ok _) => sent_some t out t' [] /\ t_wr t' = [] /\ t_cmds t' = []
  | PReady (Err e) => (e = EIo /\ sent_some t out t' []) \/
                      exists c, encode c = Err e /\ sent_some t out t' [c] /\ t_wr t' = []
  | PReady (Panic p) => exists c, encode c = Panic p /\ sent_some t out t' [c] /\ t_wr t' = []
  end.
Proof.
  induction evs as [|e evs IH]; intros t r t' evs' out H; cbn [send] in H.
  - destruct (t_wr t) as [|b wr] eqn:Ew.
    + destruct (t_cmds t) as [|c cs] eqn:Ec.
      * injection H as <- <- <- <-. split; [|auto]. exists [], []. rewrite Ew, Ec. split; [apply all_bytes_nil|auto].
      * destruct (encode c) as [bs|e|p] eqn:E; injection H as <- <- <- <-.
        -- split; [|cbn; auto]. exists [c], (bs ++ []). split; [apply all_bytes_cons; [exact E|apply all_bytes_nil]|].
           cbn [set_out t_wr t_cmds app]. rewrite app_nil_r, Ew. rewrite Ec. auto.
        -- right. exists c. split; [exact E|]. split; [|reflexivity]. exists [], []. rewrite Ew, Ec. split; [apply all_bytes_nil|auto].
        -- exists c. split; [exact E|]. split; [|reflexivity]. exists [], []. rewrite Ew, Ec. split; [apply all_bytes_nil|auto].
    + injection H as <- <- <- <-. split; [|cbn; auto]. exists [], []. rewrite app_nil_r. split; [apply all_bytes_nil|auto].
  - assert (FL : forall u, (forall r t' evs' out,
      (match e with
       | WAccept n => let '(r, t', evs'', out) := send lz4_compress show_float evs (set_out u (skipn n (t_wr u)) (t_cmds u)) in
                      (r, t', evs'', firstn n (t_wr u) ++ out)
       | WPending => (PPending, u, evs, [])
       | WErr => (PReady (Err EIo), u, evs, [])
       end) = (r, t', evs', out) ->
      match r with
      | PPending => sent_some u out t' [] /\ length evs' < length (e :: evs)
      | PReady (Ok _) => sent_some u out t' [] /\ t_wr t' = [] /\ t_cmds t' = []
      | PReady (Err e) => (e = EIo /\ sent_some u out t' []) \/
                          exists c, encode c = Err e /\ sent_some u out t' [c] /\ t_wr t' = []
      | PReady (Panic p) => exists c, encode c = Panic p /\ sent_some u out t' [c] /\ t_wr t' = []
      end)).
    { intros u r0 t0 evs0 out0 H0. destruct e as [n| |].
      - destruct (send lz4_compress show_float evs (set_out u (skipn n (t_wr u)) (t_cmds u))) as [[[r1 t1] evs1] out1] eqn:R.
        injection H0 as <- <- <- <-. specialize (IH _ _ _ _ _ R).
        assert (SS : forall bad, sent_some (set_out u (skipn n (t_wr u)) (t_cmds u)) out1 t1 bad ->
                       sent_some u (firstn n (t_wr u) ++ out1) t1 bad).
        { intros bad (good & g & A & B & C). exists good, g. cbn [set_out t_wr t_cmds] in B, C.
          split; [exact A|]. split; [|exact C]. rewrite <- app_assoc, B, app_assoc, firstn_skipn. reflexivity. }
        destruct r1 as [[x|x|x]|].
        + destruct IH as (A & B). split; [apply SS, A|exact B].
        + destruct IH as [(A & B)|(c & A & B & C)]; [left; auto|right; exists c; auto].
        + destruct IH as (c & A & B & C). exists c; auto.
        + destruct IH as (A & B & _). split; [apply SS, A|]. cbn [length]. lia.
      - injection H0 as <- <- <- <-. split; [|cbn [length]; lia]. exists [], []. rewrite app_nil_r. split; [apply all_bytes_nil|auto].
      - injection H0 as <- <- <- <-. left. split; [reflexivity|]. exists [], []. rewrite app_nil_r. split; [apply all_bytes_nil|auto]. }
    destruct (t_wr t) as [|b wr] eqn:Ew.
    + destruct (t_cmds t) as [|c cs] eqn:Ec.
      * injection H as <- <- <- <-. split; [|auto]. exists [], []. rewrite Ew, Ec. split; [apply all_bytes_nil|auto].
      * destruct (encode c) as [bs|x|p] eqn:E.
        -- specialize (FL (set_out t bs cs) _ _ _ _ H).
           assert (SS : forall bad, sent_some (set_out t bs cs) out t' bad -> sent_some t out t' bad).
           { intros bad (good & g & A & B & C). cbn [set_out t_wr t_cmds] in B, C. exists (c :: good), (bs ++ g).
             split; [apply all_bytes_cons; assumption|]. rewrite Ew, Ec, C, B. auto. }
           destruct r as [[y|y|y]|].
           ++ destruct FL as (A & B). auto.
           ++ destruct FL as [(A & B)|(d & A & B & C)]; [left; auto|right; exists d; auto].
           ++ destruct FL as (d & A & B & C). exists d; auto.
           ++ destruct FL as (A & B). split; [auto|]. split; [lia|auto].
        -- injection H as <- <- <- <-. right. exists c. split; [exact E|]. split; [|reflexivity].
           exists [], []. rewrite Ew, Ec. split; [apply all_bytes_nil|auto].
        -- injection H as <- <- <- <-. exists c. split; [exact E|]. split; [|reflexivity].
           exists [], []. rewrite Ew, Ec. split; [apply all_bytes_nil|auto].
    + specialize (FL t). rewrite Ew in FL. specialize (FL _ _ _ _ H).
      destruct r as [[y|y|y]|]; try exact FL. destruct FL as (A & B). split; [exact A|]. split; [lia|auto].
Qed.
End Sending.
