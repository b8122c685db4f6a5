(** Property C111. *)
From Coq Require Import String.
From Verif Require Import Base Bytes Utf8 Types Text TypeNames Decimal DateTime Values Columns FromSql Messages SpecMessages SureProofs TextProofs PrintProofs.
Open Scope list_scope.

Lemma elem_err e v q : elem_from e v = Err q ->
  (e = EStr \/ e = EString) /\ as_str v = Err q \/ (e = ESlice \/ e = EBytes) /\ as_bytes v = Err q.
Proof.
  destruct e; cbn [elem_from]; intros H; auto; exfalso.
  - destruct v; discriminate H.
  - destruct v; try discriminate H. cbn [into_time] in H. match type of H with context [to_datetime ?a ?b] => pose proof (sure_to_datetime a b) as S; destruct (to_datetime a b) end; [discriminate H|exact S|discriminate H].
  - destruct v; discriminate H.
  - destruct v; discriminate H.
  - destruct v; try discriminate H. cbn [into_num] in H. destruct (scalar_eq_dec _ _); discriminate H.
Qed.
Lemma as_str_refused v : as_str v = Err EInvalidType -> text_refused v (str "&str") = Some (type_of_value v, str "&str").
Proof. destruct v; cbn [as_str text_refused]; try reflexivity. destruct (utf8_valid b); discriminate. Qed.
Lemma as_bytes_refused v : as_bytes v = Err EInvalidType -> text_refused v (str "&[u8]") = Some (type_of_value v, str "&[u8]").
Proof. destruct v; cbn [as_bytes text_refused]; try reflexivity. discriminate. Qed.

Lemma first_refused_vec e vs : mapM (elem_from e) vs = Err EInvalidType -> exists x d,
  first_refused (fun x => match e with
    | EStr | EString => text_refused x (str "&str") | ESlice | EBytes => text_refused x (str "&[u8]") | _ => None end) vs = Some (type_of_value x, d) /\
  In x vs /\ ((e = EStr \/ e = EString) /\ d = str "&str" \/ (e = ESlice \/ e = EBytes) /\ d = str "&[u8]").
Proof.
  induction vs as [|x vs IH]; cbn [mapM]; [discriminate|]. intros H. cbn [first_refused].
  destruct (elem_from e x) as [y|q|q] eqn:E; cbn [rbind] in H; [| |discriminate H].
  - assert (N : match e with EStr | EString => text_refused x (str "&str") | ESlice | EBytes => text_refused x (str "&[u8]") | _ => None end = None).
    { destruct e; try reflexivity; cbn [elem_from] in E; unfold as_str, as_bytes in E; destruct x; try discriminate E; reflexivity. }
    rewrite N. destruct (mapM (elem_from e) vs) as [ys|q|q]; cbn [rbind] in H; [discriminate H| |discriminate H]. injection H as ->.
    destruct (IH eq_refl) as (w & d & A & B & C). exists w, d. split; [exact A|]. split; [right; exact B|exact C].
  - injection H as ->. exists x. destruct (elem_err _ _ _ E) as [[A B]|[A B]].
    + exists (str "&str"). rewrite (as_str_refused _ B). split; [destruct A as [->| ->]; reflexivity|]. split; [left; reflexivity|auto].
    + exists (str "&[u8]"). rewrite (as_bytes_refused _ B). split; [destruct A as [->| ->]; reflexivity|]. split; [left; reflexivity|auto].
Qed.

Lemma sure_xkey : forall a b, sure (FromSql.key_eq a b).
Proof.
  fix IH 1. intros a b. destruct a; destruct b; cbn [FromSql.key_eq]; try exact I; try apply sure_decimal_eq.
  all: try (destruct o; exact I).
  - revert xs0. induction xs as [|x xs IHl]; intros [|y ys]; try exact I. apply sure_and; [apply IH|apply IHl].
  - destruct o as [x|]; destruct o0 as [y|]; try exact I. apply IH.
Qed.
Lemma sure_xput m k v : sure (xmap_put m k v).
Proof.
  induction m as [|[k' v'] m IH]; [exact I|]. cbn [xmap_put]. apply sure_bind; [apply sure_xkey|intros e]. destruct e; [exact I|].
  apply sure_bind; [exact IH|intros; exact I].
Qed.

(** A cell that is read, or fails in another way, has nothing refused before. *)
Lemma read_not_refused : forall r v x, from_sql r v = Ok x -> refused r v = None.
Proof.
  induction r; intros w x H; cbn [from_sql refused] in *.
  all: try (destruct w; try discriminate H; reflexivity).
  - destruct w; try discriminate H. destruct (scalar_eq_dec _ _); [reflexivity|discriminate H].
  - destruct w; try discriminate H. revert x H. generalize (@nil (rval * rval)) as m. induction kvs as [|[kk y] kvs IH]; intros m x H; [reflexivity|].
    destruct (from_sql r1 kk) as [k'|q|q] eqn:E1; cbn [rbind] in H; try discriminate H. rewrite (IHr1 _ _ E1).
    destruct (from_sql r2 y) as [y'|q|q] eqn:E2; cbn [rbind] in H; try discriminate H. rewrite (IHr2 _ _ E2).
    destruct (xmap_put m k' y') as [m'|q|q]; cbn [rbind] in H; try discriminate H. exact (IH _ _ H).
  - destruct w; try (destruct e as [| | | | | | | |se]; try discriminate H; destruct se; try discriminate H; reflexivity).
    match goal with |- context [elem_tag e ?tt] => destruct (elem_tag e tt) end; [|discriminate H]. revert x H. induction vs as [|y vs IH]; intros x H; [reflexivity|]. cbn [mapM] in H. cbn [first_refused].
    destruct (elem_from e y) as [y'|q|q] eqn:E; cbn [rbind] in H; try discriminate H.
    assert (N : match e with EStr | EString => text_refused y (str "&str") | ESlice | EBytes => text_refused y (str "&[u8]") | _ => None end = None).
    { destruct e; try reflexivity; cbn [elem_from] in E; unfold as_str, as_bytes in E; destruct y; try discriminate E; reflexivity. }
    rewrite N. destruct (mapM (elem_from e) vs) as [ys|q|q]; cbn [rbind] in H; try discriminate H. exact (IH _ eq_refl).
  - destruct w; try discriminate H; [reflexivity|]. destruct (from_sql r w) as [y|q|q] eqn:E; cbn [rbind] in H; try discriminate H. exact (IHr _ _ E).
Qed.

Ltac self := cbn [text_refused]; match goal with |- exists q w d, Some (type_of_value ?w0, ?d0) = _ /\ comes_to ?r ?w1 q w /\ _ =>
  exists r, w1, d0; split; [reflexivity|]; split; [apply CTSelf|] end.

(** C111, the part that holds: the error tells the type of the cell (or of the part of it) that is refused and the name of what was asked for; options and
    vectors of numbers have another name. *)
Theorem c111_named_partial : forall r v, from_sql r v = Err EInvalidType ->
  exists q w d, refused r v = Some (type_of_value w, d) /\ comes_to r v q w /\ (called q d \/ misnamed q d).
Proof.
  induction r; intros w H; cbn [from_sql refused] in *; unfold as_str, as_bytes in H.
  all: try (destruct w; try discriminate H; self; left; constructor; fail).
  - assert (N : called (RNum s) (number_name s)) by (constructor; destruct s; reflexivity).
    destruct w; try (self; left; exact N). destruct (scalar_eq_dec _ _); [discriminate H|self; left; exact N].
  - destruct w; try (self; left; constructor). destruct (utf8_valid b); discriminate H.
  - destruct w; try (self; left; constructor). destruct (utf8_valid b); discriminate H.
  - destruct w; try discriminate H.
    cut (exists q w d, (fix loop (kvs : list (value * value)) : option (sqltype * bytes) :=
             match kvs with
             | [] => None
             | (k, x) :: kvs =>
                 match refused r1 k with
                 | Some y => Some y
                 | None => match refused r2 x with Some y => Some y | None => loop kvs end
                 end
             end) kvs = Some (type_of_value w, d) /\ (exists k x, In (k, x) kvs /\ (comes_to r1 k q w \/ comes_to r2 x q w)) /\ (called q d \/ misnamed q d)).
    { intros (q & w & d & A & (k1 & x1 & I0 & [B|B]) & C); exists q, w, d; (split; [exact A|]); (split; [|exact C]); [eapply CTKey|eapply CTValue]; eassumption. }
    match type of H with rbind ?l _ = _ => assert (H' : l = Err EInvalidType) by (destruct l; cbn [rbind] in H; [discriminate H|injection H as ->; reflexivity|discriminate H]) end.
    clear H. revert H'. generalize (@nil (rval * rval)) as m. induction kvs as [|[kk y] kvs IH]; intros m H; [discriminate H|].
    destruct (from_sql r1 kk) as [k'|q|q] eqn:E1; cbn [rbind] in H; try discriminate H.
    2: { injection H as ->. destruct (IHr1 _ E1) as (q & w & d & A & B & C). exists q, w, d. rewrite A. split; [reflexivity|]. split; [|exact C].
         exists kk, y. split; [left; reflexivity|left; exact B]. }
    rewrite (read_not_refused _ _ _ E1).
    destruct (from_sql r2 y) as [y'|q|q] eqn:E2; cbn [rbind] in H; try discriminate H.
    2: { injection H as ->. destruct (IHr2 _ E2) as (q & w & d & A & B & C). exists q, w, d. rewrite A. split; [reflexivity|]. split; [|exact C].
         exists kk, y. split; [left; reflexivity|right; exact B]. }
    rewrite (read_not_refused _ _ _ E2). pose proof (sure_xput m k' y') as S.
    destruct (xmap_put m k' y') as [m'|q|q]; cbn [rbind] in H; [|destruct S|discriminate H].
    destruct (IH _ H) as (q & w & d & A & (k2 & x2 & I0 & B) & C). exists q, w, d. split; [exact A|]. split; [|exact C].
    exists k2, x2. split; [right; exact I0|exact B].
  - assert (NV : forall w, (exists q w' d, Some (type_of_value w, vector_name e) = Some (type_of_value w', d) /\ comes_to (RVec e) w q w' /\ (called q d \/ misnamed q d)) \/ e = ENum U8).
    { intros v. destruct e as [| | | | | | | |s]; try (left; self; left; constructor; fail).
      destruct (scalar_eq_dec s U8) as [->|N]; [right; reflexivity|]. left. self. right. constructor; [exact N|]. constructor. destruct s; reflexivity. }
    assert (NB : forall w, exists q w' d, Some (type_of_value w, str "&[u8]") = Some (type_of_value w', d) /\ comes_to (RVec (ENum U8)) w q w' /\ (called q d \/ misnamed q d)).
    { intros v. self. left. constructor. }
    assert (G : forall w, (forall t vs, w <> VArray t vs) -> match e with ENum U8 => as_bytes w | _ => Err EInvalidType end = Err EInvalidType ->
      exists q w' d, match e with ENum U8 => text_refused w (str "&[u8]") | _ => Some (type_of_value w, vector_name e) end = Some (type_of_value w', d) /\
        comes_to (RVec e) w q w' /\ (called q d \/ misnamed q d)).
    { intros v NA K. destruct (NV v) as [R|R].
      - destruct e as [| | | | | | | |s]; try exact R. destruct s; try exact R. rewrite (as_bytes_refused _ K). apply NB.
      - subst e. rewrite (as_bytes_refused _ K). apply NB. }
    destruct w; try (apply G; [discriminate|exact H]). clear G.
    destruct (elem_tag e t) eqn:T.
    + assert (H' : mapM (elem_from e) vs = Err EInvalidType) by (destruct (mapM (elem_from e) vs); cbn [rbind] in H; [discriminate H|injection H as ->; reflexivity|discriminate H]).
      destruct (first_refused_vec _ _ H') as (x & d & A & B & [[C D]|[C D]]); subst d.
      * exists RStr, x, (str "&str"). split; [exact A|]. split; [apply CTStr; assumption|left; constructor].
      * exists RSlice, x, (str "&[u8]"). split; [exact A|]. split; [apply CTSlice; assumption|left; constructor].
    + destruct (NV (VArray t vs)) as [R|R].
      * destruct e as [| | | | | | | |s]; try exact R. destruct s; try exact R. apply NB.
      * subst e. apply NB.
  - destruct w; try discriminate H; try (self; right; constructor).
    assert (H' : from_sql r w = Err EInvalidType) by (destruct (from_sql r w); cbn [rbind] in H; [discriminate H|injection H as ->; reflexivity|discriminate H]).
    destruct (IHr _ H') as (q & w' & d & A & B & C). exists q, w', d. split; [exact A|]. split; [apply CTOption; exact B|exact C].
  - destruct w; try discriminate H; try (self; left; constructor). cbn [into_time] in H.
    match type of H with context [to_datetime ?a ?b] => pose proof (sure_to_datetime a b) as S; destruct (to_datetime a b) end; [discriminate H|destruct S|discriminate H].
Qed.
Print Assumptions c111_named_partial.

(** Not of options, vectors of numbers and maps: different types asked for give the same text, and maps are told nothing at all. *)
Theorem c111_refuted :
  (forall q q' v, from_sql (ROption q) v = Err EInvalidType -> (forall x, v <> VSome x) ->
     refused (ROption q) v = Some (type_of_value v, str "$t") /\ refused (ROption q') v = refused (ROption q) v) /\
  (forall s v, s <> U8 -> (forall t vs, v <> VArray t vs) -> (forall t z, v <> VNum t z) -> refused (RVec (ENum s)) v = refused (RNum s) v) /\
  (forall rk rv v, (forall tk tv kvs, v <> VMap tk tv kvs) -> from_sql (RMap rk rv) v = Err EOther).
Proof.
  split; [|split].
  - intros q q' v H N. cbn [from_sql] in H. destruct v; try discriminate H; try (split; reflexivity). destruct (N v eq_refl).
  - intros s v N NA NN. cbn [refused]. destruct v; try (destruct s; try reflexivity; destruct (N eq_refl)).
    + destruct (NN _ _ eq_refl).
    + destruct (NA _ _ eq_refl).
  - intros rk rv v N. destruct v; try reflexivity. destruct (N _ _ _ eq_refl).
Qed.
Print Assumptions c111_refuted.

(** A [u16] read as [u32]; an option of it; a vector of it; within a map. *)
Example c111_case :
  from_sql (RNum U32) (VNum U16 5) = Err EInvalidType /\
  refused (RNum U32) (VNum U16 5) = Some (TNum U16, str "u32") /\
  refusal_text (TNum U16) (str "u32") = str "From SQL error: `SqlType::UInt16 cannot be cast to u32.`" /\
  refused (ROption (RNum U32)) (VNum U16 5) = Some (TNum U16, str "$t") /\
  refused (RVec (ENum U32)) (VString []) = refused (RNum U32) (VString []) /\
  refused (RMap RString (RNum U8)) (VMap TString (TNum I8) [(VString [], VNum I8 1)]) = Some (TNum I8, str "u8") /\
  from_sql (RMap RString (RNum U8)) (VMap TString (TNum I8) [(VString [], VNum I8 1)]) = Err EInvalidType.
Proof. repeat split; reflexivity. Qed.

(** What is shown of an error of the server tells the three things it is made of. *)
Lemma digits_end : forall n (s t s' t' : bytes) x, (forall c, In c s -> c <> x) -> (forall c, In c s' -> c <> x) ->
  length s = n -> s ++ x :: t = s' ++ x :: t' -> s = s' /\ t = t'.
Proof.
  intros n. induction n as [|n IH]; intros s t s' t' x A B L E.
  - destruct s; [|discriminate L]. destruct s' as [|c s']; [injection E as ->; auto|]. injection E as E1 E2. destruct (B c (or_introl eq_refl)). symmetry. exact E1.
  - destruct s as [|c s]; [discriminate L|]. destruct s' as [|c' s']; [injection E as E1 E2; destruct (A c (or_introl eq_refl) E1)|].
    injection E as -> E. injection L as L. destruct (IH s t s' t' x) as [-> ->]; auto. intros y I. apply A. right. exact I. intros y I. apply B. right. exact I.
Qed.

Theorem c111_server : forall e e', ~ In 40%N (se_name e) -> ~ In 40%N (se_name e') ->
  (server_text e = server_text e' <-> se_name e = se_name e' /\ se_code e = se_code e' /\ se_message e = se_message e').
Proof.
  intros e e' A B. split; [|intros (E1 & E2 & E3); unfold server_text; rewrite E1, E2, E3; reflexivity].
  unfold server_text. intros E. apply app_inv_head in E.
  assert (J : forall n, ~ In 40%N n -> forall c, In c (n ++ str " ") -> c <> 40%N).
  { intros n N c I ->. apply in_app_or in I as [I|[I|[]]]; [exact (N I)|discriminate I]. }
  assert (Q : forall n r, n ++ str " (" ++ r = (n ++ str " ") ++ 40%N :: r) by (intros n r; rewrite <- app_assoc; reflexivity).
  rewrite 2 Q in E. apply (digits_end _ _ _ _ _ _ (J _ A) (J _ B) eq_refl) in E as [E1 E]. apply app_inv_tail in E1.
  apply print_N_stop in E as [E2 E]; [|reflexivity|reflexivity]. apply app_inv_head in E. apply app_inv_tail in E. auto.
Qed.
Print Assumptions c111_server.
Example c111_server_case : forall st, server_text (mk_server_error 60 (str "DB::Exception") (str "no such table") st) =
  str "Server error: `ERROR DB::Exception (60): no such table`" /\ ~ In 40%N (str "DB::Exception").
Proof. intros st. split; [reflexivity|]. intros H. vm_compute in H. repeat (destruct H as [H|H]; [discriminate H|]). exact H. Qed.
