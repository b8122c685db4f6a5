(** Property C106. *)
From Coq Require Import String.
From Verif Require Import Base Bytes Types Text Packets Options Debugs SpecDebugs OptionsProofs.
Open Scope list_scope.

(** C106, the part that holds: of options that were given user name and password as such, neither is shown. *)
Theorem c106_options_partial a b hostname : same_but_credentials a b ->
  debug_options a = debug_options b /\ debug_source (Raw a) = debug_source (Raw b) /\
  debug_context (Raw a) hostname = debug_context (Raw b) hostname.
Proof.
  destruct a, b. unfold same_but_credentials. cbn. intros H. decompose [and] H. subst. repeat split.
Qed.
Print Assumptions c106_options_partial.

Section Url.
Variable parse_url : bytes -> option url.
Variable tls : bool.
Notation from_url := (from_url parse_url tls).

(** The options of a URL, but for their address and credentials. *)
Definition with_credentials (o : opts) (a : url) (n p : bytes) : opts := set_password (set_username (set_addr o a) n) p.
Lemma param_credentials a n p o k v : set_param parse_url tls (with_credentials o a n p) k v =
  (do o' <- set_param parse_url tls o k v; Ok (with_credentials o' a n p)).
Proof.
  unfold set_param. repeat (destruct (bytes_eqb k _); [destruct (parse_param _ k v); reflexivity|]).
  destruct (tls && _); [destruct (parse_param _ k v); reflexivity|]. destruct (tls && _); [destruct (parse_param _ k v); reflexivity|].
  destruct (bytes_eqb k _); [destruct (parse_param _ k v); reflexivity|]. reflexivity.
Qed.
Lemma params_credentials a n p l : forall o, set_params parse_url tls (with_credentials o a n p) l =
  (do o' <- set_params parse_url tls o l; Ok (with_credentials o' a n p)).
Proof.
  induction l as [|[k v] l IH]; intros o; [reflexivity|]. cbn [set_params]. rewrite param_credentials.
  destruct (set_param parse_url tls o k v); [|reflexivity..]. cbn [rbind]. apply IH.
Qed.

(** What is read from a URL, by parts. *)
Lemma from_parts s u : parse_url s = Some u -> exists n p,
  from_url s =
  if negb (bytes_eqb (u_scheme u) (str "tcp")) then Err (EUrlScheme (u_scheme u))
  else if u_no_base u || match u_host u with None => true | Some _ => false end then Err EUrlInvalid
  else do d <- database_of u;
       do o <- set_params parse_url tls (match d with Some x => set_database opts_default x | None => opts_default end) (query_pairs u);
       Ok (with_credentials o (mk_url (u_scheme u) (u_username u) (u_password u) (u_host u)
         (match u_port u with Some p => Some p | None => Some 9000%N end) (u_no_base u) [] None (u_fragment u)) n p).
Proof.
  intros E. exists (match username_of u with Some x => x | None => str "default" end), (match password_of u with Some x => x | None => [] end).
  unfold Options.from_url. rewrite E. destruct (bytes_eqb (u_scheme u) (str "tcp")) eqn:T; [|reflexivity]. cbn [negb].
  destruct (u_no_base u) eqn:NB; [reflexivity|]. destruct (u_host u) as [h|] eqn:H; [|reflexivity]. cbn [orb].
  unfold set_port. cbn [set_query set_path u_host u_no_base u_scheme]. rewrite H, NB. cbn [orb].
  assert (F : bytes_eqb (u_scheme u) (str "file") = false).
  { apply bytes_eqb_iff in T. rewrite T. reflexivity. }
  rewrite F. destruct (database_of u) as [d| |]; [|reflexivity..]. cbn [rbind].
  match goal with |- set_params _ _ ?thing _ = _ => replace thing with (with_credentials (match d with Some x => set_database opts_default x | None => opts_default end)
    (mk_url (u_scheme u) (u_username u) (u_password u) (Some h) (match u_port u with Some p => Some p | None => Some 9000%N end) false [] None (u_fragment u))
    (match username_of u with Some x => x | None => str "default" end) (match password_of u with Some x => x | None => [] end)) end.
  - rewrite params_credentials. reflexivity.
  - cbn. destruct (username_of u), (password_of u), d; reflexivity.
Qed.
Lemma same_database u v : url_same_but_credentials u v -> database_of u = database_of v /\ query_pairs u = query_pairs v.
Proof.
  intros (_ & _ & _ & A & B & C & _). unfold database_of, path_segments, query_pairs. rewrite A, B, C. auto.
Qed.

(** C106, errors: that a URL is refused, and the error, which names some of its parts, does not depend on user name and password. *)
Theorem c106_errors s t u v e : parse_url s = Some u -> parse_url t = Some v -> url_same_but_credentials u v ->
  from_url s = Err e -> from_url t = Err e.
Proof.
  intros S T C. pose proof (same_database u v C) as [D Q]. destruct (from_parts s u S) as (n & p & ->). destruct (from_parts t v T) as (n' & p' & ->).
  destruct C as (A1 & A2 & A3 & A4 & A5 & A6 & A7). rewrite <- A1, <- A2, <- A4, <- D, <- Q.
  destruct (negb _); [auto|]. destruct (_ || _); [auto|]. destruct (database_of u); [|auto..]. cbn [rbind].
  destruct (set_params _ _ _ _); [discriminate|auto..].
Qed.

(** C106, exactly what options that were read from a URL show: user name and password as they stand in the URL, with the address. *)
Theorem c106_url_exactly s t u v a b : parse_url s = Some u -> parse_url t = Some v -> url_same_but_credentials u v ->
  from_url s = Ok a -> from_url t = Ok b ->
  (debug_options a = debug_options b <-> u_username u = u_username v /\ u_password u = u_password v) /\
  shows (debug_options a) (ShStruct (str "Url") [
    (str "scheme", ShQuoted (u_scheme u)); (str "cannot_be_a_base", ShBool (u_no_base u)); (str "username", ShQuoted (u_username u));
    (str "password", ShOption (option_map ShQuoted (u_password u))); (str "host", ShOption (option_map ShText (u_host u)));
    (str "port", ShOption (Some (ShNum (match u_port u with Some p => p | None => 9000%N end)))); (str "path", ShQuoted []);
    (str "query", ShOption None); (str "fragment", ShOption (option_map ShQuoted (u_fragment u)))]).
Proof.
  intros S T C. pose proof (same_database u v C) as [D Q]. destruct (from_parts s u S) as (n & p & ->). destruct (from_parts t v T) as (n' & p' & ->).
  destruct C as (A1 & A2 & A3 & A4 & A5 & A6 & A7). rewrite <- A1, <- A2, <- A3, <- A4, <- A7, <- D, <- Q.
  destruct (negb _); [discriminate|]. destruct (_ || _); [discriminate|]. destruct (database_of u) as [d| |]; [|discriminate..]. cbn [rbind].
  destruct (set_params _ _ _ _) as [o| |]; [|discriminate..]. cbn [rbind]. intros E F. injection E as <-. injection F as <-. split.
  - split.
    + intros E. unfold debug_options in E. injection E as U P. split; [exact U|].
      destruct (u_password u), (u_password v); cbn in P; congruence.
    + intros [U P]. unfold debug_options. cbn. unfold debug_url. cbn. rewrite U, P. reflexivity.
  - eapply s_field; [left; reflexivity|]. cbn. destruct (u_port u); apply s_here.
Qed.

(** C106, pools: a pool shows nothing of it, whatever it was made of. *)
Theorem c106_pool s t u v p q i j k l : parse_url s = Some u -> parse_url t = Some v -> url_same_but_credentials u v ->
  pool_of parse_url tls (Text s) = Ok p -> pool_of parse_url tls (Text t) = Ok q -> debug_pool p i j k l = debug_pool q i j k l.
Proof.
  intros S T C. pose proof (same_database u v C) as [D Q]. unfold pool_of, source_get.
  destruct (from_parts s u S) as (n & w & ->). destruct (from_parts t v T) as (n' & w' & ->).
  destruct C as (A1 & A2 & A3 & A4 & A5 & A6 & A7). rewrite <- A1, <- A2, <- A3, <- A4, <- A7, <- D, <- Q.
  destruct (negb _); [intros E F; cbn in E, F; injection E as <-; injection F as <-; reflexivity|].
  destruct (_ || _); [intros E F; cbn in E, F; injection E as <-; injection F as <-; reflexivity|].
  destruct (database_of u) as [d| |]; cbn [rbind]; [|intros E F; cbn in E, F; injection E as <-; injection F as <-; reflexivity|discriminate].
  destruct (set_params _ _ _ _) as [o| |]; cbn [rbind]; [|intros E F; cbn in E, F; injection E as <-; injection F as <-; reflexivity|discriminate].
  cbn. destruct (op_pool_max o =? 0)%N; [discriminate|].
  intros E F. injection E as <-. injection F as <-. reflexivity.
Qed.
End Url.
Print Assumptions c106_errors.
Print Assumptions c106_url_exactly.
Print Assumptions c106_pool.

(** C106, refuted of the code: the options of tcp://me:secret@db show the password, and before they are first used their source shows the whole
    URL. *)
Definition some_url : url := mk_url (str "tcp") (str "me") (Some (str "secret")) (Some (str "db")) None false [] None None.
Theorem c106_url_refuted : exists o,
  from_url (fun _ => Some some_url) false (str "tcp://me:secret@db") = Ok o /\
  op_password o = str "secret" /\
  shows (debug_options o) (ShQuoted (str "secret")) /\
  debug_source (Text (str "tcp://me:secret@db")) = ShText (str "Url(tcp://me:secret@db)").
Proof.
  eexists. split; [vm_compute; reflexivity|]. split; [reflexivity|]. split; [|reflexivity].
  eapply s_field; [left; reflexivity|]. eapply s_field; [right; right; right; left; reflexivity|]. apply s_option, s_here.
Qed.
Print Assumptions c106_url_refuted.

Example c106_case :
  same_but_credentials opts_default (set_password (set_username opts_default (str "me")) (str "secret")) /\
  url_same_but_credentials some_url (mk_url (str "tcp") [] None (Some (str "db")) None false [] None None) /\
  exists p, pool_of (fun _ => Some some_url) false (Text (str "tcp://me:secret@db")) = Ok p /\
    debug_pool p 0 0 0 0 = ShStruct (str "Pool") [
      (str "min", ShNum 10); (str "max", ShNum 20); (str "new connections count", ShNum 0); (str "idle connections count", ShNum 0);
      (str "tasks count", ShNum 0); (str "ongoing connections count", ShNum 0)].
Proof. split; [repeat split|]. split; [repeat split|]. eexists. split; [reflexivity|]. reflexivity. Qed.
