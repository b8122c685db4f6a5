(** Property C107. *)
From Coq Require Import String.
From Verif Require Import Base Bytes Types Text Packets Options SourceCell.
Open Scope list_scope.

Section Cells.
Variable parse_url : bytes -> option url.
Variable tls : bool.

Lemma url_no_panic s p : from_url parse_url tls s <> Panic p.
Proof.
  assert (P : forall o k v p, set_param parse_url tls o k v <> Panic p).
  { intros o k v q. unfold set_param, parse_param.
    repeat match goal with |- context [if ?b then _ else _] => destruct b end; try discriminate;
    match goal with |- context [match ?x with Some _ => _ | None => _ end] => destruct x end; discriminate. }
  assert (Q : forall l o p, set_params parse_url tls o l <> Panic p).
  { induction l as [|[k v] l IH]; intros o q; [discriminate|]. cbn [set_params]. pose proof (P o k v q) as H.
    destruct (set_param parse_url tls o k v); cbn [rbind]; [apply IH|discriminate|congruence]. }
  unfold from_url. destruct (parse_url s) as [u|]; [|discriminate]. destruct (negb _); [discriminate|]. destruct (_ || _); [discriminate|].
  destruct (set_port _ _); [|discriminate]. unfold database_of. destruct (path_segments u) as [[|[|b x] [|y ys]]|]; cbn [rbind]; try discriminate; apply Q.
Qed.

(** C107. However often, and by whomever, the options are asked for, everybody gets the same. Of options as such: a reference to them. Of a URL that
    is refused: the same error. Of any other: a reference to the options read from it; it is read once. Every reference handed out can be read through at
    any later time, and gives those options: the calls [m] that come after it do not take anything from under it. *)
Theorem c107_references n m s : exists rs c c',
  gets parse_url tls n (mk_cell s 0) = (rs, c) /\ snd (gets parse_url tls m c) = c' /\ length rs = n /\
  match s with
  | Raw o => Forall (fun r => exists a, r = Ok a /\ deref c' a = Some o) rs /\ ce_writes c' = 0
  | Text t =>
      match from_url parse_url tls t with
      | Ok o => Forall (fun r => exists a, r = Ok a /\ deref c' a = Some o) rs /\ ce_writes c' <= 1
      | Err e => Forall (fun r => r = Err e) rs /\ c' = mk_cell s 0
      | Panic _ => False
      end
  end.
Proof.
  assert (R : forall k o w, gets parse_url tls k (mk_cell (Raw o) w) = (repeat (Ok w) k, mk_cell (Raw o) w)).
  { induction k as [|k IH]; intros o w; [reflexivity|]. cbn [gets cell_get ce_state ce_writes]. rewrite IH. reflexivity. }
  assert (F : forall k (x : res reference) (Q : res reference -> Prop), Q x -> Forall Q (repeat x k)).
  { intros k x Q H. apply Forall_forall. intros y I. apply repeat_spec in I. subst. exact H. }
  destruct s as [o|t].
  - eexists _, _, _. split; [apply R|]. split; [reflexivity|]. split; [apply repeat_length|]. rewrite R. cbn [snd ce_writes]. split; [|reflexivity].
    apply F. exists 0. split; reflexivity.
  - destruct (from_url parse_url tls t) as [o|e|p] eqn:E; [| |exfalso; exact (url_no_panic t p E)].
    + assert (G : forall k, gets parse_url tls (S k) (mk_cell (Text t) 0) = (repeat (Ok 1) (S k), mk_cell (Raw o) 1)).
      { intros k. cbn [gets cell_get ce_state]. rewrite E. cbn [ce_state ce_writes]. rewrite R. reflexivity. }
      destruct n as [|n].
      * eexists _, _, _. split; [reflexivity|]. split; [reflexivity|]. split; [reflexivity|]. split; [constructor|].
        destruct m as [|m]; [cbn; lia|]. rewrite G. cbn. lia.
      * eexists _, _, _. split; [apply G|]. split; [reflexivity|]. split; [apply repeat_length|]. rewrite R. cbn [snd ce_writes]. split; [|lia].
        apply F. exists 1. split; reflexivity.
    + assert (G : forall k, gets parse_url tls k (mk_cell (Text t) 0) = (repeat (Err e) k, mk_cell (Text t) 0)).
      { induction k as [|k IH]; [reflexivity|]. cbn [gets cell_get ce_state]. rewrite E, IH. reflexivity. }
      eexists _, _, _. split; [apply G|]. split; [reflexivity|]. split; [apply repeat_length|]. rewrite G. split; [|reflexivity]. apply F. reflexivity.
Qed.

(** C107. No URL, however malformed, makes reading it panic. *)
Theorem c107_no_panic s p : from_url parse_url tls s <> Panic p.
Proof. apply url_no_panic. Qed.
End Cells.
Print Assumptions c107_references.
Print Assumptions c107_no_panic.

Example c107_case :
  let u := mk_url (str "tcp") (str "me") None (Some (str "db")) None false [] None None in
  let v := mk_url (str "http") [] None None None false [] None None in
  fst (gets (fun _ => Some u) false 3 (mk_cell (Text (str "tcp://me@db")) 0)) = [Ok 1; Ok 1; Ok 1] /\
  fst (gets (fun _ => Some v) false 2 (mk_cell (Text (str "http:")) 0)) = [Err (EUrlScheme (str "http")); Err (EUrlScheme (str "http"))] /\
  fst (gets (fun _ => None) false 2 (mk_cell (Raw opts_default) 0)) = [Ok 0; Ok 0].
Proof. repeat split; reflexivity. Qed.
