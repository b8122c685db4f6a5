(** Reading a cell and pushing one never give an error: they succeed or panic. *)
From Coq Require Import String Lia.
From Verif Require Import Base Bytes Types Decimal DateTime Values Columns.
Open Scope list_scope. Open Scope nat_scope.

Definition sure {A} (r : res A) : Prop := match r with Err _ => False | _ => True end.
Lemma sure_bind {A B} (r : res A) (f : A -> res B) : sure r -> (forall a, sure (f a)) -> sure (rbind r f).
Proof. destruct r as [a|e|p]; cbn; auto. Qed.
Lemma sure_or_panic {A} p (o : option A) : sure (or_panic p o).
Proof. destruct o; exact I. Qed.
Lemma sure_index {A} (l : list A) i : sure (index l i). Proof. apply sure_or_panic. Qed.
Lemma sure_cut {A} (l : list A) a b : sure (cut l a b). Proof. apply sure_or_panic. Qed.
Lemma sure_mapM {A B} (f : A -> res B) l : (forall x, sure (f x)) -> sure (mapM f l).
Proof. intros H. induction l as [|x l IH]; [exact I|]. cbn [mapM]. apply sure_bind; [apply H|intros y]. apply sure_bind; [exact IH|intros z; exact I]. Qed.
Ltac sure := repeat
  match goal with
  | |- sure (Ok _) => exact I
  | |- sure (Panic _) => exact I
  | |- sure (rbind _ _) => apply sure_bind; [|intros ?]
  | |- sure (index _ _) => apply sure_index
  | |- sure (cut _ _ _) => apply sure_cut
  | |- sure (or_panic _ _) => apply sure_or_panic
  | |- sure (if ?b then _ else _) => destruct b
  | |- sure (match ?x with _ => _ end) => destruct x
  end.
Lemma sure_and a b : sure a -> sure b -> sure (res_and a b).
Proof. unfold res_and. intros A B. sure; auto. Qed.
Lemma sure_factors d : sure (factors10 d). Proof. unfold factors10. sure. Qed.
Lemma sure_mul a b : sure (i64_mul a b). Proof. unfold i64_mul. sure. Qed.
Lemma sure_pow d : sure (pow_factor d). Proof. unfold pow_factor. sure. Qed.
Ltac sure2 := repeat first [apply sure_factors | apply sure_mul | apply sure_pow | progress sure].
Lemma sure_decimal_eq a b : sure (decimal_eq a b). Proof. unfold decimal_eq. sure2. Qed.
Lemma sure_set_scale d s : sure (set_scale d s). Proof. unfold set_scale. sure2. Qed.
Lemma sure_to_datetime x p : sure (to_datetime x p). Proof. unfold to_datetime, to_datetime_opt. sure2. Qed.
Lemma sure_from_datetime x n p : sure (from_datetime x n p). Proof. unfold from_datetime. sure2. Qed.
Lemma sure_dt64 a p b q : sure (dt64_value_eq a p b q). Proof. unfold dt64_value_eq, dt64_nanos. sure2. Qed.
Lemma sure_value_eq : forall a b, sure (value_eq a b).
Proof.
  fix IH 1. intros a b. destruct a; destruct b; cbn [value_eq];
    try exact I; try apply IH; try apply sure_decimal_eq; try apply sure_dt64.
  destruct (sqltype_eqb _ _); [|exact I]. destruct (_ =? _); [|exact I].
  revert vs0. induction vs as [|x xs IHl]; intros [|y ys]; try exact I. apply sure_and; [apply IH|apply IHl].
Qed.
Lemma sure_vref_eq : forall a b, sure (vref_eq a b).
Proof.
  fix IH 1. intros a b. destruct a; destruct b; cbn [vref_eq];
    try exact I; try apply IH; try apply sure_decimal_eq; try (destruct s; exact I).
  - apply sure_bind; [apply sure_to_datetime|intros ?]. apply sure_bind; [apply sure_to_datetime|intros ?]. exact I.
  - destruct (sqltype_eqb _ _); [|exact I]. destruct (_ =? _); [|exact I].
    revert vs0. induction vs as [|x xs IHl]; intros [|y ys]; try exact I. apply sure_and; [apply IH|apply IHl].
  - destruct (_ || _); [exact I|]. induction kvs as [|[kx vx] xs IHl]; [exact I|]. apply sure_and; [|apply IHl].
    clear IHl. induction kvs0 as [|[ky vy] ys IHy]; [exact I|]. apply sure_bind; [apply IH|intros e]. destruct e; [apply IH|apply IHy].
Qed.
Lemma sure_clen : forall c, sure (clen c).
Proof.
  fix IH 1. intros c. destruct c; cbn [clen]; try exact I; try apply IH; try (sure; apply IH).
  apply sure_bind; [apply IH|intros n]. apply sure_bind; [|intros; exact I].
  induction cs as [|x cs IHl]; [exact I|]. apply sure_bind; [apply IH|intros m]. apply sure_bind; [apply IHl|intros; exact I].
Qed.
Lemma sure_find_chunk ixs i : sure (find_chunk ixs i).
Proof.
  unfold find_chunk. generalize 0 as lo, (length ixs - 1) as hi. generalize (S (length ixs)) as fuel.
  induction fuel as [|fuel IH]; intros lo hi; [exact I|]. cbn [find_chunk_loop]. sure; apply IH.
Qed.
Lemma sure_row_bounds offs i : sure (row_bounds offs i). Proof. unfold row_bounds. sure. Qed.
Lemma sure_vref_insert m k v : sure (vref_insert m k v).
Proof.
  unfold vref_insert. destruct (value_ref_hashable k); [|exact I]. induction m as [|[k' v'] m IH]; [exact I|]. cbn [vref_put].
  apply sure_bind; [apply sure_vref_eq|intros e]. destruct e; [exact I|]. apply sure_bind; [exact IH|intros; exact I].
Qed.
Lemma sure_unwrap v : sure (unwrap_option v). Proof. unfold unwrap_option. sure. Qed.
Lemma sure_at : forall c i, sure (at_ c i).
Proof.
  fix IH 1. intros c i.
  destruct c; cbn [at_]; try exact I; try apply IH;
    try (repeat first [apply IH | apply sure_unwrap | apply sure_set_scale | progress sure]; fail).
  - apply sure_bind; [apply sure_row_bounds|intros se]. apply sure_bind; [apply sure_mapM; intros j; apply IH|intros; exact I].
  - apply sure_bind; [apply sure_row_bounds|intros se]. apply sure_bind; [|intros; exact I].
    generalize (@nil (value * value)) as m. generalize (seq (fst se) (snd se - fst se)) as js.
    induction js as [|j js IHj]; intros m; [exact I|]. apply sure_bind; [apply IH|intros k]. apply sure_bind; [apply IH|intros v].
    apply sure_bind; [apply sure_vref_insert|intros m']. apply IHj.
  - apply sure_bind; [apply sure_clen|intros n0]. apply sure_bind; [apply sure_mapM, sure_clen|intros ns]. cbv zeta.
    apply sure_bind; [apply sure_find_chunk|intros k]. apply sure_bind; [apply sure_index|intros s]. destruct (i <? s); [exact I|].
    destruct k as [|k]; [apply IH|]. revert k. induction cs as [|x cs IHl]; intros k; [exact I|]. destruct k as [|k]; [apply IH|apply IHl].
Qed.
Lemma sure_key_eq a b : sure (key_eq a b).
Proof. unfold key_eq. destruct a; try apply sure_value_eq. destruct b; try apply sure_value_eq. destruct (_ && _); [apply sure_value_eq|exact I]. Qed.
Lemma sure_vmap_get m k : sure (vmap_get m k).
Proof.
  unfold vmap_get. destruct m as [|x m]; [exact I|]. destruct (value_hashable k); [|exact I]. generalize (x :: m) as l.
  induction l as [|[k' n] l IH]; [exact I|]. cbn [vmap_find]. apply sure_bind; [apply sure_key_eq|intros e]. destruct e; [exact I|exact IH].
Qed.
Lemma sure_vmap_insert m k n : sure (vmap_insert m k n).
Proof.
  unfold vmap_insert. destruct (value_hashable k); [|exact I]. induction m as [|[k' n'] l IH]; [exact I|]. cbn [vmap_put].
  apply sure_bind; [apply sure_key_eq|intros e]. destruct e; [exact I|]. apply sure_bind; [exact IH|intros; exact I].
Qed.
Lemma sure_value_map f idx m : (forall j, sure (f j)) -> sure (value_map_loop f idx m).
Proof.
  intros F. revert m. induction idx as [|j idx IH]; intros m; [exact I|]. cbn [value_map_loop]. apply sure_bind; [apply F|intros v].
  apply sure_bind; [apply sure_vmap_insert|intros m']. apply IH.
Qed.
Lemma sure_ix_push x idx v : sure (ix_push x idx v).
Proof. unfold ix_push, ix_wider. sure. Qed.
Lemma sure_datetime v : sure (value_datetime v).
Proof. unfold value_datetime. destruct v; try exact I. apply sure_bind; [apply sure_to_datetime|intros; exact I]. Qed.
Lemma sure_push_each f c vs : (forall c v, sure (f c v)) -> sure (push_each f c vs).
Proof. intros F. revert c. induction vs as [|v vs IH]; intros c; [exact I|]. cbn [push_each]. apply sure_bind; [apply F|intros c']. apply IH. Qed.
Lemma sure_push_pairs f g ks vs kvs : (forall c v, sure (f c v)) -> (forall c v, sure (g c v)) -> sure (push_pairs f g ks vs kvs).
Proof.
  intros F G. revert ks vs. induction kvs as [|[k v] kvs IH]; intros ks vs; [exact I|]. cbn [push_pairs].
  apply sure_bind; [apply F|intros c']. apply sure_bind; [apply G|intros d']. apply IH.
Qed.
Lemma sure_push_as : forall shape c v, sure (push_as shape c v).
Proof.
  fix IH 1. intros shape c v.
  assert (forall s v, sure (value_num s v)) as VN by (intros s w; unfold value_num; sure).
  assert (forall v, sure (value_bytes v)) as VB by (intros w; unfold value_bytes; sure).
  assert (forall v, sure (value_date v)) as VD by (intros w; unfold value_date; sure).
  destruct c; destruct shape; cbn [push_as]; try exact I;
    try (apply sure_bind; [first [apply VN | apply VB | apply VD | apply sure_datetime]|intros x;
         first [exact I | destruct x as [[x1 x2] x3]; first [exact I | apply sure_bind; [apply sure_from_datetime|intros; exact I]]]]);
    try (destruct k; destruct v; exact I); try (destruct v; exact I).
  - destruct v; (apply sure_bind; [apply IH|intros; exact I]).
  - destruct v; try exact I. apply sure_bind; [apply sure_push_each; intros; apply IH|intros; exact I].
  - destruct v; try exact I. apply sure_bind; [apply sure_push_pairs; intros; apply IH|intros; exact I].
  - apply sure_bind; [apply IH|intros; exact I].
  - apply sure_bind; [destruct vmap; [exact I|apply sure_value_map; intros; apply sure_at]|intros m].
    apply sure_bind; [apply sure_vmap_get|intros g]. destruct g.
    + apply sure_bind; [apply sure_ix_push|intros; exact I].
    + apply sure_bind; [apply sure_clen|intros n0]. apply sure_bind; [apply IH|intros i]. apply sure_bind; [apply sure_vmap_insert|intros m'].
      apply sure_bind; [apply sure_ix_push|intros; exact I].
Qed.
Lemma sure_push c v : sure (push c v).
Proof. apply sure_push_as. Qed.
Lemma sure_from_type t tz : sure (from_type t tz).
Proof.
  induction t as [sc| |n| |[|p z|]| | | |t IH|t IH|t IH|p sc|vals|vals|f t IH|k IHk v IHv]; cbn [from_type]; try exact I;
    try (apply sure_bind; [first [exact IH | apply sure_or_panic]|intros; exact I]).
  apply sure_bind; [exact IHk|intros ?]. apply sure_bind; [exact IHv|intros ?]. exact I.
Qed.
