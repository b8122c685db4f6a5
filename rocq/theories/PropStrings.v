(** Property C16: string columns. *)
From Verif Require Import Base Bytes Reader Wire Types Values Columns SpecColumns StringPool StringPoolProofs
  PushProofs ReaderProofs.
Open Scope nat_scope.

(** C16. Starting from an empty pool of any capacity, after putting the strings [bs] every
    read of row [i] stays inside the memory of the pool and gives the [i]-th string; rows
    beyond the last are refused. *)
Theorem c16_strings capacity bs p p' :
  pool_new capacity = Ok p -> pool_put_all bs p = Ok p' ->
  (forall i b, nth_error bs i = Some b -> pool_get p' i = Ok (Some b) /\ pool_get_unchecked p' i = Some b) /\
  (forall i, length bs <= i -> pool_get p' i = Panic PIndex) /\
  pool_strings p' = map Some bs.
Proof.
  intros Hn Hp. destruct (pool_new_ok _ _ Hn) as [H0 _].
  pose proof (pool_put_all_ok bs p [] p' H0 Hp) as H. cbn [app] in H.
  split; [intros i b Hb; apply (pool_ok_get p' bs i b H Hb)|].
  split; [intros i Hi; apply (pool_ok_beyond p' bs i H Hi)|]. apply pool_ok_strings, H.
Qed.
Print Assumptions c16_strings.

(** Putting succeeds unless the memory asked for exceeds what Rust can address. *)
Theorem c16_puts_succeed capacity bs :
  (N.of_nat capacity * 80 <= isize_max)%N -> Forall (fun b => lenN b <= isize_max)%N bs ->
  exists p p', pool_new capacity = Ok p /\ pool_put_all bs p = Ok p'.
Proof.
  intros Hc Hb. unfold pool_new. destruct (N.leb_spec (24 * N.of_nat capacity) isize_max); [|lia].
  eexists. destruct (pool_put_all_room bs (mk_spool [] [] 0 capacity) []) as (p' & E).
  - apply (pool_new_ok capacity). unfold pool_new. destruct (N.leb_spec (24 * N.of_nat capacity) isize_max); [reflexivity|lia].
  - cbn [sl_capacity]. eapply Forall_impl; [|exact Hb]. intros b H1. unfold room, lenN in *.
    unfold isize_max in *. lia.
  - exists p'. split; [reflexivity|exact E].
Qed.
Print Assumptions c16_puts_succeed.

(** Loading [k] strings from the wire, whatever the bytes are: the pool holds exactly the
    length-prefixed strings read. *)
Theorem c16_loaded k s p r : run (pool_load k) s = Ok (p, r) ->
  exists bs, run (prepeat k a_string) s = Ok (bs, r) /\
    forall i b, nth_error bs i = Some b -> pool_get p i = Ok (Some b).
Proof.
  intros H. unfold pool_load in H. rewrite run_bind in H.
  destruct (pool_new k) as [p0| |] eqn:E; try discriminate H. cbn [lift run] in H.
  destruct (pool_new_ok _ _ E) as [H0 _].
  destruct (pool_load_loop_ok k p0 [] s p r H0 H) as (bs & B1 & B2).
  exists bs. split; [exact B1|]. intros i b Hb. apply (pool_ok_get p bs i b B2 Hb).
Qed.
Print Assumptions c16_loaded.

(** The string column of Columns.v, which keeps the strings in a list, is this pool: after the
    same appends they hold the same strings. *)
Theorem c16_column capacity bs p p' : (lenN bs < 2 ^ 64)%N ->
  pool_new capacity = Ok p -> pool_put_all bs p = Ok p' ->
  exists c, push_each push (CString []) (map VString bs) = Ok c /\
    forall i b, pool_get p' i = Ok (Some b) -> at_ c i = Ok (VString b).
Proof.
  intros Hb Hn Hp. destruct (pool_new_ok _ _ Hn) as [H0 _].
  pose proof (pool_put_all_ok bs p [] p' H0 Hp) as H. cbn [app] in H.
  exists (CString bs). split.
  - clear. change bs with ([] ++ bs) at 2. generalize (@nil bytes). induction bs as [|b bs IH]; intros l.
    + rewrite app_nil_r. reflexivity.
    + cbn [map push_each]. unfold push at 1. cbn [push_as value_bytes rbind].
      rewrite IH, <- app_assoc. reflexivity.
  - intros i b Hi. destruct (nth_error bs i) as [b'|] eqn:E.
    + destruct (pool_ok_get p' bs i b' H E) as [G _]. rewrite G in Hi. injection Hi as <-.
      cbn [at_]. unfold index. rewrite E. reflexivity.
    + apply nth_error_None in E. rewrite (pool_ok_beyond p' bs i H E) in Hi. discriminate Hi.
Qed.
Print Assumptions c16_column.

(** A case with several chunks: capacity 0 gives every non-fitting string its own chunk, and
    capacity 1 one of 80 bytes. *)
Example c16_case : exists p p',
  pool_new 1 = Ok p /\
  pool_put_all [repeat 1%N 50; repeat 2%N 40; []; repeat 3%N 100; repeat 4%N 80] p = Ok p' /\
  length (sl_chunks p') = 4.
Proof. do 2 eexists. split; [reflexivity|]. split; vm_compute; reflexivity. Qed.
