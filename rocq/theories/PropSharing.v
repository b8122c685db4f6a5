(** Properties C65 and C66: blocks that share storage behave like blocks of their own, except
    that some cannot be pushed to. *)
From Verif Require Import Base Bytes Types Values Columns Block SpecColumns Sharing SpecSharing
  PushProofs SharingProofs CastSendProofs CastMainProofs ShareBlockProofs ShareStepProofs ShareMoreProofs.
Open Scope nat_scope.

(** C65. Whatever a program does with blocks (makes, clones, drops, fills, slices and
    concatenates them, moves columns between them), what it reads is what it would read if
    each block were a value of its own; and it ends as it would then, unless it ends with
    the panic of C66. *)
Theorem c65_programs : forall os,
  match program fresh_memory os with
  | Ok m => exists vs, steps_of [] os (Ok vs) /\ shows m vs
  | Err e => steps_of [] os (Err e)
  | Panic p => steps_of [] os (Panic p) \/
      (p = PUnwrap /\ exists os1 o os2 vs, os = os1 ++ o :: os2 /\ steps_of [] os1 (Ok vs) /\ stuck vs o)
  end.
Proof.
  intros os. pose proof (program_spec os _ _ _ good_fresh shows_fresh) as T. destruct (program fresh_memory os) as [m|e|p]; [|exact T|exact T].
  destruct T as (vs & T & S & _). eauto.
Qed.
Print Assumptions c65_programs.

(** A block is filled, cloned, both copies get a further row, and their concatenation is made
    and read. *)
Definition cell_u8 (z : Z) : value := VNum U8 z.
Definition one_column : block := mk_block info_default [([97%N], CVec U8 [1%Z])].
Example c65_programs_case :
  exists m, program fresh_memory
    [ONew one_column; OClone 0; OPut 1 [97%N] (cell_u8 2); OPut 0 [97%N] (cell_u8 3); OConcat [0; 1; 0]; OSlice 2 1 4; ODrop 2] = Ok m /\
  seen m = [Some (Ok (mk_block info_default [([97%N], CVec U8 [1%Z; 3%Z])]));
            Some (Ok (mk_block info_default [([97%N], CVec U8 [1%Z; 2%Z])])); None;
            Some (Ok (mk_block info_default [([97%N], CChunk (CConcat (CVec U8 [1%Z; 3%Z]) [CVec U8 [1%Z; 2%Z]; CVec U8 [1%Z; 3%Z]]) 1 4)]))].
Proof. eexists. split; vm_compute; reflexivity. Qed.

(** No step changes what is read from a block other than the one it is about. *)
Theorem c65_others : forall os m o m', program fresh_memory os = Ok m -> perform m o = Ok m' ->
  forall j, j < length (m_blocks m) -> target o <> Some j -> nth_error (seen m') j = nth_error (seen m) j.
Proof.
  intros os m o m' P Q j Lj Nt. pose proof (program_spec os _ _ _ good_fresh shows_fresh) as T. rewrite P in T.
  destruct T as (vs & _ & S & G). pose proof (perform_spec m _ vs o G S) as T. rewrite Q in T. destruct T as (vs' & T & S' & _).
  pose proof (shows_length _ _ S) as Len.
  assert (E : nth_error vs' j = nth_error vs j).
  { assert (Ap : forall x, nth_error (vs ++ [x]) j = nth_error vs j) by (intros x; apply nth_error_app1; lia).
    assert (Se : forall i x b, nth_error vs i = Some (Some b) -> i <> j -> nth_error (set_nth vs i x) j = nth_error vs j).
    { intros i x b Hi N. apply set_nth_other; [apply nth_error_Some; congruence|congruence]. }
    inversion T; subst; cbn [target] in Nt; try match goal with E : _ = Ok vs' |- _ => rename E into Q1 end.
    - apply Ap.
    - destruct (var vs i); [|discriminate..]. injection Q1 as <-. apply Ap.
    - destruct (var vs i) as [b| |] eqn:V; [|discriminate..]. injection Q1 as <-. apply (Se i None b); [apply var_nth, V|congruence].
    - destruct r; [|discriminate..]. injection Q1 as <-. apply (Se i _ b); [assumption|congruence].
    - apply bind_ok in Q1. destruct Q1 as (b & _ & Q1). apply bind_ok in Q1. destruct Q1 as (c & _ & Q1). apply bind_ok in Q1. destruct Q1 as (d & V & Q1).
      apply bind_ok in Q1. destruct Q1 as (d' & _ & Q1). injection Q1 as <-. apply (Se j0 _ d); [apply var_nth, V|congruence].
    - apply bind_ok in Q1. destruct Q1 as (b0 & _ & Q1). apply bind_ok in Q1. destruct Q1 as (c & _ & Q1). injection Q1 as <-. apply Ap.
    - apply bind_ok in Q1. destruct Q1 as (b0 & _ & Q1). apply bind_ok in Q1. destruct Q1 as (c & _ & Q1). injection Q1 as <-. apply Ap. }
  unfold shows in *. rewrite S, S', !nth_error_map, E. reflexivity.
Qed.
Print Assumptions c65_others.

(** A field put into a column that was filled by pushing, in this block or in one it was
    copied from, is one more row of that column and changes no other row. *)
Theorem c65_rows : forall os m vs i key v m' b k c ws n w, program fresh_memory os = Ok m -> shows m vs ->
  perform m (OPut i key v) = Ok m' -> nth_error vs i = Some (Some b) -> find_name key (b_cols b) 0 = Some k ->
  nth_error (b_cols b) k = Some (key, c) -> grown c ws n -> reads_as c v = Some w -> (n + weight v < 2 ^ 64)%N ->
  exists vs' b' c', shows m' vs' /\ nth_error vs' i = Some (Some b') /\
    nth_error (b_cols b') k = Some (key, c') /\ holds c ws /\ holds c' (ws ++ [w]) /\ grown c' (ws ++ [w]) (n + weight v) /\
    (forall j, j <> k -> nth_error (b_cols b') j = nth_error (b_cols b) j).
Proof.
  intros os m vs i key v m' b k c ws n w P S Q Hi Ef Hk Gc Hr Hb. pose proof (program_good os m P) as G.
  pose proof (var_shows m vs i S) as V. unfold var in V. destruct (nth_error (m_blocks m) i) as [[hb|]|] eqn:Em.
  2,3: destruct V as (_ & _ & V); contradiction (V b Hi).
  destruct V as (_ & b0 & Hb0 & _ & B). rewrite Hi in Hb0. injection Hb0 as <-.
  pose proof (put_field_spec m _ vs i key v hb b G S Em B) as T. cbn [perform] in Q. rewrite Q in T.
  destruct T as (b' & T & S' & _). exists (set_nth vs i (Some b')), b'.
  assert (Lk : k < length (b_cols b)) by (apply nth_error_Some; unfold column in *; congruence).
  assert (Li : i < length vs) by (apply nth_error_Some; congruence).
  assert (E : exists c', (push c v = Ok c' \/ push (forget c) v = Ok c') /\ b' = put_back b k key c').
  { destruct T as [T|(k' & n' & c1 & F & Hk' & T)].
    - rewrite (put_param_at key v b k key c Ef Hk) in T. apply bind_ok in T. destruct T as (c' & E & T). injection T as <-. eauto.
    - rewrite Ef in F. injection F as <-. rewrite Hk in Hk'. injection Hk' as <- <-.
      rewrite (put_param_forget key v b k key c Ef Hk) in T. apply bind_ok in T. destruct T as (c' & E & T). injection T as <-. eauto. }
  destruct E as (c' & E & ->). exists c'.
  assert (Gc' : grown c' (ws ++ [w]) (n + weight v)) by (eapply grown_push; eassumption).
  destruct (grown_spec _ _ _ Gc) as (_ & H & _). destruct (grown_spec _ _ _ Gc') as (_ & H' & _).
  split; [exact S'|]. split; [apply set_nth_here, Li|]. split; [apply set_nth_here, Lk|]. repeat (split; [assumption|]).
  intros j Nj. apply set_nth_other; [exact Lk|exact Nj].
Qed.
Print Assumptions c65_rows.

(** A dictionary column of a copy, which keeps its rows although its table is lost. *)
Definition words : block := mk_block info_default [([97%N], CLow (CString [[120%N]]) X8 [0%N; 0%N] (Some [(VString [120%N], 0%N)]))].
Lemma words_grown : grown (CLow (CString [[120%N]]) X8 [0%N; 0%N] (Some [(VString [120%N], 0%N)])) [VString [120%N]; VString [120%N]] 2.
Proof.
  refine (grown_push (CLow (CString [[120%N]]) X8 [0%N] (Some [(VString [120%N], 0%N)])) [VString [120%N]] 1 (VString [120%N]) _ _ _ _ _ _);
    [|reflexivity|reflexivity|left; vm_compute; reflexivity].
  refine (grown_push (CLow (CString []) X8 [] None) [] 0 (VString [120%N]) _ _ _ _ _ _); [|reflexivity|reflexivity|left; vm_compute; reflexivity].
  apply (grown_new (TLowCardinality TString) []); [reflexivity|exact I].
Qed.
Example c65_rows_case :
  exists m m', program fresh_memory [ONew words; OClone 0] = Ok m /\ perform m (OPut 1 [97%N] (VString [120%N])) = Ok m' /\
    shows m [Some words; Some words] /\
    seen m' = [Some (Ok words); Some (Ok (mk_block info_default [([97%N], CLow (CString [[120%N]]) X8 [0%N; 0%N; 0%N] (Some [(VString [120%N], 0%N)]))]))].
Proof. do 2 eexists. split; [vm_compute; reflexivity|]. split; [vm_compute; reflexivity|]. split; vm_compute; reflexivity. Qed.

(** C66 says that a value can be pushed to a block exactly if it could be pushed to a copy
    that shares nothing. It does not hold: once a block with a nullable, array, map or
    aggregate column has been cloned, pushing to that column of the clone panics, and pushing
    to that of the original panics too, although it goes well on the value. *)
Theorem c66_clones_refuted : forall b key v k c j, find_name key (b_cols b) 0 = Some k ->
  nth_error (b_cols b) k = Some (key, c) -> goes_inside c v = true -> j < 2 ->
  program fresh_memory [ONew b; OClone 0; OPut j key v] = Panic PUnwrap.
Proof. exact cloned_put. Qed.
Print Assumptions c66_clones_refuted.

Definition nullable_block : block := mk_block info_default [([97%N], CNullable (CVec U8 [1%Z]) [0%N])].
Example c66_clones_case :
  program fresh_memory [ONew nullable_block; OClone 0; OPut 0 [97%N] (VSome (cell_u8 2))] = Panic PUnwrap /\
  program fresh_memory [ONew nullable_block; OClone 0; OPut 1 [97%N] (VSome (cell_u8 2))] = Panic PUnwrap /\
  put_param [97%N] (VSome (cell_u8 2)) nullable_block = Ok (mk_block info_default [([97%N], CNullable (CVec U8 [1%Z; 2%Z]) [0%N; 0%N])]).
Proof. split; [eapply c66_clones_refuted; try reflexivity; lia|]. split; [eapply c66_clones_refuted; try reflexivity; lia|]. reflexivity. Qed.
(** The same with a new value and a dictionary. *)
Example c66_dictionary_case :
  program fresh_memory [ONew words; OClone 0; OPut 1 [97%N] (VString [121%N])] = Panic PUnwrap /\
  exists b, put_param [97%N] (VString [121%N]) words = Ok b.
Proof. split; [vm_compute; reflexivity|]. eexists. vm_compute. reflexivity. Qed.

(** What holds of C66: for a block whose storages come from nowhere else, and are in no other
    block that is still there, pushing does exactly what it does on the value. Columns of one
    storage only can always be pushed to. *)
Theorem c66_alone_partial : forall os m vs i key v b, program fresh_memory os = Ok m -> shows m vs -> alone os i ->
  nth_error vs i = Some (Some b) ->
  match perform m (OPut i key v) with
  | Ok m' => exists b', put_param key v b = Ok b' /\ shows m' (set_nth vs i (Some b'))
  | Err e => put_param key v b = Err e
  | Panic p => put_param key v b = Panic p
  end.
Proof.
  intros os m vs i key v b P S (N & A) Hi. pose proof (program_good os m P) as G.
  pose proof (var_shows m vs i S) as V. unfold var in V. destruct (nth_error (m_blocks m) i) as [[hb|]|] eqn:Em.
  2,3: destruct V as (_ & _ & V); contradiction (V b Hi).
  destruct V as (_ & b0 & Hb0 & _ & B). rewrite Hi in Hb0. injection Hb0 as <-.
  exact (put_alone m _ vs i key v hb b G S Em B N A).
Qed.
Print Assumptions c66_alone_partial.
(** A block whose clones were dropped, after it got a column of another block that was dropped too. *)
Example c66_alone_case :
  let os := [ONew nullable_block; OClone 0; ONew (mk_block info_default [([98%N], CNullable (CVec U8 [7%Z]) [0%N])]);
             OTake 2 (ByPos 0) 1 [98%N]; ODrop 0; ODrop 2] in
  alone os 1 /\ exists m, program fresh_memory os = Ok m /\
    exists m', perform m (OPut 1 [98%N] (VSome (cell_u8 2))) = Ok m'.
Proof.
  split; [split|].
  - vm_compute. constructor; [intros [H|[]]; discriminate H|]. constructor; [intros []|constructor].
  - intros [|[|[|j]]] N x _; [intros []|congruence|intros []|]. destruct j; intros [].
  - eexists. split; [vm_compute; reflexivity|]. eexists. vm_compute. reflexivity.
Qed.

Theorem c66_plain_partial : forall os m vs i key v b p, program fresh_memory os = Ok m -> shows m vs ->
  nth_error vs i = Some (Some b) -> perform m (OPut i key v) = Panic p ->
  puts key v b (Panic p) \/
  (p = PUnwrap /\ exists k n c, find_name key (b_cols b) 0 = Some k /\ nth_error (b_cols b) k = Some (n, c) /\ plain (ctype c) = false).
Proof.
  intros os m vs i key v b p P S Hi Q. pose proof (program_good os m P) as G.
  pose proof (var_shows m vs i S) as V. unfold var in V. destruct (nth_error (m_blocks m) i) as [[hb|]|] eqn:Em.
  2,3: destruct V as (_ & _ & V); contradiction (V b Hi).
  destruct V as (_ & b0 & Hb0 & _ & B). rewrite Hi in Hb0. injection Hb0 as <-.
  pose proof (put_field_spec m _ vs i key v hb b G S Em B) as T. cbn [perform] in Q. rewrite Q in T. exact T.
Qed.
Print Assumptions c66_plain_partial.
Example c66_plain_case :
  exists m, program fresh_memory [ONew one_column; OClone 0] = Ok m /\ shows m [Some one_column; Some one_column] /\
    perform m (OPut 1 [97%N] (VString [])) = Panic PExplicit.
Proof. eexists. split; [vm_compute; reflexivity|]. split; vm_compute; reflexivity. Qed.
