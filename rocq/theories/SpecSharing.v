(** What a program sees of blocks that share storage: every block is a value of its own. *)
From Verif Require Import Base Bytes Types Values Columns Block SpecColumns Sharing.
Open Scope nat_scope.

(** The blocks in the variables, as values. *)
Definition seen (m : memory) : list (option (res block)) :=
  map (fun o => match o with Some b => Some (block_at (m_heap m) b) | None => None end) (m_blocks m).
Definition shows (m : memory) (vs : list (option block)) : Prop :=
  seen m = map (fun o => match o with Some b => Some (Ok b) | None => None end) vs.

(** A dictionary column without its table of known values, which says nothing about its rows
    (the code builds it again from the rows when it is missing). *)
Definition forget (c : col) : col :=
  match c with CLow i ix idx _ => CLow i ix idx None | _ => c end.

(** One field is put into a block: as Block.v does, perhaps after forgetting the table of the
    column that gets it. *)
Definition puts (key : bytes) (v : value) (b : block) (r : res block) : Prop :=
  put_param key v b = r \/
  exists k n c, find_name key (b_cols b) 0 = Some k /\ nth_error (b_cols b) k = Some (n, c) /\
    put_param key v (mk_block (b_info b) (set_nth (b_cols b) k (n, forget c))) = r.

(** One step of a program on blocks that are values, and how it ends. *)
Inductive step_of (vs : list (option block)) : op -> res (list (option block)) -> Prop :=
| step_new b : step_of vs (ONew b) (Ok (vs ++ [Some b]))
| step_clone i : step_of vs (OClone i) (do b <- var vs i; Ok (vs ++ [Some b]))
| step_drop i : step_of vs (ODrop i) (do b <- var vs i; Ok (set_nth vs i None))
| step_put i key v b r : nth_error vs i = Some (Some b) -> puts key v b r ->
    step_of vs (OPut i key v) (do b' <- r; Ok (set_nth vs i (Some b')))
| step_put_none i key v : (forall b, nth_error vs i <> Some (Some b)) -> step_of vs (OPut i key v) (Panic PUndefined)
| step_take i x j name :
    step_of vs (OTake i x j name)
      (do b <- var vs i; do c <- get_column b x; do d <- var vs j;
       do d' <- append_column d (name, snd c); Ok (set_nth vs j (Some d')))
| step_slice i a e :
    step_of vs (OSlice i a e)
      (do b <- var vs i; do b' <- slice_columns (b_cols b) a e block_default; Ok (vs ++ [Some b']))
| step_concat is :
    step_of vs (OConcat is) (do bs <- mapM (var vs) is; do b <- block_concat bs; Ok (vs ++ [Some b])).
Inductive steps_of : list (option block) -> list op -> res (list (option block)) -> Prop :=
| steps_done vs : steps_of vs [] (Ok vs)
| steps_more vs o vs1 os r : step_of vs o (Ok vs1) -> steps_of vs1 os r -> steps_of vs (o :: os) r
| steps_err vs o os e : step_of vs o (Err e) -> steps_of vs (o :: os) (Err e)
| steps_panic vs o os p : step_of vs o (Panic p) -> steps_of vs (o :: os) (Panic p).

(** Where the storages of each block can come from: a new block has a number of its own, a
    clone has those of the block it was made of, a block that takes a column gets those of the
    block it came from in addition. Chunks and concatenations, whose columns nothing can be
    pushed to, have those of the blocks they were made of twice. *)
Definition ids_of (st : list (option (list nat))) (i : nat) : list nat :=
  match nth_error st i with Some (Some l) => l | _ => [] end.
Definition origin_step (st : list (option (list nat))) (o : op) : list (option (list nat)) :=
  match o with
  | ONew _ => st ++ [Some [length st]]
  | OClone i => st ++ [Some (ids_of st i)]
  | OSlice i _ _ => st ++ [Some (ids_of st i ++ ids_of st i)]
  | ODrop i => set_nth st i None
  | OPut _ _ _ => st
  | OTake i _ j _ => set_nth st j (Some (ids_of st j ++ ids_of st i))
  | OConcat is => st ++ [Some (flat_map (ids_of st) is ++ flat_map (ids_of st) is)]
  end.
Definition origins (os : list op) : list (option (list nat)) := fold_left origin_step os [].

(** No two columns of block [i], and no column of another block that is still there, can have
    storages in common with each other or with block [i]. *)
Definition alone (os : list op) (i : nat) : Prop :=
  NoDup (ids_of (origins os) i) /\
  forall j, j <> i -> forall x, In x (ids_of (origins os) i) -> ~ In x (ids_of (origins os) j).

(** Types whose columns have one storage only. *)
Definition plain (t : sqltype) : bool :=
  match t with
  | TNullable _ | TArray _ | TMap _ _ | TAgg _ _ | TLowCardinality _ => false
  | _ => true
  end.

(** A column that values were pushed to, perhaps through copies that lost the table: [ws] are
    the cells it must have, [k] is how many single cells were pushed. *)
Inductive grown : col -> list value -> N -> Prop :=
| grown_new t tz c : from_type t tz = Ok c -> no_empty_rows t -> grown c [] 0
| grown_push c ws k v w c' : grown c ws k -> reads_as c v = Some w -> (k + weight v < 2 ^ 64)%N ->
    push c v = Ok c' \/ push (forget c) v = Ok c' -> grown c' (ws ++ [w]) (k + weight v).

(** Values whose pushing changes an inner storage of the column. *)
Definition goes_inside (c : col) (v : value) : bool :=
  match c, v with
  | CNullable _ _, _ | CAgg _ _, _ => true
  | CArray _ _, VArray _ _ => true
  | CMap _ _ _, VMap _ _ _ => true
  | _, _ => false
  end.

(** The only way to end a program that has no equal on values: a field is put into a column of
    several storages. *)
Definition stuck (vs : list (option block)) (o : op) : Prop :=
  exists i key v b k n c, o = OPut i key v /\ nth_error vs i = Some (Some b) /\ find_name key (b_cols b) 0 = Some k /\
    nth_error (b_cols b) k = Some (n, c) /\ plain (ctype c) = false.

(** The variable that a step changes; the others are read or left alone. *)
Definition target (o : op) : option nat :=
  match o with OPut i _ _ | ODrop i => Some i | OTake _ _ j _ => Some j | _ => None end.
