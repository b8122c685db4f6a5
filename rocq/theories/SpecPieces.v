(** What the pieces of a split insert carry of columns of arrays and maps. *)
From Verif Require Import Base Bytes Types Values Columns Block SpecColumns SpecBlock.
Open Scope list_scope.
Open Scope nat_scope.

(** An entry put into a map takes the place of the one with its key, or comes last. *)
Fixpoint entered (m : list (value * value)) (k v : value) : list (value * value) :=
  match m with
  | [] => [(k, v)]
  | (k', v') :: m' => if same_key k' k then (k', v) :: m' else (k', v') :: entered m' k v
  end.
Definition merged (m n : list (value * value)) : list (value * value) :=
  fold_left (fun m kv => entered m (fst kv) (snd kv)) n m.

(** The cells of a column of arrays, or of maps, made into one. *)
Definition elements (v : value) : list value := match v with VArray _ l => l | _ => [] end.
Definition entries (v : value) : list (value * value) := match v with VMap _ _ l => l | _ => [] end.
Definition joined (vs : list value) : value :=
  match vs with
  | VMap k v _ :: _ => VMap k v (fold_left merged (map entries vs) [])
  | VArray t _ :: _ => VArray t (concat (map elements vs))
  | v :: _ => v
  | [] => VString []
  end.

(** Columns of arrays or maps, also of aggregates of them. *)
Fixpoint heaped (c : col) : bool :=
  match c with CArray _ _ | CMap _ _ _ => true | CAgg _ i => heaped i | _ => false end.

(** [c'] has [n] rows: they are those of [c] from row [a] on, but the first of them is, when these are
    arrays or maps, all rows up to row [a] in one. *)
Definition arrives (tz : bytes) (c c' : col) (a n : nat) : Prop :=
  ctype c' = ctype c /\ clen c' = Ok n /\
  (forall i, 0 < i < n -> at_ c' i = rmap (zoned tz) (at_ c (a + i))) /\
  (0 < n -> at_ c' 0 = rmap (zoned tz)
     (if heaped c then do vs <- mapM (at_ c) (seq 0 (S a)); Ok (joined vs) else at_ c a)).
Definition block_arrives (tz : bytes) (b b' : block) (a n : nat) : Prop :=
  Forall2 (fun x x' => fst x' = fst x /\ arrives tz (snd x) (snd x') a n) (b_cols b) (b_cols b').
