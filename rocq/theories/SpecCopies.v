(** Which values can be borrowed as cells. *)
From Verif Require Import Base Bytes Types SpecColumns.
Open Scope list_scope.

(** The maps in a value have no key twice. *)
Fixpoint unrepeated (v : value) : Prop :=
  match v with
  | VSome x => unrepeated x
  | VArray _ vs => fold_right (fun x P => unrepeated x /\ P) True vs
  | VMap _ _ kvs =>
      NoDup (map fst kvs) /\ fold_right (fun kv P => unrepeated (fst kv) /\ unrepeated (snd kv) /\ P) True kvs
  | _ => True
  end.

(** There is no chrono time in a value, and all its maps have text or whole numbers for keys. *)
Fixpoint borrowable (v : value) : bool :=
  match v with
  | VSome x => borrowable x
  | VArray _ vs => forallb borrowable vs
  | VMap _ _ kvs => forallb (fun kv => map_key (fst kv) && borrowable (snd kv)) kvs
  | VChrono _ _ _ => false
  | _ => true
  end.
