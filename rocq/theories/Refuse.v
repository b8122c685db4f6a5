(** Rows that are refused: src/types/block/builder.rs, with the block that is left behind. *)
From Verif Require Import Base Bytes Types Values Columns Block.
Open Scope list_scope. Open Scope nat_scope.

(** builder.rs 57-80: applying a row to a block that is kept when a field is refused ([?] at lines
    66 and 75), and src/types/block/mod.rs 262-264. [put_param] itself (82-113) changes
    nothing before it returns an error: the lookup at 87, [row_count] at 90 and the [?] of [from_type] at
    97-101 come before the first change. What a panic leaves behind is not modelled. *)
Fixpoint push_row_kept (row : list (bytes * value)) (b : block) : block * res unit :=
  match row with
  | [] => (b, Ok tt)
  | (k, v) :: row' =>
      match put_param k v b with
      | Ok b' => push_row_kept row' b'
      | Err e => (b, Err e)
      | Panic p => (b, Panic p)
      end
  end.
(** A program that pushes rows and goes on after a refusal. *)
Fixpoint push_rows_kept (rows : list (list (bytes * value))) (b : block) : block * list (res unit) :=
  match rows with
  | [] => (b, [])
  | row :: rows' =>
      let (b', r) := push_row_kept row b in
      match r with
      | Panic p => (b', [Panic p])
      | _ => let (b'', rs) := push_rows_kept rows' b' in (b'', r :: rs)
      end
  end.
