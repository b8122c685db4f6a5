(** The conversions between cells and owned values: src/types/value_ref.rs 273-325 and 370-423. *)
From Verif Require Import Base Bytes Types Values Columns ToSql.
Open Scope list_scope.

(** src/types/value_ref.rs 273-325: [From<ValueRef> for Value]. Text is copied; the values in options
    and arrays are converted one by one; a map is built anew, by hashing and comparing owned keys. The
    one type of the model stands for both sides. There is no chrono cell; the line for it stands
    for that. *)
Fixpoint to_owned (v : value) : res value :=
  match v with
  | VSome x => do y <- to_owned x; Ok (VSome y)
  | VArray t vs =>
      do ws <- (fix loop (vs : list value) : res (list value) :=
                  match vs with
                  | [] => Ok []
                  | x :: vs' => do y <- to_owned x; do r <- loop vs'; Ok (y :: r)
                  end) vs;
      Ok (VArray t ws)
  | VMap k t kvs =>
      do m <- (fix loop (kvs m : list (value * value)) : res (list (value * value)) :=
                 match kvs with
                 | [] => Ok m
                 | (a, b) :: kvs' =>
                     do a' <- to_owned a; do b' <- to_owned b; do m' <- value_insert m a' b'; loop kvs' m'
                 end) kvs [];
      Ok (VMap k t m)
  | VChrono _ _ _ => Panic PUnreachable
  | _ => Ok v
  end.

(** src/types/value_ref.rs 370-423: [From<&Value> for ValueRef]. A map is built anew, by hashing
    and comparing borrowed keys. *)
Fixpoint to_ref (v : value) : res value :=
  match v with
  | VSome x => do y <- to_ref x; Ok (VSome y)
  | VArray t vs =>
      do ws <- (fix loop (vs : list value) : res (list value) :=
                  match vs with
                  | [] => Ok []
                  | x :: vs' => do y <- to_ref x; do r <- loop vs'; Ok (y :: r)
                  end) vs;
      Ok (VArray t ws)
  | VMap k t kvs =>
      do m <- (fix loop (kvs m : list (value * value)) : res (list (value * value)) :=
                 match kvs with
                 | [] => Ok m
                 | (a, b) :: kvs' =>
                     do a' <- to_ref a; do b' <- to_ref b; do m' <- vref_insert m a' b'; loop kvs' m'
                 end) kvs [];
      Ok (VMap k t m)
  | VChrono _ _ _ => Panic PUnimplemented
  | _ => Ok v
  end.
