(** What a ClickHouse server is prepared to receive, as its documentation of the native protocol and its
    TCPHandler have it: a hello first; then a ping or a query at a time. A query is followed by
    external tables, ended by a block without columns. A query that takes data (an INSERT) is then
    followed by blocks of data, again ended by one without columns. Anything may be cancelled. All
    else is "Unexpected packet from client". *)
From Verif Require Import Base Bytes Types Values Columns Block Packets Client.
Open Scope nat_scope.

Inductive message := MHello | MPing | MQuery (takes_data : bool) | MBlock (has_columns : bool) | MCancel.
Inductive phase := New | Idle | Tables (takes_data : bool) | Data.

Definition expects (s : phase) (m : message) : option phase :=
  match s, m with
  | New, MHello => Some Idle
  | Idle, MPing => Some Idle
  | Idle, MQuery d => Some (Tables d)
  | Tables d, MBlock true => Some (Tables d)
  | Tables true, MBlock false => Some Data
  | Tables false, MBlock false => Some Idle
  | Data, MBlock true => Some Data
  | Data, MBlock false => Some Idle
  | (Idle | Tables _ | Data), MCancel => Some Idle
  | _, _ => None
  end.

Section Protocol.
(** Which queries take data. *)
Variable takes : query -> bool.

(** The messages of a command; every query comes with the block that ends its external tables
    (src/types/cmd.rs 124-126). *)
Fixpoint messages (m : cmd) : list message :=
  match m with
  | CmdHello _ => [MHello]
  | CmdPing => [MPing]
  | CmdQuery q _ => [MQuery (takes q); MBlock false]
  | CmdData b _ => [MBlock (match b_cols b with [] => false | _ => true end)]
  | CmdUnion a b => messages a ++ messages b
  | CmdCancel => [MCancel]
  end.

Fixpoint expects_all (s : phase) (ms : list message) : option phase :=
  match ms with
  | [] => Some s
  | m :: ms' => match expects s m with Some s' => expects_all s' ms' | None => None end
  end.

(** Where a server is after these commands; [None] if one of them was unexpected. *)
Definition phase_after (log : list cmd) : option phase := expects_all New (flat_map messages log).
Definition expected (log : list cmd) : Prop := phase_after log <> None.
End Protocol.
