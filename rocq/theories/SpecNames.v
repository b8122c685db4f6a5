(** Type names a server may send, as text: names nested in names, and the ones that the client cannot
    take apart. *)
From Coq Require Import String.
From Verif Require Import Base Bytes Types Text SpecWire.
Open Scope list_scope. Open Scope nat_scope.

Definition ascii (s : bytes) : Prop := Forall (fun b => (b < 128)%N) s.

(** White space, as Unicode has it. *)
Definition white : list N :=
  [9; 10; 11; 12; 13; 32; 133; 160; 5760; 8192; 8193; 8194; 8195; 8196; 8197; 8198; 8199; 8200; 8201; 8202;
   8232; 8233; 8239; 8287; 12288]%N.
Definition blank (s : bytes) : Prop := exists cs, Forall (fun c => In c white) cs /\ s = concat (map utf8_encode cs).

(** [inside n s]: [n] is the name [s] or one of the names nested in it, at any depth. What stands
    for the parentheses may be any character. *)
Inductive inside (n : bytes) : bytes -> Prop :=
| in_self : inside n n
| in_nullable c x d : inside n x -> inside n (str "Nullable" ++ c :: x ++ [d])
| in_array c x d : inside n x -> inside n (str "Array" ++ c :: x ++ [d])
| in_key c a x b y d : ~ In 44%N (a ++ x ++ b) -> blank a -> blank b -> inside n x -> inside n (str "Map" ++ c :: (a ++ x ++ b) ++ 44%N :: y ++ [d])
| in_value c x a y b d : ~ In 44%N x -> blank a -> blank b -> inside n y ->
    inside n (str "Map" ++ c :: x ++ 44%N :: (a ++ y ++ b) ++ [d])
| in_agg f a y b d : ~ In 44%N f -> blank a -> blank b -> Forall (fun c => c = 40%N \/ c = 41%N) d -> inside n y ->
    inside n (str "SimpleAggregateFunction(" ++ f ++ 44%N :: (a ++ y ++ b) ++ d)
| in_low p a x b q : ~ In 40%N p -> ~ In 41%N q -> blank a -> blank b -> inside n x ->
    inside n (str "LowCardinality" ++ p ++ 40%N :: (a ++ x ++ b) ++ 41%N :: q).

(** Two characters of one byte with something between them. *)
Definition delimited (x : bytes) : Prop := exists c y d, x = c :: y ++ [d] /\ (c < 128)%N /\ (d < 128)%N.
(** Something in parentheses, with nothing but one-byte characters around. *)
Definition enclosed (x : bytes) : Prop :=
  exists a y b, x = a ++ 40%N :: y ++ 41%N :: b /\ ~ In 40%N a /\ ~ In 41%N b /\ ascii a /\ ascii b.

(** Names that begin with a keyword and do not go on as the client takes for granted. *)
Inductive odd : bytes -> Prop :=
| odd_keyword k x : In k [str "Nullable"; str "FixedString"; str "Array"; str "Map"] -> ~ delimited x -> odd (k ++ x)
| odd_low x : ~ ascii x -> ~ enclosed x -> odd (str "LowCardinality" ++ x).
(** Maps whose key has characters of more than one byte. *)
Definition odd_key (s : bytes) : Prop :=
  exists c x y d, s = str "Map" ++ c :: x ++ 44%N :: y ++ [d] /\ ~ In 44%N x /\ ~ ascii x.

(** The number of bytes of a cell, for the types whose cells all have the same, at least one. *)
Fixpoint cell_size (t : sqltype) : option N :=
  match t with
  | TNum s => Some (N.of_nat (width s))
  | TFixedString n => if (n =? 0)%N then None else Some n
  | TDate => Some 2%N
  | TDateTime (DateTime64 _ _) => Some 8%N
  | TDateTime _ => Some 4%N
  | TIpv4 => Some 4%N
  | TIpv6 | TUuid => Some 16%N
  | TDecimal p _ => Some (if (p <=? 9)%N then 4 else 8)%N
  | TEnum8 _ => Some 1%N
  | TEnum16 _ => Some 2%N
  | TNullable i => match cell_size i with Some w => Some (N.max 1 w) | None => None end
  | _ => None
  end.
