(** Which types have a name the client reads back, independently of how names are printed
    and parsed. *)
From Verif Require Import Base Bytes Types.

(** A label or zone name that needs no quoting: no quote and no backslash. *)
Definition unquoted (l : bytes) : Prop := Forall (fun b => b <> 39%N /\ b <> 92%N) l.

(** ASCII text without a comma. *)
Definition no_comma (l : bytes) : Prop := Forall (fun b => (b < 128)%N /\ b <> 44%N) l.

(** Types whose name is one word, without parameters. *)
Definition one_word (t : sqltype) : Prop :=
  match t with
  | TNum _ | TString | TDate | TIpv4 | TIpv6 | TUuid => True
  | TDateTime (DateTime64 _ _) => False
  | TDateTime _ => True
  | _ => False
  end.

(** Types with at most one parameter at every level: their names have no comma. *)
Fixpoint unary (t : sqltype) : Prop :=
  match t with
  | TNum _ | TString | TFixedString _ | TDate | TIpv4 | TIpv6 | TUuid => True
  | TDateTime (DateTime64 _ _) => False
  | TDateTime _ => True
  | TNullable i | TArray i | TLowCardinality i => unary i
  | TEnum8 [(l, _)] | TEnum16 [(l, _)] => no_comma l
  | _ => False
  end.

Definition not_nullable (t : sqltype) : Prop := match t with TNullable _ => False | _ => True end.

Section Nameable.
Variable tz_known : bytes -> bool.

Fixpoint nameable (t : sqltype) : Prop :=
  match t with
  | TNum _ | TString | TDate | TIpv4 | TIpv6 | TUuid => True
  | TFixedString n => (n < 2 ^ 64)%N
  | TDateTime (DateTime64 p tz) => (p < 2 ^ 32)%N /\ unquoted tz /\ tz_known tz = true
  | TDateTime _ => True
  | TNullable i => nameable i /\ not_nullable i
  | TArray i | TLowCardinality i => nameable i
  | TDecimal p s => (s <= p <= 18)%N
  | TEnum8 vals => vals <> [] /\ Forall (fun e => unquoted (fst e) /\ (-128 <= snd e <= 127)%Z) vals
  | TEnum16 vals => vals <> [] /\ Forall (fun e => unquoted (fst e) /\ (-32768 <= snd e <= 32767)%Z) vals
  | TAgg _ i => nameable i /\ one_word i
  | TMap k v => nameable k /\ unary k /\ nameable v
  end.
End Nameable.

(** The type a name stands for: the client's internal variant of DateTime has the name of
    DateTime itself. *)
Fixpoint plain_type (t : sqltype) : sqltype :=
  match t with
  | TDateTime DtChrono => TDateTime DateTime32
  | TNullable i => TNullable (plain_type i)
  | TArray i => TArray (plain_type i)
  | TLowCardinality i => TLowCardinality (plain_type i)
  | TAgg f i => TAgg f (plain_type i)
  | TMap k v => TMap (plain_type k) (plain_type v)
  | _ => t
  end.

(** Types of columns that the client can both build row by row and send as they are: those
    without DateTime, whose columns are converted before they are sent. *)
Fixpoint no_datetime (t : sqltype) : Prop :=
  match t with
  | TDateTime _ => False
  | TNullable i | TArray i | TLowCardinality i | TAgg _ i => no_datetime i
  | TMap k v => no_datetime k /\ no_datetime v
  | _ => True
  end.
