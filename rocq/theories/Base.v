(** Results, errors and panics, and byte strings.

    Every other model file builds on this one. *)
From Coq Require Export List Arith NArith ZArith Lia Bool.
From Coq Require Export ZifyBool ZifyNat ZifyN.
Export ListNotations.

Ltac Zify.zify_post_hook ::= Z.div_mod_to_equations.

Arguments N.add : simpl never.
Arguments N.sub : simpl never.
Arguments N.mul : simpl never.
Arguments N.div : simpl never.
Arguments N.modulo : simpl never.
Arguments N.pow : simpl never.
Arguments N.of_nat : simpl never.
Arguments N.to_nat : simpl never.
Arguments Z.add : simpl never.
Arguments Z.sub : simpl never.
Arguments Z.mul : simpl never.
Arguments Z.div : simpl never.
Arguments Z.modulo : simpl never.
Arguments Z.pow : simpl never.

(** A byte is an [N] below 256; a byte string, a Rust [String] (its UTF-8
    bytes), a [Vec<u8>] and a [&[u8]] are all lists of bytes. *)
Definition bytes := list N.
Definition bytes_ok (l : bytes) : Prop := Forall (fun b => (b < 256)%N) l.

(** Length as the [u64]/[usize] number the wire format carries. *)
Definition lenN {A} (l : list A) : N := N.of_nat (length l).

(** src/errors/mod.rs 40-47: [ServerError]. *)
Record server_error := mk_server_error {
  se_code : N; se_name : bytes; se_message : bytes; se_stack : bytes }.

(** src/errors/mod.rs 15-121: [Error] and its variants, without the free text of
    messages. [EIo] is any I/O error whose kind is not [WouldBlock];
    src/errors/mod.rs 202-209 turns every non-I/O error passed through an
    [io::Read] implementation into such an I/O error. *)
Inductive error :=
| EWouldBlock
| EIo
| EOverflow
| EUnknownPacket (packet : N)
| EUnexpectedPacket
| ETimeout
| EUtf8
| EOther
| EBroken
| EServer (e : server_error)
| EUrlParse
| EUrlScheme (scheme : bytes)
| EUrlInvalid
| EUrlParam (param value : bytes)
| EInvalidType
| EOutOfRange
| EUnsupported.

(** src/errors/mod.rs 124-132: [Error::is_would_block]. *)
Definition is_would_block (e : error) : bool :=
  match e with EWouldBlock => true | _ => false end.

(** Why a thread panicked. Rust panics are values here, never defaults.
    [PUndefined] is no panic: the program has read memory outside of a buffer or as something
    it is not, and may do anything from there on.
    [PFuel] marks a fuelled loop of the model that ran out; it models nothing and
    theorems exclude it. *)
Inductive panic :=
| PArith          (* overflow check of + - * or a shift amount *)
| PIndex          (* index or slice out of bounds, or not on a char boundary *)
| PCapacity       (* allocation request above isize::MAX *)
| PUnwrap         (* unwrap/expect of None or Err *)
| PAssert         (* assert!, assert_eq! *)
| PUnimplemented  (* unimplemented! *)
| PUnreachable    (* unreachable! *)
| PExplicit       (* panic! *)
| PUndefined      (* undefined behaviour *)
| PFuel.

Inductive res (A : Type) : Type :=
| Ok (a : A)
| Err (e : error)
| Panic (p : panic).
Arguments Ok {A} _.
Arguments Err {A} _.
Arguments Panic {A} _.

Definition rbind {A B} (r : res A) (f : A -> res B) : res B :=
  match r with Ok a => f a | Err e => Err e | Panic p => Panic p end.
Definition rmap {A B} (f : A -> B) (r : res A) : res B :=
  match r with Ok a => Ok (f a) | Err e => Err e | Panic p => Panic p end.
Notation "'do' x <- e ; f" := (rbind e (fun x => f))
  (at level 200, x pattern, e at level 100, f at level 200).

(** [option] as the result of a partial Rust operation that panics. *)
Definition or_panic {A} (p : panic) (o : option A) : res A :=
  match o with Some a => Ok a | None => Panic p end.

(** [slice[a..b]]: panics unless a <= b <= len. *)
Definition slice {A} (l : list A) (a b : nat) : option (list A) :=
  if (a <=? b)%nat && (b <=? length l)%nat then Some (firstn (b - a) (skipn a l)) else None.

(** The largest allocation Rust permits, [isize::MAX] on a 64-bit target. *)
Definition isize_max : N := (2 ^ 63 - 1)%N.

(** Map over a list in the result monad, left to right. *)
Fixpoint mapM {A B} (f : A -> res B) (l : list A) : res (list B) :=
  match l with
  | [] => Ok []
  | x :: l' => do y <- f x; do ys <- mapM f l'; Ok (y :: ys)
  end.
