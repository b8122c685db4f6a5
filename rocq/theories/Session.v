(** A connection in use, on its socket: one operation after the other, with the commands that each of
    them sends. Client.v has the same operations message by message; Wired.v has the loops that are used
    here. The lines modelled are those given there. *)
From Verif Require Import Base Bytes Types Values Columns Block Casts Packets Transport SpecTransport Wired.
From Verif Require Client.
Open Scope list_scope.
Open Scope nat_scope.

(** What goes on at the socket: the events to come, and the commands given to it so far. *)
Definition wstate : Type := socket * list cmd.
Definition W (A : Type) : Type := wstate -> res A * wstate.
Definition wret {A} (r : res A) : W A := fun s => (r, s).
Definition wbind {A B} (x : W A) (f : A -> W B) : W B := fun s =>
  match x s with
  | (Ok a, s') => f a s'
  | (Err e, s') => (Err e, s')
  | (Panic p, s') => (Panic p, s')
  end.

Section Session.
Variable lz4_compress : bytes -> bytes.
Variable show_float : Z -> bytes.
Variable lz4_decompress : bytes -> N -> option bytes.
Variable tz_known : bytes -> bool.
Variable parse_ipv4 parse_ipv6 : bytes -> option bytes.
(** What the network does from the moment the last of these commands is handed over: the reads it
    adds to those still to come, and how it takes what is written. *)
Variable network : list cmd -> list rd_event * list wr_event.
Notation wconsume := (wconsume lz4_compress show_float lz4_decompress tz_known).
Notation wcollect := (wcollect lz4_compress show_float lz4_decompress tz_known).

Definition hand (log : list cmd) (m : cmd) (sk : socket) : socket :=
  let n := network (log ++ [m]) in mk_socket (s_reads sk ++ fst n) (snd n) (s_out sk).

(** More steps than there are bytes to be read. *)
Definition steps (t : transport) (sk : socket) : nat := 3 + length (t_rd t) + length (received (s_reads sk)).

(** transport.rs 401-408 and the loop over its stream. *)
Definition ask {A} (on : A -> packet -> option transport -> A + error) (rb : bool) (t : transport) (m : cmd) (a : A) : W A :=
  fun s =>
    let sk := hand (snd s) m (fst s) in
    let w := wcall t m in
    let '(r, sk') := wconsume on (steps t sk) (mk_wstream (ws_inner w) (ws_state w) rb) sk a in
    (r, (sk', snd s ++ [m])).

(** transport.rs 102-125: [clear]. *)
Definition on_sclear (h : option transport) (p : packet) (t : option transport) : option transport + error :=
  match p with
  | PkPong | PkEof => inl t
  | PkException e => inr (EServer e)
  | _ => inl h
  end.
Definition sclear (t : transport) : W transport :=
  if negb (t_inconsistent t) then wret (Ok t)
  else wbind (ask on_sclear false t CmdCancel None) (fun h =>
       wbind (wret (or_panic PUnwrap h)) (fun t' =>
       wret (Ok (set_inconsistent t' false)))).

(** src/lib.rs 331-366: [ping]. *)
Definition sping (t : transport) : W transport :=
  wbind (sclear t) (fun t' =>
  wbind (ask on_wping false t' CmdPing None) (fun h =>
  wret (match h with None => Err EBroken | Some t2 => Ok t2 end))).

(** src/lib.rs 381-433: [execute]. *)
Definition sexecute (q : query) (cx : context) (t : transport) : W transport :=
  wbind (sclear t) (fun t' =>
  wbind (ask on_wexecute false t' (CmdQuery q cx) None) (fun h => wret (or_panic PUnwrap h))).

(** transport.rs 303-320; src/lib.rs 494-516. *)
Definition sread_block (m : cmd) (t : transport) : W (transport * option block) :=
  wbind (ask on_wread_block true t m (None, None)) (fun a =>
  wbind (wret (or_panic PUnwrap (fst a))) (fun t' => wret (Ok (t', snd a)))).
Definition sinsert_query (q : query) (cx : context) (t : transport) : W (transport * block) :=
  wbind (sread_block (CmdQuery q cx) t) (fun x =>
  wbind (wret (or_panic PUnwrap (snd x))) (fun b => wret (Ok (fst x, b)))).
Definition sinsert_block (cx : context) (b : block) (t : transport) : W transport :=
  wbind (sread_block (CmdUnion (CmdData b cx) (CmdData block_default cx)) t) (fun x => wret (Ok (fst x))).

(** src/lib.rs 480-492, 447-478: [insert_tail_], [insert_]. *)
Fixpoint sinsert_tail (cx : context) (q : query) (chunks : list block) (t : transport) : W transport :=
  match chunks with
  | [] => wret (Ok t)
  | b :: l =>
      wbind (sinsert_query q cx t) (fun x =>
      wbind (sinsert_block cx b (fst x)) (fun t' => sinsert_tail cx q l t'))
  end.
Definition sinsert (q : query) (b : block) (cx : context) (t : transport) : W transport :=
  wbind (sclear t) (fun t' =>
  wbind (sinsert_query q cx t') (fun x =>
  wbind (wret (block_cast parse_ipv4 parse_ipv6 b (snd x))) (fun b' =>
  wbind (wret (block_chunks Client.insert_block_size b')) (fun chunks =>
  match chunks with
  | [] => wret (Panic PUnwrap)
  | b0 :: l => wbind (sinsert_block cx b0 (fst x)) (fun t2 => sinsert_tail cx q l t2)
  end)))).

(** src/types/query_result/mod.rs 28-49, 87-102: [fetch_all]; the connection is not cleared before. *)
Definition sfetch (q : query) (cx : context) (t : transport) (s : wstate) : res block * option transport * wstate :=
  let m := CmdQuery q cx in
  let sk := hand (snd s) m (fst s) in
  let '(r, h, sk') := wcollect (steps t sk) (wcall t m) sk [] in
  (do bs <- r; block_concat bs, h, (sk', snd s ++ [m])).

(** A program that uses a connection. *)
Inductive op := OPing | OExecute (q : query) | OFetch (q : query) | OInsert (q : query) (b : block).
Inductive outcome := Said (r : res unit) | Fetched (r : res block).

Definition used (x : res transport * wstate) : outcome * option transport * wstate :=
  match x with
  | (Ok t, s) => (Said (Ok tt), Some t, s)
  | (Err e, s) => (Said (Err e), None, s)
  | (Panic p, s) => (Said (Panic p), None, s)
  end.
Definition sdo (cx : context) (o : op) (t : transport) (s : wstate) : outcome * option transport * wstate :=
  match o with
  | OPing => used (sping t s)
  | OExecute q => used (sexecute q cx t s)
  | OInsert q b => used (sinsert q b cx t s)
  | OFetch q => let '(r, h, s') := sfetch q cx t s in (Fetched r, h, s')
  end.

(** It goes on as long as the handle has its connection. The result also says what the socket is
    left in. *)
Fixpoint session (cx : context) (ops : list op) (t : transport) (s : wstate) : list outcome * wstate :=
  match ops with
  | [] => ([], s)
  | o :: l =>
      let '(r, h, s') := sdo cx o t s in
      match h with
      | Some t' => let (rs, s2) := session cx l t' s' in (r :: rs, s2)
      | None => ([r], s')
      end
  end.
End Session.
