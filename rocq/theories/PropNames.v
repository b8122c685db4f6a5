(** Properties C15, continued, and C69: type names and data as a server may send them. *)
From Coq Require Import String Lia.
From Verif Require Import Base Bytes Utf8 Utf8Proofs Reader ReaderProofs Wire Types Text TypeNames Values Columns Block Compress Packets
  SpecWire SpecTypes SpecNames Utf8SliceProofs NamesProofs LoadPanicProofs.
Open Scope list_scope. Open Scope nat_scope.

(** C15, what holds: let neither the name nor any name nested in it be one of the odd ones of
    SpecNames.v. Then an empty column under that name is loaded, and nothing is read for it, or
    refused with an error; and a column of any size is never the cause of an index panic: what
    panics remain are those that the data can cause, see C69 below. Missing: the odd names. *)
Theorem c15_names_partial tz_known name tz :
  is_utf8 name -> (forall n, inside n name -> ~ odd n /\ ~ odd_key n) ->
  (forall s, (exists c, run (load_column tz_known name 0 tz) s = Ok (c, s)) \/
             (exists e, run (load_column tz_known name 0 tz) s = Err e)) /\
  (forall size s p, run (load_column tz_known name size tz) s = Panic p -> In p [PArith; PCapacity; PAssert]).
Proof.
  intros U O. set (good := fun s => is_utf8 s /\ forall n, inside n s -> ~ odd n /\ ~ odd_key n).
  assert (good name) as G by (split; assumption).
  assert (forall s p, good s -> classify s = Panic p -> False) as GP.
  { intros s p [V H] E. destruct (H s (in_self s)) as [H1 H2]. exact (H1 (classify_odd s p V H2 E)). }
  assert (forall s k i, good s -> classify s = Ok (Some k) -> In i (nested k) -> good i) as GI.
  { intros s k i [V H] E I. destruct (H s (in_self s)) as [_ H2]. destruct (classify_inner s k i V H2 E I) as (W & _ & X). split; [exact W|].
    intros n Hn. apply H, X, Hn. }
  split.
  - intros s. apply (harmless_load tz_known good GP GI); [exact G|lia].
  - intros size s p. apply (calm_load (fun p => In p [PArith; PCapacity; PAssert]) tz_known good);
      [cbn; tauto|cbn; tauto|cbn; tauto|intros s' p' H E; destruct (GP s' p' H E)|exact GI|exact G|lia].
Qed.
Print Assumptions c15_names_partial.

(** C15 is false of the code for every odd name, whatever the number of rows and the bytes that
    follow: a keyword that is not followed by two one-byte characters at least, the first and the
    last of the rest; and LowCardinality followed by something that is neither plain ASCII nor
    a pair of parentheses with plain ASCII around. *)
Theorem c15_odd_refuted tz_known name size tz s :
  is_utf8 name -> odd name -> run (load_column tz_known name size tz) s = Panic PIndex.
Proof. intros U O. unfold load_column. cbn [load_data]. rewrite (odd_panics name U O). reflexivity. Qed.
Print Assumptions c15_odd_refuted.

(** The same where the comma of a map comes after a character of two bytes: its position is
    counted in characters and used as a number of bytes. *)
Theorem c15_key_refuted tz_known size tz s :
  run (load_column tz_known (str "Map(" ++ [195; 169]%N ++ str "," ++ str "String)") size tz) s = Panic PIndex.
Proof. reflexivity. Qed.
Print Assumptions c15_key_refuted.

(** A nested name with characters of more than one byte where they do no harm, in the labels of an
    enumeration: no name in it is odd, and the column is loaded. *)
Definition enum_name : bytes := str "Enum8('" ++ [195; 169]%N ++ str "' = 1, '" ++ [226; 130; 172]%N ++ str "' = 2)".
Definition long_name : bytes := str "Array(Nullable(" ++ enum_name ++ str "))".
Lemma cut_last {A} (x y : list A) d e : x ++ [d] = y ++ [e] -> x = y.
Proof. intros E. apply app_inj_tail in E as [E _]. exact E. Qed.
Example c15_long :
  is_utf8 long_name /\ (forall n, inside n long_name -> ~ odd n /\ ~ odd_key n) /\
  (exists c, run (load_column (fun _ => true) long_name 0 []) [1%N] = Ok (c, [1%N])).
Proof.
  split; [apply utf8_valid_spec; reflexivity|]. split; [|eexists; vm_compute; reflexivity].
  assert (forall n, inside n enum_name -> n = enum_name) as E0.
  { intros n H. inversion H; [reflexivity|discriminate..]. }
  assert (forall n, inside n (str "Nullable(" ++ enum_name ++ str ")") -> n = enum_name \/ n = str "Nullable(" ++ enum_name ++ str ")") as E1.
  { intros n H. remember (str "Nullable(" ++ enum_name ++ str ")") as m eqn:E.
    destruct H as [|c x d I|c x d I|c a x b y d J1 J2 J3 I|c x a y b d J1 J2 J3 I|f a y b d J1 J2 J3 J4 I|p a x b q J1 J2 J3 J4 I];
      [right; reflexivity| |discriminate E..].
    assert (str "Nullable" ++ c :: x ++ [d] = str "Nullable" ++ 40%N :: enum_name ++ [41%N]) as E' by exact E.
    apply app_inv_head in E'. clear E. injection E' as _ E. apply (cut_last x enum_name d 41%N) in E. subst x. left. apply E0, I. }
  assert (forall n, inside n long_name -> In n [enum_name; str "Nullable(" ++ enum_name ++ str ")"; long_name]) as E2.
  { intros n H. remember long_name as m eqn:E.
    destruct H as [|c x d I|c x d I|c a x b y d J1 J2 J3 I|c x a y b d J1 J2 J3 I|f a y b d J1 J2 J3 J4 I|p a x b q J1 J2 J3 J4 I];
      [cbn; tauto|discriminate E| |discriminate E..].
    assert (str "Array" ++ c :: x ++ [d] = str "Array" ++ 40%N :: (str "Nullable(" ++ enum_name ++ str ")") ++ [41%N]) as E' by exact E.
    apply app_inv_head in E'. clear E. injection E' as _ E. apply (cut_last x (str "Nullable(" ++ enum_name ++ str ")") d 41%N) in E. subst x.
    destruct (E1 n I) as [-> | ->]; cbn; tauto. }
  intros n H. apply E2 in H. split.
  - intros O. pose proof (odd_panics n) as P. assert (is_utf8 n) as U.
    { destruct H as [<-|[<-|[<-|[]]]]; apply utf8_valid_spec; reflexivity. }
    specialize (P U O). destruct H as [<-|[<-|[<-|[]]]]; discriminate P.
  - intros (c & x & y & d & E & _). destruct H as [<-|[<-|[<-|[]]]]; discriminate E.
Qed.

Example c15_odd_case :
  odd (str "Nullable") /\ odd (str "Array" ++ [195; 169]%N ++ str "x)") /\ odd (str "FixedString(3" ++ [194; 178]%N) /\
  odd (str "LowCardinality " ++ [195; 169]%N ++ str "(String)").
Proof.
  split; [|split; [|split]].
  - apply (odd_keyword (str "Nullable") []); [cbn; tauto|]. intros (c & y & d & E & _). destruct y; discriminate E.
  - apply (odd_keyword (str "Array")); [cbn; tauto|]. intros (c & y & d & E & L & _). injection E as <- _. discriminate L.
  - apply (odd_keyword (str "FixedString") (40 :: 51 :: [194; 178])%N); [cbn; tauto|]. intros (c & y & d & E & _ & L).
    apply (f_equal (@rev _)) in E. cbn in E. rewrite rev_app_distr in E. injection E as <- _. discriminate L.
  - apply (odd_low (str " " ++ [195; 169]%N ++ str "(String)")).
    + intros A. inversion_clear A as [|? ? _ B]. inversion_clear B as [|? ? C _]. discriminate C.
    + intros (a & y & b & E & P & Q & A & B). destruct a as [|c a]; [discriminate E|]. injection E as <- E. destruct a as [|c a]; [discriminate E|].
      injection E as <- _. inversion_clear A as [|? ? _ A']. inversion_clear A' as [|? ? C _]. discriminate C.
Qed.

(** ** C69: bytes from the server *)
(** C69 is false of the code. A message with one block of one row makes the client panic if it has
    a column Array(UInt8) that claims 2^64 - 1 items; a column String whose first string claims
    2^63 bytes; a number written with eleven bytes or more; a column LowCardinality(UInt8)
    with an unknown bit among its flags; a column FixedString(0); a second column of the
    other number of rows, which a LowCardinality column states itself; or a column of an odd
    name. *)
Definition one_row (ncols : N) (cols : bytes) : bytes := [1; 0; 0; ncols; 1]%N ++ cols.
Definition text (s : bytes) : bytes := N.of_nat (length s) :: s.
Definition u64 (n : N) : bytes := map (fun i => N.land (N.shiftr n (8 * N.of_nat i)) 255) (seq 0 8).
Definition plain_info : tinfo := mk_tinfo (Some (str "UTC")) 54465 false.
Theorem c69_panics_refuted lz4 tz_known :
  Forall (fun x => run (parse_packet lz4 tz_known plain_info) (snd x) = Panic (fst x))
    [(PCapacity, one_row 1 (text (str "a") ++ text (str "Array(UInt8)") ++ repeat 255%N 8));
     (PCapacity, one_row 1 (text (str "a") ++ text (str "String") ++ repeat 128%N 9 ++ [1%N]));
     (PArith, repeat 128%N 11);
     (PAssert, one_row 1 (text (str "a") ++ text (str "LowCardinality(UInt8)") ++ u64 1 ++ u64 (2 ^ 40 + 1536) ++ u64 0 ++ u64 0));
     (PArith, one_row 1 (text (str "a") ++ text (str "FixedString(0)")));
     (PExplicit, one_row 2 (text (str "a") ++ text (str "UInt8") ++ [5%N] ++
                            text (str "b") ++ text (str "LowCardinality(UInt8)") ++ u64 1 ++ u64 1536 ++ u64 0 ++ u64 0));
     (PIndex, one_row 1 (text (str "a") ++ text (str "Array")))].
Proof. repeat (apply Forall_cons; [vm_compute; reflexivity|]). constructor. Qed.
Print Assumptions c69_panics_refuted.

(** C69, what holds: reading a message, of fewer than 2^64 bytes and not compressed, always comes
    to an end, and if it ends in a panic it is one of the five kinds above, and only of two of them,
    a number of eleven bytes or more and a text of 2^63 bytes or more, if the message is not
    a block. Missing: the inputs that do panic; compressed blocks, for which see C11. *)
Theorem c69_kinds_partial lz4 tz_known i s p :
  ti_compress i = false -> (lenN s < 2 ^ 64)%N -> run (parse_packet lz4 tz_known i) s = Panic p ->
  In p [PArith; PCapacity] \/
  In p [PIndex; PCapacity; PArith; PAssert; PExplicit] /\
  exists k r, run read_uvarint s = Ok (k, r) /\ In k [1; 7; 8]%N.
Proof.
  intros C L H. destruct (packet_panics lz4 tz_known i s p C L H) as [[-> | ->]|[M K]]; [left; cbn; tauto|left; cbn; tauto|right].
  split; [exact M|exact K].
Qed.
Print Assumptions c69_kinds_partial.

(** C69 for columns whose cells have one size: whatever the bytes are, loading as many cells as
    fit in 2^63 - 1 bytes does not panic, and the column that is loaded has that many cells.
    Missing: the other types, for which the claim is false. *)
Theorem c69_sized_partial tz_known t w size tz s :
  nameable tz_known t -> cell_size t = Some w -> (size * w < 2 ^ 63)%N ->
  match run (load_column tz_known (type_name t) size tz) s with
  | Ok (c, _) => clen c = Ok (N.to_nat size)
  | Err _ => True
  | Panic _ => False
  end.
Proof.
  intros N W B. destruct (load_sized tz_known tz t (S (length (type_name t))) size w N) as [C R].
  - unfold LoadTypeProofs.enough. lia.
  - exact W.
  - unfold isize_max. lia.
  - unfold load_column. destruct (run (load_data _ _ _ _ _) s) as [[c r]|e|p] eqn:E; [exact (R s c r E)|exact I|exact (C s p E)].
Qed.
Print Assumptions c69_sized_partial.

(** Ten million cells of such a type, of which the bytes say nothing good, and three of which they
    say enough. *)
Example c69_sized_case :
  let t := TNullable (TDecimal 18 4) in
  nameable (fun _ => true) t /\ cell_size t = Some 8%N /\
  run (load_column (fun _ => true) (type_name t) 10000000 []) (repeat 255%N 100) = Err EWouldBlock /\
  exists c, run (load_column (fun _ => true) (type_name t) 3 []) (repeat 255%N 30) = Ok (c, repeat 255%N 3) /\ clen c = Ok 3.
Proof.
  split; [cbn; repeat split; lia|]. split; [reflexivity|]. split; [vm_compute; reflexivity|].
  eexists. split; vm_compute; reflexivity.
Qed.
