(** C72, exactly: which strings and which times print alike. *)
From Coq Require Import String Lia.
From Verif Require Import Base Bytes Utf8 Types Text Decimal DateTime Values Columns Block Print SpecNum SpecPrint SpecWire.
From Verif Require Import TextProofs Utf8Proofs DecimalProofs PropTime PrintProofs ClearProofs.
Open Scope list_scope. Open Scope Z_scope.

(** The list of some numbers, written as digits without superfluous zeros, between brackets. *)
Definition written (n : N) (t : bytes) : Prop :=
  exists ds, t = map (fun d => (48 + d)%N) ds /\ digits_ok ds /\ dec_value ds = Z.of_N n /\ ds <> [] /\ (hd 1%N ds = 0%N -> ds = [0%N]).
Fixpoint in_list (first : bool) (l : list N) (s : bytes) : Prop :=
  match l with
  | [] => s = str "]"
  | n :: l => exists t s', written n t /\ in_list false l s' /\ s = (if first then [] else str ", ") ++ t ++ s'
  end.

Lemma written_print n : written n (print_N n).
Proof.
  destruct (digits_of_spec n) as (A & B & C & D & E). exists (digits_of n). rewrite print_N_map. repeat split; auto.
  intros H. destruct (N.eq_dec n 0) as [Z|Z]; [rewrite D by lia; rewrite Z; reflexivity|]. exfalso. apply E; [lia|]. destruct (digits_of n); [congruence|exact H].
Qed.
Definition tail_text (l : list N) : bytes := flat_map (fun n => str ", " ++ print_N n) l ++ str "]".
Lemma debug_text l : bytes_debug l = str "[" ++ match l with [] => str "]" | n :: l => print_N n ++ tail_text l end.
Proof.
  unfold bytes_debug, tail_text. f_equal. destruct l as [|n l]; [reflexivity|]. revert n. induction l as [|m l IH]; intros n; [reflexivity|].
  change (concat_sep (str ", ") (map print_N (n :: m :: l))) with (print_N n ++ str ", " ++ concat_sep (str ", ") (map print_N (m :: l))).
  cbn [flat_map]. rewrite <- !app_assoc. do 2 f_equal. exact (IH m).
Qed.
Lemma tail_stops l : stops (tail_text l).
Proof. destruct l; reflexivity. Qed.
Lemma tail_inj l : forall m, tail_text l = tail_text m -> l = m.
Proof.
  induction l as [|n l IH]; intros [|k m] E; [reflexivity|discriminate|discriminate|].
  unfold tail_text in E. cbn [flat_map] in E. rewrite <- !app_assoc in E. fold (tail_text l) (tail_text m) in E.
  apply app_inv_head in E. apply print_N_stop in E as [-> E]; auto using tail_stops. f_equal. apply IH, E.
Qed.
Lemma debug_inj a b : bytes_debug a = bytes_debug b -> a = b.
Proof.
  rewrite !debug_text. intros E. apply app_inv_head in E. destruct a as [|n a], b as [|m b]; [reflexivity| | |].
  - destruct (print_N_head m) as (c & x & Eq & D). rewrite Eq in E. injection E as <- _. discriminate D.
  - destruct (print_N_head n) as (c & x & Eq & D). rewrite Eq in E. injection E as -> _. discriminate D.
  - apply print_N_stop in E as [-> E]; auto using tail_stops. f_equal. apply tail_inj, E.
Qed.
Lemma debug_list l : exists s, bytes_debug l = str "[" ++ s /\ in_list true l s.
Proof.
  rewrite debug_text. eexists. split; [reflexivity|]. destruct l as [|n l]; [reflexivity|].
  exists (print_N n), (tail_text l). split; [apply written_print|]. split; [|reflexivity].
  induction l as [|m l IH]; [reflexivity|]. exists (print_N m), (tail_text l). split; [apply written_print|]. split; [exact IH|].
  unfold tail_text. cbn [flat_map]. rewrite <- !app_assoc. reflexivity.
Qed.

Section Texts.
Variable float_text : nat -> Z -> bytes.
Variable ipv6_text : bytes -> bytes.
Variable offset : bytes -> Z -> Z.
Variable rfc2822 : Z -> N -> bytes -> res bytes.
Notation show := (show_ref float_text ipv6_text offset rfc2822).

Lemma utf8_text b : is_utf8 b -> show false (VString b) = Ok b.
Proof. intros H. cbn [show_ref]. unfold string_text. rewrite (utf8_of_is b H). reflexivity. Qed.

(** C72, strings: a string that is UTF-8 prints as it is. Two strings print the same only if they are the same, or if one is UTF-8, the
    other is not, and the first is the list of the other's bytes. *)
Theorem c72_strings_exact a b : show false (VString a) = show false (VString b) ->
  a = b \/
  (is_utf8 a /\ ~ is_utf8 b /\ exists s, a = str "[" ++ s /\ in_list true b s) \/
  (is_utf8 b /\ ~ is_utf8 a /\ exists s, b = str "[" ++ s /\ in_list true a s).
Proof.
  intros E. cbn [show_ref] in E. unfold string_text in E.
  assert (V : forall x, utf8_valid x = true -> is_utf8 x) by (intros x; exact (utf8_valid_is _ x (le_n _))).
  assert (W : forall x, utf8_valid x = false -> ~ is_utf8 x) by (intros x H I; rewrite (utf8_of_is x I) in H; discriminate).
  destruct (utf8_valid a) eqn:A, (utf8_valid b) eqn:B; injection E as E.
  - left. exact E.
  - right. left. split; [apply V, A|]. split; [apply W, B|]. rewrite E. apply debug_list.
  - right. right. split; [apply V, B|]. split; [apply W, A|]. rewrite <- E. apply debug_list.
  - left. apply debug_inj. unfold bytes_debug. rewrite E. reflexivity.
Qed.

(** C72, times: two cells of a column of times print the same just if the clocks of its zone show the same. *)
Theorem c72_times_exact tz s t : (s < 2 ^ 32)%N -> (t < 2 ^ 32)%N -> (forall x, -86400 < offset tz x < 86400) ->
  show false (VDateTime s tz) = show false (VDateTime t tz) <->
  Z.of_N s + offset tz (Z.of_N s) = Z.of_N t + offset tz (Z.of_N t).
Proof.
  intros S T O. cbn [show_ref]. change (2 ^ 32)%N with 4294967296%N in *. pose proof (O (Z.of_N s)). pose proof (O (Z.of_N t)). split.
  - intros E. injection E as E. apply (f_equal (fun x => x ++ [])) in E. apply local_inj in E as [E _]; [exact E|lia|lia].
  - intros ->. reflexivity.
Qed.

(** C72, times with fractions: just if the clocks show the same second. *)
Theorem c72_fractions_exact tz p v w : (p <= 9)%N -> is_i64 (v * tick_nanos p) -> is_i64 (w * tick_nanos p) ->
  (0 <= v \/ (v * tick_nanos p) mod 1000000000 = 0) -> (0 <= w \/ (w * tick_nanos p) mod 1000000000 = 0) ->
  (forall x, -86400 < offset tz x < 86400) ->
  let second x := x * tick_nanos p / 1000000000 in
  show false (VDateTime64 v p tz) = show false (VDateTime64 w p tz) <->
  second v + offset tz (second v) = second w + offset tz (second w).
Proof.
  intros P Iv Iw Wv Ww O second.
  destruct (c42_datetime64_partial v p P Iv Wv) as (sv & nv & Ev & (Tv & Nv) & _).
  destruct (c42_datetime64_partial w p P Iw Ww) as (sw & nw & Ew & (Tw & Nw) & _).
  assert (Q : forall x s n, x = s * 1000000000 + Z.of_N n -> (n < 1000000000)%N -> x / 1000000000 = s).
  { intros x s n -> H. rewrite Z.add_comm, Z.div_add, Z.div_small by lia. lia. }
  assert (Hv : second v = sv) by (unfold second; apply (Q _ _ nv); lia). assert (Hw : second w = sw) by (unfold second; apply (Q _ _ nw); lia).
  rewrite Hv, Hw. cbn [show_ref]. rewrite Ev, Ew. cbn [rbind fst]. unfold is_i64 in *. pose proof (O sv). pose proof (O sw). split.
  - intros E. injection E as E. apply (f_equal (fun x => x ++ [])) in E. apply local_inj in E as [E _]; [exact E| |]; rewrite Tv, Tw in *; lia.
  - intros E. rewrite E. reflexivity.
Qed.
End Texts.
Print Assumptions c72_strings_exact.
Print Assumptions c72_times_exact.
Print Assumptions c72_fractions_exact.

Example c72_texts_case :
  let show := show_ref (fun _ _ => []) (fun _ => []) (fun _ _ => 3600) (fun _ _ _ => Ok []) in
  show false (VString (str "x")) = Ok (str "x") /\
  show false (VString [255; 0]%N) = Ok (str "[255, 0]") /\ in_list true [255; 0]%N (str "255, 0]") /\
  show false (VDateTime64 1500 3 []) = Ok (str "1970-01-01 01:00:01") /\ 1500 * tick_nanos 3 / 1000000000 = 1.
Proof.
  cbv zeta. split; [reflexivity|]. split; [reflexivity|]. split; [|split; vm_compute; reflexivity].
  exists (str "255"), (str ", 0]"). split; [|split; [|reflexivity]].
  - exists [2; 5; 5]%N. repeat split; try reflexivity; try discriminate. repeat constructor.
  - exists (str "0"), (str "]"). split; [|split; reflexivity]. exists [0]%N. repeat split; try reflexivity; try discriminate. repeat constructor.
Qed.
