(** Properties C109 and C110. *)
From Coq Require Import String.
From Verif Require Options.
From Verif Require Import Base Bytes Utf8 Types Text TypeNames SpecNum SpecOptions Values Print SpecCanonical TextProofs WireProofs OptionsProofs LoadTypeProofs.
Open Scope list_scope. Open Scope N_scope.

Lemma nibble_digit n : n < 16 -> nibble (Print.hex_digit n) = Some n.
Proof.
  intros H. unfold nibble, Print.hex_digit. destruct (N.ltb_spec n 10).
  - replace ((48 <=? 48 + n) && (48 + n <=? 57)) with true by lia. f_equal. lia.
  - replace ((48 <=? 87 + n) && (87 + n <=? 57)) with false by lia. replace ((97 <=? 87 + n) && (87 + n <=? 102)) with true by lia. f_equal. lia.
Qed.

Lemma hex_number_hex b : Forall (fun x => x < 256) b -> forall acc s,
  hex_number acc (Print.hex b ++ s) = hex_number (fold_left (fun a x => 256 * a + x) b acc) s.
Proof.
  intros F. induction F as [|x b X F IH]; intros acc s; [reflexivity|]. unfold Print.hex. cbn [flat_map app hex_number fold_left]. fold (Print.hex b).
  rewrite !nibble_digit; [|apply N.mod_lt; lia|apply N.div_lt_upper_bound; lia]. rewrite IH. f_equal. f_equal.
  pose proof (N.div_mod x 16 ltac:(lia)). lia.
Qed.

Lemma plain_print n : plain_number (print_N n) n.
Proof.
  destruct (digits_of_spec n) as (A & B & C & D & E). exists (digits_of n). split; [apply print_N_map|]. split; [exact A|]. split.
  - assert (G : forall ds acc, fold_left (fun a d => 10 * a + d) ds acc = Z.to_N (fold_left (fun (a : Z) d => (10 * a + Z.of_N d)%Z) ds (Z.of_N acc))).
    { induction ds as [|d ds IH]; intros acc; cbn [fold_left]; [rewrite N2Z.id; reflexivity|]. rewrite IH. do 2 f_equal. lia. }
    rewrite G. unfold dec_value in B. change (Z.of_N 0) with 0%Z. rewrite B. apply N2Z.id.
  - destruct (N.eq_dec n 0) as [->|Z]; [left; apply D; reflexivity|]. right. specialize (E ltac:(lia)).
    destruct (digits_of n) as [|d r]; [congruence|]. exists d, r. auto.
Qed.

Section Canonical.
Variable float_text : nat -> Z -> bytes.
Variable ipv6_text : bytes -> bytes.
Variable offset : bytes -> Z -> Z.
Variable rfc2822 time_text : Z -> N -> bytes -> res bytes.

(** C109. A UUID is printed, as a cell and as a value, as RFC 4122 writes the number whose upper and lower half are the two numbers of eight bytes that
    go over the wire. *)
Theorem c109_uuid b alt : List.length b = 16%nat -> Forall (fun x => x < 256) b -> exists t,
  show_ref float_text ipv6_text offset rfc2822 alt (VUuid b) = Ok t /\ show_value float_text ipv6_text rfc2822 time_text alt (VUuid b) = Ok t /\
  uuid_form t (le_number (firstn 8 b) * 2 ^ 64 + le_number (skipn 8 b)).
Proof.
  intros L F. exists (uuid_text b). split; [reflexivity|]. split; [reflexivity|]. unfold uuid_text.
  assert (D : exists x0 x1 x2 x3 x4 x5 x6 x7 y0 y1 y2 y3 y4 y5 y6 y7, b = [x0; x1; x2; x3; x4; x5; x6; x7; y0; y1; y2; y3; y4; y5; y6; y7]).
  { do 17 (destruct b as [|? b]; try discriminate L). repeat eexists. }
  destruct D as (x0 & x1 & x2 & x3 & x4 & x5 & x6 & x7 & y0 & y1 & y2 & y3 & y4 & y5 & y6 & y7 & ->).
  cbn [firstn skipn rev app]. eexists _, _, _, _, _. split; [cbn [concat_sep]; reflexivity|]. split; [reflexivity|].
  repeat match goal with H : Forall _ (_ :: _) |- _ => inversion H; clear H; subst end.
  rewrite !hex_number_hex by (repeat constructor; assumption). rewrite <- (app_nil_r (Print.hex _)). rewrite hex_number_hex by (repeat constructor; assumption).
  cbn [fold_left hex_number]. f_equal. unfold le_number. cbn [fold_right]. change (2 ^ 64) with 18446744073709551616. lia.
Qed.

(** C109. An IPv4 address is printed as the four numbers from the most significant byte of the number that goes over the wire. *)
Theorem c109_ipv4 b alt : List.length b = 4%nat -> Forall (fun x => x < 256) b -> exists t,
  show_ref float_text ipv6_text offset rfc2822 alt (VIpv4 b) = Ok t /\ show_value float_text ipv6_text rfc2822 time_text alt (VIpv4 b) = Ok t /\
  dotted t (le_number b).
Proof.
  intros L F. exists (ipv4_text b). split; [reflexivity|]. split; [reflexivity|]. unfold ipv4_text.
  destruct b as [|d [|c [|x [|a [|? b]]]]]; try discriminate L. cbn [rev app map concat_sep].
  repeat match goal with H : Forall _ (_ :: _) |- _ => inversion H; clear H; subst end.
  exists a, x, c, d, (print_N a), (print_N x), (print_N c), (print_N d). split; [reflexivity|].
  repeat split; try apply plain_print; try assumption. unfold le_number. cbn [fold_right]. change (2 ^ 24) with 16777216. change (2 ^ 16) with 65536.
  change (2 ^ 8) with 256. lia.
Qed.
End Canonical.

(** * Names of types *)

Lemma match_in l s k : match_str l s = Some k -> In k (map snd l).
Proof.
  induction l as [|[n k'] l IH]; cbn [match_str map snd]; [discriminate|]. destruct (eq_ignore_case s n); intros H; [left; congruence|right; auto].
Qed.

(** C110. The size of a FixedString: a name is one exactly if a decimal number below 2^64, with or without a plus sign, is between one character
    after [FixedString] and the last one. *)
Theorem c110_fixed s n : classify s = Ok (Some (KFixed n)) <->
  exists c t d, s = str "FixedString" ++ [c] ++ t ++ [d] /\ (d < 128 \/ 192 <= d) /\ says_number t n.
Proof.
  split.
  - intros H. unfold classify in H. destruct (match_str simple_names s) as [k|] eqn:M.
    { injection H as ->. apply match_in in M. cbn in M. repeat destruct M as [M|M]; try discriminate M. destruct M. }
    clear M. destruct (parse_nullable s) as [[i|]|e|p]; cbn [rbind] in H; try discriminate H.
    assert (P : parse_fixed_string s = Ok (Some n)).
    { destruct (parse_fixed_string s) as [[i|]|e|p]; cbn [rbind] in H; try discriminate H; [congruence|]. exfalso.
      repeat match type of H with
      | rbind ?x _ = _ => destruct x; cbn [rbind] in H; try discriminate H
      | match ?x with _ => _ end = _ => destruct x; try discriminate H
      end. }
    clear H. unfold parse_fixed_string in P. destruct (starts_with (str "FixedString") s) eqn:S; [|discriminate P].
    apply starts_with_app in S as (r & ->). unfold str_slice in P.
    destruct (_ && _ && _ && _) eqn:B in P; [|discriminate P]. cbn [rbind] in P. injection P as P.
    apply andb_prop in B as [B B4]. apply andb_prop in B as [B B3]. apply andb_prop in B as [B1 B2].
    apply Nat.leb_le in B1, B2. rewrite app_length in *. cbn [List.length] in *.
    change (List.length (str "FixedString")) with 11%nat in *.
    destruct r as [|c r]; [cbn in B1; lia|]. destruct r as [|x r] using rev_ind; [cbn in B1; lia|]. clear IHr.
    exists c, r, x. split; [reflexivity|].
    replace (11 + List.length (c :: r ++ [x]) - 1)%nat with (12 + List.length r)%nat in * by (cbn [List.length]; rewrite app_length; cbn; lia). split.
    + unfold char_boundary in B4. rewrite app_length in B4. cbn [List.length] in B4. rewrite app_length in B4. cbn [List.length] in B4.
      change (List.length (str "FixedString")) with 11%nat in B4.
      rewrite app_nth2 in B4 by (change (List.length (str "FixedString")) with 11%nat; lia). change (List.length (str "FixedString")) with 11%nat in B4.
      replace (12 + List.length r - 11)%nat with (S (List.length r)) in B4 by lia. cbn [nth] in B4. rewrite app_nth2, Nat.sub_diag in B4 by lia. cbn [nth] in B4.
      unfold is_cont in B4. lia.
    + apply parse_usize_iff. rewrite <- P. unfold Options.parse_usize, usize_max. f_equal. symmetry.
      transitivity (firstn (List.length r) (r ++ [x])); [f_equal; cbn [List.length]; rewrite app_length; cbn [List.length]; lia|].
      rewrite firstn_app, Nat.sub_diag, firstn_all, firstn_O, app_nil_r. reflexivity.
  - intros (c & t & d & -> & D & T). unfold classify.
    replace (match_str simple_names _) with (@None kind) by reflexivity. replace (parse_nullable _) with (@Ok (option bytes) None) by reflexivity. cbn [rbind].
    assert (P : parse_fixed_string (str "FixedString" ++ [c] ++ t ++ [d]) = Ok (Some n)); [|rewrite P; reflexivity].
    unfold parse_fixed_string. replace (starts_with (str "FixedString") (str "FixedString" ++ [c] ++ t ++ [d])) with true by reflexivity.
    replace (List.length (str "FixedString" ++ [c] ++ t ++ [d]) - 1)%nat with (12 + List.length t)%nat
      by (rewrite !app_length; change (List.length (str "FixedString")) with 11%nat; cbn [List.length]; lia).
    assert (S : str_slice (str "FixedString" ++ [c] ++ t ++ [d]) 12 (12 + List.length t) = Ok t).
    { assert (H : exists a t', t = a :: t' /\ is_cont a = false).
      { destruct T as [(ds & -> & NE & OK & _)|(u & -> & _)]; [|eexists _, _; split; reflexivity].
        destruct ds as [|x ds]; [congruence|]. inversion OK; subst. eexists _, _. split; [reflexivity|]. unfold is_cont. lia. }
      destruct H as (a & t' & -> & NC). unfold str_slice.
      assert (B1 : char_boundary (str "FixedString" ++ [c] ++ (a :: t') ++ [d]) 12 = true).
      { unfold char_boundary. replace (nth 12 _ 0) with a by reflexivity. rewrite NC. rewrite !app_length. cbn [List.length].
        change (List.length (str "FixedString")) with 11%nat. destruct (Nat.ltb_spec 12 (11 + (1 + (S (List.length t') + 1)))); [|lia]. cbn [negb andb]. rewrite ?Bool.orb_true_r. reflexivity. }
      assert (B2 : char_boundary (str "FixedString" ++ [c] ++ (a :: t') ++ [d]) (12 + List.length (a :: t')) = true).
      { unfold char_boundary. replace (str "FixedString" ++ [c] ++ (a :: t') ++ [d]) with ((str "FixedString" ++ [c] ++ (a :: t')) ++ [d]) by (rewrite <- !app_assoc; reflexivity).
        assert (L : List.length (str "FixedString" ++ [c] ++ (a :: t')) = (12 + List.length (a :: t'))%nat) by reflexivity.
        rewrite app_nth2 by (rewrite L; lia). rewrite L, Nat.sub_diag, app_length, L. cbn [nth].
        assert (is_cont d = false) as -> by (unfold is_cont; lia). cbn [List.length].
        destruct (Nat.ltb_spec (12 + S (List.length t')) (12 + S (List.length t') + 1)); [|lia]. cbn [negb andb]. rewrite ?Bool.orb_true_r. reflexivity. }
      rewrite B1, B2.
      assert (L : List.length (str "FixedString" ++ [c] ++ (a :: t') ++ [d]) = (13 + List.length (a :: t'))%nat)
        by (rewrite !app_length; change (List.length (str "FixedString")) with 11%nat; cbn [List.length]; lia).
      rewrite L. replace (12 <=? 12 + List.length (a :: t'))%nat with true by (symmetry; apply Nat.leb_le; lia).
      replace (12 + List.length (a :: t') <=? 13 + List.length (a :: t'))%nat with true by (symmetry; apply Nat.leb_le; lia). cbn [andb].
      replace (12 + List.length (a :: t') - 12)%nat with (List.length (a :: t')) by lia.
      change (skipn 12 (str "FixedString" ++ [c] ++ (a :: t') ++ [d])) with ((a :: t') ++ [d]).
      rewrite firstn_app, Nat.sub_diag, firstn_all, firstn_O, app_nil_r. reflexivity. }
    rewrite S. cbn [rbind]. f_equal. apply parse_usize_iff in T. exact T.
Qed.

Definition named (s : bytes) (nb : option nobits) : Prop :=
  match nb with
  | Some N32 => exists r, s = str "Decimal32(" ++ r
  | Some N64 => exists r, s = str "Decimal64(" ++ r
  | None => True
  end.
Lemma scan_named s : forall rest idx nb po pc nb' po' pc', s = firstn idx s ++ rest -> (idx + List.length rest = List.length s)%nat -> named s nb ->
  decimal_scan s idx rest nb po pc = Some (nb', po', pc') -> named s nb'.
Proof.
  induction rest as [|b rest IH]; intros idx nb po pc nb' po' pc' E L Q H; cbn [decimal_scan] in H; [injection H as <- <- <-; exact Q|].
  assert (FL : List.length (firstn idx s) = idx) by (rewrite firstn_length; cbn [List.length] in L; lia).
  assert (E' : s = firstn (S idx) s ++ rest).
  { transitivity (firstn idx s ++ b :: rest); [exact E|].
    assert (X : firstn (S idx) s = firstn idx s ++ [b]).
    { rewrite E at 1. rewrite firstn_app, FL. replace (S idx - idx)%nat with 1%nat by lia. rewrite (firstn_all2 (firstn idx s)) by lia. reflexivity. }
    rewrite X, <- app_assoc. reflexivity. }
  assert (L' : (S idx + List.length rest = List.length s)%nat) by (cbn [List.length] in L; lia).
  destruct (N.eqb_spec b 40) as [->|B]; [|exact (IH _ _ _ _ _ _ _ E' L' Q H)]. unfold bytes_eqb in H.
  destruct (bytes_eq_dec (firstn idx s) (str "Decimal")) as [P|_]; [exact (IH _ _ _ _ _ _ _ E' L' Q H)|].
  destruct (bytes_eq_dec (firstn idx s) (str "Decimal32")) as [P|_].
  { refine (IH _ _ _ _ _ _ _ E' L' _ H). rewrite P in E. exists rest. rewrite E at 1. reflexivity. }
  destruct (bytes_eq_dec (firstn idx s) (str "Decimal64")) as [P|_]; [|discriminate H].
  refine (IH _ _ _ _ _ _ _ E' L' _ H). rewrite P in E. exists rest. rewrite E at 1. reflexivity.
Qed.

Lemma parse_uint_max max s n : parse_uint max s = Some n -> n <= max.
Proof.
  unfold parse_uint. cbv zeta. match goal with |- context [match ?d with [] => _ | _ => _ end] => set (ds := d) end.
  destruct ds; [discriminate|]. destruct (digits_value _ _) as [v|]; [|discriminate]. destruct (N.leb_spec v max); intros E; [injection E as <-; assumption|discriminate].
Qed.

Lemma pairs_range fuel s es r : ppairs fuel s = Some (es, r) -> Forall (fun e => (-32768 <= snd e <= 32767)%Z) es.
Proof.
  revert s es r. induction fuel as [|fuel IH]; intros s es r H; cbn [ppairs] in H; [discriminate|].
  destruct (ppair s) as [[e u]|] eqn:P; [|discriminate].
  assert (R : (-32768 <= snd e <= 32767)%Z).
  { unfold ppair in P. destruct (pword _) as [[w x]|]; [|discriminate]. destruct (ptoken 61 _); [|discriminate].
    destruct (pinteger _) as [[z y]|] eqn:I in P; [|discriminate]. injection P as <- _. cbn [snd]. unfold pinteger in I.
    destruct (match ptoken 45 _ with Some _ => _ | None => _ end) as [neg v] in I. destruct (pdigits v) as [d q]. destruct d; [discriminate|].
    destruct (digits_value _ _); [|discriminate]. cbv zeta in I.
    match type of I with (if ?b then _ else _) = _ => destruct b eqn:B; [|discriminate] end. injection I as <- _. lia. }
  destruct (ptoken 44 u) as [v|]; [|injection H as <- _; constructor; [exact R|constructor]].
  destruct (ppairs fuel v) as [[es' w]|] eqn:Q; [|discriminate]. injection H as <- _. constructor; [exact R|exact (IH _ _ _ Q)].
Qed.

Lemma enum_range kw s es : parse_enum kw s = Some es -> Forall (fun e => (-32768 <= snd e <= 32767)%Z) es.
Proof.
  unfold parse_enum. destruct (strip_prefix _ _); [|discriminate]. destruct (ptoken 40 _); [|discriminate].
  match goal with |- context [ppairs ?f ?x] => destruct (ppairs f x) as [[l r]|] eqn:E end; [|discriminate].
  destruct (ptoken 41 r) as [[|? ?]|]; try discriminate. intros H. injection H as <-. exact (pairs_range _ _ _ _ E).
Qed.

(** C110, in part: what is read from a name in other types. Missing: that scales of Decimal32 and Decimal64 are within their digits, that numbers of an Enum8 are read as they are
    and that DateTime64 has at most nine digits; all refuted below. *)
Theorem c110_ranges_partial s k : classify s = Ok (Some k) ->
  match k with
  | KDecimal p sc nb =>
      sc <= p /\ p <= 18 /\ (nb = N32 <-> p <= 9) \/
      sc <= 255 /\ (p = 9 /\ nb = N32 /\ (exists r, s = str "Decimal32(" ++ r) \/ p = 18 /\ nb = N64 /\ exists r, s = str "Decimal64(" ++ r)
  | KEnum8 es => Forall (fun e => (-128 <= snd e <= 127)%Z) es
  | KEnum16 es => Forall (fun e => (-32768 <= snd e <= 32767)%Z) es
  | KDateTime64 p _ => p < 2 ^ 32
  | _ => True
  end.
Proof.
  intros H. unfold classify in H. destruct (match_str simple_names s) as [k'|] eqn:M.
  { injection H as ->. apply match_in in M. cbn in M. repeat destruct M as [<-|M]; try exact I. destruct M. }
  clear M. destruct (parse_nullable s) as [[i|]|e|p]; cbn [rbind] in H; try discriminate H; [injection H as <-; exact I|].
  destruct (parse_fixed_string s) as [[i|]|e|p]; cbn [rbind] in H; try discriminate H; [injection H as <-; exact I|].
  destruct (parse_array s) as [[i|]|e|p]; cbn [rbind] in H; try discriminate H; [injection H as <-; exact I|].
  destruct (parse_map s) as [[[i j]|]|e|p]; cbn [rbind] in H; try discriminate H; [injection H as <-; exact I|].
  destruct (parse_decimal s) as [[[[p sc] nb]|]|e|q] eqn:D; cbn [rbind] in H; try discriminate H.
  { injection H as <-. unfold parse_decimal in D. destruct (_ <? _)%nat in D; [discriminate D|]. destruct (negb _) in D; [discriminate D|].
    destruct (decimal_scan s 0 s None None None) as [[[b [po|]] [pc|]]|] eqn:S; try discriminate D.
    pose proof (scan_named s s 0 None None None _ _ _ eq_refl eq_refl I S) as N.
    destruct (str_slice _ _ _) as [body|e|q]; cbn [rbind] in D; [|discriminate D|discriminate D].
    destruct b as [b|].
    - right. destruct (parse_uint u8_max body) as [x|] eqn:U; [|discriminate D]. apply parse_uint_max in U. injection D as <- <- <-.
      split; [exact U|]. destruct b; [left|right]; auto.
    - left. destruct (map trim (split_on 44 body)) as [|x [|y [|z l]]]; try discriminate D.
      destruct (parse_uint u8_max x) as [u|]; [|discriminate D]. destruct (parse_uint u8_max y) as [v|]; [|discriminate D].
      destruct (N.ltb_spec u v); [discriminate D|]. unfold from_precision in D.
      destruct (N.leb_spec u 9); [injection D as <- <- <-; repeat split; lia || auto|].
      destruct (N.leb_spec u 18); [injection D as <- <- <-; repeat split; try lia; discriminate|discriminate D]. }
  clear D. unfold parse_enum8, parse_enum16 in H. destruct (parse_enum (str "Enum8") s) as [es|] eqn:E8.
  { injection H as <-. apply Forall_forall. intros e I. apply in_map_iff in I as (e' & <- & _). cbn [snd]. pose proof (to_signed_range 1 (to_unsigned 1 (snd e')) ltac:(lia)) as R. unfold as_i8. change (2 ^ (8 * Z.of_nat 1 - 1))%Z with 128%Z in R. lia. }
  clear E8. destruct (parse_enum (str "Enum16") s) as [es|] eqn:E16.
  { injection H as <-. exact (enum_range _ _ _ E16). }
  clear E16. destruct (parse_date_time s); [injection H as <-; exact I|].
  destruct (parse_date_time64 s) as [[p tz]|] eqn:D.
  { injection H as <-. unfold parse_date_time64 in D.
    destruct (strip_prefix _ _) in D; [|discriminate D]. destruct (ptoken 40 _) in D; [|discriminate D]. destruct (pdigits _) as [d r] in D.
    destruct (parse_uint u32_max d) as [u|] eqn:U; [|discriminate D]. apply parse_uint_max in U. cbv zeta in D.
    match type of D with match ?x with _ => _ end = _ => destruct x as [[? ?]|]; [|discriminate D] end.
    destruct (ptoken 41 _) as [[|? ?]|] in D; try discriminate D. injection D as <- _. unfold u32_max in U. change (2 ^ 32) with 4294967296 in *. lia. }
  destruct (parse_agg s) as [[[i j]|]|e|p]; cbn [rbind] in H; try discriminate H; [injection H as <-; exact I|].
  destruct (parse_low_cardinality s) as [[i|]|e|p]; cbn [rbind] in H; try discriminate H. injection H as <-; exact I.
Qed.

(** C110, refuted of the code. *)
Theorem c110_refuted :
  classify (str "Decimal32(200)") = Ok (Some (KDecimal 9 200 N32)) /\
  classify (str "Enum8('a' = 300)") = Ok (Some (KEnum8 [(str "a", 44%Z)])) /\
  classify (str "DateTime64(4294967295)") = Ok (Some (KDateTime64 4294967295 None)).
Proof. repeat split; vm_compute; reflexivity. Qed.

(** C58, of options that are not given at all: ten to twenty connections to port 9000 of the same machine, as is documented. *)
Theorem c58_default_pool parse_url tls : exists p h,
  Options.pool_of parse_url tls (Options.Raw Options.opts_default) = Ok p /\ Options.ps_hosts p = [h] /\ Options.ps_min p = 10 /\ Options.ps_max p = 20 /\
  Options.u_host h = Some (str "127.0.0.1") /\ Options.u_port h = Some 9000.
Proof. eexists _, _. vm_compute. repeat split; reflexivity. Qed.
Print Assumptions c58_default_pool.
Print Assumptions c110_fixed.
Print Assumptions c110_ranges_partial.
Print Assumptions c110_refuted.
Print Assumptions c109_uuid.
Print Assumptions c109_ipv4.

Example c109_case :
  uuid_text [1; 2; 3; 4; 5; 6; 7; 8; 9; 10; 11; 12; 13; 14; 15; 255] = str "08070605-0403-0201-ff0f-0e0d0c0b0a09" /\
  ipv4_text [1; 0; 168; 192] = str "192.168.0.1".
Proof. split; vm_compute; reflexivity. Qed.
