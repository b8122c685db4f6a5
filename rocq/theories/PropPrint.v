(** Properties C71 to C74: printed texts. *)
From Coq Require Import String Lia.
From Verif Require Import Base Bytes Utf8 Types Text Decimal DateTime Values Columns Block Print SpecNum SpecPrint.
From Verif Require Import TextProofs DecimalProofs PropTime PrintProofs ClearProofs TableProofs.
Open Scope list_scope. Open Scope Z_scope.

Section Texts.
Variable float_text : nat -> Z -> bytes.
Variable ipv6_text : bytes -> bytes.
Variable offset : bytes -> Z -> Z.
Variable rfc2822 time_text : Z -> N -> bytes -> res bytes.
Notation show := (show_ref float_text ipv6_text offset rfc2822).
Notation show_owned := (show_value float_text ipv6_text rfc2822 time_text).

(** * C71: dates and times *)

(** C71, dates: every day prints as its date in the Gregorian calendar, with either flag and as value
    or cell. *)
Theorem c71_dates : forall alt d, (d < 65536)%N ->
  exists s, show alt (VDate d) = Ok s /\ show_owned alt (VDate d) = Ok s /\ iso_date (date_after d) s.
Proof.
  intros alt d H. exists (date_text (Z.of_N d)). split; [reflexivity|]. split; [reflexivity|].
  rewrite <- civil_after. apply date_iso. lia.
Qed.
Lemma civil_day n : day_is n (civil n).
Proof.
  unfold day_is. destruct (Z.leb_spec 0 n) as [L|L]; [rewrite <- civil_after; f_equal; lia|].
  assert (forall k m, N.iter k next_day (civil m) = civil (m + Z.of_N k)) as G.
  { induction k as [|k IH] using N.peano_ind; intros m; [cbn; f_equal; lia|]. rewrite N.iter_succ, IH, <- civil_next. f_equal. lia. }
  rewrite G. replace (n + Z.of_N (Z.to_N (- n))) with 0 by lia. reflexivity.
Qed.
Lemma local_iso s : -719528 * 86400 <= s < 2932897 * 86400 -> iso_time s (local_text s).
Proof.
  intros H. destruct (local_parts s H) as [D C]. exists (s / 86400), (s mod 86400), (civil (s / 86400)), (date_text (s / 86400)), (clock_text (s mod 86400)).
  split; [split; [apply Z.div_mod; lia|apply Z.mod_pos_bound; lia]|]. split; [apply civil_day|]. split; [exact D|]. split; [exact C|reflexivity].
Qed.
(** C71, times: every DateTime cell prints as date and time in its zone. *)
Theorem c71_times : forall t tz, (t < 2 ^ 32)%N -> -86400 < offset tz (Z.of_N t) < 86400 ->
  exists s, show false (VDateTime t tz) = Ok s /\ iso_time (Z.of_N t + offset tz (Z.of_N t)) s.
Proof.
  intros t tz T O. eexists. split; [reflexivity|]. apply local_iso. change (2 ^ 32)%N with 4294967296%N in T. lia.
Qed.
(** C71, times with fractions: the text is that of the second in which the time is. *)
Theorem c71_times64 : forall alt v p tz, (p <= 9)%N -> is_i64 (v * tick_nanos p) -> 0 <= v \/ (v * tick_nanos p) mod 1000000000 = 0 ->
  (forall x, -86400 < offset tz x < 86400) ->
  exists s second, show alt (VDateTime64 v p tz) = Ok s /\ iso_time (second + offset tz second) s /\
    second * 1000000000 <= v * tick_nanos p < (second + 1) * 1000000000.
Proof.
  intros alt v p tz P I W O. destruct (c42_datetime64_partial v p P I W) as (secs & nanos & E & (T & N) & _).
  exists (local_text (secs + offset tz secs)), secs. cbn [show_ref]. rewrite E. split; [reflexivity|].
  rewrite T in *. unfold is_i64 in I. pose proof (O secs). split; [|lia]. apply local_iso. lia.
Qed.

(** * C72: different cells print differently *)

(** C72, what holds: of the cells of a column without strings, floats, IPv6 addresses and times with
    fractions, in a zone without changes, no two print the same, whatever is nested in them; and all
    of them print. Missing: those types, and negative decimals above -1. *)
Theorem c72_clear_partial : forall zone t a b, clear offset zone t a -> clear offset zone t b ->
  exists x y, show false a = Ok x /\ show false b = Ok y /\ (x = y -> a = b).
Proof.
  intros zone t a b A B. destruct (clear_shows float_text ipv6_text offset rfc2822 zone t a A) as (x & X & _).
  destruct (clear_shows float_text ipv6_text offset rfc2822 zone t b B) as (y & Y & _). exists x, y. split; [exact X|]. split; [exact Y|].
  intros E. refine (proj1 (clear_stop float_text ipv6_text offset rfc2822 zone t a b x y [] [] A B X Y I I _)). congruence.
Qed.
(** C72 is false of the code: a string that is not UTF-8 prints as its bytes, as another string does;
    strings in arrays are not quoted; NULL prints as a string; fractions of seconds are not printed; and the hour
    that a zone repeats in autumn prints the same twice. *)
Theorem c72_strings_refuted :
  show false (VString [255]%N) = show false (VString (str "[255]")) /\
  show false (VArray TString [VString (str "a, b")]) = show false (VArray TString [VString (str "a"); VString (str "b")]) /\
  show false (VNull TString) = show false (VSome (VString (str "NULL"))) /\
  (forall tz, show false (VDateTime64 1500 3 tz) = show false (VDateTime64 1999 3 tz)) /\
  (forall tz t, offset tz (Z.of_N t) = 7200 -> offset tz (Z.of_N (t + 3600)) = 3600 ->
    show false (VDateTime t tz) = show false (VDateTime (t + 3600) tz)).
Proof.
  split; [reflexivity|]. split; [reflexivity|]. split; [reflexivity|]. split; [intros tz; reflexivity|].
  intros tz t A B. cbn [show_ref]. rewrite A, B. do 2 f_equal. lia.
Qed.

(** * C73: values and cells print alike *)

(** C73, what holds: a value without times, enumerations and maps prints as the cell it becomes,
    with either flag. Missing: those. *)
Theorem c73_alike_partial : forall v alt, ordinary v -> show_owned alt v = show alt v.
Proof.
  fix IH 1. intros v alt O. destruct v as [s z|b|d|t tz|t p tz|s n tz|b|b|b|t|w|t vs|d|vals z|vals z|k w kvs]; try reflexivity; try (destruct O; fail).
  - cbn [show_value show_ref]. rewrite (IH w alt O). destruct w; try reflexivity; destruct O.
  - cbn [show_value show_ref]. f_equal. revert vs O. fix IHl 1. intros [|w l] O; [reflexivity|]. cbn [ordinary] in O. destruct O as [Ow Ol].
    rewrite (IH w false Ow). rewrite (IHl l Ol). reflexivity.
Qed.
(** C73 is false of the code: times print in another notation, enumerations and maps with more words. *)
Theorem c73_alike_refuted :
  (forall tz, show false (VDateTime 0 tz) = Ok (local_text (offset tz 0)) /\ show_owned false (VDateTime 0 tz) = rfc2822 0 0 tz) /\
  show false (VEnum8 [] 1) = Ok (str "Enum8(1)") /\ show_owned false (VEnum8 [] 1) = Ok (str "Enum8, Enum8(1)") /\
  show false (VMap (TNum U8) (TNum U8) [(VNum U8 1, VNum U8 2)]) = Ok (str "[1-2]") /\
  show_owned false (VMap (TNum U8) (TNum U8) [(VNum U8 1, VNum U8 2)]) = Ok (str "[key=>1 value=>2]").
Proof. repeat split; reflexivity. Qed.

(** * C74: the table of a block *)
Open Scope nat_scope.
(** The texts of the cells of a column of [n] rows. *)
Definition texts_of (n : nat) (x : column) (ts : list bytes) : Prop :=
  clen (snd x) = Ok n /\ Forall2 (fun i t => exists v, at_ (snd x) i = Ok v /\ show false v = Ok t) (seq 0 n) ts.
Lemma texts_len n x ts : texts_of n x ts -> List.length ts = n.
Proof.
  intros [_ F]. assert (forall (P : nat -> bytes -> Prop) l m, Forall2 P l m -> List.length m = List.length l) as L by (induction 1; cbn; congruence).
  rewrite (L _ _ _ F). apply seq_length.
Qed.
(** C74, what holds: a block of columns of the same number of rows, whose titles and cells have texts of
    one line, prints as a table: line after line, all of the same number of characters; the
    second holds the titles, and, if there are rows, every row is a line from the fourth on,
    its texts in boxes below one another. Missing: blocks without columns, and blocks whose columns are of different lengths. *)
Theorem c74_table_partial : forall b n texts,
  b_cols b <> [] -> Forall2 (texts_of n) (b_cols b) texts ->
  Forall (fun t => ~ In line_feed t) (map fst (b_cols b)) -> Forall (Forall (fun t => ~ In line_feed t)) texts ->
  exists ws lines wide, show_block float_text ipv6_text offset rfc2822 b = Ok (unlines lines) /\
    List.length lines = (if n =? 0 then 3 else n + 4) /\
    Forall (fun l => characters l = wide /\ ~ In line_feed l) lines /\
    (exists l, nth_error lines 1 = Some l /\ boxed ws (map fst (b_cols b)) l) /\
    forall j, j < n -> exists l, nth_error lines (3 + j) = Some l /\ boxed ws (row_texts texts j) l.
Proof.
  intros b n texts NE F T X. destruct b as [info cols]. cbn [b_cols] in *. unfold show_block. cbn [b_cols].
  assert (mapM (fun x : column => text_cells float_text ipv6_text offset rfc2822 (snd x)) cols = Ok texts) as ->.
  { apply mapM_forall2. clear - F. induction F as [|x ts cols texts [L C] _ IH]; constructor; [|exact IH].
    unfold text_cells. rewrite L. cbn [rbind]. apply mapM_forall2. clear - C. induction C as [|i t l ts (v & A & S) _ IH]; constructor; [|exact IH].
    rewrite A. exact S. }
  cbn [rbind]. set (lens := map (fun tc : bytes * list bytes => Nat.max (chars (fst tc)) (column_width (snd tc))) (combine (map fst cols) texts)).
  assert (row_count (mk_block info cols) = Ok n) as ->.
  { unfold row_count. cbn [b_cols]. destruct F as [|[nm c] ts cols texts [L _] _]; [congruence|exact L]. }
  cbn [rbind].
  assert (Forall2 (fun m c => chars c <= m) lens (map fst cols)) as LT.
  { subst lens. clear - F. induction F as [|x ts cols texts _ _ IH]; cbn [map combine]; constructor; [cbn [fst snd]; lia|exact IH]. }
  assert (forall j, j < n -> Forall2 (fun m c => chars c <= m) lens (row_texts texts j)) as LR.
  { intros j J. subst lens. clear - F J. induction F as [|x ts cols texts O _ IH]; cbn [map combine row_texts]; constructor; [cbn [fst snd]|exact IH].
    assert (In (nth j ts []) ts) as I by (apply nth_In; rewrite (texts_len _ _ _ O); exact J). eapply Nat.le_trans; [apply chars_len|]. eapply Nat.le_trans; [exact (width_max ts _ I)|apply Nat.le_max_r]. }
  assert (lens <> []) as LN.
  { subst lens. destruct F; [congruence|discriminate]. }
  clearbody lens.
  rewrite (mapM_map _ (fun j => print_cells lens (row_texts texts j) ++ (if j + 1 =? n then [] else newline))).
  2:{ intros j J. apply in_seq in J. assert (mapM (fun c : list bytes => index c j) texts = Ok (row_texts texts j)) as ->; [|reflexivity]. apply mapM_map. intros ts I.
      assert (List.length ts = n) as L. { clear - F I. induction F as [|x ts' cols texts O _ IH]; [destruct I|]. destruct I as [-> |I]; [exact (texts_len _ _ _ O)|exact (IH I)]. }
      unfold index. rewrite (nth_error_nth' ts []) by lia. reflexivity. }
  cbn [rbind].
  set (body := map (fun j => print_cells lens (row_texts texts j)) (seq 0 n)).
  set (top := rule_line lens 140 172 144). set (mid := rule_line lens 156 188 164). set (low := rule_line lens 148 180 152).
  set (head := print_cells lens (map fst cols)).
  exists (map (fun m => m + 2) lens), ([top; head] ++ (if n =? 0 then [] else mid :: body) ++ [low]), (total lens).
  pose proof (print_cells_boxed _ _ LT) as BT. assert (forall j, j < n -> boxed (map (fun m => m + 2) lens) (row_texts texts j) (print_cells lens (row_texts texts j))) as BR by (intros j J; apply print_cells_boxed, LR, J).
  split; [|split; [|split; [|split]]].
  - f_equal. rewrite !unlines_app. cbn [unlines]. rewrite !app_nil_r.
    assert (forall a m z, print_line lens (newline ++ corner a) (corner m) (corner z ++ newline) = newline ++ rule_line lens a m z ++ newline) as R1 by (intros; unfold rule_line, print_line; rewrite <- !app_assoc; reflexivity).
    assert (forall a m z, print_line lens (newline ++ corner a) (corner m) (corner z) = newline ++ rule_line lens a m z) as R2 by (intros; unfold rule_line, print_line; rewrite <- !app_assoc; reflexivity).
    rewrite !R1, R2. fold top mid low head. destruct n as [|n].
    + cbn [Nat.ltb Nat.leb Nat.eqb seq map List.concat unlines app]. rewrite <- !app_assoc. reflexivity.
    + change (0 <? S n) with true. change (S n =? 0) with false. cbv iota. cbn [unlines].
      pose proof (rows_unlines (fun j => print_cells lens (row_texts texts j)) (S n) n 0 eq_refl) as RU. fold body in RU. rewrite <- RU.
      change newline with [line_feed]. rewrite <- !app_assoc. repeat (cbn [app]; rewrite <- ?app_assoc). reflexivity.
  - rewrite !app_length. destruct n as [|n]; [reflexivity|]. change (S n =? 0) with false. cbv iota. cbn [List.length]. unfold body. rewrite map_length, seq_length. lia.
  - assert (forall ts l, boxed (map (fun m => m + 2) lens) ts l -> characters l = total lens) as BC.
    { intros ts l B. change (characters l) with (chars l). rewrite (boxed_chars _ _ _ B). apply boxed_total. }
    assert (forall a m z, is_cont a = true -> is_cont m = true -> is_cont z = true -> characters (rule_line lens a m z) = total lens /\ ~ In line_feed (rule_line lens a m z)) as RL.
    { intros a m z A M Z. split; [apply (rule_chars lens a m z LN A M Z)|]. apply rule_lines; intros ->; discriminate. }
    apply Forall_app. split; [|apply Forall_app; split].
    + constructor; [apply RL; reflexivity|]. constructor; [|constructor]. split; [exact (BC _ _ BT)|exact (boxed_lines _ _ _ BT T)].
    + destruct n as [|n]; [constructor|]. change (S n =? 0) with false. cbv iota. constructor; [apply RL; reflexivity|]. unfold body. apply Forall_map, Forall_forall. intros j J. apply in_seq in J.
      pose proof (BR j ltac:(lia)) as B. split; [exact (BC _ _ B)|]. apply (boxed_lines _ _ _ B). unfold row_texts. apply Forall_map, Forall_forall. intros ts I. rewrite Forall_forall in X. specialize (X ts I).
      destruct (nth_in_or_default j ts []) as [K| ->]; [rewrite Forall_forall in X; exact (X _ K)|intros []].
    + constructor; [apply RL; reflexivity|constructor].
  - exists head. split; [reflexivity|exact BT].
  - intros j J. exists (print_cells lens (row_texts texts j)). split; [|exact (BR j J)]. destruct n as [|n]; [lia|]. change (S n =? 0) with false. cbv iota. cbn [Nat.add app nth_error].
    rewrite nth_error_app1 by (unfold body; rewrite map_length, seq_length; exact J). unfold body.
    rewrite (map_nth_error _ j (seq 0 (S n)) (d := j)); [reflexivity|]. rewrite (nth_error_nth' _ 0) by (rewrite seq_length; exact J). rewrite seq_nth by exact J. reflexivity.
Qed.

(** C74 is false of the code: printing a block whose later column is shorter, as a refused row leaves it
    (C70), panics; one whose later column is longer is printed without cells; and the lines of a block without columns are of different widths. *)
Theorem c74_ragged_refuted :
  let shown b := show_block float_text ipv6_text offset rfc2822 b in
  shown (mk_block info_default [(str "a", CVec U8 [1; 2]%Z); (str "b", CVec U8 [3]%Z)]) = Panic PIndex /\
  shown (mk_block info_default [(str "a", CVec U8 [1]%Z); (str "b", CVec U8 [2; 3]%Z)]) = shown (mk_block info_default [(str "a", CVec U8 [1]%Z); (str "b", CVec U8 [2]%Z)]) /\
  exists l l', shown block_default = Ok (unlines [l; stroke; l']) /\ characters l = 2.
Proof.
  split; [vm_compute; reflexivity|]. split; [vm_compute; reflexivity|]. eexists [226; 148; 140; 226; 148; 144]%N, [226; 148; 148; 226; 148; 152]%N.
  split; vm_compute; reflexivity.
Qed.
End Texts.
Print Assumptions c71_dates.
Print Assumptions c71_times.
Print Assumptions c71_times64.
Print Assumptions c72_clear_partial.
Print Assumptions c72_strings_refuted.
Print Assumptions c73_alike_partial.
Print Assumptions c73_alike_refuted.
Print Assumptions c74_table_partial.
Print Assumptions c74_ragged_refuted.

(** Cases that meet the hypotheses: a leap day, the last day there is, and a time in a zone behind UTC. *)
Example c71_case :
  let show := show_ref (fun _ _ => []) (fun b => b) (fun _ _ => -18000)%Z (fun _ _ _ => Ok []) in
  show false (VDate 11016) = Ok (str "2000-02-29") /\ show true (VDate 65535) = Ok (str "2149-06-06") /\
  show false (VDateTime 3600 (str "EST")) = Ok (str "1969-12-31 20:00:00") /\
  show false (VDateTime64 1699999999999 3 (str "EST")) = Ok (str "2023-11-14 17:13:19") /\
  is_i64 (1699999999999 * tick_nanos 3).
Proof. repeat split; try (vm_compute; reflexivity); vm_compute; discriminate. Qed.
(** A map of optional arrays of decimals, keyed by dates. *)
Example c72_case :
  let show := show_ref (fun _ _ => []) (fun b => b) (fun _ _ => 0)%Z (fun _ _ _ => Ok []) in
  let t := TMap TDate (TNullable (TArray (TDecimal 9 2))) in
  let d u := VDecimal (mk_decimal u N32 9 2) in
  let v := VMap TDate (TNullable (TArray (TDecimal 9 2)))
    [(VDate 0, VSome (VArray (TDecimal 9 2) [d 5; d (-150)]%Z)); (VDate 1, VNull (TArray (TDecimal 9 2)))] in
  clear (fun _ _ => 0%Z) [] t v /\ show false v = Ok (str "[1970-01-01-[0.05, -1.50], 1970-01-02-NULL]").
Proof.
  split; [|vm_compute; reflexivity]. eexists. split; [reflexivity|]. constructor; [split; cbn [fst snd]|constructor; [split; cbn [fst snd]|constructor]].
  - exists 0%N. split; [reflexivity|lia].
  - split; [reflexivity|]. right. eexists. split; [reflexivity|]. eexists. split; [reflexivity|]. constructor; [|constructor; [|constructor]].
    + exists 5%Z, N32. split; [reflexivity|]. split; [reflexivity|]. left. lia.
    + exists (-150)%Z, N32. split; [reflexivity|]. split; [reflexivity|]. right. vm_compute. discriminate.
  - exists 1%N. split; [reflexivity|lia].
  - split; [reflexivity|]. left. reflexivity.
Qed.
Example c73_case :
  let show := show_value (fun _ _ => []) (fun b => b) (fun _ _ _ => Ok []) (fun _ _ _ => Ok []) in
  let v := VArray (TNullable TString) [VSome (VString (str "x")); VNull TString] in
  ordinary v /\ show false v = Ok (str "[x, NULL]").
Proof. split; [cbn; tauto|reflexivity]. Qed.
(** Two columns, one with a title of three characters in four bytes. *)
Example c74_case :
  let show := show_ref (fun _ _ => []) (fun b => b) (fun _ _ => 0)%Z (fun _ _ _ => Ok []) in
  let b := mk_block info_default [([97; 195; 164; 98]%N, CVec I16 [-7; 1234]%Z); (str "s", CString [str "x"; []])] in
  Forall2 (texts_of (fun _ _ => []) (fun b => b) (fun _ _ => 0)%Z (fun _ _ _ => Ok []) 2%nat) (b_cols b) [[str "-7"; str "1234"]; [str "x"; []]] /\
  exists lines, show_block (fun _ _ => []) (fun b => b) (fun _ _ => 0)%Z (fun _ _ _ => Ok []) b = Ok (unlines lines) /\
    nth_error lines 3 = Some (bar ++ str "   -7 " ++ bar ++ str " x " ++ bar) /\ map characters lines = repeat 12%nat 6.
Proof.
  cbv zeta. split.
  - repeat constructor; (eexists; split; [reflexivity|vm_compute; reflexivity]).
  - set (r := show_block _ _ _ _ _). vm_compute in r. 
    exists ([[226; 148; 140; 226; 148; 128; 226; 148; 128; 226; 148; 128; 226; 148; 128; 226; 148; 128; 226; 148; 128; 226; 148; 172; 226; 148; 128; 226; 148; 128; 226; 148; 128; 226; 148; 144]%N;
      bar ++ [32; 32; 97; 195; 164; 98; 32]%N ++ bar ++ str " s " ++ bar;
      [226; 148; 156; 226; 148; 128; 226; 148; 128; 226; 148; 128; 226; 148; 128; 226; 148; 128; 226; 148; 128; 226; 148; 188; 226; 148; 128; 226; 148; 128; 226; 148; 128; 226; 148; 164]%N;
      bar ++ str "   -7 " ++ bar ++ str " x " ++ bar; bar ++ str " 1234 " ++ bar ++ str "   " ++ bar;
      [226; 148; 148; 226; 148; 128; 226; 148; 128; 226; 148; 128; 226; 148; 128; 226; 148; 128; 226; 148; 128; 226; 148; 180; 226; 148; 128; 226; 148; 128; 226; 148; 128; 226; 148; 152]%N]).
    subst r. repeat split; vm_compute; reflexivity.
Qed.
