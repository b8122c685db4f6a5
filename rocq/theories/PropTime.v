(** C40, C42, C52: dates and points in time in cells. *)
From Verif Require Import Base Bytes Types Decimal DateTime Values Columns SpecNum WireProofs DecimalProofs.
Open Scope Z_scope.

Lemma get_days_small d : 0 <= d < 65536 -> get_days d = Z.to_N d.
Proof. intros H. unfold get_days, to_unsigned. rewrite Z.mod_small by (cbn; lia). reflexivity. Qed.

(** C40, the part that holds: every date from 1970-01-01 (day 0) to 2149-06-06 (day 65535)
    is stored by a push as itself, and the date read from the cell is the date pushed. What
    is missing is that other dates are refused; they are not (below). *)
Theorem c40_date_partial : forall l tz days, 0 <= days <= 65535 ->
  exists c, push (CDate l tz) (value_of_date days) = Ok c /\
    (do v <- at_ c (length l); value_date v) = Ok days /\
    forall i, (i < length l)%nat -> at_ c i = at_ (CDate l tz) i.
Proof.
  intros l tz days H. exists (CDate (l ++ [Z.to_N days]) tz). split; [|split].
  - pose proof (get_days_small days ltac:(lia)) as E. unfold push, value_of_date. cbn.
    rewrite E, Z2N.id, E by lia. reflexivity.
  - cbn. unfold index. rewrite nth_error_app2, Nat.sub_diag by lia. cbn. rewrite Z2N.id by lia. reflexivity.
  - intros i Hi. cbn. unfold index. rewrite nth_error_app1 by lia. reflexivity.
Qed.
Print Assumptions c40_date_partial.

Example c40_example : push (CDate [7%N] [85; 84; 67]%N) (value_of_date 19000) = Ok (CDate [7; 19000]%N [85; 84; 67]%N).
Proof. vm_compute. reflexivity. Qed.

(** C40 is false of the code outside that range: 2149-06-07 is stored as 1970-01-01 and
    1969-12-31 as 2149-06-06, without an error. *)
Theorem c40_out_of_range_refuted :
  exists c c', push (CDate [] [85; 84; 67]%N) (value_of_date 65536) = Ok c /\
    (do v <- at_ c 0; value_date v) = Ok 0 /\
    push (CDate [] [85; 84; 67]%N) (value_of_date (-1)) = Ok c' /\
    (do v <- at_ c' 0; value_date v) = Ok 65535.
Proof. do 2 eexists. repeat split; vm_compute; reflexivity. Qed.
Print Assumptions c40_out_of_range_refuted.

(** Ticks of precision [p] as nanoseconds. *)
Definition tick_nanos (p : N) : Z := 10 ^ (9 - Z.of_N p).

(** C42, the part that holds: a DateTime64 cell of precision 0 to 9 converts to exactly the
    point in time it denotes, and back to the same cell, if the time is within the years an
    i64 of nanoseconds covers (1677-2262) and is not both before 1970 and between two whole
    seconds. *)
Theorem c42_datetime64_partial : forall v p, (p <= 9)%N ->
  is_i64 (v * tick_nanos p) -> 0 <= v \/ (v * tick_nanos p) mod 1000000000 = 0 ->
  exists secs nanos, to_datetime v p = Ok (secs, nanos) /\
    instant (v * tick_nanos p) secs nanos /\ from_datetime secs nanos p = Ok v.
Proof.
  intros v p Hp HI HV. unfold to_datetime, to_datetime_opt, from_datetime.
  destruct (N.ltb_spec p 19) as [_|]; [|lia].
  unfold pow_factor. destruct (N.leb_spec p 9) as [_|]; [|lia]. cbn [rbind].
  fold (tick_nanos p). assert (Pf : 0 < tick_nanos p) by (apply Z.pow_pos_nonneg; lia).
  unfold i64_mul. rewrite (proj2 (i64_ok_iff _) HI). cbn [rbind].
  set (nano := v * tick_nanos p) in *.
  set (sec := Z.quot nano 1000000000). set (ns := nano - sec * 1000000000).
  assert (Hns : 0 <= ns < 1000000000).
  { unfold ns, sec. destruct HV as [HV|HV].
    - assert (0 <= nano) by (unfold nano; nia). rewrite Z.quot_div_nonneg by lia. lia.
    - assert (E : nano = nano / 1000000000 * 1000000000) by lia.
      rewrite E at 2. rewrite Z.quot_mul by lia. lia. }
  assert (U : to_unsigned 4 ns = Z.to_N ns).
  { unfold to_unsigned. rewrite Z.mod_small; [reflexivity|]. cbn. lia. }
  rewrite U. destruct (N.ltb_spec (Z.to_N ns) 2000000000) as [_|]; [|lia]. cbn [or_panic].
  exists sec, (Z.to_N ns). split; [reflexivity|].
  assert (T : sec * 1000000000 + Z.of_N (Z.to_N ns) = nano) by (unfold ns; lia).
  split; [split; [lia|lia]|].
  rewrite T, (proj2 (i64_ok_iff _) HI). cbn [rbind]. unfold nano. rewrite Z.quot_mul by lia. reflexivity.
Qed.
Print Assumptions c42_datetime64_partial.

Example c42_example :
  to_datetime 1546300800123 3 = Ok (1546300800, 123000000%N) /\
  from_datetime 1546300800 123000000 3 = Ok 1546300800123 /\
  to_datetime (-5000) 3 = Ok (-5, 0%N) /\ is_i64 (1546300800123 * tick_nanos 3).
Proof. unfold is_i64. repeat split; vm_compute; try reflexivity; discriminate. Qed.

(** C42 is false of the code: reading half a second before 1970 panics; so does reading
    2299-12-31 00:00:00 with precision 0, a date the server's type holds; and so does
    any precision above 9. *)
Theorem c42_datetime64_refuted :
  to_datetime (-500) 3 = Panic PUnwrap /\
  to_datetime 10413705600 0 = Panic PArith /\
  to_datetime 1 10 = Panic PArith.
Proof. repeat split; vm_compute; reflexivity. Qed.
Print Assumptions c42_datetime64_refuted.

(** Storing a point in time in a DateTime64 column drops what is finer than the
    precision; for times since 1970 the stored tick is the last one not after the time. *)
Theorem c42_store_since_1970 : forall secs nanos p, (p <= 9)%N -> 0 <= secs -> (nanos < 1000000000)%N ->
  is_i64 (secs * 1000000000 + Z.of_N nanos) ->
  exists v, from_datetime secs nanos p = Ok v /\
    v * tick_nanos p <= secs * 1000000000 + Z.of_N nanos < (v + 1) * tick_nanos p.
Proof.
  intros secs nanos p Hp Hs Hn HI. unfold from_datetime. rewrite (proj2 (i64_ok_iff _) HI).
  unfold pow_factor. destruct (N.leb_spec p 9) as [_|]; [|lia]. cbn [rbind]. fold (tick_nanos p).
  assert (Pf : 0 < tick_nanos p) by (apply Z.pow_pos_nonneg; lia).
  eexists. split; [reflexivity|]. rewrite Z.quot_div_nonneg by lia.
  pose proof (Z.div_mod (secs * 1000000000 + Z.of_N nanos) (tick_nanos p) ltac:(lia)).
  pose proof (Z.mod_pos_bound (secs * 1000000000 + Z.of_N nanos) (tick_nanos p) Pf). lia.
Qed.
Print Assumptions c42_store_since_1970.

Example c42_store_example : from_datetime 1 999999999 3 = Ok 1999.
Proof. vm_compute. reflexivity. Qed.

(** C52, the part that holds: a DateTime cell of whole seconds from 1970 to 2106 (an unsigned
    32-bit number of seconds) is stored by a push as itself and reads back as the same
    second. *)
Theorem c52_datetime_partial : forall l tz secs z, 0 <= secs < 2 ^ 32 ->
  exists c, push (CDateTime l tz) (VChrono secs 0 z) = Ok c /\
    (do v <- at_ c (length l); value_datetime v) = Ok (secs, 0%N, tz).
Proof.
  intros l tz secs z H. exists (CDateTime (l ++ [Z.to_N secs]) tz). split.
  - unfold push. cbn. unfold as_u32, to_unsigned. rewrite Z.mod_small by (cbn; lia). reflexivity.
  - cbn. unfold index. rewrite nth_error_app2, Nat.sub_diag by lia. cbn. rewrite Z2N.id by lia. reflexivity.
Qed.
Print Assumptions c52_datetime_partial.

Example c52_example : push (CDateTime [] [85%N]) (VChrono 4294967295 0 [86%N]) = Ok (CDateTime [4294967295%N] [85%N]).
Proof. vm_compute. reflexivity. Qed.

(** C52 is false of the code outside that range: one second after the last one is stored as
    1970-01-01 00:00:00, and one second before 1970 as a time in 2106. *)
Theorem c52_out_of_range_refuted :
  exists c c', push (CDateTime [] [85%N]) (VChrono (2 ^ 32) 0 [85%N]) = Ok c /\
    at_ c 0 = Ok (VDateTime 0 [85%N]) /\
    push (CDateTime [] [85%N]) (VChrono (-1) 0 [85%N]) = Ok c' /\
    at_ c' 0 = Ok (VDateTime 4294967295 [85%N]).
Proof. do 2 eexists. repeat split; vm_compute; reflexivity. Qed.
Print Assumptions c52_out_of_range_refuted.
