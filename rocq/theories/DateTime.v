(** Points in time: src/types/column/datetime64.rs, src/types/date_converter.rs and the
    conversions of src/types/value.rs.

    A chrono [DateTime<Tz>] is its number of seconds since the epoch and its nanoseconds
    within the second; its zone is kept beside it and plays no part in comparisons. A
    [NaiveDate] is its number of days since 1970-01-01. *)
From Verif Require Import Base Bytes Types Decimal.
Open Scope Z_scope.

(** src/types/column/datetime64.rs 122 and 135: [base10.pow(9 - precision)]; the subtraction
    is u32, and 10^9 fits. *)
Definition pow_factor (precision : N) : res Z :=
  if (precision <=? 9)%N then Ok (10 ^ (9 - Z.of_N precision)) else Panic PArith.

(** src/types/column/datetime64.rs 119-123: [from_datetime]; [timestamp_nanos_opt] is [None]
    when the number of nanoseconds is not an i64. i64 division truncates. *)
Definition from_datetime (secs : Z) (nanos : N) (precision : N) : res Z :=
  let ts := secs * 1000000000 + Z.of_N nanos in
  if i64_ok ts then do f <- pow_factor precision; Ok (Z.quot ts f) else Panic PUnwrap.

(** src/types/column/datetime64.rs 131-144: [to_datetime_opt]. chrono's [timestamp_opt] has no
    result for a nanosecond part of two thousand million or more; the seconds obtained
    here are always in its range. [nsec as u32] of a negative number is above that. *)
Definition to_datetime_opt (value : Z) (precision : N) : res (option (Z * N)) :=
  do nano <- (if (precision <? 19)%N
              then do f <- pow_factor precision; i64_mul value f
              else Ok 0);
  let sec := Z.quot nano 1000000000 in
  let nsec := nano - sec * 1000000000 in
  let n := to_unsigned 4 nsec in
  Ok (if (n <? 2000000000)%N then Some (sec, n) else None).

(** src/types/column/datetime64.rs 126-128: [to_datetime]. *)
Definition to_datetime (value : Z) (precision : N) : res (Z * N) :=
  do o <- to_datetime_opt value precision; or_panic PUnwrap o.

(** src/types/date_converter.rs 11-15: [get_days], on days since the epoch. *)
Definition get_days (days : Z) : N := to_unsigned 2 days.

(** src/types/date_converter.rs 37-39: [timestamp() as u32]. *)
Definition as_u32 (secs : Z) : N := to_unsigned 4 secs.
