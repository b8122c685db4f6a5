(** What printed texts mean, independently of the code. *)
From Coq Require Import String.
From Verif Require Import Base Bytes Types Text SpecNum.
Open Scope list_scope. Open Scope Z_scope.

(** The Gregorian calendar: the day after a day. *)
Definition leap (y : Z) : bool := ((y mod 4 =? 0) && negb (y mod 100 =? 0)) || (y mod 400 =? 0).
Definition month_length (y m : Z) : Z :=
  if m =? 2 then (if leap y then 29 else 28)
  else if (m =? 4) || (m =? 6) || (m =? 9) || (m =? 11) then 30 else 31.
Definition next_day (x : Z * Z * Z) : Z * Z * Z :=
  let '(y, m, d) := x in
  if d <? month_length y m then (y, m, d + 1)
  else if m <? 12 then (y, m + 1, 1) else (y + 1, 1, 1).
(** The date [n] days after 1970-01-01. *)
Definition date_after (n : N) : Z * Z * Z := N.iter n next_day (1970, 1, 1).

(** [s] is the number [z] in exactly [w] decimal digits. *)
Definition fixed (w : nat) (z : Z) (s : bytes) : Prop :=
  exists ds, s = map (fun d => (48 + d)%N) ds /\ digits_ok ds /\ List.length ds = w /\ dec_value ds = z.
(** [s] is this date, or this time of day, in the notation of ISO 8601. *)
Definition iso_date (x : Z * Z * Z) (s : bytes) : Prop :=
  let '(y, m, d) := x in
  exists a b c, fixed 4 y a /\ fixed 2 m b /\ fixed 2 d c /\ s = a ++ str "-" ++ b ++ str "-" ++ c.
Definition iso_clock (second : Z) (s : bytes) : Prop :=
  exists h m sec a b c, fixed 2 h a /\ fixed 2 m b /\ fixed 2 sec c /\ s = a ++ str ":" ++ b ++ str ":" ++ c /\
    second = 3600 * h + 60 * m + sec /\ 0 <= h < 24 /\ 0 <= m < 60 /\ 0 <= sec < 60.

(** Types of which no cell is NULL. *)
Fixpoint never_null (t : sqltype) : bool :=
  match t with TNullable _ => false | TLowCardinality i => never_null i | TAgg _ i => never_null i | _ => true end.

Section Clear.
Variable offset : bytes -> Z -> Z.
Variable zone : bytes.
(** The cells of a type without strings, floats, IPv6 addresses and times with fractions, also inside
    arrays, maps and optional cells; decimals below zero are -1 or less, and times are in the zone [zone], whose
    offset from UTC never changes. *)
Fixpoint clear (t : sqltype) (v : value) {struct t} : Prop :=
  match t with
  | TNum (F32 | F64) => False
  | TNum SBool => v = VNum SBool 0 \/ v = VNum SBool 1
  | TNum s => exists z, v = VNum s z
  | TDate => exists d, v = VDate d /\ (d < 65536)%N
  | TDateTime DateTime32 => exists s o, v = VDateTime s zone /\ (s < 2 ^ 32)%N /\
      -86400 < o < 86400 /\ forall x, offset zone x = o
  | TIpv4 => exists b, v = VIpv4 b /\ List.length b = 4%nat /\ Forall (fun x => x < 256)%N b
  | TUuid => exists b, v = VUuid b /\ List.length b = 16%nat /\ Forall (fun x => x < 256)%N b
  | TDecimal p s => exists u nb, v = VDecimal (mk_decimal u nb p s) /\ nb = match from_precision p with Some x => x | None => N64 end /\
      (0 <= u \/ 10 ^ Z.of_N s <= Z.abs u)
  | TEnum8 vals => exists z, v = VEnum8 vals z
  | TEnum16 vals => exists z, v = VEnum16 vals z
  | TNullable i => never_null i = true /\ (v = VNull i \/ exists w, v = VSome w /\ clear i w)
  | TArray i => exists vs, v = VArray i vs /\ Forall (clear i) vs
  | TMap k w => exists kvs, v = VMap k w kvs /\ Forall (fun kv => clear k (fst kv) /\ clear w (snd kv)) kvs
  | TLowCardinality i | TAgg _ i => clear i v
  | _ => False
  end.
End Clear.

Open Scope nat_scope.
(** The number of characters of a text in UTF-8: the bytes that do not continue a character. *)
Definition characters (s : bytes) : nat := List.length (filter (fun b => negb ((128 <=? b)%N && (b <? 192)%N)) s).
(** The line separator and the vertical stroke (U+2502). *)
Definition line_feed : N := 10%N.
Definition stroke : bytes := [226; 148; 130]%N.
(** A line of boxes that are this many characters wide, with these texts at their right ends:
    a stroke and at least one space before every text and a space after it, and a stroke at
    the end. *)
Inductive boxed : list nat -> list bytes -> bytes -> Prop :=
| boxed_end : boxed [] [] stroke
| boxed_text w ws t ts p line : boxed ws ts line -> 1 <= p -> p + characters t + 1 = w ->
    boxed (w :: ws) (t :: ts) (stroke ++ repeat 32%N p ++ t ++ [32%N] ++ line).
(** Line by line. *)
Fixpoint unlines (lines : list bytes) : bytes :=
  match lines with [] => [] | l :: ls => line_feed :: l ++ unlines ls end.
(** The texts of one row. *)
Definition row_texts (texts : list (list bytes)) (j : nat) : list bytes := map (fun ts => nth j ts []) texts.
(** [x] is the date of the day [n] days after 1970-01-01 (before it, if [n] is negative). *)
Definition day_is (n : Z) (x : Z * Z * Z) : Prop :=
  if (0 <=? n)%Z then x = date_after (Z.to_N n) else N.iter (Z.to_N (- n)) next_day x = (1970, 1, 1)%Z.
(** [s] is this second, counted from 1970-01-01 00:00:00, as date and time. *)
Definition iso_time (second : Z) (s : bytes) : Prop :=
  exists day rest x a b, (second = 86400 * day + rest /\ 0 <= rest < 86400)%Z /\ day_is day x /\
    iso_date x a /\ iso_clock rest b /\ s = a ++ str " " ++ b.

(** Values without times, enumerations and maps, also inside. *)
Fixpoint ordinary (v : value) : Prop :=
  match v with
  | VDateTime _ _ | VDateTime64 _ _ _ | VChrono _ _ _ | VEnum8 _ _ | VEnum16 _ _ | VMap _ _ _ => False
  | VSome w => ordinary w
  | VArray _ vs => (fix all (l : list value) : Prop := match l with [] => True | w :: l' => ordinary w /\ all l' end) vs
  | _ => True
  end.
