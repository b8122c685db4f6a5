(** What values, cells and blocks print as: [Display] of src/types/value.rs, src/types/value_ref.rs and
    src/types/enums.rs, and [Debug] of src/types/block/mod.rs. A text is its bytes in UTF-8. *)
From Coq Require Import String.
From Verif Require Import Base Bytes Utf8 Types Text Decimal DateTime Values Columns Block.
Open Scope list_scope. Open Scope Z_scope.

(** The calendar date of a day counted from 1970-01-01: year, month, day (chrono's [NaiveDate]; not
    code of the repository). Years begin with March here, so that leap days come last. *)
Definition civil (days : Z) : Z * Z * Z :=
  let z := days + 719468 in
  let era := z / 146097 in
  let doe := z mod 146097 in
  let yoe := (doe - doe / 1460 + doe / 36524 - doe / 146096) / 365 in
  let doy := doe - (365 * yoe + yoe / 4 - yoe / 100) in
  let mp := (5 * doy + 2) / 153 in
  let d := doy - (153 * mp + 2) / 5 + 1 in
  let m := if mp <? 10 then mp + 3 else mp - 9 in
  (yoe + era * 400 + (if m <=? 2 then 1 else 0), m, d).

(** Digits with leading zeros, as chrono's [%Y], [%m], [%d], [%H], [%M] and [%S] give them for years 0 to 9999. *)
Definition padded (w : nat) (z : Z) : bytes := pad_zeros w (print_N (Z.to_N z)).
(** [%Y-%m-%d]; also [Display] of [NaiveDate]. *)
Definition date_text (days : Z) : bytes :=
  let '(y, m, d) := civil days in padded 4 y ++ str "-" ++ padded 2 m ++ str "-" ++ padded 2 d.
(** [%H:%M:%S] of a second of the day. *)
Definition clock_text (s : Z) : bytes :=
  padded 2 (s / 3600) ++ str ":" ++ padded 2 (s / 60 mod 60) ++ str ":" ++ padded 2 (s mod 60).
(** [%Y-%m-%d %H:%M:%S] of local seconds since 1970. *)
Definition local_text (s : Z) : bytes := date_text (s / 86400) ++ str " " ++ clock_text (s mod 86400).

(** [Display] of [Ipv4Addr] after src/types/value.rs 594-598 [decode_ipv4], which reverses the octets. *)
Definition ipv4_text (b : bytes) : bytes := concat_sep (str ".") (map print_N (rev b)).
(** [Display] of [Uuid]: hexadecimal digits in groups, of the bytes as value.rs 256-263 arranges them. *)
Definition hex_digit (n : N) : N := if (n <? 10)%N then (48 + n)%N else (87 + n)%N.
Definition hex (b : bytes) : bytes := flat_map (fun x => [hex_digit (x / 16); hex_digit (x mod 16)]%N) b.
Definition uuid_text (b : bytes) : bytes :=
  let u := rev (firstn 8 b) ++ rev (skipn 8 b) in
  concat_sep (str "-") [hex (firstn 4 u); hex (firstn 2 (skipn 4 u)); hex (firstn 2 (skipn 6 u));
                        hex (firstn 2 (skipn 8 u)); hex (skipn 10 u)].
(** [{:?}] of a list of bytes. *)
Definition bytes_debug (b : bytes) : bytes := str "[" ++ concat_sep (str ", ") (map print_N b) ++ str "]".
(** [Display] of [bool]: any byte but 0 is taken for true. *)
Definition bool_text (z : Z) : bytes := if z =? 0 then str "false" else str "true".
(** src/types/value.rs 208-211 and src/types/value_ref.rs 140-143. *)
Definition string_text (b : bytes) : bytes := if utf8_valid b then b else bytes_debug b.
(** src/types/enums.rs 19-23 and 59-63. *)
Definition enum8_text (z : Z) : bytes := str "Enum8(" ++ print_Z z ++ str ")".
Definition enum16_text (z : Z) : bytes := str "Enum(" ++ print_Z z ++ str ")".
Definition listed (l : list bytes) : bytes := str "[" ++ concat_sep (str ", ") l ++ str "]".

Section Print.
(** The standard library's text of floats (by width and bit pattern) and of [Ipv6Addr]. *)
Variable float_text : nat -> Z -> bytes.
Variable ipv6_text : bytes -> bytes.
(** chrono-tz: seconds that local time in a zone is ahead of UTC at an instant. *)
Variable offset : bytes -> Z -> Z.
(** chrono: [to_rfc2822] and [Display] of a [DateTime<Tz>]. *)
Variable rfc2822 time_text : Z -> N -> bytes -> res bytes.

Definition num_text (s : scalar) (z : Z) : bytes :=
  match s with
  | SBool => bool_text z
  | F32 => float_text 4 z
  | F64 => float_text 8 z
  | _ => print_Z z
  end.

(** src/types/value_ref.rs 126-202: [Display] of [ValueRef], without width and precision; [alt] is the
    flag [#] of the format. Chrono times are no references. *)
Fixpoint show_ref (alt : bool) (v : value) {struct v} : res bytes :=
  match v with
  | VNum s z => Ok (num_text s z)
  | VString b => Ok (string_text b)
  | VDate d => Ok (date_text (Z.of_N d))
  | VDateTime t tz =>
      if alt then rfc2822 (Z.of_N t) 0 tz else Ok (local_text (Z.of_N t + offset tz (Z.of_N t)))
  | VDateTime64 t p tz => do x <- to_datetime t p; Ok (local_text (fst x + offset tz (fst x)))
  | VChrono _ _ _ => Panic PUndefined
  | VNull _ => Ok (str "NULL")
  | VSome w => show_ref false w
  | VArray _ vs =>
      do cells <- (fix items (l : list value) : res (list bytes) :=
                     match l with
                     | [] => Ok []
                     | w :: l' => do x <- show_ref false w; do r <- items l'; Ok (x :: r)
                     end) vs;
      Ok (listed cells)
  | VDecimal d => Ok (decimal_to_str d)
  | VIpv4 b => Ok (ipv4_text b)
  | VIpv6 b => Ok (ipv6_text b)
  | VUuid b => Ok (uuid_text b)
  | VEnum8 _ z => Ok (enum8_text z)
  | VEnum16 _ z => Ok (enum16_text z)
  | VMap _ _ kvs =>
      do cells <- (fix entries (l : list (value * value)) : res (list bytes) :=
                     match l with
                     | [] => Ok []
                     | (k, w) :: l' =>
                         do x <- show_ref false k; do y <- show_ref false w; do r <- entries l';
                         Ok ((x ++ str "-" ++ y) :: r)
                     end) kvs;
      Ok (listed cells)
  end.

(** src/types/value.rs 194-275: [Display] of [Value]. *)
Fixpoint show_value (alt : bool) (v : value) {struct v} : res bytes :=
  match v with
  | VNum s z => Ok (num_text s z)
  | VString b => Ok (string_text b)
  | VDate d => Ok (date_text (Z.of_N d))
  | VDateTime t tz => if alt then time_text (Z.of_N t) 0 tz else rfc2822 (Z.of_N t) 0 tz
  | VDateTime64 t p tz => do x <- to_datetime t p; rfc2822 (fst x) (snd x) tz
  | VChrono s n tz => rfc2822 s n tz
  | VNull _ => Ok (str "NULL")
  | VSome w => show_value alt w
  | VArray _ vs =>
      do cells <- (fix items (l : list value) : res (list bytes) :=
                     match l with
                     | [] => Ok []
                     | w :: l' => do x <- show_value false w; do r <- items l'; Ok (x :: r)
                     end) vs;
      Ok (listed cells)
  | VDecimal d => Ok (decimal_to_str d)
  | VIpv4 b => Ok (ipv4_text b)
  | VIpv6 b => Ok (ipv6_text b)
  | VUuid b => Ok (uuid_text b)
  | VEnum8 _ z => Ok (str "Enum8, " ++ enum8_text z)
  | VEnum16 _ z => Ok (str "Enum16, " ++ enum16_text z)
  | VMap _ _ kvs =>
      do cells <- (fix entries (l : list (value * value)) : res (list bytes) :=
                     match l with
                     | [] => Ok []
                     | (k, w) :: l' =>
                         do x <- show_value false k; do y <- show_value false w; do r <- entries l';
                         Ok ((str "key=>" ++ x ++ str " value=>" ++ y) :: r)
                     end) kvs;
      Ok (listed cells)
  end.

Open Scope nat_scope.
(** [chars().count()] of a string. *)
Definition chars (s : bytes) : nat := List.length (filter (fun b => negb (is_cont b)) s).
(** [{:>width$}] of a string: filled up with spaces to this many characters. *)
Definition right_aligned (w : nat) (s : bytes) : bytes := repeat 32%N (w - chars s) ++ s.

(** src/types/block/mod.rs 441-443: [text_cells]. *)
Definition text_cells (c : col) : res (list bytes) :=
  do n <- clen c; mapM (fun i => do v <- at_ c i; show_ref false v) (seq 0 n).
(** src/types/block/mod.rs 419-421: [column_width], in bytes. *)
Definition column_width (cells : list bytes) : nat := fold_right Nat.max 0 (map (@List.length N) cells).

(** The characters that the table is drawn with: U+2500, U+2502, U+250C, U+2510, U+2514, U+2518, U+251C, U+2524, U+252C, U+2534 and
    U+253C. *)
Definition dash : bytes := [226; 148; 128]%N.
Definition bar : bytes := [226; 148; 130]%N.
Definition corner (last : N) : bytes := [226; 148; last]%N.
Definition newline : bytes := [10%N].

(** src/types/block/mod.rs 423-439: [print_line]. *)
Definition print_line (lens : list nat) (left center right : bytes) : bytes :=
  left ++ concat_sep center (map (fun n => List.concat (repeat dash (n + 2))) lens) ++ right.
(** src/types/block/mod.rs 400-403 and 409-414: a line of titles or cells, up to its last bar. *)
Fixpoint print_cells (lens : list nat) (cells : list bytes) : bytes :=
  match lens, cells with
  | n :: lens', c :: cells' => bar ++ right_aligned (n + 1) c ++ str " " ++ print_cells lens' cells'
  | _, _ => bar
  end.

(** src/types/block/mod.rs 382-417: [Debug] of [Block]. Lengths of texts plus two fit a usize. *)
Definition show_block (b : block) : res bytes :=
  let titles := map fst (b_cols b) in
  do cells <- mapM (fun x : column => text_cells (snd x)) (b_cols b);
  let lens := map (fun tc : bytes * list bytes => Nat.max (chars (fst tc)) (column_width (snd tc))) (combine titles cells) in
  do n <- row_count b;
  do rows <- mapM (fun j =>
      do line <- mapM (fun c => index c j) cells;
      Ok (print_cells lens line ++ (if (j + 1 =? n)%nat then [] else newline))) (seq 0 n);
  Ok (print_line lens (newline ++ corner 140) (corner 172) (corner 144 ++ newline) ++
      print_cells lens titles ++
      (if 0 <? n then print_line lens (newline ++ corner 156) (corner 188) (corner 164 ++ newline) else []) ++
      List.concat rows ++
      print_line lens (newline ++ corner 148) (corner 180) (corner 152)).
End Print.
