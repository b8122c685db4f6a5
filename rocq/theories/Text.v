(** The parts of Rust's [str] the crate uses, on UTF-8 bytes. *)
From Coq Require Import Ascii String.
From Verif Require Import Base.
Open Scope list_scope.

(** A string literal as bytes. *)
Definition str (s : string) : bytes := List.map N_of_ascii (list_ascii_of_string s).

(** [str::strip_prefix], the rest of [s] after [p]; [starts_with] is its success. *)
Fixpoint strip_prefix (p s : bytes) : option bytes :=
  match p, s with
  | [], _ => Some s
  | a :: p', b :: s' => if (a =? b)%N then strip_prefix p' s' else None
  | _ :: _, [] => None
  end.
Definition starts_with (p s : bytes) : bool :=
  match strip_prefix p s with Some _ => true | None => false end.

(** [str::ends_with] a one-byte character. *)
Definition ends_with_byte (b : N) (s : bytes) : bool :=
  match rev s with x :: _ => (x =? b)%N | [] => false end.

(** A byte that continues a multi-byte character. *)
Definition is_cont (b : N) : bool := (128 <=? b)%N && (b <? 192)%N.

(** [str::is_char_boundary]. *)
Definition char_boundary (s : bytes) (i : nat) : bool :=
  (i =? 0)%nat || (i =? List.length s)%nat ||
  ((i <? List.length s)%nat && negb (is_cont (nth i s 0%N))).

(** [&s[a..b]]: panics when out of order, out of range, or inside a character. *)
Definition str_slice (s : bytes) (a b : nat) : res bytes :=
  if (a <=? b)%nat && (b <=? List.length s)%nat && char_boundary s a && char_boundary s b
  then Ok (firstn (b - a) (skipn a s))
  else Panic PIndex.

(** [str::eq_ignore_ascii_case]. *)
Definition lower (b : N) : N := if (65 <=? b)%N && (b <=? 90)%N then (b + 32)%N else b.
Fixpoint eq_ignore_case (a b : bytes) : bool :=
  match a, b with
  | [], [] => true
  | x :: a', y :: b' => (lower x =? lower y)%N && eq_ignore_case a' b'
  | _, _ => false
  end.

(** [char::is_whitespace] for characters of one, two and three bytes (there are no
    longer ones): TAB..CR and SPACE; U+0085, U+00A0; U+1680, U+2000..U+200A,
    U+2028, U+2029, U+202F, U+205F, U+3000. *)
Definition ws1 (a : N) : bool := ((9 <=? a)%N && (a <=? 13)%N) || (a =? 32)%N.
Definition ws2 (a b : N) : bool := (a =? 194)%N && ((b =? 133)%N || (b =? 160)%N).
Definition ws3 (a b c : N) : bool :=
  ((a =? 225) && (b =? 154) && (c =? 128))%N ||
  ((a =? 226) && (b =? 128) &&
     (((128 <=? c) && (c <=? 138)) || (c =? 168) || (c =? 169) || (c =? 175)))%N ||
  ((a =? 226) && (b =? 129) && (c =? 159))%N ||
  ((a =? 227) && (b =? 128) && (c =? 128))%N.

(** One leading white-space character removed. *)
Definition space_front (s : bytes) : option bytes :=
  match s with
  | a :: r1 =>
      if ws1 a then Some r1 else
      match r1 with
      | b :: r2 =>
          if ws2 a b then Some r2 else
          match r2 with
          | c :: r3 => if ws3 a b c then Some r3 else None
          | [] => None
          end
      | [] => None
      end
  | [] => None
  end.
(** The same at the end of a string given reversed. *)
Definition space_back (s : bytes) : option bytes :=
  match s with
  | a :: r1 =>
      if ws1 a then Some r1 else
      match r1 with
      | b :: r2 =>
          if ws2 b a then Some r2 else
          match r2 with
          | c :: r3 => if ws3 c b a then Some r3 else None
          | [] => None
          end
      | [] => None
      end
  | [] => None
  end.
Fixpoint strip_while (f : bytes -> option bytes) (fuel : nat) (s : bytes) : bytes :=
  match fuel with
  | O => s
  | S fuel' => match f s with Some r => strip_while f fuel' r | None => s end
  end.
(** [str::trim_start] (also combine's [spaces()]), [str::trim_end], [str::trim]. Each
    round removes a byte or more, so the length is fuel enough. *)
Definition trim_start (s : bytes) : bytes := strip_while space_front (List.length s) s.
Definition trim_end (s : bytes) : bytes := rev (strip_while space_back (List.length s) (rev s)).
Definition trim (s : bytes) : bytes := trim_end (trim_start s).

(** [trim_matches] of a set of one-byte characters. *)
Fixpoint drop_while (f : N -> bool) (s : bytes) : bytes :=
  match s with b :: s' => if f b then drop_while f s' else s | [] => [] end.
Definition trim_matches (f : N -> bool) (s : bytes) : bytes :=
  rev (drop_while f (rev (drop_while f s))).

(** [str::find] of a one-byte character: byte index. *)
Fixpoint find_byte (b : N) (s : bytes) : option nat :=
  match s with
  | [] => None
  | x :: s' => if (x =? b)%N then Some O
               else match find_byte b s' with Some i => Some (S i) | None => None end
  end.

(** [s.chars().position(|c| c == b)]: index counted in characters. *)
Fixpoint find_char (b : N) (s : bytes) : option nat :=
  match s with
  | [] => None
  | x :: s' => if (x =? b)%N then Some O
               else match find_char b s' with
                    | Some i => Some (if is_cont x then i else S i)
                    | None => None
                    end
  end.

(** [str::split] on a one-byte character. *)
Fixpoint split_on (b : N) (s : bytes) : list bytes :=
  match s with
  | [] => [[]]
  | x :: s' =>
      let r := split_on b s' in
      if (x =? b)%N then [] :: r
      else match r with
           | w :: ws => (x :: w) :: ws
           | [] => [[x]]
           end
  end.

Definition is_digit (b : N) : bool := (48 <=? b)%N && (b <=? 57)%N.

(** [Display] of an unsigned integer: decimal digits. A number has at most as many
    decimal digits as binary ones. *)
Fixpoint print_digits (fuel : nat) (n : N) : bytes :=
  match fuel with
  | O => []
  | S fuel' => if (n <? 10)%N then [48 + n]%N
               else print_digits fuel' (n / 10) ++ [48 + n mod 10]%N
  end.
Definition print_N (n : N) : bytes := print_digits (S (N.size_nat n)) n.
(** [Display] of a signed integer. *)
Definition print_Z (z : Z) : bytes :=
  if (z <? 0)%Z then 45%N :: print_N (Z.to_N (- z)) else print_N (Z.to_N z).

(** The digits of a decimal number. *)
Fixpoint digits_value (acc : N) (s : bytes) : option N :=
  match s with
  | [] => Some acc
  | b :: s' => if is_digit b then digits_value (acc * 10 + (b - 48))%N s' else None
  end.
(** [str::parse] for an unsigned type with largest value [max]: an optional plus
    sign, then at least one digit. *)
Definition parse_uint (max : N) (s : bytes) : option N :=
  let digits := match s with 43%N :: s' => s' | _ => s end in
  match digits with
  | [] => None
  | _ => match digits_value 0 digits with
         | Some v => if (v <=? max)%N then Some v else None
         | None => None
         end
  end.

Fixpoint concat_sep (sep : bytes) (l : list bytes) : bytes :=
  match l with
  | [] => []
  | [x] => x
  | x :: l' => x ++ sep ++ concat_sep sep l'
  end.
