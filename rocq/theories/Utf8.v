(** Validation of UTF-8, as performed by [String::from_utf8] and
    [str::from_utf8] (called at src/binary/read_ex.rs 57, src/types/value_ref.rs 247
    and elsewhere). The rules are those of the Unicode standard's Table 3-7, which
    Rust's [core::str] implements: no overlong forms, no surrogates, at most
    U+10FFFF. *)
From Verif Require Import Base.

Definition in_range (lo hi b : N) : bool := ((lo <=? b) && (b <=? hi))%N.
Definition cont (b : N) : bool := in_range 128 191 b.

Fixpoint utf8_valid (l : bytes) : bool :=
  match l with
  | [] => true
  | b0 :: l1 =>
      if (b0 <? 128)%N then utf8_valid l1
      else match l1 with
      | [] => false
      | b1 :: l2 =>
          if in_range 194 223 b0 then cont b1 && utf8_valid l2
          else match l2 with
          | [] => false
          | b2 :: l3 =>
              if (b0 =? 224)%N then in_range 160 191 b1 && cont b2 && utf8_valid l3
              else if in_range 225 236 b0 || in_range 238 239 b0
                   then cont b1 && cont b2 && utf8_valid l3
              else if (b0 =? 237)%N then in_range 128 159 b1 && cont b2 && utf8_valid l3
              else match l3 with
              | [] => false
              | b3 :: l4 =>
                  if (b0 =? 240)%N then in_range 144 191 b1 && cont b2 && cont b3 && utf8_valid l4
                  else if in_range 241 243 b0 then cont b1 && cont b2 && cont b3 && utf8_valid l4
                  else if (b0 =? 244)%N then in_range 128 143 b1 && cont b2 && cont b3 && utf8_valid l4
                  else false
              end
          end
      end
  end.

(** ASCII text, the part of UTF-8 with one byte per character. *)
Definition ascii_only (l : bytes) : bool := forallb (fun b => (b <? 128)%N) l.
