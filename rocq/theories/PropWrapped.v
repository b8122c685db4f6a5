(** C84, further: blocks of 4 GB and more written with compression. *)
From Coq Require Import String.
From Verif Require Import Base Bytes Utf8 Reader Wire SpecWire CityHash Types Text TypeNames Values Columns Casts Block Compress.
From Verif Require Import SpecCompress WireProofs BlockProofs PropFrames.
Open Scope list_scope. Open Scope nat_scope.

Section Wrapped.
Variable lz4_compress : bytes -> bytes.
(** LZ4 is told the length as an i32 (src/types/block/mod.rs 341): it sees as many of the first bytes as remain of it. *)
Variable codec : bytes -> bytes.
Hypothesis told : forall s, lz4_compress s = codec (firstn (N.to_nat (lenN s mod 2 ^ 32)) s).

(** C84, refuted of the code: blocks whose bytes agree in number and in the first so many are written as the same bytes. Nothing reports
    this. *)
Theorem c84_wrapped_refuted a b x y : write_block a = Ok x -> write_block b = Ok y -> lenN x = lenN y ->
  firstn (N.to_nat (lenN x mod 2 ^ 32)) x = firstn (N.to_nat (lenN x mod 2 ^ 32)) y ->
  exists bs, write_block_as lz4_compress true a = Ok bs /\ write_block_as lz4_compress true b = Ok bs.
Proof.
  intros A B L F. exists (compress_frame lz4_compress x). unfold write_block_as. rewrite A, B. cbn [rbind]. split; [reflexivity|].
  unfold compress_frame. rewrite !told, <- L, F. reflexivity.
Qed.

Lemma one_string_around n : (n < 2 ^ 63)%N -> exists pre, forall s, lenN s = n -> write_block (one_string s) = Ok (pre ++ s).
Proof.
  intros L. destruct (enc_uvarint_ok n) as (l & El & _ & _ & Hl & _); [etransitivity; [exact L|reflexivity]|].
  destruct (write_info info_default) as [i|e|q] eqn:I; [|discriminate I|discriminate I].
  destruct (enc_uvarint 1) as [one|e|q] eqn:U; [|discriminate U|discriminate U].
  exists (i ++ one ++ one ++ ([1%N; 97%N] ++ 6%N :: str "String") ++ l). intros s Ls.
  assert (E : enc_string s = Ok (l ++ s)) by (unfold enc_string; rewrite Ls, El; reflexivity).
  assert (S : save (CString [s]) 0 1 = Ok (l ++ s)).
  { cbn -[enc_string]. rewrite E. cbn. rewrite app_nil_r. reflexivity. }
  assert (C : write_column (str "a", CString [s]) = Ok (([1%N; 97%N] ++ 6%N :: str "String") ++ l ++ s)).
  { unfold write_column. cbn [fst snd clen length ctype].
    replace (enc_string (str "a")) with (Ok [1%N; 97%N]) by reflexivity.
    replace (enc_string (type_name TString)) with (Ok (6%N :: str "String")) by reflexivity.
    cbn [rbind]. rewrite S. cbn [rbind]. reflexivity. }
  unfold write_block, one_string. cbn [b_info b_cols]. rewrite I. cbn [rbind].
  match goal with |- context [enc_uvarint (lenN ?x)] => change (lenN x) with 1%N end. rewrite U. cbn [rbind row_count b_cols snd clen length].
  change (N.of_nat 1) with 1%N. rewrite U. cbn [rbind mapM].
  match goal with |- context [write_column ?x] => replace (write_column x) with (Ok (([1%N; 97%N] ++ 6%N :: str "String") ++ l ++ s)) by (symmetry; exact C) end.
  cbn [rbind rmap concat]. rewrite app_nil_r, <- !app_assoc. reflexivity.
Qed.

(** C84, refuted of the code, the case: two strings of 2^32 bytes that differ in their last byte. *)
Theorem c84_wrapped_case : exists s bs, lenN s = (2 ^ 32 - 1)%N /\
  write_block_as lz4_compress true (one_string (s ++ [0%N])) = Ok bs /\ write_block_as lz4_compress true (one_string (s ++ [1%N])) = Ok bs.
Proof.
  destruct (any_length (2 ^ 32 - 1)) as (s & L & _). exists s.
  destruct (one_string_around (2 ^ 32) eq_refl) as (pre & W).
  assert (Ls : forall b, lenN (s ++ [b]) = (2 ^ 32)%N).
  { intros b. unfold lenN in *. rewrite app_length. cbn [length]. change (2 ^ 32 - 1)%N with 4294967295%N in L. change (2 ^ 32)%N with 4294967296%N. lia. }
  destruct (one_string_written (s ++ [0%N])) as (plain & Wp & A); [rewrite Ls; reflexivity|].
  rewrite (W _ (Ls 0%N)) in Wp. injection Wp as <-. unfold around in A. rewrite Ls in A.
  destruct (c84_wrapped_refuted (one_string (s ++ [0%N])) (one_string (s ++ [1%N])) _ _ (W _ (Ls 0%N)) (W _ (Ls 1%N))) as (bs & P & Q).
  - unfold lenN. rewrite !app_length. reflexivity.
  - rewrite !app_assoc.
    assert (K : (lenN (pre ++ s ++ [0%N]) mod 2 ^ 32 <= 100)%N).
    { change (2 ^ 32)%N with 4294967296%N in *.
      assert (E : lenN (pre ++ s ++ [0%N]) = (1 * 4294967296 + (lenN (pre ++ s ++ [0%N]) - 4294967296))%N) by lia.
      rewrite E. rewrite N.add_comm, N.mod_add, N.mod_small by lia. lia. }
    rewrite app_assoc in K. set (k := (lenN ((pre ++ s) ++ [0%N]) mod 2 ^ 32)%N) in *.
    assert (Lk : N.to_nat k <= length (pre ++ s)).
    { unfold lenN in L. rewrite app_length. change (2 ^ 32 - 1)%N with 4294967295%N in L. lia. }
    rewrite !(firstn_app (N.to_nat k) (pre ++ s)). replace (N.to_nat k - length (pre ++ s)) with 0 by lia. reflexivity.
  - exists bs. auto.
Qed.
End Wrapped.
Print Assumptions c84_wrapped_refuted.
Print Assumptions c84_wrapped_case.

(** A compressor that stores what it sees: the premise holds of it. *)
Example c84_wrapped_premise : exists lz4 codec, forall s, lz4 s = codec (firstn (N.to_nat (lenN s mod 2 ^ 32)) s) /\
  codec [1; 2]%N = [1; 2]%N.
Proof. exists (fun s => firstn (N.to_nat (lenN s mod 2 ^ 32)) s), (fun s => s). split; reflexivity. Qed.
