(** * Model of the strings made of UTF-16 texts and of the buffers for them:
    String<0>(const uint16 pointer), Code/Terathon/TSString.cpp:159-188, and
    WCharBuffer, Code/Json4C4/C4Json.cpp:103-183, which holds file names on Windows.
    Simplified: lengths are unbounded (maxLength + 1 does not wrap). *)

From Verif Require Import Base TextModel WideModel StringModel DynModel.

Section Alloc.
(** The contents of new blocks of char and of wchar_t. *)
Variables (g h : Z -> list Z).

(** TSString.cpp:159-188. *)
Definition new_wide (w : list Z) : out dyn :=
  let! l := unicode_string_length w in
  if (0 <? l)%nat then
    let d := new_sized g (Z.of_nat l + 1) in
    let! b := wide_to_string w (chars d) 0 (Z.of_nat l) in Ret (with_chars d b)
  else let! b := wr local_init 0 0 in Ret (Dyn 1 16 None b).

(** C4Json.cpp:139-147, WCharBuffer(const String<>&): the block. *)
Definition wide_buffer (s : ptr) : out (list Z) :=
  let! n := wide_text_char_count (S (length s)) s in
  string_to_wide (S (length s)) s (h (Z.of_nat n + 1)) 0 (Z.of_nat n).

(** C4Json.cpp:112-123, WCharBuffer(uint32): the loop that writes zeros. *)
Fixpoint zeros (n : nat) (b : list Z) (i : nat) : out (list Z) :=
  match n with
  | O => Ret b
  | S n' => let! b := wr b i 0 in zeros n' b (S i)
  end.
Definition wide_blank (max : nat) : out (list Z) :=
  let! b := zeros max (h (Z.of_nat max + 1)) 0 in wr b max 0.

(** C4Json.cpp:125-137, WCharBuffer(const wchar_t pointer, uint32): [i] is the
    position of [c], [n] the distance to [end]. *)
Fixpoint wide_copy (n : nat) (w : list Z) (b : list Z) (i : nat) : out (list Z * nat) :=
  match w with
  | [] => UB
  | u :: w' =>
      if u =? 0 then Ret (b, i)
      else match n with
           | O => Ret (b, i)
           | S n' => let! b := wr b i u in wide_copy n' w' b (S i)
           end
  end.
Definition wide_part (w : list Z) (max : nat) : out (list Z) :=
  let! (b, i) := wide_copy max w (h (Z.of_nat max + 1)) 0 in
  let! b := wr b i 0 in wr b max 0.

(** C4Json.cpp:167-179, WCharBuffer::operator String<>. *)
Definition wide_string (w : list Z) : out dyn :=
  let! l := unicode_string_length w in
  let! d := new_empty in
  let! d := set_string_length g d (Z.of_nat l) in
  let! b := wide_to_string w (chars d) 0 (Z.of_nat l) in Ret (with_chars d b).
End Alloc.
