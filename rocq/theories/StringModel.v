(** * Model of Code/Terathon/TSString.h, TSString.cpp and of the Text functions
    they use.

    Storage is a list of bytes; a write outside it is [UB]. Uninitialised bytes
    are arbitrary values of that list. Lengths and sizes are unbounded integers:
    the int32 arithmetic on them is not wrapped (strings below 2^31 - 67 bytes). *)

From Verif Require Import Base TextModel.

(** int32 and int64 values: conversion wraps. *)
Definition i32 (x : Z) : Z := (x + 2 ^ 31) mod 2 ^ 32 - 2 ^ 31.
Definition i64 (x : Z) : Z := (x + 2 ^ 63) mod 2 ^ 64 - 2 ^ 63.

(** TSBasic.h:30-40, Abs and Abs64. The subtraction wraps for the least value
    (formally undefined; this is what compilers emit). *)
Definition abs32 (x : Z) : Z := let a := Z.shiftr x 31 in i32 (Z.lxor x a - a).
Definition abs64 (x : Z) : Z := let a := Z.shiftr x 63 in i64 (Z.lxor x a - a).

(** TSText.cpp:477-486, Text::GetTextLength. *)
Fixpoint get_text_length (p : ptr) : out nat :=
  match p with
  | [] => UB
  | c :: p' => if c =? 0 then Ret 0%nat else let! n := get_text_length p' in Ret (S n)
  end.

(** TSText.cpp:609-625, Text::CopyText(source, dest); dest is [b + i]. The source
    is not part of [b] (see [copy_within] for sources inside). *)
Fixpoint copy_text (src : ptr) (b : list Z) (i : nat) : out (list Z) :=
  match src with
  | [] => UB
  | k :: src' =>
      let! b := wr b i k in
      if k =? 0 then Ret b else copy_text src' b (S i)
  end.

(** TSText.cpp:627-644, Text::CopyText(source, dest, max). *)
Fixpoint copy_text_loop (max : nat) (src : ptr) (b : list Z) (i : nat) : out (list Z) :=
  match max with
  | O => wr b i 0
  | S max' =>
      let! k := rd src 0 in
      if k =? 0 then wr b i 0
      else let! b := wr b i k in copy_text_loop max' (skipn 1 src) b (S i)
  end.
Definition copy_text_max (src : ptr) (b : list Z) (i : nat) (max : Z) : out (list Z) :=
  copy_text_loop (Z.to_nat max) src b i.

(** The same function when source is [b + j] inside the destination storage: the
    reads see the writes. *)
Fixpoint copy_within_loop (max : nat) (j : nat) (b : list Z) (i : nat) : out (list Z) :=
  match max with
  | O => wr b i 0
  | S max' =>
      let! k := rd b j in
      if k =? 0 then wr b i 0
      else let! b := wr b i k in copy_within_loop max' (S j) b (S i)
  end.
Definition copy_within (j : nat) (b : list Z) (i : nat) (max : Z) : out (list Z) :=
  copy_within_loop (Z.to_nat max) j b i.

(** TSText.cpp:1166-1180, the do-while loop that fills [char c[cap]]; [c] holds
    the digits stored so far, the last one first. *)
Fixpoint digit_loop (fuel cap : nat) (num : Z) (c : list Z) : out (list Z) :=
  match fuel with
  | O => OutOfFuel
  | S fuel' =>
      if (cap <=? length c)%nat then UB
      else
        let c := (Z.rem num 10 + 48) :: c in
        let num := Z.quot num 10 in
        if num =? 0 then Ret c else digit_loop fuel' cap num c
  end.

(** TSText.cpp:1182-1209: store the characters while [++a < max], then the
    terminator; result: the storage and the returned length. *)
Fixpoint emit (chars : list Z) (b : list Z) (i a : nat) (max : Z) : out (list Z * Z) :=
  match chars with
  | [] => let! b := wr b (i + a) 0 in Ret (b, Z.of_nat a)
  | ch :: r =>
      if Z.of_nat a <? max then let! b := wr b (i + a) ch in emit r b i (S a) max
      else let! b := wr b (i + a) 0 in Ret (b, Z.of_nat a)
  end.

(** TSText.cpp:1166-1210, Text::IntegerToString(num, text, max), text = [b + i]. *)
Definition integer_to_string (num : Z) (b : list Z) (i : nat) (max : Z) : out (list Z * Z) :=
  let negative := num <? 0 in
  let! c := digit_loop 17 16 (Z.land (abs32 num) 0x7FFFFFFF) [] in
  emit (if negative then 45 :: c else c) b i 0 max.

(** TSText.cpp:1212-1256, Text::Integer64ToString. *)
Definition integer64_to_string (num : Z) (b : list Z) (i : nat) (max : Z) : out (list Z * Z) :=
  let negative := num <? 0 in
  let! c := digit_loop 33 32 (Z.land (abs64 num) 0x7FFFFFFFFFFFFFFF) [] in
  emit (if negative then 45 :: c else c) b i 0 max.

(** ** String<len>, TSString.h:161-392. The state is the array c[len + 1]. *)

Section Fixed.
Variable len : nat.

(** String(const String&), String(char pointer), operator=(const char pointer or const
    String&): TSString.h:172-180, 231-241. *)
Definition fix_assign (b : list Z) (s : ptr) : out (list Z) := copy_text_max s b 0 (Z.of_nat len).

(** Assignment of a string to itself, or of its own characters from [j] on. *)
Definition fix_assign_self (b : list Z) (j : nat) : out (list Z) := copy_within j b 0 (Z.of_nat len).

(** String(char pointer, int32) and Set: TSString.h:182-185, 216-220. *)
Definition fix_set (b : list Z) (s : ptr) (length : Z) : out (list Z) :=
  copy_text_max s b 0 (Z.min length (Z.of_nat len)).

(** String(int32), operator=(int32): TSString.h:187-190, 243-247; the uint32
    overloads (192-195, 249-253) convert to int32 first. *)
Definition fix_assign_int (b : list Z) (n : Z) : out (list Z) :=
  let! (b, _) := integer_to_string n b 0 (Z.of_nat len) in Ret b.
Definition fix_assign_uint (b : list Z) (n : Z) : out (list Z) := fix_assign_int b (i32 n).

(** String(int64), operator=(int64): TSString.h:197-200, 255-259. *)
Definition fix_assign_int64 (b : list Z) (n : Z) : out (list Z) :=
  let! (b, _) := integer64_to_string n b 0 (Z.of_nat len) in Ret b.

(** String(char, char, char, char): TSString.h:207-214. *)
Definition fix_four (b : list Z) (c1 c2 c3 c4 : Z) : out (list Z) := wrs b 0 [c1; c2; c3; c4; 0].

(** operator+=(char pointer): TSString.h:267-272, source outside the string. *)
Definition fix_append (b : list Z) (s : ptr) : out (list Z) :=
  let! l := get_text_length b in copy_text_max s b l (Z.of_nat len - Z.of_nat l).

(** operator+=(char pointer) with the string's own characters from [j] on. *)
Definition fix_append_self (b : list Z) (j : nat) : out (list Z) :=
  let! l := get_text_length b in copy_within j b l (Z.of_nat len - Z.of_nat l).

(** operator+=(char): TSString.h:274-284. *)
Definition fix_append_char (b : list Z) (k : Z) : out (list Z) :=
  let! l := get_text_length b in
  if Z.of_nat l <? Z.of_nat len then
    let! b := wr b l k in wr b (S l) 0
  else Ret b.

(** operator+=(int32), (uint32), (int64), (uint64): TSString.h:286-312. *)
Definition fix_append_int (b : list Z) (n : Z) : out (list Z) :=
  let! l := get_text_length b in
  let! (b, _) := integer_to_string n b l (Z.of_nat len - Z.of_nat l) in Ret b.
Definition fix_append_uint (b : list Z) (n : Z) : out (list Z) := fix_append_int b (i32 n).
Definition fix_append_int64 (b : list Z) (n : Z) : out (list Z) :=
  let! l := get_text_length b in
  let! (b, _) := integer64_to_string n b l (Z.of_nat len - Z.of_nat l) in Ret b.
Definition fix_append_uint64 (b : list Z) (n : Z) : out (list Z) := fix_append_int64 b (i64 n).

(** AppendString: TSString.h:385-390. *)
Definition fix_append_string (b : list Z) (s : ptr) (length : Z) : out (list Z) :=
  let! l := get_text_length b in copy_text_max s b l (Z.min (Z.of_nat len - Z.of_nat l) length).

(** operator+(char pointer): TSString.h:314-317; [b0] is the storage of the
    temporary String(c). *)
Definition fix_plus (b0 b : list Z) (s : ptr) : out (list Z) :=
  let! t := fix_assign b0 b in fix_append t s.
End Fixed.

(** One operation and a sequence of operations on a String<len>. *)
From Verif Require Import SpecText.

Definition fix_step (len : nat) (o : str_op) (b : list Z) : out (list Z) :=
  match o with
  | OpAssign p => fix_assign len b p
  | OpSet p n => fix_set len b p n
  | OpInt n => fix_assign_int len b n
  | OpInt64 n => fix_assign_int64 len b n
  | OpAppend p => fix_append len b p
  | OpAppendChar k => fix_append_char len b k
  | OpAppendInt n => fix_append_int len b n
  | OpAppendInt64 n => fix_append_int64 len b n
  | OpAppendString p n => fix_append_string len b p n
  end.

Fixpoint fix_run (len : nat) (ops : list str_op) (b : list Z) : out (list Z) :=
  match ops with
  | [] => Ret b
  | o :: ops' => let! b := fix_step len o b in fix_run len ops' b
  end.
