(** * Model of the UTF-16 conversions and of the character counts,
    Code/Terathon/TSText.cpp:184-475. *)

From Verif Require Import Base TextModel.

(** Conversion to uint16. *)
Definition u16 (x : Z) : Z := x mod 65536.

(** TSText.cpp:427-444, GetWideTextCharCount; [fuel] bounds the rounds. *)
Fixpoint wide_text_char_count (fuel : nat) (p : ptr) : out nat :=
  match fuel with
  | O => OutOfFuel
  | S fuel' =>
      let! (n, code) := read_unicode_char p in
      if code =? 0 then Ret O
      else let! k := wide_text_char_count fuel' (skipn n p) in
           Ret ((if (0x10000 <=? code)%Z then 2 else 1) + k)%nat
  end.

(** TSText.cpp:446-475, ConvertStringToWideText: [dst] is the storage behind
    wideText, [i] the position reached. *)
Fixpoint string_to_wide (fuel : nat) (p : ptr) (dst : list Z) (i : nat) (max : Z) : out (list Z) :=
  match fuel with
  | O => OutOfFuel
  | S fuel' =>
      if 0 <? max then
        let! (n, code) := read_unicode_char p in
        let p := skipn n p in
        if code =? 0 then wr dst i 0
        else if code <? 0x10000 then
          let! dst := wr dst i (u16 code) in string_to_wide fuel' p dst (S i) (max - 1)
        else
          let code := u32 (code - 0x10000) in
          let! dst := wr dst i (u16 (Z.shiftr code 10 + 0xD800)) in
          let! dst := wr dst (S i) (u16 (Z.land code 0x03FF + 0xDC00)) in
          string_to_wide fuel' p dst (S (S i)) (max - 2)
      else wr dst i 0
  end.

(** TSText.cpp:331-374, GetUnicodeStringLength: [w] is the uint16 array from the
    pointer on. *)
Fixpoint unicode_string_length (w : list Z) : out nat :=
  match w with
  | [] => UB
  | code :: w' =>
      if code =? 0 then Ret O
      else
        let p1 := u32 (code - 0xD800) in
        if p1 <? 0x0800 then
          if 0x0400 <=? p1 then unicode_string_length w'
          else match w' with
               | [] => UB
               | c2 :: w'' =>
                   let p2 := u32 (c2 - 0xDC00) in
                   if p2 <? 0x0400 then
                     let! k := unicode_string_length w'' in
                     Ret (get_unicode_char_byte_count (Z.lor (Z.shiftl p1 10) p2 + 0x10000)%Z + k)%nat
                   else unicode_string_length w'
               end
        else let! k := unicode_string_length w' in Ret (get_unicode_char_byte_count code + k)%nat
  end.

(** TSText.cpp:376-425, ConvertWideTextToString. *)
Fixpoint wide_to_string (w : list Z) (dst : list Z) (i : nat) (max : Z) : out (list Z) :=
  match w with
  | [] => UB
  | code :: w' =>
      if code =? 0 then wr dst i 0
      else
        let p1 := u32 (code - 0xD800) in
        if p1 <? 0x0800 then
          if 0x0400 <=? p1 then wide_to_string w' dst i max
          else match w' with
               | [] => UB
               | c2 :: w'' =>
                   let p2 := u32 (c2 - 0xDC00) in
                   if p2 <? 0x0400 then
                     let code := Z.lor (Z.shiftl p1 10) p2 + 0x10000 in
                     let n := get_unicode_char_byte_count code in
                     if max <? Z.of_nat n then wr dst i 0
                     else let s := write_unicode_char code in
                          let! dst := wrs dst i s in
                          wide_to_string w'' dst (i + length s) (max - Z.of_nat n)
                   else wide_to_string w' dst i max
               end
        else
          let n := get_unicode_char_byte_count code in
          if max <? Z.of_nat n then wr dst i 0
          else let s := write_unicode_char code in
               let! dst := wrs dst i s in
               wide_to_string w' dst (i + length s) (max - Z.of_nat n)
  end.

(** TSText.cpp:195-212, the step of GetUnicodeCharCount by the first byte. *)
Definition char_step (c : Z) : nat :=
  if (c <? 0xC0) || (0xF8 <=? c) then 1%nat
  else if c <? 0xE0 then 2%nat
  else if c <? 0xF0 then 3%nat
  else 4%nat.

(** TSText.cpp:184-214, GetUnicodeCharCount(text). Moving the pointer further than
    one past the end of the array is already UB in C++; here the following read is. *)
Fixpoint unicode_char_count (fuel : nat) (p : ptr) : out nat :=
  match fuel with
  | O => OutOfFuel
  | S fuel' =>
      let! c := rd p 0 in
      if c =? 0 then Ret O
      else let! k := unicode_char_count fuel' (skipn (char_step c) p) in Ret (S k)
  end.

(** TSText.cpp:216-247, GetUnicodeCharCount(text, max). *)
Fixpoint unicode_char_count_max (fuel : nat) (p : ptr) (max : Z) : out nat :=
  match fuel with
  | O => OutOfFuel
  | S fuel' =>
      if 0 <? max then
        let! c := rd p 0 in
        if c =? 0 then Ret O
        else let! k := unicode_char_count_max fuel' (skipn (char_step c) p) (max - Z.of_nat (char_step c)) in Ret (S k)
      else Ret O
  end.

(** TSText.cpp:293-329, GetUnicodeCharStringByteCount(text, charCount): the same steps. *)
Fixpoint unicode_string_byte_count (n : nat) (p : ptr) : out nat :=
  match n with
  | O => Ret O
  | S n' =>
      let! c := rd p 0 in
      if c =? 0 then Ret O
      else let! k := unicode_string_byte_count n' (skipn (char_step c) p) in Ret (char_step c + k)%nat
  end.

(** TSText.cpp:265-291, GetNextUnicodeCharByteCount(text, max). *)
Definition next_char_byte_count (p : ptr) (max : Z) : out Z :=
  let! c := rd p 0 in Ret (Z.min max (Z.of_nat (char_step c))).

(** TSText.cpp:249-263, GetPreviousUnicodeCharByteCount(text, max): [before] is the
    text before the pointer, nearest byte first. *)
Fixpoint previous_char_byte_count (before : list Z) (max : nat) : out nat :=
  match max with
  | O => Ret O
  | S max' =>
      match before with
      | [] => UB
      | c :: before' =>
          if 0x40 <=? u32 (c - 0x80) then Ret 1%nat
          else let! k := previous_char_byte_count before' max' in Ret (S k)
      end
  end.
