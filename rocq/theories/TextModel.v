(** * Model of the parts of Code/Terathon/TSText.cpp used by the library. *)

From Verif Require Import Base.

(** uint32 arithmetic wraps modulo 2^32. *)
Definition u32 (x : Z) : Z := x mod 4294967296.

(** Code/Terathon/TSText.cpp:21-68, Text::ValidateUnicodeChar.
    [int32 c = int8 text[0]; c >= 0] is "first byte below 128". *)
Definition validate_unicode_char (p : ptr) : out nat :=
  let! byte1 := rd p 0 in
  if byte1 <? 128 then Ret 1%nat
  else if u32 (byte1 - 0xC2) <? 0x33 then
    let! byte2 := rd p 1 in
    if Z.land byte2 0xC0 =? 0x80 then
      if byte1 <? 0xE0 then Ret 2%nat
      else
        let! byte3 := rd p 2 in
        if Z.land byte3 0xC0 =? 0x80 then
          if byte1 <? 0xF0 then
            let x := Z.lor (Z.lor (Z.land (Z.shiftl byte1 12) 0x00F000)
                                  (Z.land (Z.shiftl byte2 6) 0x000FC0))
                           (Z.land byte3 0x00003F) in
            if u32 (x - 0x0800) <? 0xF800 then Ret 3%nat else Ret 0%nat
          else
            let! byte4 := rd p 3 in
            if Z.land byte4 0xC0 =? 0x80 then
              let x := Z.lor (Z.lor (Z.lor (Z.land (Z.shiftl byte1 18) 0x1C0000)
                                           (Z.land (Z.shiftl byte2 12) 0x03F000))
                                    (Z.land (Z.shiftl byte3 6) 0x000FC0))
                             (Z.land byte4 0x00003F) in
              if u32 (x - 0x00010000) <? 0x00100000 then Ret 4%nat else Ret 0%nat
            else Ret 0%nat
        else Ret 0%nat
    else Ret 0%nat
  else Ret 0%nat.

(** Code/Terathon/TSText.cpp:70-122, Text::ReadUnicodeChar.
    Result: (returned length, *code). *)
Definition read_unicode_char (p : ptr) : out (nat * Z) :=
  let bad := Ret (1%nat, 0xFFFD) in
  let! byte1 := rd p 0 in
  if byte1 <? 128 then Ret (1%nat, byte1)
  else if u32 (byte1 - 0xC2) <? 0x33 then
    let! byte2 := rd p 1 in
    if Z.land byte2 0xC0 =? 0x80 then
      if byte1 <? 0xE0 then
        Ret (2%nat, Z.lor (Z.land (Z.shiftl byte1 6) 0x0007C0) (Z.land byte2 0x00003F))
      else
        let! byte3 := rd p 2 in
        if Z.land byte3 0xC0 =? 0x80 then
          if byte1 <? 0xF0 then
            let x := Z.lor (Z.lor (Z.land (Z.shiftl byte1 12) 0x00F000)
                                  (Z.land (Z.shiftl byte2 6) 0x000FC0))
                           (Z.land byte3 0x00003F) in
            if u32 (x - 0x0800) <? 0xF800 then Ret (3%nat, x) else bad
          else
            let! byte4 := rd p 3 in
            if Z.land byte4 0xC0 =? 0x80 then
              let x := Z.lor (Z.lor (Z.lor (Z.land (Z.shiftl byte1 18) 0x1C0000)
                                           (Z.land (Z.shiftl byte2 12) 0x03F000))
                                    (Z.land (Z.shiftl byte3 6) 0x000FC0))
                             (Z.land byte4 0x00003F) in
              if u32 (x - 0x00010000) <? 0x00100000 then Ret (4%nat, x) else bad
            else bad
        else bad
    else bad
  else bad.

(** Code/Terathon/TSText.cpp:124-157, Text::WriteUnicodeChar.
    The bytes written, in order; the returned length is their number. *)
Definition write_unicode_char (code : Z) : list Z :=
  if code <=? 0x00007F then [code]
  else if code <=? 0x0007FF then
    [Z.lor (Z.land (Z.shiftr code 6) 0x1F) 0xC0;
     Z.lor (Z.land code 0x3F) 0x80]
  else if code <=? 0x00FFFF then
    [Z.lor (Z.land (Z.shiftr code 12) 0x0F) 0xE0;
     Z.lor (Z.land (Z.shiftr code 6) 0x3F) 0x80;
     Z.lor (Z.land code 0x3F) 0x80]
  else if code <=? 0x10FFFF then
    [Z.lor (Z.land (Z.shiftr code 18) 0x07) 0xF0;
     Z.lor (Z.land (Z.shiftr code 12) 0x3F) 0x80;
     Z.lor (Z.land (Z.shiftr code 6) 0x3F) 0x80;
     Z.lor (Z.land code 0x3F) 0x80]
  else [].

(** Code/Terathon/TSText.cpp:159-182, Text::GetUnicodeCharByteCount. *)
Definition get_unicode_char_byte_count (code : Z) : nat :=
  if code <=? 0x00007F then 1%nat
  else if code <=? 0x0007FF then 2%nat
  else if code <=? 0x00FFFF then 3%nat
  else if code <=? 0x10FFFF then 4%nat
  else 0%nat.

(** Code/Terathon/TSText.cpp:760-772, Text::CompareTextLessThan, on the contents
    of two terminated strings (the terminator is the 0 read at the end). *)
Fixpoint text_lt (s1 s2 : list Z) : bool :=
  match s1, s2 with
  | [], [] => false
  | [], y :: _ => 0 <? y
  | x :: _, [] => x <? 0
  | x :: s1', y :: s2' =>
      if negb (x =? y) || (x =? 0) then x <? y else text_lt s1' s2'
  end.

(** Code/Terathon/TSText.cpp:646-665, Text::CompareText, on pointers. *)
Fixpoint compare_text (s1 s2 : ptr) : out bool :=
  match s1, s2 with
  | x :: s1', y :: s2' =>
      if negb (x =? y) then Ret false
      else if x =? 0 then Ret true
      else compare_text s1' s2'
  | _, _ => UB
  end.

(** Code/Terathon/TSText.cpp:760-772, Text::CompareTextLessThan, on pointers. *)
Fixpoint compare_text_less_than (s1 s2 : ptr) : out bool :=
  match s1, s2 with
  | x :: s1', y :: s2' =>
      if negb (x =? y) || (x =? 0) then Ret (x <? y)
      else compare_text_less_than s1' s2'
  | _, _ => UB
  end.

(** Code/Terathon/TSText.cpp:850-862, Text::CompareTextLessEqual, on pointers. *)
Fixpoint compare_text_less_equal (s1 s2 : ptr) : out bool :=
  match s1, s2 with
  | x :: s1', y :: s2' =>
      if negb (x =? y) || (x =? 0) then Ret (x <=? y)
      else compare_text_less_equal s1' s2'
  | _, _ => UB
  end.
