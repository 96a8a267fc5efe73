(** * Model of the remaining Text functions, Code/Terathon/TSText.cpp:488-607,
    667-1164 and 1451-1676: searching, comparing, reading tokens, path lengths.

    Texts are [ptr] (bytes from the pointer to the end of the array). Positions are
    unbounded integers: texts are shorter than 2^31 bytes. *)

From Verif Require Import Base TextModel StringModel.

(** [--max] on an int32: overflow below is UB. *)
Definition dec (max : Z) : out Z := if max <=? - 2 ^ 31 then UB else Ret (max - 1).

(** The number of rounds of [while (--max >= 0)]. *)
Definition max_rounds (max : Z) : out nat :=
  let! _ := dec max in Ret (Z.to_nat max).

(** TSText.cpp:488-506, Hash; [h] is the hash so far. *)
Fixpoint hash_text (p : ptr) (h : Z) : out Z :=
  match p with
  | [] => UB
  | c :: p' => if c =? 0 then Ret h else hash_text p' (u32 (u32 (Z.lxor h c * 0x6B84DF47) + 1))
  end.

(** TSText.cpp:508-528, FindChar(text, k); [i] is text - start. *)
Fixpoint find_char (p : ptr) (k i : Z) : out Z :=
  match p with
  | [] => UB
  | c :: p' =>
      if c =? 0 then Ret (-1)
      else if c =? k then Ret i
      else find_char p' k (i + 1)
  end.

(** TSText.cpp:530-550, FindChar(text, k, max). *)
Fixpoint find_char_loop (n : nat) (p : ptr) (k i : Z) : out Z :=
  match n with
  | O => Ret (-1)
  | S n' =>
      match p with
      | [] => UB
      | c :: p' =>
          if c =? 0 then Ret (-1)
          else if c =? k then Ret i
          else find_char_loop n' p' k (i + 1)
      end
  end.
Definition find_char_max (p : ptr) (k max : Z) : out Z :=
  let! n := max_rounds max in find_char_loop n p k 0.

(** TSText.cpp:552-588, FindUnquotedChar. *)
Fixpoint find_unquoted_char (p : ptr) (k : Z) (quote backslash : bool) (i : Z) : out Z :=
  match p with
  | [] => UB
  | c :: p' =>
      if c =? 0 then Ret (-1)
      else
        let quote := if c =? 34 then (if negb quote then true else if negb backslash then false else quote) else quote in
        if (c =? k) && negb quote then Ret i
        else find_unquoted_char p' k quote ((c =? 92) && negb backslash) (i + 1)
  end.

(** TSText.cpp:590-607, CountChars; the loop is [while (max > 0)], so no underflow. *)
Fixpoint count_chars_loop (n : nat) (p : ptr) (k count : Z) : out Z :=
  match n with
  | O => Ret count
  | S n' =>
      match p with
      | [] => UB
      | c :: p' =>
          if c =? 0 then Ret count
          else count_chars_loop n' p' k (count + (if c =? k then 1 else 0))
      end
  end.
Definition count_chars (p : ptr) (k max : Z) : out Z := count_chars_loop (Z.to_nat max) p k 0.

(** TSText.cpp:700-708, 736-744: letters to lower case. *)
Definition fold_lower (x : Z) : Z := if u32 (x - 65) <? 26 then u32 (x + 32) else x.
(** TSText.cpp:802-810 and the other order functions: letters to upper case. *)
Definition fold_upper (x : Z) : Z := if u32 (x - 97) <? 26 then u32 (x - 32) else x.
Definition no_fold (x : Z) : Z := x.

(** The loop of the CompareText functions with the bound [n] (TSText.cpp:669-690,
    726-757); [f] is what is done to both characters. *)
Fixpoint equal_loop (f : Z -> Z) (n : nat) (s1 s2 : ptr) : out bool :=
  match n with
  | O => Ret true
  | S n' =>
      match s1, s2 with
      | x :: s1', y :: s2' =>
          let x := f x in let y := f y in
          if negb (x =? y) then Ret false
          else if x =? 0 then Ret true
          else equal_loop f n' s1' s2'
      | _, _ => UB
      end
  end.

(** The same loop without a bound (TSText.cpp:695-721). *)
Fixpoint equal_all (f : Z -> Z) (s1 s2 : ptr) : out bool :=
  match s1, s2 with
  | x :: s1', y :: s2' =>
      let x := f x in let y := f y in
      if negb (x =? y) then Ret false
      else if x =? 0 then Ret true
      else equal_all f s1' s2'
  | _, _ => UB
  end.

(** The loop of the order functions with a bound (TSText.cpp:776-792, 821-847,
    866-882, 911-937): [op] compares the characters, [dflt] is returned when the
    bound is reached. *)
Fixpoint order_loop (f : Z -> Z) (op : Z -> Z -> bool) (dflt : bool) (n : nat) (s1 s2 : ptr) : out bool :=
  match n with
  | O => Ret dflt
  | S n' =>
      match s1, s2 with
      | x :: s1', y :: s2' =>
          let x := f x in let y := f y in
          if negb (x =? y) || (x =? 0) then Ret (op x y)
          else order_loop f op dflt n' s1' s2'
      | _, _ => UB
      end
  end.

(** The same without a bound (TSText.cpp:797-816, 887-906). *)
Fixpoint order_all (f : Z -> Z) (op : Z -> Z -> bool) (s1 s2 : ptr) : out bool :=
  match s1, s2 with
  | x :: s1', y :: s2' =>
      let x := f x in let y := f y in
      if negb (x =? y) || (x =? 0) then Ret (op x y)
      else order_all f op s1' s2'
  | _, _ => UB
  end.

(** TSText.cpp:667-691, CompareText(s1, s2, max). *)
Definition compare_text_max (s1 s2 : ptr) (max : Z) : out bool :=
  let! n := max_rounds max in equal_loop no_fold n s1 s2.
(** TSText.cpp:693-722, CompareTextCaseless(s1, s2). *)
Definition compare_text_caseless (s1 s2 : ptr) : out bool := equal_all fold_lower s1 s2.
(** TSText.cpp:724-758, CompareTextCaseless(s1, s2, max). *)
Definition compare_text_caseless_max (s1 s2 : ptr) (max : Z) : out bool :=
  let! n := max_rounds max in equal_loop fold_lower n s1 s2.
(** TSText.cpp:774-793, CompareTextLessThan(s1, s2, max). *)
Definition less_than_max (s1 s2 : ptr) (max : Z) : out bool :=
  let! n := max_rounds max in order_loop no_fold Z.ltb false n s1 s2.
(** TSText.cpp:795-817, CompareTextLessThanCaseless(s1, s2). *)
Definition less_than_caseless (s1 s2 : ptr) : out bool := order_all fold_upper Z.ltb s1 s2.
(** TSText.cpp:819-848, CompareTextLessThanCaseless(s1, s2, max). *)
Definition less_than_caseless_max (s1 s2 : ptr) (max : Z) : out bool :=
  let! n := max_rounds max in order_loop fold_upper Z.ltb false n s1 s2.
(** TSText.cpp:864-883, CompareTextLessEqual(s1, s2, max). *)
Definition less_equal_max (s1 s2 : ptr) (max : Z) : out bool :=
  let! n := max_rounds max in order_loop no_fold Z.leb true n s1 s2.
(** TSText.cpp:885-907, CompareTextLessEqualCaseless(s1, s2). *)
Definition less_equal_caseless (s1 s2 : ptr) : out bool := order_all fold_upper Z.leb s1 s2.
(** TSText.cpp:909-938, CompareTextLessEqualCaseless(s1, s2, max). *)
Definition less_equal_caseless_max (s1 s2 : ptr) (max : Z) : out bool :=
  let! n := max_rounds max in order_loop fold_upper Z.leb true n s1 s2.

(** TSText.cpp:955-966 and 968-979: read the further digits of a number; result:
    number, digit count, the rest of the text. *)
Fixpoint read_digits (p : ptr) (num count : Z) : out (Z * Z * ptr) :=
  match p with
  | [] => UB
  | c :: p' =>
      let x := u32 (c - 48) in
      if 10 <=? x then Ret (num, count, p)
      else read_digits p' (u32 (u32 (num * 10) + x)) (count + 1)
  end.

(** TSText.cpp:940-998, CompareNumberedTextLessThan ([f] = [no_fold]), and
    1000-1068, CompareNumberedTextLessThanCaseless ([f] = [fold_upper]). The digit
    counts are not wrapped (texts shorter than 2^31). *)
Fixpoint numbered_loop (f : Z -> Z) (fuel : nat) (s1 s2 : ptr) : out bool :=
  match fuel with
  | O => OutOfFuel
  | S fuel' =>
      match s1, s2 with
      | x :: s1, y :: s2 =>
          let xnum := u32 (x - 48) in
          let ynum := u32 (y - 48) in
          if (xnum <? 10) && (ynum <? 10) then
            let! (xnum, xcount, s1) := read_digits s1 xnum 1 in
            let! (ynum, ycount, s2) := read_digits s2 ynum 1 in
            if negb (xnum =? ynum) then Ret (xnum <? ynum)
            else if xcount <? ycount then Ret true
            else numbered_loop f fuel' s1 s2
          else
            let x := f x in let y := f y in
            if negb (x =? y) || (x =? 0) then Ret (x <? y)
            else numbered_loop f fuel' s1 s2
      | _, _ => UB
      end
  end.
Definition numbered_less_than (s1 s2 : ptr) : out bool := numbered_loop no_fold (S (length s1)) s1 s2.
Definition numbered_less_than_caseless (s1 s2 : ptr) : out bool := numbered_loop fold_upper (S (length s1)) s1 s2.

(** TSText.cpp:1088-1106 and 1131-1159, the inner loop: [s4] is s2 from its second
    byte, [s3] the text behind the first match. *)
Inductive tail_result := Found | Exhausted | Mismatch.
Fixpoint tail_match (f : Z -> Z) (s4 s3 : ptr) : out tail_result :=
  match s4 with
  | [] => UB
  | x :: s4' =>
      if x =? 0 then Ret Found
      else match s3 with
           | [] => UB
           | y :: s3' =>
               if y =? 0 then Ret Exhausted
               else if negb (f x =? f y) then Ret Mismatch
               else tail_match f s4' s3'
           end
  end.

(** TSText.cpp:1075-1110 and 1118-1163, the outer loop; [i] is s1 - start. *)
Fixpoint find_text_loop (f : Z -> Z) (s1 : ptr) (first : Z) (s4 : ptr) (i : Z) : out Z :=
  match s1 with
  | [] => UB
  | c :: s1' =>
      if c =? 0 then Ret (-1)
      else if c =? first then
        let! r := tail_match f s4 s1' in
        match r with
        | Found => Ret i
        | Exhausted => Ret (-1)
        | Mismatch => find_text_loop f s1' first s4 (i + 1)
        end
      else find_text_loop f s1' first s4 (i + 1)
  end.

(** TSText.cpp:1070-1111, FindText. *)
Definition find_text (s1 s2 : ptr) : out Z :=
  let! first := rd s2 0 in find_text_loop no_fold s1 first (skipn 1 s2) 0.
(** TSText.cpp:1113-1164, FindTextCaseless. *)
Definition find_text_caseless (s1 s2 : ptr) : out Z :=
  let! first := rd s2 0 in find_text_loop fold_upper s1 first (skipn 1 s2) 0.

(** TSText.cpp:1454-1466, the loop of GetResourceNameLength; [n] is a + 1. *)
Fixpoint resource_loop (p : ptr) (len n : nat) : out nat :=
  match n with
  | O => Ret len
  | S a =>
      let! c := rd p a in
      if c =? 46 then Ret a
      else if c =? 47 then Ret len
      else resource_loop p len a
  end.
(** TSText.cpp:1451-1469, GetResourceNameLength. *)
Definition resource_name_length (p : ptr) : out nat :=
  let! len := get_text_length p in resource_loop p len len.

(** TSText.cpp:1471-1486, GetDirectoryPathLength: [&text[len]] is [skipn len p]. *)
Fixpoint directory_loop (fuel : nat) (p : ptr) (len : Z) : out Z :=
  match fuel with
  | O => OutOfFuel
  | S fuel' =>
      let! x := find_char (skipn (Z.to_nat len) p) 47 0 in
      if x =? -1 then Ret len else directory_loop fuel' p (len + (x + 1))
  end.
Definition directory_path_length (p : ptr) : out Z := directory_loop (S (length p)) p 0.

(** TSText.cpp:1502-1515, the digits of ReadInteger: [b] is the storage of number,
    [i] the position to write, [k] the length read so far. *)
Fixpoint read_integer_loop (n : nat) (p : ptr) (b : list Z) (i : nat) : out (list Z * nat) :=
  match n with
  | O => let! b := wr b i 0 in Ret (b, i)
  | S n' =>
      let! c := rd p 0 in
      if 10 <=? u32 (c - 48) then let! b := wr b i 0 in Ret (b, i)
      else let! b := wr b i c in read_integer_loop n' (skipn 1 p) b (S i)
  end.
(** TSText.cpp:1488-1516, ReadInteger. Text and number advance together, so the
    result text - start is the number of bytes written before the terminator. *)
Definition read_integer (p : ptr) (b : list Z) (max : Z) : out (list Z * nat) :=
  let! c := rd p 0 in
  if c =? 45 then
    let! max := dec max in
    let! n := max_rounds max in
    if 0 <=? max then let! b := wr b 0 c in read_integer_loop n (skipn 1 p) b 1
    else read_integer_loop n p b 0
  else
    let! n := max_rounds max in read_integer_loop n p b 0.

(** TSText.cpp:1536-1574, the loop of ReadFloat. *)
Fixpoint read_float_loop (n : nat) (p : ptr) (decimal exponent expneg : bool) (b : list Z) (i : nat) : out (list Z * nat) :=
  let stop := let! b := wr b i 0 in Ret (b, i) in
  match n with
  | O => stop
  | S n' =>
      let! c := rd p 0 in
      let go d e x := let! b := wr b i c in read_float_loop n' (skipn 1 p) d e x b (S i) in
      if c =? 46 then if decimal then stop else go true exponent expneg
      else if (c =? 101) || (c =? 69) then if exponent then stop else go decimal true false
      else if (c =? 45) && expneg then stop
      else if 10 <=? u32 (c - 48) then stop
      else go decimal exponent true
  end.
(** TSText.cpp:1518-1578, ReadFloat. *)
Definition read_float (p : ptr) (b : list Z) (max : Z) : out (list Z * nat) :=
  let! c := rd p 0 in
  if c =? 45 then
    let! max := dec max in
    let! n := max_rounds max in
    if 0 <=? max then let! b := wr b 0 c in read_float_loop n (skipn 1 p) false false true b 1
    else read_float_loop n p false false true b 0
  else
    let! n := max_rounds max in read_float_loop n p false false true b 0.

(** TSText.cpp:1589-1613, ReadString, quoted: [k] is text - start, [i] the number of
    bytes written. *)
Fixpoint read_quoted_loop (n : nat) (p : ptr) (backslash : bool) (b : list Z) (i k : nat) : out (list Z * nat) :=
  let stop k := let! b := wr b i 0 in Ret (b, k) in
  match n with
  | O => stop k
  | S n' =>
      let! c := rd p 0 in
      if c =? 0 then stop k
      else
        if negb (c =? 92) || backslash then
          if (c =? 34) && negb backslash then stop (S k)
          else let! b := wr b i c in read_quoted_loop n' (skipn 1 p) false b (S i) (S k)
        else read_quoted_loop n' (skipn 1 p) true b i (S k)
  end.
(** TSText.cpp:1617-1627, ReadString, not quoted. *)
Fixpoint read_plain_loop (n : nat) (p : ptr) (b : list Z) (i : nat) : out (list Z * nat) :=
  let stop := let! b := wr b i 0 in Ret (b, i) in
  match n with
  | O => stop
  | S n' =>
      let! c := rd p 0 in
      let go := let! b := wr b i c in read_plain_loop n' (skipn 1 p) b (S i) in
      if (c =? 0) || (c <? 33) then stop
      else if c =? 47 then let! d := rd p 1 in if d =? 47 then stop else go
      else go
  end.
(** TSText.cpp:1580-1632, ReadString. *)
Definition read_string (p : ptr) (b : list Z) (max : Z) : out (list Z * nat) :=
  let! c := rd p 0 in
  let! n := max_rounds max in
  if c =? 34 then read_quoted_loop n (skipn 1 p) false b 0 1
  else read_plain_loop n p b 0.

(** TSText.cpp:1644-1668, the loop of ReadType. *)
Fixpoint read_type_loop (p : ptr) (backslash : bool) (value : Z) (k : nat) : out (Z * nat) :=
  match p with
  | [] => UB
  | c :: p' =>
      if c =? 0 then Ret (value, k)
      else
        if negb (c =? 92) || backslash then
          if (c =? 39) && negb backslash then Ret (value, S k)
          else read_type_loop p' false (Z.lor (u32 (Z.shiftl value 8)) c) (S k)
        else read_type_loop p' true value (S k)
  end.
(** TSText.cpp:1634-1676, ReadType: the value stored in *type and the result. *)
Definition read_type (p : ptr) : out (Z * nat) :=
  let! c := rd p 0 in
  if c =? 39 then read_type_loop (skipn 1 p) false 0 1 else Ret (0, 0%nat).
