(** * Model of Code/Terathon/TSBasic.h:28-169 (integer helpers), of
    Text::StaticHash (TSText.h:393-416) and of the hexadecimal and type texts
    (TSString.cpp:858-974).

    Integers are mathematical; a signed result outside its type and a shift by a
    count outside the width are [UB]. Right shifts of negative numbers are
    arithmetic. *)

From Verif Require Import Base TextModel StringModel.

(** A signed result of [w] bits. *)
Definition signed (w : Z) (x : Z) : out Z :=
  if (- 2 ^ (w - 1) <=? x) && (x <? 2 ^ (w - 1)) then Ret x else UB.

(** TSBasic.h:30-40, Abs ([w] = 32) and Abs64 ([w] = 64). *)
Definition abs_c (w x : Z) : out Z := let a := Z.shiftr x (w - 1) in signed w (Z.lxor x a - a).

(** TSBasic.h:43-51, Sgn and Sgn64. *)
Definition sgn_c (w x : Z) : out Z :=
  let! n := signed w (- x) in signed w (Z.shiftr x (w - 1) - Z.shiftr n (w - 1)).

(** TSBasic.h:54-72, Min, Min64, Max, Max64. *)
Definition min_c (x y : Z) : Z := if x <? y then x else y.
Definition max_c (x y : Z) : Z := if y <? x then x else y.

(** TSBasic.h:74-92, MinZero, MinZero64, MaxZero, MaxZero64. *)
Definition min_zero_c (w x : Z) : Z := Z.land x (Z.shiftr x (w - 1)).
Definition max_zero_c (w x : Z) : Z := Z.land x (Z.lnot (Z.shiftr x (w - 1))).

(** TSBasic.h:95-107, IncMod<mod> and DecMod<mod>. *)
Definition inc_mod (m x : Z) : out Z := let! y := signed 32 (x + 1) in Ret (if y <? m then y else 0).
Definition dec_mod (m x : Z) : out Z := let! y := signed 32 (x - 1) in if y <? 0 then signed 32 (m - 1) else Ret y.

(** TSBasic.h:109-112, OverflowZero. *)
Definition overflow_zero (x y : Z) : out Z := let! d := signed 32 (x - y) in Ret (Z.land x (Z.shiftr d 31)).

(** TSBasic.h:115-121, Exchange: the two references are positions of a store, so
    that they may be the same object. *)
Definition exchange (b : list Z) (i j : nat) : out (list Z) :=
  let xor_into b i j := let! x := rd b i in let! y := rd b j in wr b i (Z.lxor x y) in
  let! b := xor_into b i j in let! b := xor_into b j i in xor_into b i j.

(** TSBasic.h:132-151, Cntlz: the bit scan yields the position of the highest bit. *)
Definition cntlz (n : Z) : Z := if n =? 0 then 32 else 31 - Z.log2 n.

(** TSBasic.h:153-156, IntLog2. *)
Definition int_log2 (n : Z) : Z := 31 - cntlz n.

(** TSBasic.h:158-161, Pow2Floor. *)
Definition pow2_floor (n : Z) : out Z :=
  let k := cntlz n in if 31 <? k then UB else Ret (Z.shiftr 0x80000000 k).

(** TSBasic.h:163-166, Pow2Ceil; [1 << 31] is the least int32, converted back. *)
Definition pow2_ceil (n : Z) : out Z :=
  let k := 32 - cntlz (u32 (n - 1)) in if 31 <? k then UB else Ret (u32 (i32 (Z.shiftl 1 k))).

(** TSText.h:393-416, StaticHash: the template arguments of type char, [sc] tells
    whether char is signed on the platform. *)
Definition char_value (sc : bool) (c : Z) : Z := if sc && (128 <=? c) then c - 256 else c.
Definition static_hash (sc : bool) (cs : list Z) : Z :=
  fold_left (fun h c =>
    if c =? 0 then h
    else u32 ((Z.lxor h (u32 (char_value sc c)) * 0x6B84DF47) mod 2 ^ 64 + 1)) cs 0.

(** TSText.cpp:18, hexDigit. *)
Definition hex_digit_table : list Z := [48; 49; 50; 51; 52; 53; 54; 55; 56; 57; 65; 66; 67; 68; 69; 70].

(** TSString.cpp:858-922: the assignments of the four hexadecimal functions; [n]
    digits are still to be written at [b + i]. *)
Fixpoint hex_writes (n : nat) (num : Z) (b : list Z) (i : nat) : out (list Z) :=
  match n with
  | O => wr b i 0
  | S n' =>
      let! d := rd hex_digit_table (Z.to_nat (Z.land (Z.shiftr num (4 * Z.of_nat n')) 15)) in
      let! b := wr b i d in hex_writes n' num b (S i)
  end.
(** TSString.cpp:858-881, 883-898, 900-911, 913-922; [b] is the storage of the
    result, of 32, 16, 8 and 4 bytes. *)
Definition hex_string16 (b : list Z) (num : Z) : out (list Z) := hex_writes 16 num b 0.
Definition hex_string8 (b : list Z) (num : Z) : out (list Z) := hex_writes 8 num b 0.
Definition hex_string4 (b : list Z) (num : Z) : out (list Z) := hex_writes 4 num b 0.
Definition hex_string2 (b : list Z) (num : Z) : out (list Z) := hex_writes 2 num b 0.

(** TSString.cpp:924-953, StringToType. *)
Definition string_to_type (p : ptr) : out Z :=
  let! c := rd p 0 in
  if c =? 0 then Ret 0 else
  let type := u32 (Z.shiftl c 24) in
  let! c := rd p 1 in
  if c =? 0 then Ret type else
  let type := Z.lor type (Z.shiftl c 16) in
  let! c := rd p 2 in
  if c =? 0 then Ret type else
  let type := Z.lor type (Z.shiftl c 8) in
  let! c := rd p 3 in
  if c =? 0 then Ret type else Ret (Z.lor type c).

(** TSString.cpp:955-964, TypeToString; [b] is the storage of the result. *)
Definition byte_of (x : Z) : Z := x mod 256.
Definition type_to_string (b : list Z) (type : Z) : out (list Z) :=
  let c := Z.shiftr type 24 in
  if negb (c =? 0) then
    fix_four b (byte_of c) (byte_of (Z.shiftr type 16)) (byte_of (Z.shiftr type 8)) (byte_of type)
  else fix_four b (byte_of (Z.shiftr type 16)) (byte_of (Z.shiftr type 8)) (byte_of type) 0.

(** TSString.cpp:966-974, TypeToHexCharString; [b8] and [b4] are the storages of the
    two temporaries. *)
Definition type_to_hex_char_string (b b8 b4 : list Z) (type : Z) : out (list Z) :=
  let! s := fix_assign 31 b [48; 120; 0] in
  let! h := hex_string8 b8 type in
  let! s := fix_append 31 s h in
  let! s := fix_append 31 s [32; 39; 0] in
  let! t := type_to_string b4 type in
  let! s := fix_append 31 s t in
  fix_append_char 31 s 39.
