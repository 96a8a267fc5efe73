(** * Model of Text::FloatToString, Code/Terathon/TSText.cpp:1258-1449, and of the
    String constructors and assignments from float.

    A float is its bit pattern, a number below 2^32. Where the code uses Log, Floor
    and Exp (TSText.cpp:1323-1325) the model takes the two results, the bits of the
    scaled number and the power, from an arbitrary function [scale] of the bits of
    the absolute value; MathModel.v gives the one of the code, [real_scale]. [strict]: the rules for [<<] on signed numbers before C++20,
    which leave a result beyond 2^32 undefined; otherwise it is cut to 32 bits. *)

From Verif Require Import Base TextModel StringModel SpecText DynModel.

(** TSText.cpp:1266-1267, 1285: the fields. [>>] is arithmetic. *)
Definition exponent_field (binary : Z) : Z := Z.land (Z.shiftr binary 23) 0xFF.
Definition mantissa_field (binary : Z) : Z := Z.land binary 0x007FFFFF.

(** Fabs (TSMath.h:34-48) clears the sign bit. *)
Definition fabs_bits (bits : Z) : Z := Z.land bits 0x7FFFFFFF.

(** [x < y] for two floats that are not negative and not NaN, compared as integers
    multiples of 2^-149. *)
Definition units (bits : Z) : Z :=
  let e := exponent_field bits in
  if e =? 0 then mantissa_field bits else (0x00800000 + mantissa_field bits) * 2 ^ (e - 1).
Definition float_lt (x y : Z) : bool := units x <? units y.

(** The constants 1.0e-4F and 1.0e5F of TSText.cpp:1321. *)
Definition c_small : Z := 0x38D1B717.
Definition c_large : Z := 0x47C35000.

(** Shifts of int32 values. *)
Definition shr (x k : Z) : out Z := if (k <? 0) || (31 <? k) then UB else Ret (Z.shiftr x k).
Definition shl (strict : bool) (x k : Z) : out Z :=
  if (k <? 0) || (31 <? k) then UB
  else if strict && (2 ^ 32 <=? x * 2 ^ k) then UB else Ret (i32 (x * 2 ^ k)).

(** [text[len - k]] *)
Definition rd_back (b : list Z) (len k : nat) : out Z := if (len <? k)%nat then UB else rd b (len - k).

(** TSText.cpp:1382-1408, the digits of the fraction; [n] is 7 - a. *)
Fixpoint fraction_loop (n : nat) (mantissa zeros nines : Z) (b : list Z) (len : nat) (max : Z) : out (list Z * nat) :=
  match n with
  | O => Ret (b, len)
  | S n' =>
      if negb (Z.of_nat len <? max) then Ret (b, len)
      else
        let mantissa := mantissa * 10 in
        let c := Z.shiftr mantissa 23 + 48 in
        let! b := wr b len c in
        let len := S len in
        let zeros := if c =? 48 then zeros + 1 else zeros in
        let nines := if c =? 57 then nines + 1 else nines in
        if (c =? 48) && (4 <=? zeros) && (n <=? 3)%nat then Ret (b, len)
        else if (c =? 57) && (4 <=? nines) && (n <=? 3)%nat then Ret (b, len)
        else
          let mantissa := Z.land mantissa 0x007FFFFF in
          if mantissa <? 2 then Ret (b, len) else fraction_loop n' mantissa zeros nines b len max
  end.

(** TSText.cpp:1412-1425: [n] is a + 1. *)
Fixpoint carry_loop (n : nat) (b : list Z) (len : nat) : out (list Z * nat) :=
  match n with
  | O => UB
  | S a =>
      let! c := rd b a in
      if c =? 57 then carry_loop a b len
      else if c =? 46 then Ret (b, len)
      else let! b := wr b a (c + 1) in Ret (b, S a)
  end.

(** TSText.cpp:1429-1432. *)
Fixpoint zero_loop (len : nat) (b : list Z) : out nat :=
  match len with
  | O => UB
  | S k => let! c := rd b k in if c =? 48 then zero_loop k b else Ret len
  end.

(** TSText.cpp:1410-1438. *)
Definition tidy (b : list Z) (len : nat) : out (list Z * nat) :=
  let! x := rd_back b len 1 in
  let! y := (if x =? 57 then rd_back b len 2 else Ret 0) in
  if y =? 57 then
    if (len <? 2)%nat then UB else carry_loop (len - 2) b len
  else
    let! len := zero_loop len b in
    let! x := rd_back b len 1 in
    if x =? 46 then let! b := wr b len 48 in Ret (b, S len) else Ret (b, len).

(** TSText.cpp:1446-1448. *)
Definition finish (b : list Z) (len : nat) : out (list Z * Z) :=
  let! b := wr b len 0 in Ret (b, Z.of_nat len).

(** TSText.cpp:1382-1448, from the loop on. *)
Definition rest_of_number (mantissa power : Z) (b : list Z) (len : nat) (max : Z) : out (list Z * Z) :=
  let! (b, len) := fraction_loop 7 mantissa 0 0 b len max in
  let! (b, len) := tidy b len in
  if negb (power =? 0) && (Z.of_nat len <? max) then
    let! b := wr b len 101 in
    integer_to_string power b (S len) (max - Z.of_nat (S len))
  else finish b len.

(** TSText.cpp:1332-1448: the number (-1)^neg * mantissa * 2^(exponent - 150) after
    scaling, times 10^power. *)
Definition print_number (strict neg : bool) (exponent mantissa power : Z) (b : list Z) (max : Z) : out (list Z * Z) :=
  let exponent := exponent - 0x7F in
  let mantissa := Z.lor mantissa 0x00800000 in
  let! (b, len) := (if neg then let! b := wr b 0 45 in Ret (b, 1%nat) else Ret (b, 0%nat)) in
  if 0 <=? exponent then
    let! whole := shr mantissa (23 - exponent) in
    let! m := shl strict mantissa exponent in
    let mantissa := Z.land m 0x007FFFFF in
    let! (b, l) := integer_to_string whole b len (max - Z.of_nat len) in
    let len := (len + Z.to_nat l)%nat in
    let! (b, len) := (if Z.of_nat len <? max then let! b := wr b len 46 in Ret (b, S len) else Ret (b, len)) in
    if Z.of_nat len =? max then finish b len else rest_of_number mantissa power b len max
  else if Z.of_nat len + 2 <=? max then
    let! b := wr b len 48 in
    let! b := wr b (S len) 46 in
    let len := S (S len) in
    if Z.of_nat len =? max then finish b len
    else let! mantissa := shr mantissa (- exponent) in rest_of_number mantissa power b len max
  else
    let! (b, len) := (if Z.of_nat len <? max then let! b := wr b len 48 in Ret (b, S len) else Ret (b, len)) in
    finish b len.

(** TSText.cpp:1258-1449, FloatToString; the text is the storage [b]. *)
Definition float_to_string (strict : bool) (scale : Z -> Z * Z) (bits : Z) (b : list Z) (max : Z) : out (list Z * Z) :=
  if max <? 1 then let! b := wr b 0 0 in Ret (b, 0)
  else
    let binary := i32 bits in
    let exponent := exponent_field binary in
    let mantissa := mantissa_field binary in
    let neg := binary <? 0 in
    if exponent =? 0 then
      if 3 <=? max then let! b := wrs b 0 [48; 46; 48; 0] in Ret (b, 3)
      else let! b := wrs b 0 [48; 0] in Ret (b, 1)
    else if exponent =? 0xFF then
      if 4 <=? max then
        let word := if mantissa =? 0 then [73; 78; 70; 0] else [78; 65; 78; 0] in
        let! b := wrs b 0 (if neg then 45 :: word else word) in Ret (b, 3 + (if neg then 1 else 0))
      else let! b := wr b 0 0 in Ret (b, 0)
    else
      let absolute := fabs_bits bits in
      if float_lt absolute c_small || negb (float_lt absolute c_large) then
        let (absolute, power) := scale absolute in
        let binary := i32 absolute in
        print_number strict neg (exponent_field binary) (mantissa_field binary) power b max
      else print_number strict neg exponent mantissa 0 b max.

(** TSString.h:202-205, 262-266: String<len> from float. *)
Definition fix_assign_float (len : nat) strict scale (b : list Z) (bits : Z) : out (list Z) :=
  let! (b, _) := float_to_string strict scale bits b (Z.of_nat len) in Ret b.

(** TSString.cpp:210-215, String<0>(float); [g] gives the contents of new storage. *)
Definition new_float (g : Z -> list Z) strict scale (bits : Z) : out dyn :=
  let! (b, l) := float_to_string strict scale bits (g 64) 63 in Ret (Dyn (l + 1) 64 (Some b) local_init).

(** TSString.cpp:431-436, String<0>::operator=(float). *)
Definition dyn_assign_float (g : Z -> list Z) strict scale (d : dyn) (bits : Z) : out dyn :=
  let d := resize g d 64 in
  let! (b, l) := float_to_string strict scale bits (chars d) 63 in Ret (with_logical (with_chars d b) (l + 1)).
