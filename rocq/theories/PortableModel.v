(** * The number reader of builds without system conversions.

    Code/Json4C4/C4Json.cpp:843-989, the [#else] branch of ReadDoubleLiteral, used
    when TERATHON_NO_SYSTEM is defined and JSON4C4_USE_SYSTEM_DOUBLE_STRING_CONVERSIONS
    is not (52-60). Arithmetic on double is modelled as the operations of IEEE 754
    (binary64, round to nearest even): the exact result, rounded. Signed integer
    overflow is [UB]. *)

From Verif Require Import Base TextModel NumModel ParserModel.

(** ** Operations of IEEE 754 *)

Definition dmul (a b : double) : double :=
  match a, b with
  | S754_nan, _ | _, S754_nan => S754_nan
  | S754_infinity _, S754_zero _ | S754_zero _, S754_infinity _ => S754_nan
  | S754_infinity s, (S754_infinity t | S754_finite t _ _)
  | S754_finite s _ _, S754_infinity t => S754_infinity (xorb s t)
  | S754_zero s, (S754_zero t | S754_finite t _ _)
  | S754_finite s _ _, S754_zero t => S754_zero (xorb s t)
  | S754_finite s m e, S754_finite t n f =>
      round_ratio (xorb s t) (Zpos m * Zpos n * 2 ^ Z.max 0 (e + f)) (2 ^ Z.max 0 (- (e + f)))
  end.

Definition ddiv (a b : double) : double :=
  match a, b with
  | S754_nan, _ | _, S754_nan => S754_nan
  | S754_infinity _, S754_infinity _ | S754_zero _, S754_zero _ => S754_nan
  | S754_infinity s, (S754_zero t | S754_finite t _ _)
  | S754_finite s _ _, S754_zero t => S754_infinity (xorb s t)
  | S754_zero s, (S754_infinity t | S754_finite t _ _)
  | S754_finite s _ _, S754_infinity t => S754_zero (xorb s t)
  | S754_finite s m e, S754_finite t n f =>
      round_ratio (xorb s t) (Zpos m * 2 ^ Z.max 0 (e - f)) (Zpos n * 2 ^ Z.max 0 (- (e - f)))
  end.

Definition signed (s : bool) (z : Z) : Z := if s then - z else z.

Definition dadd (a b : double) : double :=
  match a, b with
  | S754_nan, _ | _, S754_nan => S754_nan
  | S754_infinity s, S754_infinity t => if Bool.eqb s t then a else S754_nan
  | S754_infinity _, _ => a
  | _, S754_infinity _ => b
  | S754_zero s, S754_zero t => S754_zero (s && t)
  | S754_zero _, _ => b
  | _, S754_zero _ => a
  | S754_finite s m e, S754_finite t n f =>
      let k := Z.min e f in
      let z := signed s (Zpos m * 2 ^ (e - k)) + signed t (Zpos n * 2 ^ (f - k)) in
      if z =? 0 then S754_zero false
      else round_ratio (z <? 0) (Z.abs z * 2 ^ Z.max 0 k) (2 ^ Z.max 0 (- k))
  end.

(** double(x) for a digit x, and the constant 10.0F. *)
Definition dint (x : Z) : double := dec_to_double false x 0.
Definition dten : double := dint 10.

(** ** Tables *)

(** C4Json.cpp:538-556, minusPower10[310]: 0.0, 1e-308, ..., 1e-1, 1.0; a literal
    denotes the nearest double. *)
Definition minus_power10 : list double :=
  S754_zero false :: map (fun i => dec_to_double false 1 (Z.of_nat i - 308)) (seq 0 309).

(** C4Json.cpp:558-588, plusPower10[310]: 1.0, 1e1, ..., 1e308, huge value. *)
Definition plus_power10 : list double :=
  map (fun i => dec_to_double false 1 (Z.of_nat i)) (seq 0 309) ++ [S754_infinity false].

(** [table[i]]; an index outside the table is UB. *)
Definition entry (table : list double) (i : Z) : out double :=
  if i <? 0 then UB
  else match nth_error table (Z.to_nat i) with Some d => Ret d | None => UB end.

(** ** Integer operations *)

(** The result of a signed 32-bit operation; overflow is UB. *)
Definition s32 (z : Z) : out Z := if (- 2147483648 <=? z) && (z <=? 2147483647) then Ret z else UB.

(** TSBasic.h:54-57 and 84-87, Min and MaxZero on int32. *)
Definition min32 (x y : Z) : Z := if x <? y then x else y.
Definition max_zero (x : Z) : Z := Z.land x (Z.lnot (Z.shiftr x 31)).

(** Conversion of uint32 to int32 (two's complement). *)
Definition to_i32 (x : Z) : Z := if x <? 2147483648 then x else x - 4294967296.

(** ** The reader *)

(** C4Json.cpp:850-876, the loop over the integer part; [inl] is an early return. *)
Fixpoint whole_loop (lead : bool) (p : ptr) (v : double) (dig whole : bool)
  : out (status + double * bool * bool * ptr) :=
  match p with
  | [] => UB
  | c :: p' =>
      let x := u32 (c - 48) in
      if x <? 10 then
        if dig && lead then Ret (inl kNumbersCannotHaveLeadingZeros)
        else whole_loop lead p' (dadd (dmul v dten) (dint x)) true true
      else if x =? 47 then
        if negb dig then Ret (inl kFloatInvalid) else whole_loop lead p' v false whole
      else Ret (inr (v, dig, whole, p))
  end.

(** C4Json.cpp:891-915, the loop over the fraction. *)
Fixpoint fraction_loop (p : ptr) (v dec : double) (dig frac : bool)
  : out (status + double * bool * bool * ptr) :=
  match p with
  | [] => UB
  | c :: p' =>
      let x := u32 (c - 48) in
      if x <? 10 then fraction_loop p' (dadd v (ddiv (dint x) dec)) (dmul dec dten) true true
      else if x =? 47 then
        if negb dig then Ret (inl kFloatInvalid) else fraction_loop p' v dec false frac
      else Ret (inr (v, dig, frac, p))
  end.

(** C4Json.cpp:947-968, the loop over the exponent; [exponent * 10] is an int32
    multiplication, the addition of the uint32 digit is unsigned, and the sum is
    converted to the int32 argument of Min. *)
Fixpoint exponent_loop (p : ptr) (e : Z) (dig : bool) : out (status + Z * bool * ptr) :=
  match p with
  | [] => UB
  | c :: p' =>
      let x := u32 (c - 48) in
      if x <? 10 then
        let! e10 := s32 (e * 10) in
        exponent_loop p' (min32 (to_i32 (u32 (e10 + x))) 65535) true
      else if x =? 47 then
        if negb dig then Ret (inl kFloatInvalid) else exponent_loop p' e false
      else Ret (inr (e, dig, p))
  end.

(** C4Json.cpp:934-942, the sign of the exponent, [c] being the first byte of [p]. *)
Definition exponent_sign (c : Z) (p : ptr) : bool * ptr :=
  if c =? 45 then (true, skipn 1 p) else if c =? 43 then (false, skipn 1 p) else (false, p).

(** C4Json.cpp:928-983, the exponent part. *)
Definition exponent_part (p : ptr) (v : double) : out (status + double * ptr) :=
  let! c := rd p 0 in
  if (c =? 101) || (c =? 69) then
    let p := skipn 1 p in
    let! c := rd p 0 in
    let '(negative, p) := exponent_sign c p in
    let! r := exponent_loop p 0 false in
    match r with
    | inl st => Ret (inl st)
    | inr (e, dig, p) =>
        if negb dig then Ret (inl kFloatInvalid)
        else if negative then
          let! i := s32 (309 - e) in
          let! f := entry minus_power10 (max_zero i) in Ret (inr (dmul v f, p))
        else let! f := entry plus_power10 (min32 e 309) in Ret (inr (dmul v f, p))
    end
  else Ret (inr (v, p)).

(** C4Json.cpp:843-988: the status, *textLength and *value. The length is the
    difference of two pointers into the text, converted to int32 in C++ and not
    truncated here: texts are shorter than 2^31. On failure the last two are not
    assigned in C++. *)
Definition portable_double_literal (text : ptr) : out (status * nat * double) :=
  let! c0 := rd text 0 in
  let fail st := Ret (st, O, S754_nan) in
  let! r := whole_loop (c0 =? 48) text (S754_zero false) false false in
  match r with
  | inl st => fail st
  | inr (v, dig, whole, p) =>
      if (whole : bool) && negb dig then fail kFloatInvalid
      else
        let! c := rd p 0 in
        let! r :=
          (if c =? 46 then
             let! r := fraction_loop (skipn 1 p) v dten false false in
             match r with
             | inl st => Ret (inl st)
             | inr (v, dig, frac, p) =>
                 if (frac : bool) && negb dig then Ret (inl kFloatInvalid) else Ret (inr (v, frac, p))
             end
           else Ret (inr (v, false, p))) in
        match r with
        | inl st => fail st
        | inr (v, frac, p) =>
            if negb (whole || (frac : bool)) then fail kFloatInvalid
            else
              let! r := exponent_part p v in
              match r with
              | inl st => fail st
              | inr (v, p) => Ret (kOk, (length text - length p)%nat, v)
              end
        end
  end.

(** C4Json.cpp:1165-1191, NumberValue::Parse, with this reader. *)
Definition portable_number_parse (p : ptr) : out (status * double * ptr) :=
  let! (neg, p1) := parse_sign p in
  let! (st, len, d) := portable_double_literal p1 in
  if negb (status_eqb st kOk) then Ret (st, S754_nan, p1)
  else
    let d := if (neg : bool) then dneg d else d in
    let! p2 := skip_ws (skipn len p1) in
    Ret (kOk, d, p2).
