(** * Model of the scalar functions of Code/Terathon/TSMath.h and TSMath.cpp that
    FloatToString uses, and of some beside them.

    A float is a whole number of units 2^-149 (subnormal numbers are those below 2^23
    units), an infinity or NaN. The two zeros are one: none of the functions below
    divides by a zero that may be negative, and no result is looked at through its sign
    bit when it is zero. Every operation gives the nearest float, ties to even, as IEEE
    754 demands in the default rounding mode; products and sums are not contracted, and
    subnormal numbers are not flushed to zero. *)

From Verif Require Import Base TextModel NumModel StringModel SpecText FloatTextModel.

Inductive f32 : Set := Fin (n : Z) | Inf (neg : bool) | Nan.

(** The float nearest to n / d units, n >= 0, d > 0: 2^k units is the distance of the
    floats around it. *)
Definition round_units (n d : Z) : Z :=
  let k := Z.max 0 (Z.log2 (n / d) - 23) in
  div_half_even n (d * 2 ^ k) * 2 ^ k.

(** With its sign; from 2^128 on it is an infinity. *)
Definition fround (n d : Z) : f32 :=
  let m := round_units (Z.abs n) d in
  if 2 ^ 277 <=? m then Inf (n <? 0) else Fin (Z.sgn n * m).

(** The operations [+], [-], [*], [/] and [<] of float. A divisor zero is taken as
    positive. *)
Definition fneg (x : f32) : f32 := match x with Fin a => Fin (- a) | Inf s => Inf (negb s) | Nan => Nan end.
Definition fadd (x y : f32) : f32 :=
  match x, y with
  | Fin a, Fin b => fround (a + b) 1
  | Inf s, Fin _ => Inf s
  | Fin _, Inf s => Inf s
  | Inf s, Inf t => if Bool.eqb s t then Inf s else Nan
  | _, _ => Nan
  end.
Definition fsub (x y : f32) : f32 := fadd x (fneg y).
Definition fmul (x y : f32) : f32 :=
  match x, y with
  | Fin a, Fin b => fround (a * b) (2 ^ 149)
  | Inf s, Fin b => if b =? 0 then Nan else Inf (xorb s (b <? 0))
  | Fin a, Inf t => if a =? 0 then Nan else Inf (xorb (a <? 0) t)
  | Inf s, Inf t => Inf (xorb s t)
  | _, _ => Nan
  end.
Definition fdiv (x y : f32) : f32 :=
  match x, y with
  | Fin a, Fin b =>
      if b =? 0 then (if a =? 0 then Nan else Inf (a <? 0)) else fround (a * 2 ^ 149 * Z.sgn b) (Z.abs b)
  | Fin _, Inf _ => Fin 0
  | Inf s, Fin b => Inf (xorb s (b <? 0))
  | _, _ => Nan
  end.
Definition flt (x y : f32) : bool :=
  match x, y with
  | Fin a, Fin b => a <? b
  | Fin _, Inf s => negb s
  | Inf s, Fin _ => s
  | Inf s, Inf t => s && negb t
  | _, _ => false
  end.

(** The float with these bits, and the bits of a float that is not negative. *)
Definition of_bits (b : Z) : f32 :=
  let neg := 2 ^ 31 <=? b in
  if exponent_field b =? 0xFF then (if mantissa_field b =? 0 then Inf neg else Nan)
  else Fin (if neg then - units (fabs_bits b) else units (fabs_bits b)).
Definition to_bits (x : f32) : Z :=
  match x with
  | Fin n => if n <? 2 ^ 23 then n else let k := Z.log2 n - 23 in k * 2 ^ 23 + Z.shiftr n k
  | Inf _ => 0x7F800000
  | Nan => 0x7FC00000
  end.

(** float(n), the constant n/d as the compiler computes it from the floats n and d,
    the decimal literal m * 10^-e, and int32(x). *)
Definition of_int (n : Z) : f32 := fround (n * 2 ^ 149) 1.
Definition ratio (n d : Z) : f32 := fdiv (of_int n) (of_int d).
Definition literal (m e : Z) : f32 := fround (m * 2 ^ 149) (10 ^ e).
Definition to_int32 (x : f32) : out Z :=
  match x with
  | Fin a => let n := Z.quot a (2 ^ 149) in if (- 2 ^ 31 <=? n) && (n <? 2 ^ 31) then Ret n else UB
  | _ => UB
  end.

(** ** Fabs, Floor and Ceil *)

(** TSMath.h:34-48. *)
Definition fabs_f (x : f32) : f32 := match x with Fin a => Fin (Z.abs a) | Inf _ => Inf false | Nan => Nan end.

(** How Floor and Ceil are compiled: without SIMD (TSMath.cpp:135-155), for SSE before
    SSE4 and for Neon, and for SSE4, where the processor rounds. *)
Inductive simd : Set := Plain | Sse2 | Sse4.

(** 8388608.0F *)
Definition two23 : f32 := of_int 8388608.

(** [v - 2^23 + 2^23 + 2^23 - 2^23], the number with its fraction rounded away. *)
Definition shake (x : f32) : f32 := fsub (fadd (fadd (fsub x two23) two23) two23) two23.

(** _mm_round_ps with _MM_FROUND_TO_NEG_INF and _MM_FROUND_TO_POS_INF. *)
Definition round_down (x : f32) : f32 := match x with Fin a => Fin (a / 2 ^ 149 * 2 ^ 149) | _ => x end.
Definition round_up (x : f32) : f32 := match x with Fin a => Fin (- (- a / 2 ^ 149) * 2 ^ 149) | _ => x end.

(** Floor: TSMath.cpp:135-144; TSMath.h:294-300 with VecFloorScalar (TSSimd.h:1180-1213),
    where the correction subtracts 1.0F or, by the mask, 0.0F. *)
Definition floor_f (v : simd) (x : f32) : f32 :=
  match v with
  | Plain => if flt (fabs_f x) two23 then (let r := shake x in if flt x r then fsub r (of_int 1) else r) else x
  | Sse2 => if flt two23 (fabs_f x) then x else (let r := shake x in fsub r (if flt x r then of_int 1 else Fin 0))
  | Sse4 => round_down x
  end.

(** Ceil: TSMath.cpp:146-155; TSMath.h:302-308 with VecCeilScalar (TSSimd.h:1366-1399). *)
Definition ceil_f (v : simd) (x : f32) : f32 :=
  match v with
  | Plain => if flt (fabs_f x) two23 then (let r := shake x in if flt r x then fadd r (of_int 1) else r) else x
  | Sse2 => if flt two23 (fabs_f x) then x else (let r := shake x in fadd r (if flt r x then of_int 1 else Fin 0))
  | Sse4 => round_up x
  end.

(** PositiveFloor: TSMath.h:317-331 with VecPositiveFloorScalar (TSSimd.h:1244-1271). *)
Definition positive_floor (v : simd) (x : f32) : f32 :=
  match v with
  | Sse2 => let r := fsub (fadd x two23) two23 in fsub r (if flt x r then of_int 1 else Fin 0)
  | _ => floor_f v x
  end.

(** ** Exp *)

(** TSMath.cpp:483-508. The array has 180 elements and 178 initialisers, so the last two
    elements are zero. *)
Definition exp_table : list Z :=
  [
   0x00000000; 0x00B33687; 0x01739362; 0x022586E0; 0x02E0F96D; 0x0398E2CB; 0x044FCB22; 0x050D35D7;
   0x05BFECBA; 0x06826D27; 0x07314490; 0x07F0EE94; 0x08A3BAF0; 0x095E884F; 0x0A1739FB; 0x0ACD89C1;
   0x0B8BAD78; 0x0C3DD771; 0x0D0102BF; 0x0DAF5800; 0x0E6E511E; 0x0F21F3FE; 0x0FDC1DF9; 0x109595C7;
   0x114B4EA4; 0x120A295C; 0x12BBC7F1; 0x137F388B; 0x142D70C9; 0x14EBBAEC; 0x15A031FC; 0x1659BA5A;
   0x1713F623; 0x17C919B9; 0x1888A975; 0x1939BE2B; 0x19FC7361; 0x1AAB8EDC; 0x1B692BEB; 0x1C1E74DD;
   0x1CD75D5D; 0x1D925B02; 0x1E46EAF1; 0x1F072DBA; 0x1FB7BA0F; 0x2079B5EA; 0x2129B229; 0x21E6A405;
   0x229CBC92; 0x235506F2; 0x2410C457; 0x24C4C239; 0x2585B61D; 0x2635BB8D; 0x26F7000F; 0x27A7DAA4;
   0x28642328; 0x291B090F; 0x29D2B706; 0x2A8F3216; 0x2B429F81; 0x2C044295; 0x2CB3C295; 0x2D7451BD;
   0x2E26083C; 0x2EE1A93F; 0x2F995A46; 0x30506D87; 0x310DA433; 0x31C082B8; 0x3282D314; 0x3331CF19;
   0x33F1AADE; 0x34A43AE5; 0x355F3638; 0x3617B02A; 0x36CE2A62; 0x378C1AA1; 0x383E6BCE; 0x39016791;
   0x39AFE108; 0x3A6F0B5D; 0x3B227290; 0x3BDCC9FF; 0x3C960AAE; 0x3D4BED86; 0x3E0A9555; 0x3EBC5AB2;
   0x3F800000; 0x402DF854; 0x40EC7326; 0x41A0AF2E; 0x425A6481; 0x431469C5; 0x43C9B6E3; 0x44891443;
   0x453A4F54; 0x45FD38AC; 0x46AC14EE; 0x4769E224; 0x481EF0B3; 0x48D805AD; 0x4992CD62; 0x4A478665;
   0x4B07975F; 0x4BB849A4; 0x4C7A7910; 0x4D2A36C8; 0x4DE75844; 0x4E9D3710; 0x4F55AD6E; 0x5011357A;
   0x50C55BFE; 0x51861E9D; 0x52364993; 0x52F7C118; 0x53A85DD2; 0x5464D572; 0x551B8238; 0x55D35BB3;
   0x568FA1FE; 0x5743379A; 0x5804A9F1; 0x58B44F11; 0x597510AD; 0x5A2689FE; 0x5AE2599A; 0x5B99D21F;
   0x5C51106A; 0x5D0E12E4; 0x5DC1192B; 0x5E833952; 0x5F325A0E; 0x5FF267BB; 0x60A4BB3E; 0x615FE4A9;
   0x621826B5; 0x62CECB81; 0x638C881F; 0x643F009E; 0x6501CCB3; 0x65B06A7B; 0x666FC62D; 0x6722F184;
   0x67DD768B; 0x68967FF0; 0x694C8CE5; 0x6A0B01A3; 0x6ABCEDE5; 0x6B806408; 0x6C2E804A; 0x6CED2BEF;
   0x6DA12CC1; 0x6E5B0F2E; 0x6F14DDC1; 0x6FCA5487; 0x70897F64; 0x713AE0EE; 0x71FDFE91; 0x72AC9B6A;
   0x736A98EC; 0x741F6CE9; 0x74D8AE7F; 0x7593401C; 0x76482254; 0x77080156; 0x77B8D9AA; 0x787B3CCF;
   0x792ABBCE; 0x79E80D11; 0x7A9DB1ED; 0x7B56546B; 0x7C11A6F5; 0x7CC5F63B; 0x7D86876D; 0x7E36D809;
   0x7EF882B7; 0x7F800000
  ] ++ [0; 0].

(** [r * x + c] *)
Definition horner (x r c : f32) : f32 := fadd (fmul r x) c.

(** TSMath.cpp:515-524: what the table entry is multiplied with, for the fraction [x]. *)
Definition exp_fraction (x : f32) : f32 :=
  let r := ratio 1 362880 in
  let r := horner x r (ratio 1 40320) in
  let r := horner x r (ratio 1 5040) in
  let r := horner x r (ratio 1 720) in
  let r := horner x r (ratio 1 120) in
  let r := horner x r (ratio 1 24) in
  let r := horner x r (ratio 1 6) in
  let r := horner x r (literal 5 1) in
  fadd (fmul r (fmul x x)) (fadd x (of_int 1)).

(** TSMath.cpp:479-529. *)
Definition exp_f (v : simd) (x : f32) : out f32 :=
  let f := floor_f v x in
  let! i := to_int32 f in
  let i := i + 88 in
  if 2 ^ 31 <=? i then UB
  else if 0 <? i then
    let x := fsub x f in
    match nth_error exp_table (Z.to_nat (if i <? 179 then i else 179)) with
    | Some t => Ret (fmul (exp_fraction x) (of_bits t))
    | None => UB
    end
  else Ret (Fin 0).

(** ** Log *)

(** Math::ln_2, Math::ln_10, Math::one_over_ln_10: TSMath.cpp:74-77. *)
Definition ln_2 : f32 := literal 69314718055994530941723212145818 32.
Definition ln_10 : f32 := literal 23025850929940456840179914546844 31.
Definition one_over_ln_10 : f32 := literal 43429448190325182765112891891661 32.

(** TSMath.cpp:539-549: the logarithm of the mantissa [f]. *)
Definition log_tail (y : f32) : f32 :=
  let z := fmul y y in
  let r := ratio 1 13 in
  let r := horner z r (ratio 1 11) in
  let r := horner z r (ratio 1 9) in
  let r := horner z r (ratio 1 7) in
  let r := horner z r (ratio 1 5) in
  let r := horner z r (ratio 1 3) in
  let r := horner z r (of_int 1) in
  fmul r (fmul y (of_int 2)).
Definition log_quotient (f : f32) : f32 := fdiv (fsub f (of_int 1)) (fadd f (of_int 1)).

(** TSMath.cpp:531-559, for the float with the given bits. *)
Definition log_f (bits : Z) : f32 :=
  let i := i32 bits in
  if 0 <? i then
    let e := Z.shiftr i 23 - 127 in
    let f := of_bits (Z.lor (Z.land i 0x007FFFFF) 0x3F800000) in
    fadd (log_tail (log_quotient f)) (fmul (of_int e) ln_2)
  else if negb (flt (of_bits bits) (Fin 0)) && negb (match of_bits bits with Nan => true | _ => false end) then Inf true
  else Nan.

(** ** The scaling in FloatToString *)

(** TSText.cpp:1323: the power of ten as a float, for the bits of a positive number. *)
Definition decade (v : simd) (bits : Z) : f32 := floor_f v (fmul (log_f bits) one_over_ln_10).

(** TSText.cpp:1323-1327. *)
Definition scale_f (v : simd) (bits : Z) : out (Z * Z) :=
  let f := decade v bits in
  let! e := exp_f v (fmul f ln_10) in
  let absolute := fdiv (of_bits bits) e in
  let! power := to_int32 f in
  Ret (to_bits absolute, power).

(** The scaling function of FloatTextModel.v; the results for which [scale_f] is
    undefined, which those of normal numbers are not (MathScale.v), do not matter. *)
Definition real_scale (v : simd) (bits : Z) : Z * Z :=
  match scale_f v bits with
  | Ret r => r
  | _ => (0, 0)
  end.
