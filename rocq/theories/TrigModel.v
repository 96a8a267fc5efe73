(** * Model of the trigonometric functions of Code/Terathon/TSMath.cpp: Sin, Cos, Tan, CosSin
    and both forms of Arctan. Floats and their operations are those of MathModel.v: the two zeros
    are one, products and sums are not contracted (Neon, which contracts them, is not modelled).
    Sqrt, InverseSqrt, Arcsin and Arccos are not modelled. *)

From Verif Require Import Base TextModel NumModel StringModel SpecText FloatTextModel MathModel.

(** Math::trigTable, TSMath.cpp:81-115, as bits: cosine and sine of n/256 of a turn. *)
Definition trig_table : list (Z * Z) :=
  [(0x3F800000, 0x00000000); (0x3F7FEC43, 0x3CC90AB0); (0x3F7FB10F, 0x3D48FB30); (0x3F7F4E6D, 0x3D96A905); (0x3F7EC46D, 0x3DC8BD36); (0x3F7E1324, 0x3DFAB273); (0x3F7D3AAC, 0x3E164083); (0x3F7C3B28, 0x3E2F10A3);
   (0x3F7B14BE, 0x3E47C5C2); (0x3F79C79D, 0x3E605C13); (0x3F7853F8, 0x3E78CFCD); (0x3F76BA07, 0x3E888E94); (0x3F74FA0B, 0x3E94A031); (0x3F731447, 0x3EA09AE5); (0x3F710908, 0x3EAC7CD4); (0x3F6ED89E, 0x3EB8442A);
   (0x3F6C835E, 0x3EC3EF16); (0x3F6A09A6, 0x3ECF7BCB); (0x3F676BD8, 0x3EDAE880); (0x3F64AA59, 0x3EE63375); (0x3F61C597, 0x3EF15AEA); (0x3F5EBE05, 0x3EFC5D28); (0x3F5B941A, 0x3F039C3D); (0x3F584853, 0x3F08F59B);
   (0x3F54DB31, 0x3F0E39DA); (0x3F514D3D, 0x3F13682B); (0x3F4D9F02, 0x3F187FC0); (0x3F49D112, 0x3F1D7FD2); (0x3F45E403, 0x3F22679A); (0x3F41D870, 0x3F273656); (0x3F3DAEF9, 0x3F2BEB4A); (0x3F396842, 0x3F3085BB);
   (0x3F3504F3, 0x3F3504F3); (0x3F3085BA, 0x3F396842); (0x3F2BEB49, 0x3F3DAEFA); (0x3F273655, 0x3F41D871); (0x3F226799, 0x3F45E403); (0x3F1D7FD1, 0x3F49D112); (0x3F187FC0, 0x3F4D9F02); (0x3F13682A, 0x3F514D3D);
   (0x3F0E39D9, 0x3F54DB32); (0x3F08F59B, 0x3F584853); (0x3F039C3C, 0x3F5B941B); (0x3EFC5D27, 0x3F5EBE05); (0x3EF15AE7, 0x3F61C598); (0x3EE63374, 0x3F64AA59); (0x3EDAE881, 0x3F676BD8); (0x3ECF7BC9, 0x3F6A09A7);
   (0x3EC3EF15, 0x3F6C835E); (0x3EB84427, 0x3F6ED89E); (0x3EAC7CD3, 0x3F710908); (0x3EA09AE2, 0x3F731448); (0x3E94A030, 0x3F74FA0B); (0x3E888E93, 0x3F76BA07); (0x3E78CFC8, 0x3F7853F8); (0x3E605C12, 0x3F79C79D);
   (0x3E47C5BC, 0x3F7B14BF); (0x3E2F10A0, 0x3F7C3B28); (0x3E164085, 0x3F7D3AAC); (0x3DFAB26C, 0x3F7E1324); (0x3DC8BD35, 0x3F7EC46D); (0x3D96A8FB, 0x3F7F4E6D); (0x3D48FB29, 0x3F7FB10F); (0x3CC90A7E, 0x3F7FEC43);
   (0x00000000, 0x3F800000); (0xBCC90A7E, 0x3F7FEC43); (0xBD48FB29, 0x3F7FB10F); (0xBD96A8FB, 0x3F7F4E6D); (0xBDC8BD35, 0x3F7EC46D); (0xBDFAB26C, 0x3F7E1324); (0xBE164085, 0x3F7D3AAC); (0xBE2F10A0, 0x3F7C3B28);
   (0xBE47C5BC, 0x3F7B14BF); (0xBE605C12, 0x3F79C79D); (0xBE78CFC8, 0x3F7853F8); (0xBE888E93, 0x3F76BA07); (0xBE94A030, 0x3F74FA0B); (0xBEA09AE2, 0x3F731448); (0xBEAC7CD3, 0x3F710908); (0xBEB84427, 0x3F6ED89E);
   (0xBEC3EF15, 0x3F6C835E); (0xBECF7BC9, 0x3F6A09A7); (0xBEDAE881, 0x3F676BD8); (0xBEE63374, 0x3F64AA59); (0xBEF15AE7, 0x3F61C598); (0xBEFC5D27, 0x3F5EBE05); (0xBF039C3C, 0x3F5B941B); (0xBF08F59B, 0x3F584853);
   (0xBF0E39D9, 0x3F54DB32); (0xBF13682A, 0x3F514D3D); (0xBF187FC0, 0x3F4D9F02); (0xBF1D7FD1, 0x3F49D112); (0xBF226799, 0x3F45E403); (0xBF273655, 0x3F41D871); (0xBF2BEB49, 0x3F3DAEFA); (0xBF3085BA, 0x3F396842);
   (0xBF3504F3, 0x3F3504F3); (0xBF396842, 0x3F3085BB); (0xBF3DAEF9, 0x3F2BEB4A); (0xBF41D870, 0x3F273656); (0xBF45E403, 0x3F22679A); (0xBF49D112, 0x3F1D7FD2); (0xBF4D9F02, 0x3F187FC0); (0xBF514D3D, 0x3F13682B);
   (0xBF54DB31, 0x3F0E39DA); (0xBF584853, 0x3F08F59B); (0xBF5B941A, 0x3F039C3D); (0xBF5EBE05, 0x3EFC5D28); (0xBF61C597, 0x3EF15AEA); (0xBF64AA59, 0x3EE63375); (0xBF676BD8, 0x3EDAE880); (0xBF6A09A6, 0x3ECF7BCB);
   (0xBF6C835E, 0x3EC3EF16); (0xBF6ED89E, 0x3EB8442A); (0xBF710908, 0x3EAC7CD4); (0xBF731447, 0x3EA09AE5); (0xBF74FA0B, 0x3E94A031); (0xBF76BA07, 0x3E888E94); (0xBF7853F8, 0x3E78CFCD); (0xBF79C79D, 0x3E605C13);
   (0xBF7B14BE, 0x3E47C5C2); (0xBF7C3B28, 0x3E2F10A3); (0xBF7D3AAC, 0x3E164083); (0xBF7E1324, 0x3DFAB273); (0xBF7EC46D, 0x3DC8BD36); (0xBF7F4E6D, 0x3D96A905); (0xBF7FB10F, 0x3D48FB30); (0xBF7FEC43, 0x3CC90AB0);
   (0xBF800000, 0x00000000); (0xBF7FEC43, 0xBCC90AB0); (0xBF7FB10F, 0xBD48FB30); (0xBF7F4E6D, 0xBD96A905); (0xBF7EC46D, 0xBDC8BD36); (0xBF7E1324, 0xBDFAB273); (0xBF7D3AAC, 0xBE164083); (0xBF7C3B28, 0xBE2F10A3);
   (0xBF7B14BE, 0xBE47C5C2); (0xBF79C79D, 0xBE605C13); (0xBF7853F8, 0xBE78CFCD); (0xBF76BA07, 0xBE888E94); (0xBF74FA0B, 0xBE94A031); (0xBF731447, 0xBEA09AE5); (0xBF710908, 0xBEAC7CD4); (0xBF6ED89E, 0xBEB8442A);
   (0xBF6C835E, 0xBEC3EF16); (0xBF6A09A6, 0xBECF7BCB); (0xBF676BD8, 0xBEDAE880); (0xBF64AA59, 0xBEE63375); (0xBF61C597, 0xBEF15AEA); (0xBF5EBE05, 0xBEFC5D28); (0xBF5B941A, 0xBF039C3D); (0xBF584853, 0xBF08F59B);
   (0xBF54DB31, 0xBF0E39DA); (0xBF514D3D, 0xBF13682B); (0xBF4D9F02, 0xBF187FC0); (0xBF49D112, 0xBF1D7FD2); (0xBF45E403, 0xBF22679A); (0xBF41D870, 0xBF273656); (0xBF3DAEF9, 0xBF2BEB4A); (0xBF396842, 0xBF3085BB);
   (0xBF3504F3, 0xBF3504F3); (0xBF3085BA, 0xBF396842); (0xBF2BEB49, 0xBF3DAEFA); (0xBF273655, 0xBF41D871); (0xBF226799, 0xBF45E403); (0xBF1D7FD1, 0xBF49D112); (0xBF187FC0, 0xBF4D9F02); (0xBF13682A, 0xBF514D3D);
   (0xBF0E39D9, 0xBF54DB32); (0xBF08F59B, 0xBF584853); (0xBF039C3C, 0xBF5B941B); (0xBEFC5D27, 0xBF5EBE05); (0xBEF15AE7, 0xBF61C598); (0xBEE63374, 0xBF64AA59); (0xBEDAE881, 0xBF676BD8); (0xBECF7BC9, 0xBF6A09A7);
   (0xBEC3EF15, 0xBF6C835E); (0xBEB84427, 0xBF6ED89E); (0xBEAC7CD3, 0xBF710908); (0xBEA09AE2, 0xBF731448); (0xBE94A030, 0xBF74FA0B); (0xBE888E93, 0xBF76BA07); (0xBE78CFC8, 0xBF7853F8); (0xBE605C12, 0xBF79C79D);
   (0xBE47C5BC, 0xBF7B14BF); (0xBE2F10A0, 0xBF7C3B28); (0xBE164085, 0xBF7D3AAC); (0xBDFAB26C, 0xBF7E1324); (0xBDC8BD35, 0xBF7EC46D); (0xBD96A8FB, 0xBF7F4E6D); (0xBD48FB29, 0xBF7FB10F); (0xBCC90A7E, 0xBF7FEC43);
   (0x00000000, 0xBF800000); (0x3CC90A7E, 0xBF7FEC43); (0x3D48FB29, 0xBF7FB10F); (0x3D96A8FB, 0xBF7F4E6D); (0x3DC8BD35, 0xBF7EC46D); (0x3DFAB26C, 0xBF7E1324); (0x3E164085, 0xBF7D3AAC); (0x3E2F10A0, 0xBF7C3B28);
   (0x3E47C5BC, 0xBF7B14BF); (0x3E605C12, 0xBF79C79D); (0x3E78CFC8, 0xBF7853F8); (0x3E888E93, 0xBF76BA07); (0x3E94A030, 0xBF74FA0B); (0x3EA09AE2, 0xBF731448); (0x3EAC7CD3, 0xBF710908); (0x3EB84427, 0xBF6ED89E);
   (0x3EC3EF15, 0xBF6C835E); (0x3ECF7BC9, 0xBF6A09A7); (0x3EDAE881, 0xBF676BD8); (0x3EE63374, 0xBF64AA59); (0x3EF15AE7, 0xBF61C598); (0x3EFC5D27, 0xBF5EBE05); (0x3F039C3C, 0xBF5B941B); (0x3F08F59B, 0xBF584853);
   (0x3F0E39D9, 0xBF54DB32); (0x3F13682A, 0xBF514D3D); (0x3F187FC0, 0xBF4D9F02); (0x3F1D7FD1, 0xBF49D112); (0x3F226799, 0xBF45E403); (0x3F273655, 0xBF41D871); (0x3F2BEB49, 0xBF3DAEFA); (0x3F3085BA, 0xBF396842);
   (0x3F3504F3, 0xBF3504F3); (0x3F396842, 0xBF3085BB); (0x3F3DAEF9, 0xBF2BEB4A); (0x3F41D870, 0xBF273656); (0x3F45E403, 0xBF22679A); (0x3F49D112, 0xBF1D7FD2); (0x3F4D9F02, 0xBF187FC0); (0x3F514D3D, 0xBF13682B);
   (0x3F54DB31, 0xBF0E39DA); (0x3F584853, 0xBF08F59B); (0x3F5B941A, 0xBF039C3D); (0x3F5EBE05, 0xBEFC5D28); (0x3F61C597, 0xBEF15AEA); (0x3F64AA59, 0xBEE63375); (0x3F676BD8, 0xBEDAE880); (0x3F6A09A6, 0xBECF7BCB);
   (0x3F6C835E, 0xBEC3EF16); (0x3F6ED89E, 0xBEB8442A); (0x3F710908, 0xBEAC7CD4); (0x3F731447, 0xBEA09AE5); (0x3F74FA0B, 0xBE94A031); (0x3F76BA07, 0xBE888E94); (0x3F7853F8, 0xBE78CFCD); (0x3F79C79D, 0xBE605C13);
   (0x3F7B14BE, 0xBE47C5C2); (0x3F7C3B28, 0xBE2F10A3); (0x3F7D3AAC, 0xBE164083); (0x3F7E1324, 0xBDFAB273); (0x3F7EC46D, 0xBDC8BD36); (0x3F7F4E6D, 0xBD96A905); (0x3F7FB10F, 0xBD48FB30); (0x3F7FEC43, 0xBCC90AB0)].

(** [x < 0.0F], [x <= 1.0F] and [x > y] for floats. *)
Definition negative (x : f32) : bool := flt x (Fin 0).
Definition fle (x y : f32) : bool := match x, y with Nan, _ | _, Nan => false | _, _ => negb (flt y x) end.

(** _mm_cvttss2si, used by VecTruncateConvert (TSSimd.h:584-595): 0x80000000 for numbers
    that are no int32 and for NaN. *)
Definition truncate_convert (x : f32) : Z :=
  match to_int32 x with Ret n => n | _ => - 2 ^ 31 end.

(** The common part of Sin, Cos and CosSin (TSMath.cpp:228-239 and 247-255; the same lines are repeated in the others): cosine and
    sine from the table and of the rest, in the order cosine_alpha, sine_alpha, cosine_beta,
    sine_beta. Without SIMD the conversion is undefined for what is no int32. With SIMD the
    constants are given by their bits. VecNmsubScalar(a, b, c) is c - a * b (TSSimd.h:818-842),
    so that the inner factor of sine_beta is 1/120 - b2/6 there, but 1/6 - b2/120 without SIMD. *)
Definition trig_parts (v : simd) (x : f32) : out (f32 * f32 * f32 * f32) :=
  let b := fmul (fabs_f x) (match v with Plain => literal 4074366543 8 | _ => of_bits 0x4222F983 end) in
  let i := positive_floor v b in
  let b := fmul (fsub b i) (match v with Plain => literal 245436926 10 | _ => of_bits 0x3CC90FDB end) in
  let! n := match v with Plain => to_int32 i | _ => Ret (truncate_convert i) end in
  match nth_error trig_table (Z.to_nat (Z.land n 255)) with
  | None => UB
  | Some (c, s) =>
      let b2 := fmul b b in
      let inner := match v with
        | Plain => fsub (literal 1666666667 10) (fmul b2 (literal 8333333333 12))
        | _ => fsub (of_bits 0x3C088889) (fmul b2 (of_bits 0x3E2AAAAB))
        end in
      let sine_beta := fsub b (fmul (fmul b b2) inner) in
      let half := match v with
        | Plain => fsub (literal 5 1) (fmul b2 (literal 4166666667 11))
        | _ => fsub (of_bits 0x3F000000) (fmul b2 (of_bits 0x3D2AAAAB))
        end in
      let cosine_beta := fsub (of_int 1) (fmul b2 half) in
      Ret (of_bits c, of_bits s, cosine_beta, sine_beta)
  end.

Definition sine_of (p : f32 * f32 * f32 * f32) : f32 :=
  let '(ca, sa, cb, sb) := p in fadd (fmul sa cb) (fmul ca sb).
Definition cosine_of (p : f32 * f32 * f32 * f32) : f32 :=
  let '(ca, sa, cb, sb) := p in fsub (fmul ca cb) (fmul sa sb).

(** TSMath.cpp:222-261. *)
Definition sin_f (v : simd) (x : f32) : out f32 :=
  let! p := trig_parts v x in
  let sine := sine_of p in Ret (if negative x then fneg sine else sine).

(** TSMath.cpp:263-299. *)
Definition cos_f (v : simd) (x : f32) : out f32 := let! p := trig_parts v x in Ret (cosine_of p).

(** TSMath.cpp:346-385: the values stored in *c and *s. *)
Definition cossin_f (v : simd) (x : f32) : out (f32 * f32) :=
  let! p := trig_parts v x in
  let sine := sine_of p in Ret (cosine_of p, if negative x then fneg sine else sine).

(** TSMath.cpp:301-344. A cosine zero is taken as positive. *)
Definition tan_f (v : simd) (x : f32) : out f32 :=
  let! p := trig_parts v x in
  let result := fdiv (sine_of p) (cosine_of p) in Ret (if negative x then fneg result else result).

(** The table in Arctan, TSMath.cpp:400-413, as bits: the arcus tangent of n/64. *)
Definition arctan_table : list Z :=
  [0x00000000; 0x3C7FFAAB; 0x3CFFEAAE; 0x3D3FDC0C; 0x3D7FAADE; 0x3D9FACF8; 0x3DBF70C1; 0x3DDF1CF6;
   0x3DFEADD5; 0x3E0F0FD8; 0x3E1EB777; 0x3E2E4C09; 0x3E3DCBDA; 0x3E4D3547; 0x3E5C86BB; 0x3E6BBEAF;
   0x3E7ADBB0; 0x3E84EE2D; 0x3E8C5FAD; 0x3E93C1B9; 0x3E9B13BA; 0x3EA25522; 0x3EA9856D; 0x3EB0A420;
   0x3EB7B0CA; 0x3EBEAB02; 0x3EC5926A; 0x3ECC66AA; 0x3ED32776; 0x3ED9D489; 0x3EE06DA6; 0x3EE6F29A;
   0x3EED6338; 0x3EF3BF5C; 0x3EFA06E8; 0x3F001CE4; 0x3F032BF5; 0x3F0630A3; 0x3F092AED; 0x3F0C1AD4;
   0x3F0F005D; 0x3F11DB8F; 0x3F14AC73; 0x3F177314; 0x3F1A2F81; 0x3F1CE1C9; 0x3F1F89FE; 0x3F222833;
   0x3F24BC7D; 0x3F2746F3; 0x3F29C7AC; 0x3F2C3EC1; 0x3F2EAC4C; 0x3F311069; 0x3F336B32; 0x3F35BCC5;
   0x3F38053E; 0x3F3A44BC; 0x3F3C7B5E; 0x3F3EA941; 0x3F40CE86; 0x3F42EB4B; 0x3F44FFB0; 0x3F470BD5;
   0x3F490FDB].

(** Math::tau_over_4 and Math::tau_over_2 (TSMath.cpp:37, 34), Math::min_float (20, 27). *)
Definition tau_over_4 : f32 := literal 15707963267948966192313216916398 31.
Definition tau_over_2 : f32 := literal 31415926535897932384626433832795 31.
Definition min_float : f32 := of_bits 0x00800000.

(** Both branches of Arctan for [a] in 0..1: TSMath.cpp:420-430 and 436-444. The index is not
    checked. *)
Definition arctan_unit (v : simd) (a : f32) : out f32 :=
  let i := positive_floor v (fmul a (of_int 64)) in
  let b := fmul i (literal 15625 6) in
  let! n := to_int32 i in
  if n <? 0 then UB else
  match nth_error arctan_table (Z.to_nat n) with
  | None => UB
  | Some t =>
      let c := fdiv (fsub a b) (fadd (fmul a b) (of_int 1)) in
      let c2 := fmul c c in
      let arctan_c := fmul c (fsub (of_int 1) (fmul c2 (fadd (literal 3333333333 10) (fmul c2 (fsub (literal 2 1) (fmul c2 (literal 1428571429 10))))))) in
      Ret (fadd (of_bits t) arctan_c)
  end.

(** TSMath.cpp:398-448. *)
Definition arctan_f (v : simd) (x : f32) : out f32 :=
  let a := fabs_f x in
  let! a :=
    if fle a (of_int 1) then arctan_unit v a
    else let! r := arctan_unit v (fdiv (of_int 1) a) in Ret (fsub tau_over_4 r) in
  Ret (if negative x then fneg a else a).

(** TSMath.cpp:450-477. *)
Definition arctan2_f (v : simd) (y x : f32) : out f32 :=
  if flt min_float (fabs_f y) then
    if flt min_float (fabs_f x) then
      let! r := arctan_f v (fdiv y x) in
      Ret (if negative x then (if fle (Fin 0) y then fadd r tau_over_2 else fsub r tau_over_2) else r)
    else Ret (if negative y then fneg tau_over_4 else tau_over_4)
  else Ret (if negative x then tau_over_2 else Fin 0).
