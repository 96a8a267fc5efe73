(** * Model of Sqrt, InverseSqrt, Arcsin and Arccos (Code/Terathon/TSMath.cpp). Floats, their operations and
    the builds are those of MathModel.v. The instruction _mm_rsqrt_ss, whose result the processor chooses, is
    an argument [rsqrt]. *)

From Verif Require Import Base TextModel NumModel StringModel SpecText FloatTextModel MathModel TrigModel.

(** The first approximation without SIMD, from the bits of x: TSMath.cpp:182-183 and 215-216. *)
Definition magic (bits : Z) : f32 := of_bits ((0x5F375A86 - Z.shiftr bits 1) mod 2 ^ 32).

(** One step of Newton's method without SIMD, TSMath.cpp:184-185 and 217-218, and with SSE, 170 and 201. *)
Definition newton (x r : f32) : f32 :=
  fmul (fmul (ratio 1 2) r) (fsub (of_int 3) (fmul (fmul x r) r)).
Definition newton_sse (x r : f32) : f32 :=
  fmul (fsub (of_bits 0x40400000) (fmul x (fmul r r))) (fmul r (of_bits 0x3F000001)).

(** TSMath.cpp:191-222; the mask of the SSE branch selects one of two values. asuint(x) is only used for
    x >= min_float (and for infinity and NaN), where [to_bits] gives the bits. *)
Definition inverse_sqrt_f (v : simd) (rsqrt : f32 -> f32) (x : f32) : f32 :=
  if flt x min_float then Inf false
  else match v with
       | Plain => newton x (newton x (magic (to_bits x)))
       | _ => newton_sse x (rsqrt x)
       end.

(** TSMath.cpp:160-189; with SSE the masked value is multiplied by the argument. *)
Definition sqrt_f (v : simd) (rsqrt : f32 -> f32) (x : f32) : f32 :=
  match v with
  | Plain => if flt x min_float then Fin 0 else fmul (newton x (newton x (magic (to_bits x)))) x
  | _ => fmul (if flt x min_float then Fin 0 else newton_sse x (rsqrt x)) x
  end.

(** TSMath.cpp:387-390. *)
Definition arcsin_f (v : simd) (rsqrt : f32 -> f32) (y : f32) : out f32 :=
  arctan_f v (fmul y (inverse_sqrt_f v rsqrt (fsub (of_int 1) (fmul y y)))).

(** TSMath.cpp:392-396. *)
Definition arccos_f (v : simd) (rsqrt : f32 -> f32) (x : f32) : out f32 :=
  let! r := arctan_f v (fdiv (sqrt_f v rsqrt (fsub (of_int 1) (fmul x x))) x) in
  Ret (if flt x (Fin 0) then fadd r tau_over_2 else r).
