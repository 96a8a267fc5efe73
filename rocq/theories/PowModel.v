(** * Model of Pow (Code/Terathon/TSMath.h), with the floats, builds, Exp and Log of MathModel.v *)

From Verif Require Import Base TextModel NumModel StringModel SpecText FloatTextModel MathModel.

(** TSMath.h:467-470. The base is given by its bits, as Log looks at them. *)
Definition pow_f (v : simd) (base : Z) (exponent : f32) : out f32 := exp_f v (fmul (log_f base) exponent).
