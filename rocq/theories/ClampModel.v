(** * Model of the small functions of Code/Terathon/TSMath.h on floats: Fmin, Fmax, FminZero,
    FmaxZero, Saturate, Clamp, the signs, one-sided floors and ceilings, FloorCeil and Frac. Floats,
    their operations and the builds are those of MathModel.v; Neon is not modelled. *)

From Verif Require Import Base TextModel NumModel StringModel SpecText FloatTextModel MathModel.

(** _mm_min_ss and _mm_max_ss (TSSimd.h:636-673): the second operand unless the first is less
    (greater), so that it is the second if one is NaN. *)
Definition min_ss (x y : f32) : f32 := if flt x y then x else y.
Definition max_ss (x y : f32) : f32 := if flt y x then x else y.

(** TSMath.h:130-144 and 178-192. *)
Definition fmin_f (v : simd) (x y : f32) : f32 := match v with Plain => if flt x y then x else y | _ => min_ss x y end.
Definition fmax_f (v : simd) (x y : f32) : f32 := match v with Plain => if flt x y then y else x | _ => max_ss x y end.
(** TSMath.h:146-160, 162-176, 194-208 and 210-224; the SIMD branches nest in the same way. *)
Definition fmin3_f (v : simd) (x y z : f32) : f32 := fmin_f v (fmin_f v x y) z.
Definition fmin4_f (v : simd) (x y z w : f32) : f32 := fmin_f v (fmin_f v x y) (fmin_f v z w).
Definition fmax3_f (v : simd) (x y z : f32) : f32 := fmax_f v (fmax_f v x y) z.
Definition fmax4_f (v : simd) (x y z w : f32) : f32 := fmax_f v (fmax_f v x y) (fmax_f v z w).

(** TSMath.h:226-240 and 242-256. *)
Definition fmin_zero (v : simd) (x : f32) : f32 := match v with Plain => if flt x (Fin 0) then x else Fin 0 | _ => min_ss x (Fin 0) end.
Definition fmax_zero (v : simd) (x : f32) : f32 := match v with Plain => if flt x (Fin 0) then Fin 0 else x | _ => max_ss x (Fin 0) end.

(** TSMath.h:275-290. *)
Definition clamp_f (v : simd) (x y z : f32) : f32 :=
  match v with
  | Plain => let f := if flt x y then y else x in if flt f z then f else z
  | _ => min_ss (max_ss x y) z
  end.
(** TSMath.h:258-273. *)
Definition saturate_f (v : simd) (x : f32) : f32 :=
  match v with
  | Plain => let f := if flt x (Fin 0) then Fin 0 else x in if flt f (of_int 1) then f else of_int 1
  | _ => min_ss (max_ss x (Fin 0)) (of_bits 0x3F800000)
  end.

(** The signs, TSMath.h:66-128 with TSSimd.h:1709-1733, on the bits of the argument: the SIMD branches work on
    the sign bit, which -0 and NaN have as well. *)
Definition fsgn_f (v : simd) (bits : Z) : f32 :=
  let x := of_bits bits in
  match v with
  | Plain => if flt x (Fin 0) then of_int (-1) else if flt (Fin 0) x then of_int 1 else Fin 0
  | _ => match x with Fin 0 => Fin 0 | _ => of_bits (Z.lor 0x3F800000 (Z.land 0x80000000 bits)) end
  end.
Definition nonzero_fsgn_f (v : simd) (bits : Z) : f32 :=
  match v with
  | Plain => if flt (of_bits bits) (Fin 0) then of_int (-1) else of_int 1
  | _ => of_bits (Z.lor 0x3F800000 (Z.land 0x80000000 bits))
  end.

(** PositiveCeil, NegativeFloor and NegativeCeil: TSMath.h:333-379 with TSSimd.h:1302-1330, 1430-1458 and
    1488-1516. *)
Definition positive_ceil (v : simd) (x : f32) : f32 :=
  match v with
  | Sse2 => let r := fsub (fadd x two23) two23 in fadd r (if flt r x then of_int 1 else Fin 0)
  | _ => ceil_f v x
  end.
Definition negative_floor (v : simd) (x : f32) : f32 :=
  match v with
  | Sse2 => let r := fadd (fsub x two23) two23 in fsub r (if flt x r then of_int 1 else Fin 0)
  | _ => floor_f v x
  end.
Definition negative_ceil (v : simd) (x : f32) : f32 :=
  match v with
  | Sse2 => let r := fadd (fsub x two23) two23 in fadd r (if flt r x then of_int 1 else Fin 0)
  | _ => ceil_f v x
  end.

(** What FloorCeil stores in *f and *c: TSMath.h:381-397 with TSSimd.h:1549-1579. *)
Definition floor_ceil (v : simd) (x : f32) : f32 * f32 :=
  match v with
  | Sse2 => let r := shake x in (fsub r (if flt x r then of_int 1 else Fin 0), fadd r (if flt r x then of_int 1 else Fin 0))
  | _ => (floor_f v x, ceil_f v x)
  end.

(** TSMath.h:435-438. *)
Definition frac_f (v : simd) (x : f32) : f32 := fsub x (floor_f v x).
