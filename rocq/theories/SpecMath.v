(** * Specification of floats as numbers. *)

From Verif Require Import Base SpecText SpecFloatText MathModel.

(** A finite float with its sign as a multiple of 2^-149. *)
Definition f_value (bits : Z) : Z := if f_sign bits then - f_units bits else f_units bits.

Definition f_finite (bits : Z) : Prop := 0 <= bits < 2 ^ 32 /\ f_exponent bits <> 255.

(** Neither is negative or not a number, and the first is not greater. *)
Definition ole (x y : f32) : Prop :=
  match x, y with
  | Fin a, Fin b => 0 <= a <= b
  | Fin a, Inf false => 0 <= a
  | Inf false, Inf false => True
  | _, _ => False
  end.

(** m * 10^e differs from [u] * 2^-149 by at most 2e-5 of the latter. *)
Definition close (m e u : Z) : Prop :=
  Z.abs (m * 10 ^ Z.max 0 e * 2 ^ 149 - u * 10 ^ Z.max 0 (- e)) * 50000 <= u * 10 ^ Z.max 0 (- e).

(** The bits of the least magnitude above zero for which Exp does not give 0 in
    FloatToString: about 9.9999e-38. *)
Definition least_scaled : Z := 0x02081CC9.
