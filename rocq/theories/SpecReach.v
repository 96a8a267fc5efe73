(** * Specification of the doubles that builds without system conversions can write.
      Independent of the models. *)

From Verif Require Import Base SpecNum SpecText SpecFloatText SpecNarrow.

Definition d_finite (d : spec_float) : Prop := valid_double d /\ is_finite d.

(** Finite doubles by the float they are rounded to; the bounds are the middles between
    two floats. Zero or below 2^-126; *)
Definition d_tiny (d : spec_float) : Prop := d_finite d /\ magnitude d < (2 ^ 24 - 1) * 2 ^ (1074 - 150).
(** from there to below about 1e-37; *)
Definition d_unwritable (d : spec_float) : Prop := d_finite d /\
  (2 ^ 24 - 1) * 2 ^ (1074 - 150) <= magnitude d <= (2 * (2 ^ 23 + 0x081CC9) - 1) * 2 ^ (1074 - 147).
(** from there to below 1e-4, or from 1e5 to the greatest float; *)
Definition d_scaled (d : spec_float) : Prop := d_finite d /\
  ((2 * (2 ^ 23 + 0x081CC9) - 1) * 2 ^ (1074 - 147) < magnitude d <= (2 * 13743895 - 1) * 2 ^ (1074 - 38) \/
   (100000 * 2 ^ 8 - 1) * 2 ^ (1074 - 8) <= magnitude d < (2 ^ 25 - 1) * 2 ^ (1074 + 103)).
(** from 1e-4 to below 1e5; *)
Definition d_fixed (d : spec_float) : Prop := d_finite d /\
  (2 * 13743895 - 1) * 2 ^ (1074 - 38) < magnitude d < (100000 * 2 ^ 8 - 1) * 2 ^ (1074 - 8).
(** beyond the greatest float. *)
Definition d_huge (d : spec_float) : Prop := d_finite d /\ (2 ^ 25 - 1) * 2 ^ (1074 + 103) <= magnitude d.

(** m * 10^e differs from the magnitude of [d] by at most 1/49000 of it. *)
Definition d_close (m e : Z) (d : spec_float) : Prop :=
  Z.abs (m * 10 ^ Z.max 0 e * 2 ^ 1074 - magnitude d * 10 ^ Z.max 0 (- e)) * 49000 <= magnitude d * 10 ^ Z.max 0 (- e).
