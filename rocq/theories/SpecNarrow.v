(** * Specification of doubles written as short decimals. Independent of the models. *)

From Verif Require Import Base SpecNum SpecText SpecFloatText.

(** From the float nearest to 1e-4 up to where rounding to a float reaches 1e5. *)
Definition d_moderate (d : spec_float) : Prop :=
  valid_double d /\ is_finite d /\
  13743895 * 2 ^ (1074 - 37) <= magnitude d < (100000 * 2 ^ 8 - 1) * 2 ^ (1074 - 8).

(** The float with these bits is a float nearest to [d], up to half of the
    distance of two floats. *)
Definition nearby (d : spec_float) (bits : Z) : Prop :=
  Z.abs (f_units bits * 2 ^ (1074 - 149) - magnitude d) * 2 ^ 24 <= magnitude d.

(** n.ds as a multiple of 10^-7. *)
Definition decimal7 (n : Z) (ds : list Z) : Z :=
  (n * 10 ^ Z.of_nat (length ds) + dvalue ds) * 10 ^ (7 - Z.of_nat (length ds)).

(** n.ds differs from the magnitude of [d] by at most 1.02e-5 and 2^-24 of it. *)
Definition short_decimal (n : Z) (ds : list Z) (d : spec_float) : Prop :=
  (length ds <= 7)%nat /\
  Z.abs (decimal7 n ds * 2 ^ 1074 - magnitude d * 10 ^ 7) * 2 ^ 24 <= 102 * 2 ^ 1074 * 2 ^ 24 + magnitude d * 10 ^ 7.

(** The magnitude is a / 2^b. *)
Definition dyadic (a b : Z) (d : spec_float) : Prop := magnitude d * 2 ^ b = a * 2 ^ 1074.
