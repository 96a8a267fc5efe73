(** * Specification of single precision numbers and of decimal texts with a point.
    Independent of the models. *)

From Verif Require Import Base SpecNum SpecText.

(** The fields of a float given by its 32 bits. *)
Definition f_sign (bits : Z) : bool := 2 ^ 31 <=? bits.
Definition f_exponent (bits : Z) : Z := (bits / 2 ^ 23) mod 2 ^ 8.
Definition f_mantissa (bits : Z) : Z := bits mod 2 ^ 23.

(** The magnitude of a finite float as a multiple of 2^-149. *)
Definition f_units (bits : Z) : Z :=
  if f_exponent bits =? 0 then f_mantissa bits
  else (2 ^ 23 + f_mantissa bits) * 2 ^ (f_exponent bits - 1).

(** Neither zero, nor subnormal, nor infinite, nor NaN. *)
Definition f_normal (bits : Z) : Prop := 0 <= bits < 2 ^ 32 /\ 0 < f_exponent bits < 255.

(** From the float nearest to 1e-4 up to, and without, 1e5. The former is
    13743895 * 2^-37. *)
Definition f_moderate (bits : Z) : Prop :=
  f_normal bits /\ 13743895 * 2 ^ (149 - 37) <= f_units bits < 100000 * 2 ^ 149.

(** [t] is the sign, the numeral [w] of the natural number [n], a point and the
    digits [ds]. *)
Definition sign_of (neg : bool) : list Z := if neg then [45] else [].
Definition point_text (neg : bool) (n : Z) (ds t : list Z) : Prop :=
  0 <= n /\ ds <> [] /\ digits ds /\ exists w, numeral n w /\ t = sign_of neg ++ w ++ 46 :: ds.

(** n.ds differs from [u] * 2^-149 by at most [e] * 10^-7; at most seven digits. *)
Definition within (n : Z) (ds : list Z) (u e : Z) : Prop :=
  (length ds <= 7)%nat /\
  Z.abs ((n * 10 ^ Z.of_nat (length ds) + dvalue ds) * 10 ^ (7 - Z.of_nat (length ds)) * 2 ^ 149 - u * 10 ^ 7) <= e * 2 ^ 149.

(** No zero at the end, except for a single one. *)
Definition no_trailing_zero (ds : list Z) : Prop := ds = [48] \/ exists ds' d, ds = ds' ++ [d] /\ d <> 48.

(** The storage [b] with the text [t], the NUL and untouched bytes from [size] on. *)
Definition stored_within (b : list Z) (size : nat) (t b' : list Z) : Prop :=
  (length t < size)%nat /\ length b' = length b /\ holds b' t /\ skipn size b' = skipn size b.

(** The number that is written and the power of ten behind it: the magnitude itself,
    or what the scaling function gives for it. *)
Definition written (scale : Z -> Z * Z) (bits a p : Z) : Prop :=
  f_moderate bits /\ a = bits mod 2 ^ 31 /\ p = 0 \/ ~ f_moderate bits /\ scale (bits mod 2 ^ 31) = (a, p).
