(** * What sine and cosine are, without the code. *)

From Coq Require Import ZArith Lia.
Local Open Scope Z_scope.

(** Cosine and sine of n/256 of a turn, in units of 2^-60: what 256 rotations by one and the same
    small angle go through. The rotation is given by its cosine and sine; that it is the 256th part
    of a turn is what [circle_closed] checks. *)
Definition rotate (p : Z * Z) : Z * Z :=
  let '(c, s) := p in
  ((c * 1152574266204915294 - s * 28294110113536504) / 2 ^ 60, (s * 1152574266204915294 + c * 28294110113536504) / 2 ^ 60).
Definition circle (n : nat) : Z * Z := Nat.iter n rotate (2 ^ 60, 0).

Example circle_closed :
  (let '(c, s) := circle 64 in Z.abs c <= 2 ^ 9 /\ Z.abs (s - 2 ^ 60) <= 2 ^ 9) /\
  (let '(c, s) := circle 256 in Z.abs (c - 2 ^ 60) <= 2 ^ 9 /\ Z.abs s <= 2 ^ 9).
Proof. vm_compute. repeat split; discriminate. Qed.

(** Sine and cosine of the angle that is [b] units of 2^-149 beyond n/256 of a turn, expanded to
    the second order (cos b is 1 - b^2/2, sin b is b), multiplied by 2^60 * 2 * 2^298. *)
Definition sine_at (n b : Z) : Z :=
  let '(c, s) := circle (Z.to_nat (n mod 256)) in s * (2 * 2 ^ 298 - b * b) + 2 * c * b * 2 ^ 149.
Definition cosine_at (n b : Z) : Z :=
  let '(c, s) := circle (Z.to_nat (n mod 256)) in c * (2 * 2 ^ 298 - b * b) - 2 * s * b * 2 ^ 149.

(** The 256th part of a turn in units of 2^-149. *)
Definition part : Z := 17514964321320415196933003233884090913597698.

(** The angle with tangent k/64, in units of 2^-60: by the addition theorem, from k/64 to
    (k + 1)/64 the angle grows by the one with tangent c = 64 / (4096 + k (k + 1)), which is
    c - c^3/3 + c^5/5 up to 2^-44. [arc_closed] checks that the angle with tangent 1 is the eighth
    of the turn. *)
Definition small_arc (c : Z) : Z := c - c * c * c / 2 ^ 120 / 3 + c * c * c * c * c / 2 ^ 240 / 5.
Fixpoint arc (k : nat) : Z :=
  match k with
  | O => 0
  | S k' => arc k' + small_arc (2 ^ 66 / (4096 + Z.of_nat k' * (Z.of_nat k' + 1)))
  end.

Example arc_closed : Z.abs (arc 64 * 2 ^ 89 - 32 * part) <= 2 ^ 21 * 2 ^ 89.
Proof. vm_compute. discriminate. Qed.

(** [r] is within 2^-18 of the angle with tangent [a], for [a] from 0 to 1, both in units of 2^-149: by
    the addition theorem that angle is [arc k] and the one with tangent
    (a - k/64) / (1 + a k/64), which is less than 1/64 and so its own tangent up to 2^-19. *)
Definition near_arctan (a r : Z) : Prop := exists k, 0 <= k <= 64 /\ k * 2 ^ 149 <= 64 * a < (k + 1) * 2 ^ 149 /\
  Z.abs (r * 2 ^ 60 * (64 * 2 ^ 149 + a * k) - (arc (Z.to_nat k) * (64 * 2 ^ 149 + a * k) + 2 ^ 60 * (64 * a - k * 2 ^ 149)) * 2 ^ 149) <=
  2 ^ 42 * 2 ^ 149 * (64 * 2 ^ 149 + a * k).
