(** * Rounding to float: exactness, order and error of the operations of MathModel. *)

From Verif Require Import Base TextModel NumModel FloatTextModel MathModel RoundProofs.

#[local] Arguments Z.pow : simpl never.

(** ** Rounding fractions *)

Lemma half_even_mono n1 d1 n2 d2 : 0 < d1 -> 0 < d2 -> n1 * d2 <= n2 * d1 -> div_half_even n1 d1 <= div_half_even n2 d2.
Proof.
  intros H1 H2 H. destruct (div_half_even_spec n1 d1 H1) as [A1 B1]. destruct (div_half_even_spec n2 d2 H2) as [A2 B2].
  set (a := div_half_even n1 d1) in *. set (b := div_half_even n2 d2) in *.
  destruct (Z.le_gt_cases a b) as [|G]; [assumption|exfalso].
  assert (P1 : (2 * a - 1) * d1 <= 2 * n1) by lia. assert (P2 : 2 * n2 <= (2 * b + 1) * d2) by lia.
  assert (P3 : (2 * a - 1) * d1 * d2 <= 2 * n1 * d2) by (apply Z.mul_le_mono_nonneg_r; lia).
  assert (P4 : 2 * n2 * d1 <= (2 * b + 1) * d2 * d1) by (apply Z.mul_le_mono_nonneg_r; lia).
  assert (P5 : (2 * a - 1) * (d1 * d2) <= (2 * b + 1) * (d1 * d2)) by lia.
  assert (P6 : 0 < d1 * d2) by lia.
  assert (P7 : 2 * a - 1 <= 2 * b + 1) by (apply Z.mul_le_mono_pos_r with (d1 * d2); assumption).
  assert (Ea : a = b + 1) by lia. rewrite Ea in *.
  assert (Q1 : 2 * n1 = (2 * b + 1) * d1).
  { apply Z.mul_reg_r with d2; [lia|]. lia. }
  assert (Q2 : 2 * n2 = (2 * b + 1) * d2).
  { apply Z.mul_reg_r with d1; [lia|]. lia. }
  specialize (B1 ltac:(lia)). specialize (B2 ltac:(lia)).
  apply Z.even_spec in B1. apply Z.even_spec in B2. destruct B1 as [x X], B2 as [y Y]. lia.
Qed.

Lemma half_even_le n d z : 0 < d -> z * d <= n -> z <= div_half_even n d.
Proof. intros Hd H. destruct (div_half_even_spec n d Hd) as [S _]. destruct (Z.le_gt_cases z (div_half_even n d)); [auto|]. nia. Qed.
Lemma half_even_ge n d z : 0 < d -> n <= z * d -> div_half_even n d <= z.
Proof. intros Hd H. destruct (div_half_even_spec n d Hd) as [S _]. destruct (Z.le_gt_cases (div_half_even n d) z); [auto|]. nia. Qed.
Lemma half_even_exact z d : 0 < d -> div_half_even (z * d) d = z.
Proof. intros Hd. destruct (div_half_even_spec (z * d) d Hd) as [S _]. nia. Qed.

Lemma pow2_pos z : 0 <= z -> 0 < 2 ^ z.
Proof. intros. apply Z.pow_pos_nonneg; lia. Qed.

(** The exponent of the distance of the floats around n / d units. *)
Definition gap (n d : Z) : Z := Z.max 0 (Z.log2 (n / d) - 23).

Lemma gap_nonneg n d : 0 <= gap n d.
Proof. unfold gap. lia. Qed.

Lemma gap_below n d : 0 <= n -> 0 < d -> n < 2 ^ (24 + gap n d) * d.
Proof.
  intros Hn Hd. pose proof (Z.div_pos n d Hn Hd) as Q.
  assert (H : n / d < 2 ^ (24 + gap n d)).
  { destruct (Z.eq_dec (n / d) 0) as [->|N]; [apply pow2_pos; unfold gap; lia|].
    destruct (Z.log2_spec (n / d) ltac:(lia)) as [_ L]. eapply Z.lt_le_trans; [exact L|]. apply Z.pow_le_mono_r; [lia|]. unfold gap. lia. }
  pose proof (Z.div_mod n d ltac:(lia)). pose proof (Z.mod_pos_bound n d Hd). nia.
Qed.

Lemma gap_above n d : 0 <= n -> 0 < d -> 0 < gap n d -> 2 ^ (23 + gap n d) * d <= n.
Proof.
  intros Hn Hd G. pose proof (Z.div_pos n d Hn Hd) as Q.
  assert (N : n / d <> 0) by (intros E; unfold gap in G; rewrite E in G; simpl in G; lia).
  destruct (Z.log2_spec (n / d) ltac:(lia)) as [L _].
  assert (E : 23 + gap n d = Z.log2 (n / d)) by (unfold gap in *; lia). rewrite E.
  pose proof (Z.div_mod n d ltac:(lia)). pose proof (Z.mod_pos_bound n d Hd). nia.
Qed.

Lemma gap_mono n1 d1 n2 d2 : 0 <= n1 -> 0 < d1 -> 0 < d2 -> n1 * d2 <= n2 * d1 -> gap n1 d1 <= gap n2 d2.
Proof.
  intros Hn H1 H2 H. unfold gap. apply Z.max_le_compat_l. apply Z.sub_le_mono_r. apply Z.log2_le_mono.
  apply Z.div_le_lower_bound; [exact H2|]. pose proof (Z.div_mod n1 d1 ltac:(lia)). pose proof (Z.mod_pos_bound n1 d1 H1). nia.
Qed.

Lemma round_unfold n d : round_units n d = div_half_even n (d * 2 ^ gap n d) * 2 ^ gap n d.
Proof. reflexivity. Qed.

Lemma round_nonneg n d : 0 <= n -> 0 < d -> 0 <= round_units n d.
Proof.
  intros Hn Hd. rewrite round_unfold. pose proof (pow2_pos _ (gap_nonneg n d)).
  pose proof (half_even_le n (d * 2 ^ gap n d) 0 ltac:(lia) ltac:(lia)). lia.
Qed.

Lemma round_mono n1 d1 n2 d2 : 0 <= n1 -> 0 < d1 -> 0 < d2 -> n1 * d2 <= n2 * d1 -> round_units n1 d1 <= round_units n2 d2.
Proof.
  intros Hn H1 H2 H. pose proof (gap_mono _ _ _ _ Hn H1 H2 H) as G. pose proof (gap_nonneg n1 d1) as G1.
  assert (Hn2 : 0 <= n2) by nia.
  pose proof (gap_below n1 d1 Hn H1) as B. pose proof (gap_above n2 d2 Hn2 H2) as A. rewrite !round_unfold.
  set (k1 := gap n1 d1) in *. set (k2 := gap n2 d2) in *. pose proof (pow2_pos k1 G1) as P1. pose proof (pow2_pos k2 ltac:(lia)) as P2.
  destruct (Z.eq_dec k1 k2) as [E|N].
  - rewrite <- E in *. apply Z.mul_le_mono_nonneg_r; [lia|]. apply half_even_mono; nia.
  - specialize (A ltac:(lia)). transitivity (2 ^ 24 * 2 ^ k1).
    + apply Z.mul_le_mono_nonneg_r; [lia|]. apply half_even_ge; [nia|]. rewrite Z.pow_add_r in B by lia. lia.
    + transitivity (2 ^ 23 * 2 ^ k2).
      * rewrite <- !Z.pow_add_r by lia. apply Z.pow_le_mono_r; lia.
      * apply Z.mul_le_mono_nonneg_r; [lia|]. apply half_even_le; [nia|]. rewrite Z.pow_add_r in A by lia. lia.
Qed.

(** Numbers that are floats: at most 24 bits, and zeros. *)
Definition rep (m : Z) : Prop := exists q k, 0 <= k /\ 0 <= q <= 2 ^ 24 /\ m = q * 2 ^ k.

Lemma round_exact m d : rep m -> 0 < d -> round_units (m * d) d = m.
Proof.
  intros (q & k & Hk & Hq & ->) Hd. rewrite round_unfold. set (g := gap (q * 2 ^ k * d) d).
  assert (Hm : 0 <= q * 2 ^ k) by (pose proof (pow2_pos k Hk); nia).
  destruct (Z.eq_dec q (2 ^ 24)) as [->|N].
  - assert (Eg : g = k + 1).
    { unfold g, gap. rewrite Z.div_mul by lia. rewrite <- Z.pow_add_r, Z.log2_pow2 by lia. lia. }
    rewrite Eg. replace (2 ^ 24 * 2 ^ k * d) with (2 ^ 23 * (d * 2 ^ (k + 1))) by (rewrite Z.pow_add_r by lia; lia).
    rewrite half_even_exact by (pose proof (pow2_pos (k + 1)); nia). rewrite <- !Z.pow_add_r by lia. f_equal. lia.
  - assert (Gk : g <= k).
    { unfold g, gap. rewrite Z.div_mul by lia. destruct (Z.eq_dec q 0) as [->|Nq]; [simpl; lia|].
      rewrite Z.log2_mul_pow2 by lia. assert (Z.log2 q < 24) by (apply Z.log2_lt_pow2; lia). lia. }
    pose proof (gap_nonneg (q * 2 ^ k * d) d) as G0. fold g in G0.
    replace (q * 2 ^ k * d) with (q * 2 ^ (k - g) * (d * 2 ^ g)).
    + rewrite half_even_exact by (pose proof (pow2_pos g); nia). rewrite <- Z.mul_assoc, <- Z.pow_add_r by lia. do 2 f_equal. lia.
    + replace k with (k - g + g) at 2 by lia. rewrite Z.pow_add_r by lia. lia.
Qed.

Lemma round_rep n d : 0 <= n -> 0 < d -> rep (round_units n d).
Proof.
  intros Hn Hd. exists (div_half_even n (d * 2 ^ gap n d)), (gap n d). pose proof (gap_nonneg n d). pose proof (pow2_pos (gap n d) ltac:(lia)).
  split; [lia|]. split; [|apply round_unfold]. split; [apply half_even_le; nia|]. apply half_even_ge; [nia|].
  pose proof (gap_below n d Hn Hd) as B. rewrite Z.pow_add_r in B by lia. lia.
Qed.

(** The error: half a unit, and 2^-24 of a normal number. *)
Lemma round_error n d : 0 <= n -> 0 < d -> 2 * Z.abs (round_units n d * d - n) <= d * 2 ^ gap n d.
Proof.
  intros Hn Hd. rewrite round_unfold. pose proof (pow2_pos _ (gap_nonneg n d)) as P.
  destruct (div_half_even_spec n (d * 2 ^ gap n d) ltac:(nia)) as [S _]. lia.
Qed.

Lemma round_relative n d : 0 < d -> 2 ^ 23 * d <= n -> 2 ^ 24 * Z.abs (round_units n d * d - n) <= n.
Proof.
  intros Hd H. assert (Hn : 0 <= n) by lia. pose proof (round_error n d Hn Hd) as E. pose proof (gap_nonneg n d) as G.
  destruct (Z.eq_dec (gap n d) 0) as [Z0|N].
  - rewrite Z0 in E. lia.
  - pose proof (gap_above n d Hn Hd ltac:(lia)) as A. rewrite Z.pow_add_r in A by lia. lia.
Qed.

Lemma rep_pow p : 0 <= p -> rep (2 ^ p).
Proof. intros. exists 1, p. lia. Qed.

Lemma rep_0 : rep 0.
Proof. exists 0, 0. lia. Qed.

Lemma round_below n d p : 0 <= n -> 0 < d -> 0 <= p -> n <= 2 ^ p * d -> round_units n d <= 2 ^ p.
Proof.
  intros Hn Hd Hp H. rewrite <- (round_exact (2 ^ p) 1 (rep_pow p Hp) ltac:(lia)). apply round_mono; lia.
Qed.

(** ** Signed numbers *)

Definition rnd (n d : Z) : Z := Z.sgn n * round_units (Z.abs n) d.

Lemma rnd_pos n d : 0 <= n -> rnd n d = if n =? 0 then 0 else round_units n d.
Proof. intros H. unfold rnd. destruct (Z.eqb_spec n 0) as [->|N]; [reflexivity|]. rewrite Z.abs_eq, Z.sgn_pos by lia. lia. Qed.

Lemma round_zero d : 0 < d -> round_units 0 d = 0.
Proof. intros. exact (round_exact 0 d rep_0 H). Qed.

Lemma rnd_nonneg n d : 0 < d -> 0 <= n -> rnd n d = round_units n d.
Proof. intros Hd H. rewrite rnd_pos by lia. destruct (Z.eqb_spec n 0) as [->|N]; [now rewrite round_zero|reflexivity]. Qed.

Lemma rnd_neg n d : rnd (- n) d = - rnd n d.
Proof. unfold rnd. rewrite Z.abs_opp, Z.sgn_opp. lia. Qed.

Lemma rnd_mono n1 d1 n2 d2 : 0 < d1 -> 0 < d2 -> n1 * d2 <= n2 * d1 -> rnd n1 d1 <= rnd n2 d2.
Proof.
  intros H1 H2 H. destruct (Z.le_gt_cases 0 n1) as [P1|P1].
  - assert (P2 : 0 <= n2) by nia. rewrite !rnd_nonneg by lia. now apply round_mono.
  - destruct (Z.le_gt_cases 0 n2) as [P2|P2].
    + transitivity 0; [|rewrite rnd_nonneg by lia; now apply round_nonneg].
      replace n1 with (- - n1) by lia. rewrite (rnd_neg (- n1)), rnd_nonneg by lia. pose proof (round_nonneg (- n1) d1). lia.
    + replace n1 with (- - n1) by lia. replace n2 with (- - n2) by lia. rewrite (rnd_neg (- n1)), (rnd_neg (- n2)), !rnd_nonneg by lia.
      pose proof (round_mono (- n2) d2 (- n1) d1). lia.
Qed.

Lemma rnd_exact m d : rep (Z.abs m) -> 0 < d -> rnd (m * d) d = m.
Proof.
  intros R Hd. unfold rnd. rewrite Z.abs_mul, (Z.abs_eq d) by lia. rewrite round_exact by assumption.
  rewrite Z.sgn_mul, (Z.sgn_pos d) by lia. rewrite Z.mul_1_r. rewrite Z.mul_comm; apply Z.abs_sgn.
Qed.

Lemma rnd_range n d p : 0 < d -> 0 <= p -> - (2 ^ p) * d <= n <= 2 ^ p * d -> - (2 ^ p) <= rnd n d <= 2 ^ p.
Proof.
  intros Hd Hp H. pose proof (round_below (Z.abs n) d p ltac:(lia) Hd Hp ltac:(lia)).
  pose proof (round_nonneg (Z.abs n) d ltac:(lia) Hd). unfold rnd.
  set (R := round_units (Z.abs n) d) in *. clearbody R. pose proof (Z.pow_nonneg 2 p ltac:(lia)). destruct (Z.sgn_spec n) as [[_ ->]|[[_ ->]|[_ ->]]]; lia.
Qed.

Lemma rnd_error n d : 0 < d -> 2 * Z.abs (rnd n d * d - n) <= d * 2 ^ gap (Z.abs n) d.
Proof.
  intros Hd. pose proof (round_error (Z.abs n) d ltac:(lia) Hd) as E. unfold rnd.
  set (R := round_units (Z.abs n) d) in *. clearbody R. set (G := 2 ^ gap (Z.abs n) d) in *. clearbody G.
  destruct (Z.sgn_spec n) as [[? ->]|[[<- ->]|[? ->]]]; lia.
Qed.

Lemma fround_fin n d p : 0 < d -> 0 <= p < 277 -> - (2 ^ p) * d <= n <= 2 ^ p * d -> fround n d = Fin (rnd n d).
Proof.
  intros Hd Hp H. unfold fround. pose proof (round_below (Z.abs n) d p ltac:(lia) Hd ltac:(lia) ltac:(lia)) as B.
  pose proof (Z.pow_lt_mono_r 2 p 277 ltac:(lia) ltac:(lia) ltac:(lia)) as L. cbv zeta. destruct (Z.leb_spec (2 ^ 277) (round_units (Z.abs n) d)) as [C|C]; [lia|reflexivity].
Qed.

Lemma rep_small q k : 0 <= k -> Z.abs q <= 2 ^ 24 -> rep (Z.abs (q * 2 ^ k)).
Proof. intros Hk H. exists (Z.abs q), k. pose proof (pow2_pos k Hk). rewrite Z.abs_mul, (Z.abs_eq (2 ^ k)) by lia. lia. Qed.

Lemma fround_exact q k : 0 <= k <= 252 -> Z.abs q <= 2 ^ 24 -> fround (q * 2 ^ k) 1 = Fin (q * 2 ^ k).
Proof.
  intros Hk H. pose proof (pow2_pos k ltac:(lia)) as P.
  rewrite (fround_fin _ _ (24 + k)).
  - rewrite <- (Z.mul_1_r (q * 2 ^ k)) at 1. now rewrite rnd_exact by (try apply rep_small; lia).
  - lia.
  - lia.
  - rewrite Z.pow_add_r by lia. nia.
Qed.

(** ** Order *)

(** Both finite, of magnitude at most 2^p units, the first not greater. *)
Definition sle (p : Z) (x y : f32) : Prop := exists a b, x = Fin a /\ y = Fin b /\ - (2 ^ p) <= a /\ a <= b /\ b <= 2 ^ p.
(** The same, and not negative. *)
Definition nle (p : Z) (x y : f32) : Prop := exists a b, x = Fin a /\ y = Fin b /\ 0 <= a /\ a <= b /\ b <= 2 ^ p.

Lemma nle_sle p x y : nle p x y -> sle p x y.
Proof. intros (a & b & -> & -> & H). exists a, b. pose proof (Z.pow_nonneg 2 p). repeat split; lia. Qed.

Lemma nle_weak p q x y : p <= q -> nle p x y -> nle q x y.
Proof. intros L (a & b & -> & -> & H). exists a, b. pose proof (Z.pow_le_mono_r 2 p q). repeat split; lia. Qed.
Lemma sle_weak p q x y : p <= q -> sle p x y -> sle q x y.
Proof. intros L (a & b & -> & -> & H). exists a, b. pose proof (Z.pow_le_mono_r 2 p q). repeat split; lia. Qed.

Lemma fround_sle p n1 d1 n2 d2 : 0 <= p < 277 -> 0 < d1 -> 0 < d2 -> n1 * d2 <= n2 * d1 -> - (2 ^ p) * d1 <= n1 -> n2 <= 2 ^ p * d2 ->
  sle p (fround n1 d1) (fround n2 d2).
Proof.
  intros Hp H1 H2 H L U. pose proof (pow2_pos p ltac:(lia)) as P.
  assert (R1 : - (2 ^ p) * d1 <= n1 <= 2 ^ p * d1) by nia. assert (R2 : - (2 ^ p) * d2 <= n2 <= 2 ^ p * d2) by nia.
  rewrite (fround_fin n1 d1 p), (fround_fin n2 d2 p) by assumption. exists (rnd n1 d1), (rnd n2 d2).
  pose proof (rnd_range n1 d1 p H1 ltac:(lia) R1). pose proof (rnd_range n2 d2 p H2 ltac:(lia) R2).
  pose proof (rnd_mono n1 d1 n2 d2 H1 H2 H). repeat split; lia.
Qed.

Lemma fround_nle p n1 d1 n2 d2 : 0 <= p < 277 -> 0 < d1 -> 0 < d2 -> n1 * d2 <= n2 * d1 -> 0 <= n1 -> n2 <= 2 ^ p * d2 ->
  nle p (fround n1 d1) (fround n2 d2).
Proof.
  intros Hp H1 H2 H L U. pose proof (pow2_pos p ltac:(lia)) as P.
  destruct (fround_sle p n1 d1 n2 d2 Hp H1 H2 H ltac:(nia) U) as (a & b & Ea & Eb & R). exists a, b. repeat split; [assumption..| |lia|lia].
  assert (R1 : - (2 ^ p) * d1 <= n1 <= 2 ^ p * d1) by nia. rewrite (fround_fin n1 d1 p) in Ea by assumption. injection Ea as <-.
  rewrite rnd_nonneg by lia. now apply round_nonneg.
Qed.

Lemma fadd_sle p q x x' y y' : 0 <= p -> 0 <= q -> Z.max p q < 276 -> sle p x x' -> sle q y y' -> sle (1 + Z.max p q) (fadd x y) (fadd x' y').
Proof.
  intros Hp Hq Hm (a & b & -> & -> & R) (c & d & -> & -> & R').
  pose proof (Z.pow_le_mono_r 2 p (Z.max p q) ltac:(lia) ltac:(lia)). pose proof (Z.pow_le_mono_r 2 q (Z.max p q) ltac:(lia) ltac:(lia)).
  cbn [fadd]. apply fround_sle; rewrite ?Z.pow_add_r by lia; lia.
Qed.

Lemma fadd_nle p q x x' y y' : 0 <= p -> 0 <= q -> Z.max p q < 276 -> nle p x x' -> nle q y y' -> nle (1 + Z.max p q) (fadd x y) (fadd x' y').
Proof.
  intros Hp Hq Hm (a & b & -> & -> & R) (c & d & -> & -> & R').
  pose proof (Z.pow_le_mono_r 2 p (Z.max p q) ltac:(lia) ltac:(lia)). pose proof (Z.pow_le_mono_r 2 q (Z.max p q) ltac:(lia) ltac:(lia)).
  cbn [fadd]. apply fround_nle; rewrite ?Z.pow_add_r by lia; lia.
Qed.

Lemma fmul_nle p q x x' y y' : 0 <= p -> 0 <= q -> 149 <= p + q < 426 -> nle p x x' -> nle q y y' -> nle (p + q - 149) (fmul x y) (fmul x' y').
Proof.
  intros Hp Hq Hm (a & b & -> & -> & R) (c & d & -> & -> & R'). cbn [fmul].
  assert (Hw : 2 ^ (p + q - 149) * 2 ^ 149 = 2 ^ p * 2 ^ q) by (rewrite <- !Z.pow_add_r by lia; f_equal; lia).
  pose proof (pow2_pos 149 ltac:(lia)).
  apply fround_nle; [lia|lia|lia| |lia|].
  - apply Z.mul_le_mono_nonneg_r; [lia|]. apply Z.mul_le_mono_nonneg; lia.
  - rewrite Hw. apply Z.mul_le_mono_nonneg; lia.
Qed.

Lemma fmul_sle p q x x' y : 0 <= p -> 0 <= q -> 149 <= p + q < 426 -> sle p x x' -> nle q y y -> sle (p + q - 149) (fmul x y) (fmul x' y).
Proof.
  intros Hp Hq Hm (a & b & -> & -> & R) (c & d & -> & E & R'). injection E as <-. cbn [fmul].
  assert (Hw : 2 ^ (p + q - 149) * 2 ^ 149 = 2 ^ p * 2 ^ q) by (rewrite <- !Z.pow_add_r by lia; f_equal; lia).
  pose proof (pow2_pos 149 ltac:(lia)). pose proof (pow2_pos p ltac:(lia)).
  apply fround_sle; [lia|lia|lia| | |].
  - apply Z.mul_le_mono_nonneg_r; [lia|]. apply Z.mul_le_mono_nonneg_r; lia.
  - rewrite Z.mul_opp_l, Hw, <- Z.mul_opp_l. transitivity (- (2 ^ p) * c); [nia|]. apply Z.mul_le_mono_nonneg_r; lia.
  - rewrite Hw. transitivity (2 ^ p * c); [apply Z.mul_le_mono_nonneg_r; lia|]. apply Z.mul_le_mono_nonneg_l; lia.
Qed.
