(** * Properties of Pow: C116. *)

From Verif Require Import Base TextModel NumModel StringModel SpecText FloatTextModel SpecFloatText SpecMath MathModel RoundProofs StrtodProofs FloatTextProofs FloatResult.
From Verif Require Import MathRound MathFast MathFloor MathLog MathDecade MathScale MathExp PropMath PowModel.

#[local] Arguments Z.pow : simpl never.

(** Pow(0, 1) and Pow(-1, 2) are undefined, and Pow(2, 200) is 0. *)
Theorem C116_refuted (v : simd) : of_bits 0x3F800000 = of_int 1 /\ of_bits 0xBF800000 = of_int (-1) /\ of_bits 0x40000000 = of_int 2 /\
  pow_f v 0 (of_int 1) = UB /\ pow_f v 0xBF800000 (of_int 2) = UB /\ pow_f v 0x40000000 (of_int 200) = Ret (Fin 0).
Proof. destruct v; vm_compute; auto 10. Qed.
Print Assumptions C116_refuted.

(** Exp of a number in its range: not negative; 0 from 90 on, and until then in order. *)
Lemma exp_number v a : rep (Z.abs a) -> - 2 ^ 31 * 2 ^ 149 <= a < 2 ^ 31 * 2 ^ 149 ->
  exists y, exp_f v (Fin a) = Ret y /\ ole y y /\ (90 * 2 ^ 149 <= a -> y = Fin 0).
Proof.
  intros R B. rewrite (exp_value v a R). destruct (Z.leb_spec (- 2 ^ 31 * 2 ^ 149) a); [|lia]. destruct (Z.ltb_spec a (2 ^ 31 * 2 ^ 149)); [|lia]. cbn [andb]. cbv zeta.
  eexists. split; [reflexivity|]. destruct (Z.le_gt_cases (90 * 2 ^ 149) a) as [G|G].
  - assert (90 <= a / 2 ^ 149) by (apply Z.div_le_lower_bound; lia). destruct (Z.ltb_spec 0 (a / 2 ^ 149 + 88)); [|lia].
    assert (E0 : exp_at (Z.min (a / 2 ^ 149 + 88) 179) (fraction_of a) = Fin 0).
    { unfold exp_at. destruct (poly_range (fraction_of a) (fraction_range a)) as (f & -> & _). destruct entry_179 as [E1 E2].
      assert (I : Z.min (a / 2 ^ 149 + 88) 179 = 178 \/ Z.min (a / 2 ^ 149 + 88) 179 = 179) by lia.
      assert (E : fmul (Fin f) (Fin 0) = Fin 0) by (cbn [fmul]; rewrite Z.mul_0_r; reflexivity).
      destruct I as [-> | ->]; rewrite ?E1, ?E2; exact E. }
    rewrite E0. split; [cbn; lia|reflexivity].
  - split; [|lia]. assert (Db : a / 2 ^ 149 < 90) by (apply Z.div_lt_upper_bound; lia). pose proof (fraction_range a) as Rf.
    destruct (Z.ltb_spec 0 (a / 2 ^ 149 + 88)) as [P|P]; [|cbn; lia]. rewrite Z.min_l by lia. apply exp_at_mono; lia.
Qed.

Lemma exp_order v a b : rep (Z.abs a) -> rep (Z.abs b) -> - 2 ^ 31 * 2 ^ 149 <= a -> a <= b -> b < 90 * 2 ^ 149 ->
  exists y z, exp_f v (Fin a) = Ret y /\ exp_f v (Fin b) = Ret z /\ ole y z.
Proof.
  intros RA RB L H U. rewrite (exp_value v a RA), (exp_value v b RB).
  destruct (Z.leb_spec (- 2 ^ 31 * 2 ^ 149) a); [|lia]. destruct (Z.leb_spec (- 2 ^ 31 * 2 ^ 149) b); [|lia].
  destruct (Z.ltb_spec a (2 ^ 31 * 2 ^ 149)); [|lia]. destruct (Z.ltb_spec b (2 ^ 31 * 2 ^ 149)); [|lia]. cbn [andb]. cbv zeta.
  eexists. eexists. split; [reflexivity|]. split; [reflexivity|].
  assert (D : a / 2 ^ 149 <= b / 2 ^ 149) by (apply Z.div_le_mono; lia).
  assert (Db : b / 2 ^ 149 < 90) by (apply Z.div_lt_upper_bound; lia).
  pose proof (fraction_range a) as Ra. pose proof (fraction_range b) as Rb.
  assert (Fm : a / 2 ^ 149 = b / 2 ^ 149 -> fraction_of a <= fraction_of b) by (intros E; now apply fraction_mono).
  set (i := a / 2 ^ 149) in *. set (j := b / 2 ^ 149) in *. clearbody i j. rewrite !Z.min_l by lia.
  destruct (Z.ltb_spec 0 (j + 88)) as [J|J].
  - destruct (Z.ltb_spec 0 (i + 88)) as [I|I].
    + apply exp_at_order; lia.
    + pose proof (exp_at_mono (j + 88) (fraction_of b) (fraction_of b) ltac:(lia) ltac:(lia) ltac:(lia) ltac:(lia)) as O.
      destruct (exp_at (j + 88) (fraction_of b)) as [c|[]|]; simpl in O |- *; lia || tauto.
  - destruct (Z.ltb_spec 0 (i + 88)); [lia|]. simpl. lia.
Qed.

(** The product with the logarithm. *)
Lemma exponent_product l p : Z.abs l <= 2 ^ 161 -> Z.abs p <= 2 ^ 18 * 2 ^ 149 ->
  fmul (Fin l) (Fin p) = Fin (rnd (l * p) (2 ^ 149)) /\ rep (Z.abs (rnd (l * p) (2 ^ 149))) /\ - 2 ^ 31 * 2 ^ 149 <= rnd (l * p) (2 ^ 149) < 2 ^ 31 * 2 ^ 149.
Proof.
  intros L P. assert (B : Z.abs (l * p) <= 2 ^ 161 * (2 ^ 18 * 2 ^ 149)) by (rewrite Z.abs_mul; apply Z.mul_le_mono_nonneg; lia).
  split; [cbn [fmul]; apply (fround_fin _ _ 276); lia|]. split.
  - unfold rnd. rewrite Z.abs_mul. pose proof (round_nonneg (Z.abs (l * p)) (2 ^ 149) (Z.abs_nonneg _) ltac:(lia)) as N. pose proof (round_rep (Z.abs (l * p)) (2 ^ 149) (Z.abs_nonneg _) ltac:(lia)) as R.
    rewrite (Z.abs_eq (round_units _ _)) by exact N. destruct (Z.sgn_spec (l * p)) as [[_ ->]|[[_ ->]|[_ ->]]]; [now rewrite Z.mul_1_l|exact rep_0|now rewrite Z.mul_1_l].
  - assert (R : rep (2 ^ 179)) by (apply rep_pow; lia). 
    assert (E1 : rnd (2 ^ 179 * 1) 1 = 2 ^ 179) by (apply rnd_exact; [rewrite Z.abs_eq by lia; exact R|lia]).
    assert (E2 : rnd (- 2 ^ 179 * 1) 1 = - 2 ^ 179) by (apply rnd_exact; [rewrite Z.abs_neq, Z.opp_involutive by lia; exact R|lia]).
    assert (rnd (l * p) (2 ^ 149) <= rnd (2 ^ 179 * 1) 1) by (apply rnd_mono; lia). assert (rnd (- 2 ^ 179 * 1) 1 <= rnd (l * p) (2 ^ 149)) by (apply rnd_mono; lia). lia.
Qed.

Lemma log_bound x : f_normal x -> x < 2 ^ 31 -> exists l, log_f x = Fin l /\ Z.abs l <= 2 ^ 161.
Proof.
  intros N L. destruct (normal_fields x N L) as (E & j & -> & HE & Hj). rewrite log_model by lia.
  destruct (log_sle (E - 127) j j) as (a & b & Ea & Eb & R); [lia|lia|lia|lia|]. exists a. split; [exact Ea|]. rewrite Ea in Eb. injection Eb as <-. lia.
Qed.

(** For every normal positive base and all exponents p <= q up to 2^18 in magnitude Pow is defined and not negative (or
    NaN); for bases above 1 it does not decrease with the exponent, until it is 0, for bases below 1 it does not increase. *)
Theorem C116_partial (v : simd) (x p q : Z) : f_normal x -> x < 2 ^ 31 ->
  Z.abs p <= 2 ^ 18 * 2 ^ 149 -> Z.abs q <= 2 ^ 18 * 2 ^ 149 -> p <= q ->
  exists a b, pow_f v x (Fin p) = Ret a /\ pow_f v x (Fin q) = Ret b /\ ole a a /\ ole b b /\
    (2 ^ 149 < f_value x -> b = Fin 0 \/ ole a b) /\ (f_value x < 2 ^ 149 -> a = Fin 0 \/ ole b a).
Proof.
  intros N L P Q H. destruct (log_bound x N L) as (l & El & Bl). destruct (C91_sign x N L) as (l' & El' & S1 & S2). rewrite El in El'. injection El' as <-.
  unfold pow_f. rewrite El. destruct (exponent_product l p Bl P) as (-> & Rp & Bp). destruct (exponent_product l q Bl Q) as (-> & Rq & Bq).
  assert (M1 : 0 < l -> rnd (l * p) (2 ^ 149) <= rnd (l * q) (2 ^ 149)) by (intros; apply rnd_mono; [lia|lia|]; nia).
  assert (M2 : l < 0 -> rnd (l * q) (2 ^ 149) <= rnd (l * p) (2 ^ 149)) by (intros; apply rnd_mono; [lia|lia|]; nia).
  revert Rp Rq Bp Bq M1 M2. generalize (rnd (l * p) (2 ^ 149)) (rnd (l * q) (2 ^ 149)). intros a b Rp Rq Bp Bq M1 M2.
  destruct (exp_number v a Rp Bp) as (y & Ey & Oy & Zy). destruct (exp_number v b Rq Bq) as (z & Ez & Oz & Zz). exists y, z.
  split; [exact Ey|]. split; [exact Ez|]. split; [exact Oy|]. split; [exact Oz|]. split; intros HB.
  - apply S2 in HB. specialize (M1 HB). destruct (Z.le_gt_cases (90 * 2 ^ 149) b) as [G|G]; [left; now apply Zz|right].
    destruct (exp_order v a b Rp Rq ltac:(lia) M1 ltac:(lia)) as (y' & z' & Ey' & Ez' & O). rewrite Ey in Ey'. rewrite Ez in Ez'. injection Ey' as <-. injection Ez' as <-. exact O.
  - apply S1 in HB. specialize (M2 HB). destruct (Z.le_gt_cases (90 * 2 ^ 149) a) as [G|G]; [left; now apply Zy|right].
    destruct (exp_order v b a Rq Rp ltac:(lia) M2 ltac:(lia)) as (y' & z' & Ey' & Ez' & O). rewrite Ez in Ey'. rewrite Ey in Ez'. injection Ey' as <-. injection Ez' as <-. exact O.
Qed.
Print Assumptions C116_partial.

(** A power with exponent 0, and a power of 1, is 1. *)
Theorem C116_one (v : simd) (x p : Z) : f_normal x -> x < 2 ^ 31 ->
  pow_f v x (Fin 0) = Ret (of_int 1) /\ pow_f v 0x3F800000 (Fin p) = Ret (of_int 1) /\ of_bits 0x3F800000 = of_int 1.
Proof.
  intros N L. assert (E : exp_f v (Fin 0) = Ret (of_int 1)) by (destruct v; vm_compute; reflexivity).
  assert (Z0 : fround 0 (2 ^ 149) = Fin 0) by reflexivity. unfold pow_f. split; [|split; [|reflexivity]].
  - destruct (log_bound x N L) as (l & -> & _). cbn [fmul]. rewrite Z.mul_0_r, Z0. exact E.
  - replace (log_f 0x3F800000) with (Fin 0) by reflexivity. cbn [fmul]. rewrite Z.mul_0_l, Z0. exact E.
Qed.
Print Assumptions C116_one.

(** 2 to the power of 10. *)
Example C116_instance : f_normal 0x40000000 /\ 0x40000000 < 2 ^ 31 /\ 2 ^ 149 < f_value 0x40000000 /\ Z.abs (10 * 2 ^ 149) <= 2 ^ 18 * 2 ^ 149 /\
  pow_f Plain 0x40000000 (Fin (10 * 2 ^ 149)) = Ret (of_int 1024).
Proof. split; [split; [lia|vm_compute; auto]|]. split; [lia|]. split; [reflexivity|]. split; [lia|]. vm_compute. reflexivity. Qed.
