(** * Floats made from doubles, and their texts. *)

From Verif Require Import Base TextModel NumModel MapModel ParserModel WriterModel FloatTextModel NarrowModel SpecNum SpecText SpecRfc SpecFloatText SpecNarrow
  RoundProofs StrtodProofs FloatTextProofs FloatNumber FloatResult PropFloatText.

#[local] Arguments Z.pow : simpl never.

(** ** The fields of a float put together *)

Lemma fields_sum k q s : 0 <= k < 253 -> 2 ^ 23 <= q <= 2 ^ 24 -> s = 0 \/ s = 2 ^ 31 ->
  let bits := s + (k * 2 ^ 23 + q) in
  f_normal bits /\ f_units bits = q * 2 ^ k /\ f_sign bits = (s =? 2 ^ 31).
Proof.
  intros Hk Hq Hs bits.
  assert (B : 0 <= k * 2 ^ 23 + q < 2 ^ 31) by lia.
  assert (Fe : f_exponent bits = (if q =? 2 ^ 24 then k + 2 else k + 1)).
  { unfold f_exponent, bits. destruct (Z.eqb_spec q (2 ^ 24)) as [->|N].
    - replace (s + (k * 2 ^ 23 + 2 ^ 24)) with (s + (k + 2) * 2 ^ 23) by lia.
      destruct Hs as [->| ->].
      + rewrite Z.add_0_l, Z.div_mul by lia. apply Z.mod_small. lia.
      + change (2 ^ 31) with (2 ^ 8 * 2 ^ 23). rewrite <- Z.mul_add_distr_r, Z.div_mul by lia.
        rewrite Z.add_comm, <- (Z.mul_1_l (2 ^ 8)) at 1. rewrite Z.mod_add by lia. apply Z.mod_small. lia.
    - assert (Q : (k * 2 ^ 23 + q) / 2 ^ 23 = k + 1).
      { symmetry. apply Z.div_unique with (q - 2 ^ 23); lia. }
      destruct Hs as [->| ->].
      + rewrite Z.add_0_l, Q. apply Z.mod_small. lia.
      + change (2 ^ 31) with (2 ^ 8 * 2 ^ 23). rewrite Z.add_comm, Z.div_add, Q by lia.
        rewrite <- (Z.mul_1_l (2 ^ 8)) at 1. rewrite Z.mod_add by lia. apply Z.mod_small. lia. }
  assert (Fm : f_mantissa bits = (if q =? 2 ^ 24 then 0 else q - 2 ^ 23)).
  { unfold f_mantissa, bits.
    assert (E : s + (k * 2 ^ 23 + q) = q + (k + s / 2 ^ 23) * 2 ^ 23) by (destruct Hs as [->| ->]; [rewrite Z.div_0_l by lia; lia|change (2 ^ 31 / 2 ^ 23) with 256; lia]).
    rewrite E, Z.mod_add by lia. destruct (Z.eqb_spec q (2 ^ 24)) as [->|N]; [reflexivity|].
    symmetry. apply Z.mod_unique with 1; lia. }
  split; [|split].
  - split; [unfold bits; lia|]. rewrite Fe. destruct (q =? 2 ^ 24); lia.
  - unfold f_units. rewrite Fe, Fm. destruct (Z.eqb_spec q (2 ^ 24)) as [->|N].
    + destruct (Z.eqb_spec (k + 2) 0); [lia|]. replace (k + 2 - 1) with (k + 1) by lia. rewrite Z.pow_add_r by lia. lia.
    + destruct (Z.eqb_spec (k + 1) 0); [lia|]. replace (k + 1 - 1) with k by lia. f_equal. lia.
  - unfold f_sign, bits. destruct Hs as [->| ->].
    + rewrite Z.add_0_l. destruct (Z.leb_spec (2 ^ 31) (k * 2 ^ 23 + q)); [lia|reflexivity].
    + destruct (Z.leb_spec (2 ^ 31) (2 ^ 31 + (k * 2 ^ 23 + q))); [reflexivity|lia].
Qed.

(** ** Rounding *)

Lemma half_even_le n d z : 0 < d -> z * d <= n -> z <= div_half_even n d.
Proof. intros Hd H. destruct (div_half_even_spec n d Hd) as [S _]. destruct (Z.le_gt_cases z (div_half_even n d)); [auto|]. nia. Qed.
Lemma half_even_ge n d z : 0 < d -> n <= z * d -> div_half_even n d <= z.
Proof. intros Hd H. destruct (div_half_even_spec n d Hd) as [S _]. destruct (Z.le_gt_cases (div_half_even n d) z); [auto|]. nia. Qed.
Lemma half_even_lt n d z : 0 < d -> 2 * n < (2 * z - 1) * d -> div_half_even n d < z.
Proof. intros Hd H. destruct (div_half_even_spec n d Hd) as [S _]. destruct (Z.le_gt_cases z (div_half_even n d)); [|auto]. nia. Qed.
Lemma half_even_exact z d : 0 < d -> div_half_even (z * d) d = z.
Proof. intros Hd. destruct (div_half_even_spec (z * d) d Hd) as [S _]. nia. Qed.

Lemma pow2_pos z : 0 <= z -> 0 < 2 ^ z.
Proof. intros. apply Z.pow_pos_nonneg; lia. Qed.
Lemma pow2_mul a b : 0 <= a -> 0 <= b -> 2 ^ a * 2 ^ b = 2 ^ (a + b).
Proof. intros. symmetry. apply Z.pow_add_r; auto. Qed.

(** With the distance 2^k of the neighbouring floats: the mantissa [q] rounds
    m * 2^(e - k), here with common denominator 2^(1074). *)
Lemma float_round m e : 0 < m -> -1074 <= e -> -126 <= e + Z.log2 m < 126 ->
  let k := e + Z.log2 m - 23 in
  exists q, float_magnitude m e = (k + 149) * 2 ^ 23 + q /\ 2 ^ 23 <= q <= 2 ^ 24 /\
    2 * Z.abs (q * 2 ^ (k + 1074) - m * 2 ^ (e + 1074)) <= 2 ^ (k + 1074) /\
    (forall z, z * 2 ^ (k + 1074) <= m * 2 ^ (e + 1074) -> z <= q) /\
    (forall z, 2 * (m * 2 ^ (e + 1074)) < (2 * z - 1) * 2 ^ (k + 1074) -> q < z) /\
    (forall z, m * 2 ^ (e + 1074) = z * 2 ^ (k + 1074) -> q = z).
Proof.
  intros Hm He HL k. assert (Ek : k = e + Z.log2 m - 23) by reflexivity. clearbody k. set (N := m * 2 ^ Z.max 0 (e - k)). set (D := 2 ^ Z.max 0 (k - e)).
  pose proof (Z.log2_spec m Hm) as [L1 L2]. pose proof (Z.log2_nonneg m) as L0.
  assert (PD : 0 < D) by (apply pow2_pos; lia).
  (* both sides scaled by a common factor *)
  assert (SC : exists c, 0 < c /\ m * 2 ^ (e + 1074) = N * c /\ 2 ^ (k + 1074) = D * c).
  { destruct (Z.le_gt_cases k e) as [C|C].
    - exists (2 ^ (k + 1074)). split; [apply pow2_pos; lia|]. unfold N, D. rewrite (Z.max_r 0 (e - k)), (Z.max_l 0 (k - e)) by lia. split.
      + rewrite <- Z.mul_assoc, pow2_mul by lia. do 2 f_equal. lia.
      + change (2 ^ 0) with 1. lia.
    - exists (2 ^ (e + 1074)). split; [apply pow2_pos; lia|]. unfold N, D. rewrite (Z.max_l 0 (e - k)), (Z.max_r 0 (k - e)) by lia. split.
      + change (2 ^ 0) with 1. lia.
      + rewrite pow2_mul by lia. f_equal. lia. }
  destruct SC as (c & Pc & E1 & E2).
  assert (Lo : 2 ^ 23 * D <= N).
  { apply (Z.mul_le_mono_pos_r _ _ c Pc). rewrite <- Z.mul_assoc, <- E1, <- E2, pow2_mul by lia.
    replace (23 + (k + 1074)) with (Z.log2 m + (e + 1074)) by lia. rewrite <- (pow2_mul (Z.log2 m)) by lia. apply Z.mul_le_mono_nonneg_r; [apply Z.pow_nonneg; lia|lia]. }
  assert (Hi : N < 2 ^ 24 * D).
  { apply (Z.mul_lt_mono_pos_r c _ _ Pc). rewrite <- Z.mul_assoc, <- E1, <- E2, pow2_mul by lia.
    replace (24 + (k + 1074)) with (Z.succ (Z.log2 m) + (e + 1074)) by lia. rewrite <- (pow2_mul (Z.succ _)) by lia. apply Z.mul_lt_mono_pos_r; [apply pow2_pos; lia|lia]. }
  exists (div_half_even N D).
  assert (Hq : 2 ^ 23 <= div_half_even N D <= 2 ^ 24).
  { split; [apply half_even_le; auto|apply half_even_ge; [auto|lia]]. }
  split; [|split; [exact Hq|]].
  - unfold float_magnitude. rewrite (Z.max_r (-149)), <- Ek by lia. fold N D. cbv zeta. apply Z.min_r. lia.
  - rewrite E1, E2. split; [|split; [|split]].
    + destruct (div_half_even_spec N D PD) as [S _]. replace (div_half_even N D * (D * c) - N * c) with (- ((N - D * div_half_even N D) * c)) by ring.
      rewrite Z.abs_opp, Z.abs_mul, (Z.abs_eq c) by lia. nia.
    + intros z H. apply half_even_le; [auto|]. nia.
    + intros z H. apply half_even_lt; [auto|]. nia.
    + intros z H. replace N with (z * D) by nia. apply half_even_exact. exact PD.
Qed.

Definition dsign (d : double) : bool :=
  match d with S754_zero s | S754_infinity s | S754_finite s _ _ => s | S754_nan => false end.

Lemma narrow_moderate d : d_moderate d ->
  f_moderate (float_of_double d) /\ nearby d (float_of_double d) /\ f_sign (float_of_double d) = dsign d /\
  (forall a, dyadic a 4 d -> f_units (float_of_double d) = a * 2 ^ (149 - 4)).
Proof.
  intros (V & F & Lo & Hi). destruct d as [s|s| |s m e]; simpl magnitude in *; try (exfalso; exact F).
  { exfalso. vm_compute in Lo. now apply Lo. }
  apply valid_finite in V. cbn [dsign].
  pose proof (Z.log2_spec (Zpos m) ltac:(lia)) as [L1 L2]. pose proof (Z.log2_nonneg (Zpos m)) as L0. set (L := Z.log2 (Zpos m)) in *.
  set (M := Zpos m * 2 ^ (e + 1074)) in *.
  assert (M1 : 2 ^ (L + (e + 1074)) <= M) by (unfold M; rewrite <- (pow2_mul L) by lia; apply Z.mul_le_mono_nonneg_r; [apply Z.pow_nonneg|]; lia).
  assert (M2 : M < 2 ^ (Z.succ L + (e + 1074))) by (unfold M; rewrite <- (pow2_mul (Z.succ L)) by lia; apply Z.mul_lt_mono_pos_r; [apply pow2_pos|]; lia).
  assert (B1 : -14 <= e + L).
  { assert (1060 < Z.succ L + (e + 1074)); [|lia]. apply (Z.pow_lt_mono_r_iff 2); [lia|lia|]. eapply Z.le_lt_trans; [|exact M2].
    eapply Z.le_trans; [|exact Lo]. change (1074 - 37) with 1037. change (2 ^ 1060) with (2 ^ 23 * 2 ^ 1037). apply Z.mul_le_mono_nonneg_r; [apply Z.pow_nonneg|]; lia. }
  assert (B2 : e + L <= 16).
  { assert (L + (e + 1074) < 1091); [|lia]. apply (Z.pow_lt_mono_r_iff 2); [lia|lia|]. eapply Z.le_lt_trans; [exact M1|].
    eapply Z.lt_le_trans; [exact Hi|]. change (1074 - 8) with 1066. change (2 ^ 1091) with (2 ^ 25 * 2 ^ 1066). apply Z.mul_le_mono_nonneg_r; [apply Z.pow_nonneg|]; lia. }
  destruct (float_round (Zpos m) e ltac:(lia) ltac:(lia) ltac:(fold L; lia)) as (q & Eq & Hq & N & Rl & Rh & Rx).
  fold L M in Eq, N, Rl, Rh, Rx. set (k := e + L - 23) in *. assert (Ek : k = e + L - 23) by reflexivity. clearbody k.
  assert (Hs : (if s then 0x80000000 else 0) = 0 \/ (if s then 0x80000000 else 0) = 2 ^ 31) by (destruct s; auto).
  destruct (fields_sum (k + 149) q _ ltac:(lia) Hq Hs) as (Fn & Fu & Fs). cbv zeta in Fn, Fu, Fs.
  unfold float_of_double. rewrite Eq. set (bits := (if s then 2147483648 else 0) + ((k + 149) * 2 ^ 23 + q)) in *.
  split; [|split; [|split]].
  - split; [exact Fn|]. rewrite Fu. split.
    + destruct (Z.eq_dec k (-37)) as [E|E].
      * rewrite E in Rl |- *. specialize (Rl 13743895). change (-37 + 1074) with (1074 - 37) in Rl. change (-37 + 149) with (149 - 37). 
        apply Z.mul_le_mono_nonneg_r; [apply Z.pow_nonneg; lia|]. apply Rl. exact Lo.
      * apply Z.le_trans with (2 ^ 23 * 2 ^ (149 - 36)); [vm_compute; discriminate|]. apply Z.mul_le_mono_nonneg; [lia|lia|apply Z.pow_nonneg; lia|]. apply Z.pow_le_mono_r; lia.
    + destruct (Z.eq_dec k (-7)) as [E|E].
      * rewrite E in Rh |- *. change (-7 + 149) with 142. change (100000 * 2 ^ 149) with (12800000 * 2 ^ 142). apply Z.mul_lt_mono_pos_r; [apply pow2_pos; lia|].
        apply Rh. change (-7 + 1074) with 1067. change (2 ^ 1067) with (2 * 2 ^ 1066). change (1074 - 8) with 1066 in Hi. lia.
      * apply Z.le_lt_trans with (2 ^ 24 * 2 ^ 141); [|vm_compute; reflexivity]. apply Z.mul_le_mono_nonneg; [lia|lia|apply Z.pow_nonneg; lia|]. apply Z.pow_le_mono_r; lia.
  - unfold nearby. cbn [magnitude]. fold M. rewrite Fu, <- Z.mul_assoc, pow2_mul by lia. replace (k + 149 + (1074 - 149)) with (k + 1074) by lia.
    assert (2 ^ 23 * 2 ^ (k + 1074) <= M) by (rewrite pow2_mul by lia; replace (23 + (k + 1074)) with (L + (e + 1074)) by lia; exact M1).
    set (T := 2 ^ (k + 1074)) in *. lia.
  - rewrite Fs. now destruct s.
  - unfold dyadic. cbn [magnitude]. fold M. intros a Ha. rewrite Fu.
    assert (E : q = a * 2 ^ (- 4 - k)).
    { apply Rx. rewrite <- Z.mul_assoc, pow2_mul by lia. replace (-4 - k + (k + 1074)) with 1070 by lia.
      change (2 ^ 1074) with (2 ^ 1070 * 2 ^ 4) in Ha. lia. }
    rewrite E, <- Z.mul_assoc, pow2_mul by lia. do 2 f_equal. lia.
Qed.
