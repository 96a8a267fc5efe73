(** * The float made from a double, for all doubles. *)

From Verif Require Import Base TextModel NumModel StringModel FloatTextModel MathModel NarrowModel SpecNum SpecText SpecFloatText SpecMath SpecNarrow SpecReach.
From Verif Require Import RoundProofs StrtodProofs FloatTextProofs FloatResult MathRound MathFloor MathLog MathDecade MathScale MathExp PropMath NarrowProofs.

#[local] Arguments Z.pow : simpl never.

(** ** Rounding as in MathModel.v *)

Lemma half_even_ratio n1 d1 n2 d2 : 0 < d1 -> 0 < d2 -> n1 * d2 = n2 * d1 -> div_half_even n1 d1 = div_half_even n2 d2.
Proof. intros H1 H2 E. apply Z.le_antisymm; apply half_even_mono; auto; rewrite E; apply Z.le_refl. Qed.

Lemma magnitude_gap m e : 0 < m -> -1074 <= e -> gap (m * 2 ^ (e + 1074)) (2 ^ 925) = Z.max (-149) (e + Z.log2 m - 23) + 149.
Proof.
  intros Hm He. unfold gap. pose proof (Z.log2_spec m Hm) as [L1 L2]. pose proof (Z.log2_nonneg m) as L0. set (L := Z.log2 m) in *.
  assert (M1 : 2 ^ (L + (e + 1074)) <= m * 2 ^ (e + 1074)) by (rewrite <- (pow2_mul L) by lia; apply Z.mul_le_mono_nonneg_r; [apply Z.pow_nonneg|]; lia).
  assert (M2 : m * 2 ^ (e + 1074) < 2 ^ (Z.succ L + (e + 1074))) by (rewrite <- (pow2_mul (Z.succ L)) by lia; apply Z.mul_lt_mono_pos_r; [apply pow2_pos|]; lia).
  set (M := m * 2 ^ (e + 1074)) in *. clearbody M. pose proof (pow2_pos 925 ltac:(lia)) as P.
  destruct (Z.le_gt_cases 0 (L + (e + 149))) as [G|G].
  - assert (E : Z.log2 (M / 2 ^ 925) = L + (e + 149)).
    { apply Z.log2_unique; [exact G|]. split.
      - apply Z.div_le_lower_bound; [exact P|]. rewrite pow2_mul by lia. replace (925 + (L + (e + 149))) with (L + (e + 1074)) by lia. exact M1.
      - apply Z.div_lt_upper_bound; [exact P|]. rewrite pow2_mul by lia. replace (925 + Z.succ (L + (e + 149))) with (Z.succ L + (e + 1074)) by lia. exact M2. }
    rewrite E. lia.
  - assert (E : M / 2 ^ 925 = 0).
    { apply Z.div_small. split; [pose proof (Z.pow_nonneg 2 (L + (e + 1074)) ltac:(lia)); lia|]. eapply Z.lt_le_trans; [exact M2|]. apply Z.pow_le_mono_r; lia. }
    rewrite E. change (Z.log2 0) with 0. lia.
Qed.

Lemma float_magnitude_round m e : 0 < m -> -1074 <= e ->
  let s := round_units (m * 2 ^ (e + 1074)) (2 ^ 925) in
  float_magnitude m e = if 2 ^ 277 <=? s then 0x7F800000 else to_bits (Fin s).
Proof.
  intros Hm He s. unfold float_magnitude. set (k := Z.max (-149) (e + Z.log2 m - 23)). pose proof (magnitude_gap m e Hm He) as G. fold k in G.
  assert (Hk : -149 <= k) by (unfold k; lia).
  set (q := div_half_even (m * 2 ^ Z.max 0 (e - k)) (2 ^ Z.max 0 (k - e))).
  assert (M0 : 0 < m * 2 ^ (e + 1074)) by (pose proof (pow2_pos (e + 1074) ltac:(lia)); nia).
  assert (Eq : div_half_even (m * 2 ^ (e + 1074)) (2 ^ 925 * 2 ^ (k + 149)) = q).
  { apply half_even_ratio; [pose proof (pow2_pos 925 ltac:(lia)); pose proof (pow2_pos (k + 149) ltac:(lia)); nia|apply pow2_pos; lia|].
    rewrite <- !Z.mul_assoc, !pow2_mul by lia. do 2 f_equal. lia. }
  assert (Es : s = q * 2 ^ (k + 149)) by (unfold s; rewrite round_unfold, G, Eq; reflexivity).
  assert (Hq : q <= 2 ^ 24 /\ (k = -149 \/ 2 ^ 23 <= q) /\ 0 <= q).
  { unfold q. pose proof (Z.log2_spec m Hm) as [L1 L2]. pose proof (Z.log2_nonneg m) as L0. set (L := Z.log2 m) in *.
    pose proof (pow2_pos (Z.max 0 (k - e)) ltac:(lia)) as PD. pose proof (pow2_pos (Z.max 0 (e - k)) ltac:(lia)) as PN.
    split; [|split].
    - apply half_even_ge; [exact PD|]. rewrite pow2_mul by lia.
      apply Z.le_trans with (2 ^ Z.succ L * 2 ^ Z.max 0 (e - k)); [apply Z.mul_le_mono_nonneg_r; lia|]. rewrite pow2_mul by lia. apply Z.pow_le_mono_r; unfold k; lia.
    - destruct (Z.eq_dec k (-149)) as [|N]; [now left|right]. apply half_even_le; [exact PD|]. rewrite pow2_mul by lia.
      apply Z.le_trans with (2 ^ L * 2 ^ Z.max 0 (e - k)); [rewrite pow2_mul by lia; apply Z.pow_le_mono_r; unfold k in *; lia|apply Z.mul_le_mono_nonneg_r; lia].
    - apply half_even_le; [exact PD|]. nia. }
  destruct Hq as (Q1 & Q2 & Q3). clearbody q s k. subst s. clear G Eq M0. cbv zeta.
  pose proof (pow2_pos (k + 149) ltac:(lia)) as Pk.
  destruct (Z.leb_spec (2 ^ 277) (q * 2 ^ (k + 149))) as [B|B].
  - apply Z.min_l. assert (253 <= k + 149).
    { destruct (Z.le_gt_cases 253 (k + 149)) as [|C]; [assumption|]. exfalso.
      assert (q * 2 ^ (k + 149) <= 2 ^ 24 * 2 ^ 252); [|change (2 ^ 277) with (2 ^ 25 * 2 ^ 252) in B; lia].
      apply Z.mul_le_mono_nonneg; [lia|exact Q1|lia|]. apply Z.pow_le_mono_r; lia. }
    assert (E254 : k + 149 = 253 -> q = 2 ^ 24) by (intros E; rewrite E in B; change (2 ^ 277) with (2 ^ 24 * 2 ^ 253) in B; assert (2 ^ 24 <= q) by (apply Z.mul_le_mono_pos_r with (2 ^ 253); lia); lia).
    destruct (Z.eq_dec (k + 149) 253) as [E|E]; [rewrite (E254 E); lia|]. destruct Q2 as [Q2|Q2]; lia.
  - assert (K : k + 149 < 254).
    { destruct (Z.lt_ge_cases (k + 149) 254) as [|C]; [assumption|]. exfalso. destruct Q2 as [Q2|Q2]; [lia|].
      assert (2 ^ 23 * 2 ^ 254 <= q * 2 ^ (k + 149)); [|change (2 ^ 277) with (2 ^ 23 * 2 ^ 254) in B; lia].
      apply Z.mul_le_mono_nonneg; [lia|exact Q2|lia|]. apply Z.pow_le_mono_r; lia. }
    assert (E254 : k + 149 = 253 -> q < 2 ^ 24) by (intros E; rewrite E in B; change (2 ^ 277) with (2 ^ 24 * 2 ^ 253) in B; apply Z.mul_lt_mono_pos_r with (2 ^ 253); lia).
    rewrite Z.min_r.
    2:{ destruct (Z.eq_dec (k + 149) 253) as [E|E]; [specialize (E254 E); lia|lia]. }
    unfold to_bits. destruct Q2 as [->|Q2].
    + change (-149 + 149) with 0. change (2 ^ 0) with 1. rewrite Z.mul_1_r, Z.mul_0_l, Z.add_0_l.
      destruct (Z.ltb_spec q (2 ^ 23)) as [C|C]; [reflexivity|]. destruct (Z.eq_dec q (2 ^ 24)) as [->|N]; [reflexivity|].
      assert (L : Z.log2 q = 23) by (apply Z.log2_unique; lia). rewrite L. change (23 - 23) with 0. rewrite Z.shiftr_0_r. lia.
    + destruct (Z.ltb_spec (q * 2 ^ (k + 149)) (2 ^ 23)) as [C|C].
      { exfalso. nia. }
      cbv zeta. destruct (Z.eq_dec q (2 ^ 24)) as [->|N].
      * rewrite pow2_mul by lia. rewrite Z.log2_pow2 by lia. rewrite Z.shiftr_div_pow2 by lia. replace (24 + (k + 149) - 23) with (k + 150) by lia.
        replace (24 + (k + 149)) with (23 + (k + 150)) by lia. rewrite <- (pow2_mul 23) by lia. rewrite Z.div_mul by (pose proof (pow2_pos (k + 150)); lia). lia.
      * rewrite Z.log2_mul_pow2 by lia. assert (L : Z.log2 q = 23) by (apply Z.log2_unique; lia). rewrite L, Z.shiftr_div_pow2 by lia.
        replace (k + 149 + 23 - 23) with (k + 149) by lia. rewrite Z.div_mul by lia. reflexivity.
Qed.

(** ** The float by its units *)

Definition near_units (d : spec_float) : Z := round_units (magnitude d) (2 ^ 925).

Lemma magnitude_nonneg d : valid_double d -> 0 <= magnitude d.
Proof. intros V. destruct d; simpl; lia. Qed.

Lemma bits_sign (s : bool) b : 0 <= b < 2 ^ 31 ->
  let bits := (if s then 0x80000000 else 0) + b in bits mod 2 ^ 31 = b /\ f_sign bits = s /\ 0 <= bits < 2 ^ 32.
Proof.
  intros B bits. unfold bits, f_sign. destruct s; (split; [|split]).
  - replace (0x80000000 + b) with (b + 1 * 2 ^ 31) by lia. rewrite Z.mod_add by lia. apply Z.mod_small. lia.
  - apply Z.leb_le. lia.
  - lia.
  - apply Z.mod_small. lia.
  - apply Z.leb_gt. lia.
  - lia.
Qed.

Lemma float_bits d : valid_double d -> is_finite d -> float_of_double d = (if dsign d then 0x80000000 else 0) +
  if 2 ^ 277 <=? near_units d then 0x7F800000 else to_bits (Fin (near_units d)).
Proof.
  intros V F. destruct d as [s|s| |s m e]; try contradiction.
  - destruct s; vm_compute; reflexivity.
  - apply valid_finite in V. unfold float_of_double, dsign. f_equal. unfold near_units. cbn [magnitude]. apply float_magnitude_round; lia.
Qed.

Lemma near_float d : valid_double d -> is_finite d -> let bits := float_of_double d in let s := near_units d in
  0 <= bits < 2 ^ 32 /\ f_sign bits = dsign d /\
  (s < 2 ^ 23 -> f_exponent bits = 0) /\
  (2 ^ 23 <= s < 2 ^ 277 -> f_normal bits /\ f_units bits = s) /\
  (2 ^ 277 <= s -> f_exponent bits = 255 /\ f_mantissa bits = 0).
Proof.
  intros V F bits s. unfold bits. rewrite (float_bits d V F). fold s. pose proof (magnitude_nonneg d V) as M0.
  pose proof (round_rep (magnitude d) (2 ^ 925) M0 (pow2_pos 925 ltac:(lia))) as R. pose proof (round_nonneg (magnitude d) (2 ^ 925) M0 (pow2_pos 925 ltac:(lia))) as S0.
  fold (near_units d) in R, S0. fold s in R, S0. clearbody s.
  assert (X : forall b, 0 <= b < 2 ^ 31 -> forall P : Z -> Z -> Prop, P (f_exponent b) (f_mantissa b) ->
    let y := (if dsign d then 0x80000000 else 0) + b in P (f_exponent y) (f_mantissa y)).
  { intros b B P H y. destruct (bits_sign (dsign d) b B) as (E & _). fold y in E. destruct (abs_fields y) as [A1 A2]. rewrite E in A1, A2. rewrite <- A1, <- A2. exact H. }
  destruct (Z.leb_spec (2 ^ 277) s) as [B|B].
  - destruct (bits_sign (dsign d) 0x7F800000 ltac:(lia)) as (_ & S & Rg). split; [exact Rg|]. split; [exact S|]. split; [lia|]. split; [lia|].
    intros _. apply (X 0x7F800000 ltac:(lia) (fun e m => e = 255 /\ m = 0)). split; reflexivity.
  - destruct (Z.lt_ge_cases s (2 ^ 23)) as [L|L].
    + assert (E : to_bits (Fin s) = s) by (unfold to_bits; destruct (Z.ltb_spec s (2 ^ 23)); [reflexivity|lia]). rewrite E.
      destruct (bits_sign (dsign d) s ltac:(lia)) as (_ & S & Rg). split; [exact Rg|]. split; [exact S|]. split; [|lia].
      intros _. apply (X s ltac:(lia) (fun e _ => e = 0)). unfold f_exponent. rewrite (Z.div_small s) by lia. reflexivity.
    + destruct (to_bits_ok s R ltac:(lia)) as (T1 & T2 & T3). destruct (bits_sign (dsign d) _ T1) as (_ & S & Rg). split; [exact Rg|]. split; [exact S|]. split; [lia|].
      split; [|lia]. intros _.
      assert (L23 : 23 <= Z.log2 s) by (change 23 with (Z.log2 (2 ^ 23)); apply Z.log2_le_mono; lia).
      assert (L277 : Z.log2 s < 277) by (apply Z.log2_lt_pow2; lia).
      split; [split; [exact Rg|]|].
      * apply (X _ T1 (fun e _ => 0 < e < 255)). lia.
      * rewrite <- T3 at 2. unfold f_units. apply (X _ T1 (fun e m => (if e =? 0 then m else (2 ^ 23 + m) * 2 ^ (e - 1)) = if f_exponent (to_bits (Fin s)) =? 0 then f_mantissa (to_bits (Fin s)) else (2 ^ 23 + f_mantissa (to_bits (Fin s))) * 2 ^ (f_exponent (to_bits (Fin s)) - 1))). reflexivity.
Qed.

Lemma near_upper d M : valid_double d -> magnitude d <= M -> near_units d <= round_units M (2 ^ 925).
Proof. intros V H. pose proof (pow2_pos 925 ltac:(lia)) as P. apply round_mono; [now apply magnitude_nonneg|lia|lia|]. apply Z.mul_le_mono_nonneg_r; lia. Qed.
Lemma near_lower d M : 0 <= M -> M <= magnitude d -> round_units M (2 ^ 925) <= near_units d.
Proof. intros V H. pose proof (pow2_pos 925 ltac:(lia)) as P. apply round_mono; [lia|lia|lia|]. apply Z.mul_le_mono_nonneg_r; lia. Qed.

Lemma near_nearby d bits : 2 ^ 23 * 2 ^ 925 <= magnitude d -> f_units bits = near_units d -> nearby d bits.
Proof. intros L E. unfold nearby. rewrite E. change (1074 - 149) with 925. pose proof (round_relative (magnitude d) (2 ^ 925) (pow2_pos 925 ltac:(lia)) L). fold (near_units d) in H. lia. Qed.

(** The order of floats is that of their bits. *)
Lemma units_order x y : f_normal x -> f_normal y -> x < 2 ^ 31 -> y < 2 ^ 31 -> x < y -> f_units x < f_units y.
Proof.
  intros Nx Ny Lx Ly H. destruct (normal_fields x Nx Lx) as (E1 & j1 & -> & H1 & J1). destruct (normal_fields y Ny Ly) as (E2 & j2 & -> & H2 & J2).
  rewrite !units_of by lia. pose proof (pow2_pos (E1 - 1) ltac:(lia)) as P1.
  destruct (Z.eq_dec E1 E2) as [->|N]; [apply Z.mul_lt_mono_pos_r; lia|]. assert (E1 < E2) by lia.
  assert (2 * 2 ^ (E1 - 1) <= 2 ^ (E2 - 1)) by (rewrite <- Z.pow_succ_r by lia; apply Z.pow_le_mono_r; lia). nia.
Qed.

Definition least_units : Z := (2 ^ 23 + 0x081CC9) * 2 ^ 3.

Lemma least_order bits : f_normal bits -> (least_scaled <= bits mod 2 ^ 31 <-> least_units <= f_units bits).
Proof.
  intros N. destruct (abs_fields bits) as [A1 A2]. assert (E : f_units (bits mod 2 ^ 31) = f_units bits) by (unfold f_units; now rewrite A1, A2).
  pose proof (Z.mod_pos_bound bits (2 ^ 31) ltac:(lia)) as B.
  assert (N' : f_normal (bits mod 2 ^ 31)) by (destruct N as [_ N]; split; [lia|now rewrite A1]).
  assert (L : f_normal least_scaled) by (split; [unfold least_scaled; lia|vm_compute; auto]). assert (U : f_units least_scaled = least_units) by reflexivity.
  assert (L31 : least_scaled < 2 ^ 31) by reflexivity.
  rewrite <- E. rewrite <- U. split; intros H.
  - destruct (Z.eq_dec least_scaled (bits mod 2 ^ 31)) as [<-|Ne]; [lia|]. pose proof (units_order _ _ L N' L31 ltac:(lia) ltac:(lia)). lia.
  - destruct (Z.le_gt_cases least_scaled (bits mod 2 ^ 31)) as [|G]; [assumption|]. pose proof (units_order _ _ N' L ltac:(lia) L31 G). lia.
Qed.

(** ** The classes *)

Lemma tiny_float d : d_tiny d -> f_exponent (float_of_double d) = 0.
Proof.
  intros ((V & F) & H). apply (near_float d V F). pose proof (near_upper d ((2 ^ 24 - 1) * 2 ^ (1074 - 150) - 1) V ltac:(lia)) as U.
  eapply Z.le_lt_trans; [exact U|]. vm_compute. reflexivity.
Qed.

Lemma huge_float d : d_huge d -> f_exponent (float_of_double d) = 255 /\ f_mantissa (float_of_double d) = 0 /\ f_sign (float_of_double d) = dsign d /\ 0 <= float_of_double d < 2 ^ 32.
Proof.
  intros ((V & F) & H). destruct (near_float d V F) as (R & S & _ & _ & X).
  pose proof (near_lower d ((2 ^ 25 - 1) * 2 ^ (1074 + 103)) ltac:(vm_compute; discriminate) H) as L.
  destruct X as [X1 X2]; [|auto]. eapply Z.le_trans; [|exact L]. vm_compute. discriminate.
Qed.

Lemma normal_float d lo hi : d_finite d -> 0 <= lo -> lo <= magnitude d <= hi -> 2 ^ 23 <= round_units lo (2 ^ 925) -> 2 ^ 23 * 2 ^ 925 <= lo -> round_units hi (2 ^ 925) < 2 ^ 277 ->
  let bits := float_of_double d in f_normal bits /\ f_units bits = near_units d /\ nearby d bits /\ f_sign bits = dsign d.
Proof.
  intros (V & F) H0 H L1 L2 U. destruct (near_float d V F) as (R & S & _ & X & _).
  pose proof (near_lower d lo H0 ltac:(lia)) as A. pose proof (near_upper d hi V ltac:(lia)) as B. destruct X as [N E]; [lia|].
  split; [exact N|]. split; [exact E|]. split; [|exact S]. apply near_nearby; [lia|exact E].
Qed.

Lemma unwritable_float d : d_unwritable d -> f_normal (float_of_double d) /\ float_of_double d mod 2 ^ 31 < least_scaled.
Proof.
  intros ((V & F) & Lo & Hi). destruct (near_float d V F) as (_ & _ & _ & X & _).
  assert (A := fun Z => near_lower d _ Z Lo). specialize (A ltac:(vm_compute; discriminate)). pose proof (near_upper d _ V Hi) as B.
  assert (A' : 2 ^ 23 <= near_units d) by (eapply Z.le_trans; [|exact A]; vm_compute; discriminate).
  assert (B' : near_units d < least_units) by (eapply Z.le_lt_trans; [exact B|]; vm_compute; reflexivity).
  assert (C : least_units < 2 ^ 277) by reflexivity. destruct X as [N E]; [lia|]. split; [exact N|].
  destruct (Z.lt_ge_cases (float_of_double d mod 2 ^ 31) least_scaled) as [|G]; [assumption|]. apply least_order in G; [lia|exact N].
Qed.

Lemma scaled_float d : d_scaled d -> let bits := float_of_double d in
  f_normal bits /\ ~ f_moderate bits /\ least_scaled <= bits mod 2 ^ 31 /\ nearby d bits /\ f_sign bits = dsign d.
Proof.
  intros (DF & H) bits. pose proof DF as [V F].
  assert (G : f_normal bits /\ f_units bits = near_units d /\ nearby d bits /\ f_sign bits = dsign d).
  { destruct H as [H|H].
    - apply (normal_float d ((2 * (2 ^ 23 + 0x081CC9) - 1) * 2 ^ (1074 - 147) + 1) ((2 * 13743895 - 1) * 2 ^ (1074 - 38)) DF); [vm_compute; discriminate|lia| | |];
        vm_compute; first [discriminate|reflexivity].
    - apply (normal_float d ((100000 * 2 ^ 8 - 1) * 2 ^ (1074 - 8)) ((2 ^ 25 - 1) * 2 ^ (1074 + 103) - 1) DF); [vm_compute; discriminate|lia| | |];
        vm_compute; first [discriminate|reflexivity]. }
  destruct G as (N & E & Nb & S). split; [exact N|].
  assert (K : (least_units <= near_units d) /\ (near_units d < 13743895 * 2 ^ (149 - 37) \/ 100000 * 2 ^ 149 <= near_units d)).
  { destruct H as [[Lo Hi]|[Lo Hi]].
    - pose proof (near_lower d ((2 * (2 ^ 23 + 0x081CC9) - 1) * 2 ^ (1074 - 147) + 1) ltac:(vm_compute; discriminate) ltac:(lia)) as A. pose proof (near_upper d _ V Hi) as B. split.
      + eapply Z.le_trans; [|exact A]. vm_compute. discriminate.
      + left. eapply Z.le_lt_trans; [exact B|]. vm_compute. reflexivity.
    - assert (A := fun Z => near_lower d _ Z Lo). specialize (A ltac:(vm_compute; discriminate)). split; [|right]; (eapply Z.le_trans; [|exact A]); vm_compute; discriminate. }
  destruct K as [K1 K2]. rewrite <- E in K1, K2. split; [intros (_ & M); lia|]. split; [now apply least_order|]. auto.
Qed.

Lemma fixed_float d : d_fixed d -> let bits := float_of_double d in f_moderate bits /\ nearby d bits /\ f_sign bits = dsign d.
Proof.
  intros (DF & Lo & Hi) bits. pose proof DF as [V F].
  destruct (normal_float d ((2 * 13743895 - 1) * 2 ^ (1074 - 38) + 1) ((100000 * 2 ^ 8 - 1) * 2 ^ (1074 - 8) - 1) DF) as (N & E & Nb & S);
    [vm_compute; discriminate|lia|vm_compute; discriminate|vm_compute; discriminate|vm_compute; reflexivity|]. fold bits in N, E, Nb, S.
  split; [|auto]. split; [exact N|]. rewrite E.
  pose proof (near_lower d ((2 * 13743895 - 1) * 2 ^ (1074 - 38) + 1) ltac:(vm_compute; discriminate) ltac:(lia)) as A.
  pose proof (near_upper d ((100000 * 2 ^ 8 - 1) * 2 ^ (1074 - 8) - 1) V ltac:(lia)) as B. split.
  - eapply Z.le_trans; [|exact A]. vm_compute. discriminate.
  - eapply Z.le_lt_trans; [exact B|]. vm_compute. reflexivity.
Qed.

Lemma classes d : d_finite d -> d_tiny d \/ d_unwritable d \/ d_scaled d \/ d_fixed d \/ d_huge d.
Proof.
  unfold d_tiny, d_unwritable, d_scaled, d_fixed, d_huge. intros F. set (M := magnitude d). clearbody M.
  destruct (Z.lt_ge_cases M ((2 ^ 24 - 1) * 2 ^ (1074 - 150))); [left; auto|]. right.
  destruct (Z.le_gt_cases M ((2 * (2 ^ 23 + 0x081CC9) - 1) * 2 ^ (1074 - 147))); [left; auto|]. right.
  destruct (Z.le_gt_cases M ((2 * 13743895 - 1) * 2 ^ (1074 - 38))); [left; auto|].
  destruct (Z.lt_ge_cases M ((100000 * 2 ^ 8 - 1) * 2 ^ (1074 - 8))); [right; left; auto|].
  destruct (Z.lt_ge_cases M ((2 ^ 25 - 1) * 2 ^ (1074 + 103))); auto.
Qed.
