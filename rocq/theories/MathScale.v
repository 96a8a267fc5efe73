(** * The scaled number of FloatToString, for all numbers. *)

From Verif Require Import Base TextModel NumModel StringModel SpecText FloatTextModel SpecFloatText SpecMath MathModel RoundProofs StrtodProofs FloatTextProofs FloatResult.
From Verif Require Import MathRound MathFast MathFloor MathLog MathDecade MathExp.

#[local] Arguments Z.pow : simpl never.

(** ** Bits of floats *)

Lemma rep_normal s : rep s -> 2 ^ 23 <= s -> exists q, s = q * 2 ^ (Z.log2 s - 23) /\ 2 ^ 23 <= q < 2 ^ 24.
Proof.
  intros (q & k & Hk & Hq & E) L. pose proof (pow2_pos k Hk) as P. assert (Q0 : 0 < q) by nia.
  assert (Ls : Z.log2 s = Z.log2 q + k) by (rewrite E; rewrite Z.log2_mul_pow2 by lia; lia).
  assert (L23 : 23 <= Z.log2 s) by (change 23 with (Z.log2 (2 ^ 23)); now apply Z.log2_le_mono).
  assert (D : exists q', s = q' * 2 ^ (Z.log2 s - 23)).
  { destruct (Z.eq_dec q (2 ^ 24)) as [->|N].
    - exists (2 ^ 23). rewrite Ls, E. rewrite Z.log2_pow2 by lia. rewrite <- !Z.pow_add_r by lia. f_equal. lia.
    - assert (Z.log2 q < 24) by (apply Z.log2_lt_pow2; lia). exists (q * 2 ^ (k - (Z.log2 s - 23))). rewrite E at 1.
      rewrite <- Z.mul_assoc, <- Z.pow_add_r by lia. do 2 f_equal. lia. }
  destruct D as [q' E']. exists q'. split; [exact E'|].
  destruct (Z.log2_spec s ltac:(lia)) as [S1 S2]. pose proof (pow2_pos (Z.log2 s - 23) ltac:(lia)) as P2.
  replace (Z.log2 s) with (23 + (Z.log2 s - 23)) in S1 at 1 by lia. replace (Z.succ (Z.log2 s)) with (24 + (Z.log2 s - 23)) in S2 by lia.
  rewrite Z.pow_add_r in S1, S2 by lia. rewrite E' in S1 at 2. rewrite E' in S2 at 1.
  split; [eapply Z.mul_le_mono_pos_r; eassumption|eapply Z.mul_lt_mono_pos_r; eassumption].
Qed.

Lemma to_bits_ok s : rep s -> 2 ^ 23 <= s < 2 ^ 277 ->
  0 <= to_bits (Fin s) < 2 ^ 31 /\ f_exponent (to_bits (Fin s)) = Z.log2 s - 22 /\ f_units (to_bits (Fin s)) = s.
Proof.
  intros R H. destruct (rep_normal s R ltac:(lia)) as (q & E & Hq). unfold to_bits. destruct (Z.ltb_spec s (2 ^ 23)); [lia|].
  assert (L23 : 23 <= Z.log2 s) by (change 23 with (Z.log2 (2 ^ 23)); apply Z.log2_le_mono; lia).
  assert (L277 : Z.log2 s < 277) by (apply Z.log2_lt_pow2; lia).
  cbv zeta. rewrite Z.shiftr_div_pow2 by lia. set (k := Z.log2 s - 23) in *.
  assert (Ek : k = Z.log2 s - 23) by reflexivity. clearbody k. pose proof (pow2_pos k ltac:(lia)).
  assert (Dv : s / 2 ^ k = q) by (rewrite E; apply Z.div_mul; lia). rewrite !Dv. replace (k * 2 ^ 23 + q) with ((k + 1) * 2 ^ 23 + (q - 2 ^ 23)) by lia.
  destruct (fields_of (k + 1) (q - 2 ^ 23) ltac:(lia) ltac:(lia)) as [-> _]. rewrite units_of by lia.
  split; [lia|]. split; [lia|]. rewrite E. f_equal; [lia|f_equal; lia].
Qed.

(** ** Exp at the powers of ten *)

Lemma exp_variant v a : Z.abs a <= 2 ^ 172 -> exp_f v (Fin a) = exp_f Sse4 (Fin a).
Proof. intros H. unfold exp_f. now rewrite (floor_small v a H), (floor_small Sse4 a H). Qed.

(** Exp gives 10^D up to a factor of 1 - 4.4e-6 or 1 + 4.4e-6. *)
Definition check_exp (D : Z) : bool :=
  let (P, Q) := tens D in
  match fmul (Fin (D * 2 ^ 149)) kl10 with
  | Fin a =>
      (Z.abs a <=? 2 ^ 172) &&
      match exp_f Sse4 (Fin a) with
      | Ret (Fin e) => (0 <? e) && (Z.abs (e * Q - P * 2 ^ 149) * 10 ^ 7 <=? 44 * (P * 2 ^ 149))
      | _ => false
      end
  | _ => false
  end.

(** The same with the functions of MathFast.v. *)
Definition exp2 (a : Z) : out f32 :=
  let f := down2 a in
  let! i := to_int32 (Fin f) in
  let i := i + 88 in
  if 2 ^ 31 <=? i then UB
  else if 0 <? i then
    match nth_error exp_table (Z.to_nat (if i <? 179 then i else 179)) with
    | Some t => Ret (fmul2 (poly2 (fadd2 (Fin a) (Fin (- f)))) (of_bits t))
    | None => UB
    end
  else Ret (Fin 0).

Lemma exp2_eq a : exp2 a = exp_f Sse4 (Fin a).
Proof.
  unfold exp2, exp_f. cbn [floor_f round_down]. rewrite down2_eq. cbv zeta. destruct (to_int32 (Fin (a / 2 ^ 149 * 2 ^ 149))) as [i| |]; try reflexivity.
  cbn [bind]. destruct (2 ^ 31 <=? i + 88); [reflexivity|]. destruct (0 <? i + 88); [|reflexivity].
  destruct (nth_error exp_table _) as [t|]; [|reflexivity]. rewrite fmul2_eq, poly2_eq, fadd2_eq. unfold fsub. cbn [fneg].
  set (x := fadd (Fin a) _). clearbody x. now rewrite <- (poly_eq x).
Qed.

Definition check_exp2 (D : Z) : bool :=
  let (P, Q) := tens D in
  match fmul2 (Fin (D * 2 ^ 149)) kl10 with
  | Fin a =>
      (Z.abs a <=? 2 ^ 172) &&
      match exp2 a with
      | Ret (Fin e) => (0 <? e) && (Z.abs (e * Q - P * 2 ^ 149) * 10 ^ 7 <=? 44 * (P * 2 ^ 149))
      | _ => false
      end
  | _ => false
  end.

Lemma check_exp2_eq D : check_exp2 D = check_exp D.
Proof. unfold check_exp2, check_exp. rewrite fmul2_eq. destruct (fmul (Fin (D * 2 ^ 149)) kl10); try reflexivity. now rewrite exp2_eq. Qed.

Lemma check_exp_all2 : forallb (fun n => check_exp2 (Z.of_nat n - 37)) (seq 0 76) = true.
Proof. vm_compute. reflexivity. Qed.

Lemma check_exp_all : forallb (fun n => check_exp (Z.of_nat n - 37)) (seq 0 76) = true.
Proof. apply forallb_forall. intros n I. rewrite <- check_exp2_eq. exact (proj1 (forallb_forall _ _) check_exp_all2 n I). Qed.

#[local] Opaque check_exp.

Lemma check_exp_ok D : -37 <= D <= 38 -> check_exp D = true.
Proof.
  intros H. assert (I : In (Z.to_nat (D + 37)) (seq 0 76)) by (clear - H; apply in_seq; lia).
  pose proof (proj1 (forallb_forall _ _) check_exp_all _ I) as C. cbv beta in C. rewrite Z2Nat.id in C by (clear - H; lia).
  replace (D + 37 - 37) with D in C by (clear; lia). exact C.
Qed.

#[local] Transparent check_exp.

Lemma exp_power v D : -37 <= D <= 38 -> exists e, exp_f v (fmul (Fin (D * 2 ^ 149)) ln_10) = Ret (Fin e) /\ 0 < e /\
  Z.abs (e * 10 ^ Z.max 0 (- D) - 10 ^ Z.max 0 D * 2 ^ 149) * 10 ^ 7 <= 44 * (10 ^ Z.max 0 D * 2 ^ 149).
Proof.
  intros H. pose proof (check_exp_ok D H) as C. unfold check_exp, tens in C.
  destruct constants as (_ & _ & _ & _ & _ & _ & _ & _ & _ & E10 & _). rewrite E10.
  destruct (fmul (Fin (D * 2 ^ 149)) kl10) as [a| |]; [|discriminate C..].
  apply andb_true_iff in C. destruct C as [C1 C]. apply Z.leb_le in C1. rewrite (exp_variant v a C1).
  destruct (exp_f Sse4 (Fin a)) as [[e| |]| |]; [|discriminate C..]. apply andb_true_iff in C. destruct C as [C2 C3].
  exists e. split; [reflexivity|]. split; [now apply Z.ltb_lt|now apply Z.leb_le].
Qed.

(** Below, Exp gives 0. *)
Lemma exp_least v : exp_f v (fmul (Fin (-38 * 2 ^ 149)) ln_10) = Ret (Fin 0).
Proof. destruct v; vm_compute; reflexivity. Qed.

(** ** The quotient *)

Lemma scale_bounds U P Q e u : 0 < U -> 0 < P -> 0 < Q -> 0 < e ->
  P * U * (2 ^ 16 - 1) <= u * Q * 2 ^ 16 -> u * Q * 2 ^ 16 <= 10 * P * U * (2 ^ 16 + 1) ->
  Z.abs (e * Q - P * U) * 10 ^ 7 <= 44 * (P * U) -> 99 * e <= 100 * u /\ u <= 11 * e.
Proof.
  intros HU HP HQ He A B N. split.
  - apply Z.mul_le_mono_pos_r with Q; [exact HQ|]. set (X := u * Q) in *. set (Y := P * U) in *. replace (99 * e * Q) with (99 * (e * Q)) by ring.
    replace (100 * u * Q) with (100 * X) by (unfold X; ring). set (Z0 := e * Q) in *. assert (0 < Y) by (unfold Y; nia). clearbody X Y Z0. clear B HU HP HQ He. lia.
  - apply Z.mul_le_mono_pos_r with Q; [exact HQ|]. replace (11 * e * Q) with (11 * (e * Q)) by ring. replace (10 * P * U) with (10 * (P * U)) in B by ring.
    assert (0 < P * U) by nia. set (X := u * Q) in *. set (Y := P * U) in *. set (Z0 := e * Q) in *. clearbody X Y Z0. clear A HU HP HQ He. lia.
Qed.

Lemma scale_error U P Q e u s : 0 < U -> 0 < P -> 0 < Q -> 0 < e -> 0 <= s -> 0 <= u ->
  Z.abs (e * Q - P * U) * 10 ^ 7 <= 44 * (P * U) -> 2 ^ 24 * Z.abs (s * e - u * U) <= u * U ->
  Z.abs (s * P - u * Q) * 2 ^ 17 <= u * Q.
Proof.
  intros HU HP HQ He Hs Hu N R.
  assert (K : Z.abs (s * P - u * Q) * (10 ^ 7 * 2 ^ 24) <= 44 * 2 ^ 24 * (s * P) + 10 ^ 7 * (u * Q)).
  { apply Z.mul_le_mono_pos_r with U; [exact HU|].
    assert (I : (s * P - u * Q) * U = s * (P * U - e * Q) + Q * (s * e - u * U)) by ring.
    assert (J : Z.abs (s * P - u * Q) * U <= s * Z.abs (e * Q - P * U) + Q * Z.abs (s * e - u * U)).
    { rewrite <- (Z.abs_eq U) at 1 by lia. rewrite <- Z.abs_mul, I.
      etransitivity; [apply Z.abs_triangle|]. rewrite !Z.abs_mul, (Z.abs_eq s), (Z.abs_eq Q) by lia.
      replace (P * U - e * Q) with (- (e * Q - P * U)) by ring. rewrite Z.abs_opp. lia. }
    assert (J1 : s * Z.abs (e * Q - P * U) * 10 ^ 7 <= 44 * (s * P * U)).
    { replace (44 * (s * P * U)) with (s * (44 * (P * U))) by ring. rewrite <- Z.mul_assoc. apply Z.mul_le_mono_nonneg_l; [exact Hs|exact N]. }
    assert (J2 : 2 ^ 24 * (Q * Z.abs (s * e - u * U)) <= u * Q * U).
    { replace (u * Q * U) with (Q * (u * U)) by ring. replace (2 ^ 24 * (Q * Z.abs (s * e - u * U))) with (Q * (2 ^ 24 * Z.abs (s * e - u * U))) by ring.
      apply Z.mul_le_mono_nonneg_l; [lia|exact R]. }
    replace (Z.abs (s * P - u * Q) * (10 ^ 7 * 2 ^ 24) * U) with (10 ^ 7 * 2 ^ 24 * (Z.abs (s * P - u * Q) * U)) by ring.
    replace ((44 * 2 ^ 24 * (s * P) + 10 ^ 7 * (u * Q)) * U) with (44 * 2 ^ 24 * (s * P * U) + 10 ^ 7 * (u * Q * U)) by ring.
    set (T := Z.abs (s * P - u * Q) * U) in *. set (T1 := s * Z.abs (e * Q - P * U)) in *. set (T2 := Q * Z.abs (s * e - u * U)) in *.
    set (T3 := s * P * U) in *. set (T4 := u * Q * U) in *. clearbody T T1 T2 T3 T4. clear - J J1 J2. lia. }
  assert (0 <= u * Q) by nia. set (X := s * P) in *. set (Y := u * Q) in *. clearbody X Y. clear - K H. lia.
Qed.

(** ** The result *)

Lemma normal_fields bits : f_normal bits -> bits < 2 ^ 31 -> exists E j, bits = E * 2 ^ 23 + j /\ 1 <= E < 255 /\ 0 <= j < 2 ^ 23.
Proof.
  intros [B N] L. exists (bits / 2 ^ 23), (bits mod 2 ^ 23). unfold f_exponent in N.
  assert (0 <= bits / 2 ^ 23 < 2 ^ 8) by (split; [apply Z.div_pos; lia|apply Z.div_lt_upper_bound; lia]).
  rewrite Z.mod_small in N by assumption. pose proof (Z.div_mod bits (2 ^ 23) ltac:(lia)). pose proof (Z.mod_pos_bound bits (2 ^ 23) ltac:(lia)). lia.
Qed.

Lemma power_int D : -38 <= D <= 38 -> to_int32 (Fin (D * 2 ^ 149)) = Ret D.
Proof.
  intros H. unfold to_int32. rewrite Z.quot_mul by lia. destruct (Z.leb_spec (- 2 ^ 31) D); [|lia]. destruct (Z.ltb_spec D (2 ^ 31)); [reflexivity|lia].
Qed.

Lemma scale_ok v bits : f_normal bits -> least_scaled <= bits < 2 ^ 31 -> exists a D, scale_f v bits = Ret (a, D) /\
  0 <= a < 2 ^ 31 /\ 126 <= f_exponent a <= 130 /\ -37 <= D <= 38 /\
  10 ^ Z.max 0 D * 2 ^ 149 * (2 ^ 16 - 1) <= f_units bits * 10 ^ Z.max 0 (- D) * 2 ^ 16 /\
  Z.abs (f_units a * 10 ^ Z.max 0 D - f_units bits * 10 ^ Z.max 0 (- D)) * 2 ^ 17 <= f_units bits * 10 ^ Z.max 0 (- D).
Proof.
  intros N L. destruct (normal_fields bits N ltac:(lia)) as (E & j & -> & HE & Hj).
  destruct (decade_fields v E j HE Hj) as (D & Ed & RD & A & B & D38). unfold scale_f. rewrite Ed.
  assert (HD : -37 <= D <= 38) by lia. clear D38 RD.
  destruct (exp_power v D HD) as (e & Ee & He & Ne). rewrite Ee. cbn [bind].
  rewrite (power_int D ltac:(lia)). cbn [bind]. destruct (fields_of E j ltac:(lia) Hj) as [Fe _].
  rewrite of_bits_spec by lia. rewrite units_of by lia.
  assert (U0 : 0 < (2 ^ 23 + j) * 2 ^ (E - 1)) by (pose proof (pow2_pos (E - 1) ltac:(lia)); nia).
  set (u := (2 ^ 23 + j) * 2 ^ (E - 1)) in *. clearbody u.
  unfold above, below, tens in A, B. apply Z.leb_le in A. apply Z.leb_le in B.
  assert (HP : 0 < 10 ^ Z.max 0 D) by (apply Z.pow_pos_nonneg; lia). assert (HQ : 0 < 10 ^ Z.max 0 (- D)) by (apply Z.pow_pos_nonneg; lia).
  remember (10 ^ Z.max 0 D) as P eqn:EP. remember (10 ^ Z.max 0 (- D)) as Q eqn:EQ.
  assert (HU : 0 < 2 ^ 149) by lia. destruct (scale_bounds (2 ^ 149) P Q e u HU HP HQ He A B Ne) as [B1 B2].
  unfold fdiv. destruct (Z.eqb_spec e 0) as [|_]; [lia|]. rewrite Z.sgn_pos, Z.abs_eq, Z.mul_1_r by lia.
  rewrite (fround_fin _ _ 153) by lia. rewrite rnd_nonneg by lia.
  pose proof (round_relative (u * 2 ^ 149) e He ltac:(lia)) as R.
  pose proof (round_rep (u * 2 ^ 149) e ltac:(lia) He) as Rp.
  pose proof (round_nonneg (u * 2 ^ 149) e ltac:(lia) He) as Rn.
  set (s := round_units (u * 2 ^ 149) e) in *. clearbody s.
  assert (S1 : 2 ^ 148 <= s < 2 ^ 153).
  { split.
    - apply Z.mul_le_mono_pos_r with e; [exact He|]. lia.
    - apply Z.mul_lt_mono_pos_r with e; [exact He|]. lia. }
  destruct (to_bits_ok s Rp ltac:(lia)) as (T1 & T2 & T3).
  exists (to_bits (Fin s)), D. split; [reflexivity|]. split; [exact T1|]. split.
  { assert (148 <= Z.log2 s) by (apply Z.log2_le_pow2; lia). assert (Z.log2 s < 153) by (apply Z.log2_lt_pow2; lia). lia. }
  split; [exact HD|]. rewrite T3, <- EP, <- EQ. split; [exact A|]. apply (scale_error (2 ^ 149) P Q e u s); lia.
Qed.

(** The smallest normal numbers are divided by zero. *)
Lemma scale_least v bits : f_normal bits -> bits < least_scaled -> scale_f v bits = Ret (0x7F800000, -38).
Proof.
  intros N L. destruct (normal_fields bits N ltac:(unfold least_scaled in L; lia)) as (E & j & -> & HE & Hj).
  destruct (decade_fields v E j HE Hj) as (D & Ed & RD & A & B & D38). unfold scale_f. rewrite Ed.
  assert (D = -38) as -> by (apply D38; exact L). rewrite exp_least. cbn [bind]. rewrite (power_int (-38)) by lia. cbn [bind].
  destruct (fields_of E j ltac:(lia) Hj) as [Fe _]. rewrite of_bits_spec by lia. rewrite units_of by lia.
  assert (U0 : 0 < (2 ^ 23 + j) * 2 ^ (E - 1)) by (pose proof (pow2_pos (E - 1) ltac:(lia)); nia).
  unfold fdiv. cbn [Z.eqb]. destruct (Z.eqb_spec ((2 ^ 23 + j) * 2 ^ (E - 1)) 0); [lia|]. reflexivity.
Qed.
