(** * How close Newton's method comes to the square root, with every rounding *)

From Verif Require Import Base TextModel NumModel StringModel SpecText FloatTextModel SpecFloatText SpecMath MathModel RoundProofs StrtodProofs FloatTextProofs FloatResult.
From Verif Require Import MathRound MathFast MathFloor MathExp MathLog MathScale TrigModel SpecTrig TrigProofs SqrtModel.

#[local] Arguments Z.pow : simpl never.

(** ** The first approximation *)

Lemma cubic u v S d : S = u + 2 * v -> d = 3 * v - S -> 27 * (u * v * v) = S * S * S - d * d * (3 * S + 2 * d).
Proof. intros -> ->. ring. Qed.

Lemma cubic_left S lo d : lo <= d <= 0 -> 0 <= S + lo -> 0 <= d * d * (3 * S + 2 * d) <= lo * lo * (3 * S + 2 * lo).
Proof.
  intros H P. split; [apply Z.mul_nonneg_nonneg; [apply Z.square_nonneg|clear - H P; lia]|].
  assert (E : lo * lo * (3 * S + 2 * lo) - d * d * (3 * S + 2 * d) = (d - lo) * (- (lo + d) * (3 * S + 2 * (lo + d)) + 2 * (lo * d))) by ring.
  assert (0 <= lo * d) by nia.
  assert (0 <= (d - lo) * (- (lo + d) * (3 * S + 2 * (lo + d)) + 2 * (lo * d))); [|lia].
  apply Z.mul_nonneg_nonneg; [lia|].
  assert (A : - (lo + d) * (3 * - lo) <= - (lo + d) * (3 * S)) by (apply Z.mul_le_mono_nonneg_l; lia).
  assert (d * d <= lo * d) by nia. assert (lo * d <= lo * lo) by nia.
  replace (- (lo + d) * (3 * S + 2 * (lo + d)) + 2 * (lo * d)) with (- (lo + d) * (3 * S) - 2 * (lo * lo) - 2 * (d * d) - 2 * (lo * d)) by ring.
  replace (- (lo + d) * (3 * - lo)) with (3 * (lo * lo) + 3 * (lo * d)) in A by ring. lia.
Qed.

Lemma cubic_right S hi d : 0 <= d <= hi -> 0 <= S -> 0 <= d * d * (3 * S + 2 * d) <= hi * hi * (3 * S + 2 * hi).
Proof. intros H P. split; [apply Z.mul_nonneg_nonneg; [apply Z.square_nonneg|lia]|]. apply Z.mul_le_mono_nonneg; [nia|nia|lia|lia]. Qed.

Lemma cubic_near S lo hi d u v j L : S = u + 2 * v -> d = 3 * v - S -> lo <= d <= hi -> lo <= 0 <= hi -> 0 <= S + lo -> 0 <= j <= 1 -> 0 <= v <= 2 ^ 24 ->
  14 * (S * S * S + 27 * 2 ^ 48) <= 27 * 15 * L ->
  27 * 13 * L <= 14 * (S * S * S - lo * lo * (3 * S + 2 * lo)) -> 27 * 13 * L <= 14 * (S * S * S - hi * hi * (3 * S + 2 * hi)) ->
  14 * Z.abs (L - (u + j) * (v * v)) <= L.
Proof.
  intros HS Hd D Z0 P J V H1 H2 H3. pose proof (cubic u v S d HS Hd) as E.
  replace ((u + j) * (v * v)) with (u * v * v + j * (v * v)) by ring.
  assert (0 <= j * (v * v) <= 2 ^ 48).
  { assert (v * v <= 2 ^ 24 * 2 ^ 24) by (apply Z.mul_le_mono_nonneg; lia). assert (0 <= v * v) by apply Z.square_nonneg. change (2 ^ 48) with (2 ^ 24 * 2 ^ 24). assert (Cj : j = 0 \/ j = 1) by lia. clear - H H0 Cj. destruct Cj as [-> | ->]; lia. }
  destruct (Z.le_gt_cases d 0).
  - pose proof (cubic_left S lo d ltac:(lia) P). lia.
  - pose proof (cubic_right S hi d ltac:(lia) ltac:(lia)). lia.
Qed.

Lemma scaled_near a b k x : 14 * Z.abs (a - b) <= a -> 0 <= k -> x = b * 2 ^ k -> 14 * Z.abs (a * 2 ^ k - x) <= a * 2 ^ k.
Proof.
  intros H K ->. rewrite <- Z.mul_sub_distr_r, Z.abs_mul. rewrite (Z.abs_eq (2 ^ k)) by (apply Z.pow_nonneg; lia).
  rewrite Z.mul_assoc. apply Z.mul_le_mono_nonneg_r; [apply Z.pow_nonneg; lia|exact H].
Qed.

Lemma magic_ok bits : 0 <= bits < 2 ^ 31 -> 0 < f_exponent bits < 255 ->
  exists R, magic bits = Fin R /\ 0 < R /\ 14 * Z.abs (2 ^ 447 - f_units bits * (R * R)) <= 2 ^ 447.
Proof.
  intros B F. pose proof (Z.div_mod bits (2 ^ 23) ltac:(lia)) as D. pose proof (Z.mod_pos_bound bits (2 ^ 23) ltac:(lia)) as M.
  assert (XE : f_units bits = (2 ^ 23 + f_mantissa bits) * 2 ^ (f_exponent bits - 1)) by (unfold f_units; destruct (Z.eqb_spec (f_exponent bits) 0); [lia|reflexivity]).
  rewrite XE. clear XE. assert (EE : f_exponent bits = bits / 2 ^ 23).
  { unfold f_exponent. apply Z.mod_small. split; [apply Z.div_pos; lia|apply Z.div_lt_upper_bound; lia]. }
  fold (f_mantissa bits) in D, M. rewrite <- EE in D. clear EE. revert D M F. generalize (f_exponent bits) (f_mantissa bits). intros e m D M F.
  unfold magic. rewrite Z.shiftr_div_pow2 by lia. change (2 ^ 1) with 2.
  assert (C : forall E j, 0 < E < 255 -> 0 <= j < 2 ^ 23 -> 0x5F375A86 - bits / 2 = E * 2 ^ 23 + j ->
    of_bits ((0x5F375A86 - bits / 2) mod 2 ^ 32) = Fin ((2 ^ 23 + j) * 2 ^ (E - 1)) /\ 0 < (2 ^ 23 + j) * 2 ^ (E - 1)).
  { intros E j HE Hj ->. split; [|apply Z.mul_pos_pos; [lia|apply Z.pow_pos_nonneg; lia]]. rewrite Z.mod_small by lia. destruct (fields_of E j ltac:(lia) Hj) as [F1 F2].
    rewrite of_bits_spec; [|lia|lia]. unfold f_units. rewrite F1, F2. destruct (Z.eqb_spec E 0); [lia|reflexivity]. }
  pose proof (Z.div_mod m 2 ltac:(lia)) as Dm. pose proof (Z.mod_pos_bound m 2 ltac:(lia)) as Mm. set (t := m / 2) in *. set (j := m mod 2) in *. clearbody t j.
  assert (PR : forall v E, 0 < E -> (2 ^ 23 + m) * 2 ^ (e - 1) * (v * 2 ^ (E - 1) * (v * 2 ^ (E - 1))) = (2 ^ 23 + m) * (v * v) * 2 ^ (e - 1 + 2 * (E - 1))).
  { intros v E HE. replace (e - 1 + 2 * (E - 1)) with (e - 1 + (E - 1) + (E - 1)) by lia. rewrite !Z.pow_add_r by lia. ring. }
  pose proof (Z.div_mod e 2 ltac:(lia)) as De. pose proof (Z.mod_pos_bound e 2 ltac:(lia)) as Me. set (K := e / 2) in *. clearbody K.
  assert (Cs : e mod 2 = 0 \/ e mod 2 = 1) by lia. destruct Cs as [Ce|Ce]; rewrite Ce in De; clear Me Ce.
  - assert (Hb : bits / 2 = K * 2 ^ 23 + t) by (symmetry; apply (Z.div_unique bits 2 _ j); lia). rewrite Hb in C |- *.
    destruct (Z.le_gt_cases t 3627654).
    + destruct (C (190 - K) (3627654 - t) ltac:(lia) ltac:(lia) ltac:(lia)) as [-> P]. eexists. split; [reflexivity|]. split; [exact P|].
      rewrite PR by lia. replace (e - 1 + 2 * (190 - K - 1)) with 377 by lia. change (2 ^ 447) with (2 ^ 70 * 2 ^ 377). eapply scaled_near; [|lia|reflexivity].
      replace (2 ^ 23 + m) with (2 ^ 23 + 2 * t + j) by lia. apply (cubic_near (3 * 2 ^ 23 + 2 * 3627654) (- 7255308) 3627654 (3 * (2 ^ 23 + (3627654 - t)) - (3 * 2 ^ 23 + 2 * 3627654))); lia.
    + destruct (C (189 - K) (3627654 + 2 ^ 23 - t) ltac:(lia) ltac:(lia) ltac:(lia)) as [-> P]. eexists. split; [reflexivity|]. split; [exact P|].
      rewrite PR by lia. replace (e - 1 + 2 * (189 - K - 1)) with 375 by lia. change (2 ^ 447) with (2 ^ 72 * 2 ^ 375). eapply scaled_near; [|lia|reflexivity].
      replace (2 ^ 23 + m) with (2 ^ 23 + 2 * t + j) by lia. apply (cubic_near (2 ^ 23 + 2 * (2 ^ 24 + 3627654)) (- 600000) 1200000 (3 * (2 ^ 23 + (3627654 + 2 ^ 23 - t)) - (2 ^ 23 + 2 * (2 ^ 24 + 3627654)))); lia.
  - assert (Hb : bits / 2 = K * 2 ^ 23 + (2 ^ 22 + t)) by (symmetry; apply (Z.div_unique bits 2 _ j); lia). rewrite Hb in C |- *.
    destruct (C (189 - K) (3627654 + 2 ^ 23 - (2 ^ 22 + t)) ltac:(lia) ltac:(lia) ltac:(lia)) as [-> P]. eexists. split; [reflexivity|]. split; [exact P|].
    rewrite PR by lia. replace (e - 1 + 2 * (189 - K - 1)) with 376 by lia. change (2 ^ 447) with (2 ^ 71 * 2 ^ 376). eapply scaled_near; [|lia|reflexivity].
    replace (2 ^ 23 + m) with (2 ^ 23 + 2 * t + j) by lia. apply (cubic_near (2 * (2 ^ 24 + 3627654)) (- 4760954) 7821958 (3 * (2 ^ 23 + (3627654 + 2 ^ 23 - (2 ^ 22 + t))) - (2 * (2 ^ 24 + 3627654)))); lia.
Qed.

(** ** One step *)

Lemma mul_rel D a b : 0 < D <= 2 ^ 24 -> 0 <= a * b <= 2 ^ 276 * 2 ^ 149 -> 2 ^ 23 * 2 ^ 149 * D <= (2 ^ 24 - D) * (a * b) ->
  exists r, fmul (Fin a) (Fin b) = Fin r /\ D * Z.abs (r * 2 ^ 149 - a * b) <= a * b.
Proof.
  intros HD H L. cbn [fmul]. destruct (fround_rel (a * b) (2 ^ 149)) as (r & -> & E); [lia|lia|]. exists r. split; [reflexivity|].
  revert H L E. generalize (a * b) (Z.abs (r * 2 ^ 149 - a * b)). intros n g H L E.
  assert (2 ^ 24 * (D * g) <= 2 ^ 24 * n); [|lia]. replace (2 ^ 24 * (D * g)) with (D * (2 ^ 24 * g)) by ring.
  eapply Z.le_trans; [apply Z.mul_le_mono_nonneg_l; [lia|exact E]|]. replace (D * (n + 2 ^ 23 * 2 ^ 149)) with (D * n + 2 ^ 23 * 2 ^ 149 * D) by ring. replace ((2 ^ 24 - D) * n) with (2 ^ 24 * n - D * n) in L by ring. lia.
Qed.

Lemma abs_scale a b c : 0 <= c -> a <= b -> a * c <= b * c.
Proof. intros. now apply Z.mul_le_mono_nonneg_r. Qed.

(** The error of a step from its roundings. *)
Lemma step_error D U R T p s h R' : 2 ^ 20 <= D -> 0 < U -> 0 <= R -> 0 <= T -> 14 * Z.abs (U * U * U - T) <= U * U * U ->
  D * Z.abs (p * U * U - T) <= 3 * T -> D * Z.abs (s - (3 * U - p)) <= 4 * U -> D * Z.abs (2 * h - R) <= 2 * R -> D * Z.abs (R' * U - h * s) <= h * s ->
  D * Z.abs (2 * R' * (U * U * U) - R * (3 * (U * U * U) - T)) <= 16 * R * (U * U * U).
Proof.
  intros HD HU HR HT HE Hp Hs Hh HR'.
  set (V := U * U * U) in *. assert (V0 : 0 < V) by (unfold V; nia).
  assert (U2 : 0 < U * U) by nia.
  (* p is about U, s about 2 U *)
  assert (P : D * Z.abs (p - (2 * U - (2 * U - p))) <= 0) by (replace (p - (2 * U - (2 * U - p))) with 0 by ring; cbn; lia). clear P.
  assert (TV : T * 14 <= V * 15 /\ V * 13 <= T * 14) by lia.
  assert (P1 : 0 <= 100 * p <= 110 * U).
  { assert (B : 90 * V <= 100 * (p * U * U) <= 110 * V).
    { assert (2 ^ 20 * Z.abs (p * U * U - T) <= 3 * T); [|lia]. eapply Z.le_trans; [|exact Hp]. apply Z.mul_le_mono_nonneg_r; lia. }
    unfold V in B. split; [destruct (Z.le_gt_cases 0 p); [lia|exfalso]|destruct (Z.le_gt_cases (100 * p) (110 * U)); [lia|exfalso]].
    - assert (p * (U * U) < 0) by nia. lia.
    - assert (110 * U * (U * U) < 100 * p * (U * U)) by (apply Z.mul_lt_mono_pos_r; lia). lia. }
  assert (S1 : 0 <= 100 * s <= 301 * U /\ 180 * U <= 100 * s).
  { assert (2 ^ 20 * Z.abs (s - (3 * U - p)) <= 4 * U); [eapply Z.le_trans; [|exact Hs]; apply Z.mul_le_mono_nonneg_r; lia|]. lia. }
  assert (H1 : 0 <= 100 * h <= 51 * R).
  { assert (2 ^ 20 * Z.abs (2 * h - R) <= 2 * R); [eapply Z.le_trans; [|exact Hh]; apply Z.mul_le_mono_nonneg_r; lia|]. lia. }
  assert (S2 : 100 * s <= 212 * U).
  { assert (2 ^ 20 * Z.abs (s - (3 * U - p)) <= 4 * U); [eapply Z.le_trans; [|exact Hs]; apply Z.mul_le_mono_nonneg_r; lia|].
    assert (B : 90 * V <= 100 * (p * U * U)).
    { assert (2 ^ 20 * Z.abs (p * U * U - T) <= 3 * T); [|lia]. eapply Z.le_trans; [|exact Hp]. apply Z.mul_le_mono_nonneg_r; lia. }
    assert (90 * U <= 100 * p); [|lia]. destruct (Z.le_gt_cases (90 * U) (100 * p)); [lia|exfalso]. assert (100 * p * (U * U) < 90 * U * (U * U)) by (apply Z.mul_lt_mono_pos_r; lia). unfold V in B. lia. }
  (* the four errors *)
  assert (E1 : D * Z.abs (2 * R' * V - 2 * (h * s) * (U * U)) <= 3 * R * V).
  { replace (2 * R' * V - 2 * (h * s) * (U * U)) with ((R' * U - h * s) * (2 * (U * U))) by (unfold V; ring). rewrite Z.abs_mul, (Z.abs_eq (2 * (U * U))), Z.mul_assoc by lia.
    eapply Z.le_trans; [apply abs_scale; [lia|exact HR']|]. assert (HS : 100 * h * (100 * s) <= 51 * R * (212 * U)) by (apply Z.mul_le_mono_nonneg; lia). assert (10000 * (h * s) <= 10812 * (R * U)) by (clear - HS; lia).
    assert (10000 * (h * s) * (U * U) <= 10812 * (R * U) * (U * U)) by (apply abs_scale; lia). assert (0 <= R * V) by lia. unfold V in *. lia. }
  assert (E2 : D * Z.abs (2 * (h * s) * (U * U) - R * s * (U * U)) <= 5 * R * V).
  { replace (2 * (h * s) * (U * U) - R * s * (U * U)) with ((2 * h - R) * (s * (U * U))) by ring. rewrite Z.abs_mul, (Z.abs_eq (s * (U * U))), Z.mul_assoc by (apply Z.mul_nonneg_nonneg; lia).
    eapply Z.le_trans; [apply abs_scale; [apply Z.mul_nonneg_nonneg; lia|exact Hh]|]. assert (100 * s * (R * (U * U)) <= 212 * U * (R * (U * U))) by (apply abs_scale; [apply Z.mul_nonneg_nonneg; lia|lia]). assert (0 <= R * V) by lia. unfold V in *. lia. }
  assert (E3 : D * Z.abs (R * s * (U * U) - R * (3 * U - p) * (U * U)) <= 4 * R * V).
  { replace (R * s * (U * U) - R * (3 * U - p) * (U * U)) with ((s - (3 * U - p)) * (R * (U * U))) by ring. rewrite Z.abs_mul, (Z.abs_eq (R * (U * U))), Z.mul_assoc by (apply Z.mul_nonneg_nonneg; lia).
    eapply Z.le_trans; [apply abs_scale; [apply Z.mul_nonneg_nonneg; lia|exact Hs]|]. unfold V. lia. }
  assert (E4 : D * Z.abs (R * (3 * U - p) * (U * U) - R * (3 * V - T)) <= 4 * R * V).
  { replace (R * (3 * U - p) * (U * U) - R * (3 * V - T)) with ((p * U * U - T) * - R) by (unfold V; ring). rewrite Z.abs_mul, Z.abs_opp, (Z.abs_eq R), Z.mul_assoc by lia.
    eapply Z.le_trans; [apply abs_scale; [lia|exact Hp]|]. assert (T * 14 * R <= V * 15 * R) by (apply abs_scale; lia). assert (0 <= R * V) by lia. lia. }
  revert E1 E2 E3 E4. clear - HD V0. generalize (2 * R' * V) (2 * (h * s) * (U * U)) (R * s * (U * U)) (R * (3 * U - p) * (U * U)) (R * (3 * V - T)). intros a b c d e E1 E2 E3 E4.
  assert (A : Z.abs (a - e) <= Z.abs (a - b) + Z.abs (b - c) + Z.abs (c - d) + Z.abs (d - e)) by lia.
  apply (Z.mul_le_mono_nonneg_l _ _ D) in A; [|lia]. lia.
Qed.

(** The square of the result from the error of the step. *)
Lemma step_square D m V X R A : 2 ^ 20 <= D -> 14 <= m -> 0 < V -> 0 <= X -> 0 <= R -> m * Z.abs (V - X * (R * R)) <= V ->
  D * Z.abs (2 * A * V - R * (3 * V - X * (R * R))) <= 16 * R * V ->
  56 * (m * m) * D * Z.abs (X * (A * A) - V) <= (43 * D + 1008 * (m * m)) * V.
Proof.
  intros HD Hm HV HX HR HE HA. set (T := X * (R * R)) in *. assert (T0 : 0 <= T) by (unfold T; apply Z.mul_nonneg_nonneg; [lia|apply Z.square_nonneg]).
  set (B := R * (3 * V - T)) in *. set (E := V - T) in *.
  assert (E14 : 14 * Z.abs E <= V) by (eapply Z.le_trans; [|exact HE]; apply Z.mul_le_mono_nonneg_r; lia).
  assert (B0 : 0 <= 14 * B <= 29 * (R * V)).
  { unfold B. assert (0 <= 3 * V - T) by (unfold E in E14; lia). split; [nia|]. assert (14 * (3 * V - T) <= 29 * V) by (unfold E in E14; lia). nia. }
  assert (RV : 0 <= R * V) by nia.
  assert (A1 : 2 ^ 20 * Z.abs (2 * A * V - B) <= 16 * R * V) by (eapply Z.le_trans; [|exact HA]; apply Z.mul_le_mono_nonneg_r; lia).
  (* X A^2 against X B^2 *)
  assert (Q1 : D * Z.abs (4 * (V * V) * (X * (A * A)) - X * (B * B)) <= 72 * (V * V * V)).
  { replace (4 * (V * V) * (X * (A * A)) - X * (B * B)) with ((2 * A * V - B) * (X * (2 * A * V + B))) by ring. rewrite Z.abs_mul, Z.mul_assoc.
    assert (S : Z.abs (2 * A * V + B) * 100 <= 415 * (R * V)) by lia.
    rewrite Z.abs_mul, (Z.abs_eq X) by lia.
    eapply Z.le_trans; [apply abs_scale; [apply Z.mul_nonneg_nonneg; lia|exact HA]|].
    assert (S' : Z.abs (2 * A * V + B) * 100 * (X * R * V) <= 415 * (R * V) * (X * R * V)) by (apply abs_scale; [apply Z.mul_nonneg_nonneg; [apply Z.mul_nonneg_nonneg|]; lia|exact S]).
    assert (S3 : T * 14 * (V * V) <= V * 15 * (V * V)) by (apply abs_scale; [apply Z.square_nonneg|unfold E in E14; lia]).
    replace (415 * (R * V) * (X * R * V)) with (415 * (T * (V * V))) in S' by (unfold T; ring).
    assert (0 <= V * V * V) by (apply Z.mul_nonneg_nonneg; [apply Z.square_nonneg|lia]).
    replace (16 * R * V * (X * Z.abs (2 * A * V + B))) with (16 * (Z.abs (2 * A * V + B) * (X * R * V))) by ring. lia. }
  assert (Q2 : X * (B * B) = 4 * (V * V * V) - E * E * (3 * V + E)) by (unfold B, E; replace (X * (R * (3 * V - T) * (R * (3 * V - T)))) with (X * (R * R) * ((3 * V - T) * (3 * V - T))) by ring; fold T; ring).
  rewrite Q2 in Q1. clear Q2 A1 B0 HA.
  assert (E2 : m * m * (E * E) <= V * V).
  { replace (m * m * (E * E)) with (m * Z.abs E * (m * Z.abs E)) by (rewrite <- (Z.abs_square E); ring). apply Z.mul_le_mono_nonneg; try assumption; apply Z.mul_nonneg_nonneg; lia. }
  assert (Q3 : m * m * Z.abs (E * E * (3 * V + E)) * 14 <= 43 * (V * V * V)).
  { rewrite Z.abs_mul, (Z.abs_eq (E * E)) by apply Z.square_nonneg. assert (W : 0 <= Z.abs (3 * V + E) * 14 <= 43 * V) by lia.
    replace (m * m * (E * E * Z.abs (3 * V + E)) * 14) with (m * m * (E * E) * (Z.abs (3 * V + E) * 14)) by ring. replace (43 * (V * V * V)) with (V * V * (43 * V)) by ring.
    apply Z.mul_le_mono_nonneg; lia. }
  assert (V2 : 0 < V * V) by nia.
  apply (Z.mul_le_mono_pos_r _ _ (V * V)); [exact V2|].
  assert (F : 4 * (V * V) * Z.abs (X * (A * A) - V) <= Z.abs (4 * (V * V) * (X * (A * A)) - (4 * (V * V * V) - E * E * (3 * V + E))) + Z.abs (E * E * (3 * V + E))).
  { replace (4 * (V * V) * Z.abs (X * (A * A) - V)) with (Z.abs (4 * (V * V) * (X * (A * A)) - 4 * (V * V * V))); [lia|].
    replace (4 * (V * V) * (X * (A * A)) - 4 * (V * V * V)) with (4 * (V * V) * (X * (A * A) - V)) by ring. rewrite Z.abs_mul, (Z.abs_eq (4 * (V * V))) by lia. reflexivity. }
  revert F Q1 Q3. clear - HD Hm HV V2. generalize (Z.abs (4 * (V * V) * (X * (A * A)) - (4 * (V * V * V) - E * E * (3 * V + E)))) (Z.abs (E * E * (3 * V + E))) (Z.abs (X * (A * A) - V)).
  intros a b c F Q1 Q3. assert (M : 0 <= 14 * (m * m * D)) by nia.
  apply (Z.mul_le_mono_nonneg_l _ _ _ M) in F.
  apply (Z.mul_le_mono_nonneg_l _ _ (14 * (m * m)) ltac:(nia)) in Q1. apply (Z.mul_le_mono_nonneg_l _ _ D ltac:(lia)) in Q3. lia.
Qed.

(** ** The steps of the code *)

Lemma ranges X R : 2 ^ 23 <= X < 2 ^ 277 -> 0 < R -> 14 * Z.abs (2 ^ 447 - X * (R * R)) <= 2 ^ 447 ->
  2 ^ 84 <= R <= 2 ^ 213 /\ 2 ^ 200 <= X * R <= 2 ^ 364 /\ 2 ^ 170 - 2 ^ 167 <= R * R <= 2 ^ 426 /\ 13 * 2 ^ 447 <= 14 * (X * (R * R)) <= 15 * 2 ^ 447.
Proof.
  intros HX HR HT. assert (T : 13 * 2 ^ 447 <= 14 * (X * (R * R)) <= 15 * 2 ^ 447) by (revert HT; generalize (X * (R * R)); intros; lia).
  assert (R2 : 2 ^ 170 - 2 ^ 167 <= R * R).
  { destruct (Z.le_gt_cases (2 ^ 170 - 2 ^ 167) (R * R)) as [L|L]; [exact L|exfalso]. assert (X * (R * R) <= 2 ^ 277 * (2 ^ 170 - 2 ^ 167)) by (apply Z.mul_le_mono_nonneg; [lia|lia|apply Z.square_nonneg|lia]).
    revert T H. clear. generalize (X * (R * R)). intros. lia. }
  assert (R1 : 2 ^ 84 <= R).
  { destruct (Z.le_gt_cases (2 ^ 84) R) as [L|L]; [exact L|exfalso]. assert (R * R <= 2 ^ 84 * 2 ^ 84) by (apply Z.mul_le_mono_nonneg; lia). lia. }
  assert (R3 : R <= 2 ^ 213).
  { destruct (Z.le_gt_cases R (2 ^ 213)) as [L|L]; [exact L|exfalso]. assert (2 ^ 213 * 2 ^ 213 <= R * R) by (apply Z.mul_le_mono_nonneg; lia).
    assert (2 ^ 23 * (2 ^ 213 * 2 ^ 213) <= X * (R * R)) by (apply Z.mul_le_mono_nonneg; lia). revert T H0. clear. generalize (X * (R * R)). intros. lia. }
  assert (R * R <= 2 ^ 213 * 2 ^ 213) by (apply Z.mul_le_mono_nonneg; lia).
  split; [lia|]. split; [|split; [lia|exact T]]. replace (X * (R * R)) with (X * R * R) in T by ring. assert (0 <= X * R) by nia. revert T H0. clear - R1 R3 HR. generalize (X * R). intros w T W0. split.
  - destruct (Z.le_gt_cases (2 ^ 200) w) as [L|L]; [exact L|exfalso]. assert (w * R <= 2 ^ 200 * 2 ^ 213) by (apply Z.mul_le_mono_nonneg; lia). lia.
  - destruct (Z.le_gt_cases w (2 ^ 364)) as [L|L]; [exact L|exfalso]. assert (2 ^ 364 * 2 ^ 84 <= w * R) by (apply Z.mul_le_mono_nonneg; lia). lia.
Qed.

Lemma newton_ok X R : 2 ^ 23 <= X < 2 ^ 277 -> 0 < R -> 14 * Z.abs (2 ^ 447 - X * (R * R)) <= 2 ^ 447 ->
  exists A, newton (Fin X) (Fin R) = Fin A /\ 0 <= A /\ 2 ^ 22 * Z.abs (2 * A * 2 ^ 447 - R * (3 * 2 ^ 447 - X * (R * R))) <= 16 * R * 2 ^ 447.
Proof.
  intros HX HR HT. destruct (ranges X R HX HR HT) as (B1 & B2 & B3 & B4). unfold newton.
  replace (ratio 1 2) with (Fin (2 ^ 148)) by reflexivity. replace (of_int 3) with (Fin (3 * 2 ^ 149)) by reflexivity.
  destruct (mul_rel (2 ^ 22) (2 ^ 148) R) as (h & -> & Hh); [lia|lia|lia|].
  destruct (mul_rel (2 ^ 22) X R) as (p1 & -> & Hp1); [lia|lia|lia|].
  (* the square times x is about 1 *)
  assert (P1 : 0 <= p1) by lia.
  assert (G : 2 ^ 22 * Z.abs (p1 * R * 2 ^ 149 - X * (R * R)) <= X * (R * R)).
  { replace (p1 * R * 2 ^ 149 - X * (R * R)) with ((p1 * 2 ^ 149 - X * R) * R) by ring. rewrite Z.abs_mul, (Z.abs_eq R), Z.mul_assoc by lia. replace (X * (R * R)) with (X * R * R) by ring. apply abs_scale; [lia|exact Hp1]. }
  revert HT B4 G. generalize (X * (R * R)). intros T HT B4 G.
  assert (N : 2 ^ 149 * 2 ^ 148 <= p1 * R <= 2 ^ 149 * 2 ^ 150) by (revert G B4; clear; generalize (p1 * R); intros; lia).
  destruct (mul_rel (2 ^ 22) p1 R) as (p & -> & Hp); [lia|lia|lia|].
  assert (Gp : 2 ^ 22 * Z.abs (p * 2 ^ 149 * 2 ^ 149 - T) <= 3 * T) by (revert G Hp B4; clear; generalize (p1 * R); intros; lia).
  assert (P2 : 0 <= p <= 2 ^ 150) by (revert Gp B4; clear; intros; lia).
  cbn [fsub fneg fadd]. destruct (fround_rel (3 * 2 ^ 149 + - p) 1) as (s & -> & Hs); [lia|lia|].
  assert (Hs' : 2 ^ 22 * Z.abs (s - (3 * 2 ^ 149 - p)) <= 4 * 2 ^ 149) by lia. clear Hs.
  assert (Hh' : 2 ^ 22 * Z.abs (2 * h - R) <= 2 * R) by lia. clear Hh.
  assert (H2 : 2 ^ 82 <= h <= 2 ^ 213) by lia. assert (S2 : 2 ^ 148 <= s <= 2 ^ 151) by lia.
  assert (N2 : 2 ^ 82 * 2 ^ 148 <= h * s <= 2 ^ 213 * 2 ^ 151) by (split; apply Z.mul_le_mono_nonneg; lia).
  destruct (mul_rel (2 ^ 22) h s) as (A & -> & HA); [lia|lia|lia|]. exists A. split; [reflexivity|]. split; [revert HA N2; clear; generalize (h * s); intros; lia|].
  apply (step_error (2 ^ 22) (2 ^ 149) R T p s h A); try assumption; lia.
Qed.

Lemma newton_sse_ok X R : 2 ^ 23 <= X < 2 ^ 277 -> 0 < R -> 14 * Z.abs (2 ^ 447 - X * (R * R)) <= 2 ^ 447 ->
  exists A, newton_sse (Fin X) (Fin R) = Fin A /\ 0 <= A /\ 2 ^ 20 * Z.abs (2 * A * 2 ^ 447 - R * (3 * 2 ^ 447 - X * (R * R))) <= 16 * R * 2 ^ 447.
Proof.
  intros HX HR HT. destruct (ranges X R HX HR HT) as (B1 & B2 & B3 & B4). unfold newton_sse.
  replace (of_bits 0x3F000001) with (Fin ((2 ^ 23 + 1) * 2 ^ 125)) by reflexivity. replace (of_bits 0x40400000) with (Fin (3 * 2 ^ 149)) by reflexivity.
  destruct (mul_rel (2 ^ 22) R ((2 ^ 23 + 1) * 2 ^ 125)) as (h & -> & Hh); [lia|lia|lia|].
  destruct (mul_rel (2 ^ 20) R R) as (p1 & -> & Hp1); [lia|lia|lia|].
  assert (P1 : 0 <= p1) by (revert Hp1 B3; clear; generalize (R * R); intros; lia).
  assert (G : 2 ^ 20 * Z.abs (X * p1 * 2 ^ 149 - X * (R * R)) <= X * (R * R)).
  { replace (X * p1 * 2 ^ 149 - X * (R * R)) with ((p1 * 2 ^ 149 - R * R) * X) by ring. rewrite Z.abs_mul, (Z.abs_eq X), Z.mul_assoc by lia. replace (X * (R * R)) with (R * R * X) by ring. apply abs_scale; [lia|exact Hp1]. }
  revert HT B4 G. generalize (X * (R * R)). intros T HT B4 G.
  assert (N : 2 ^ 149 * 2 ^ 148 <= X * p1 <= 2 ^ 149 * 2 ^ 150) by (revert G B4; clear; generalize (X * p1); intros; lia).
  destruct (mul_rel (2 ^ 20) X p1) as (p & -> & Hp); [lia|lia|lia|].
  assert (Gp : 2 ^ 20 * Z.abs (p * 2 ^ 149 * 2 ^ 149 - T) <= 3 * T) by (revert G Hp B4; clear; generalize (X * p1); intros; lia).
  assert (P2 : 0 <= p <= 2 ^ 150) by (revert Gp B4; clear; intros; lia).
  cbn [fsub fneg fadd]. destruct (fround_rel (3 * 2 ^ 149 + - p) 1) as (s & -> & Hs); [lia|lia|].
  assert (Hs' : 2 ^ 20 * Z.abs (s - (3 * 2 ^ 149 - p)) <= 4 * 2 ^ 149) by lia. clear Hs.
  assert (Hh' : 2 ^ 20 * Z.abs (2 * h - R) <= 2 * R) by lia. clear Hh.
  assert (H2 : 2 ^ 82 <= h <= 2 ^ 213) by lia. assert (S2 : 2 ^ 148 <= s <= 2 ^ 151) by lia.
  assert (N2 : 2 ^ 82 * 2 ^ 148 <= h * s <= 2 ^ 213 * 2 ^ 151) by (split; apply Z.mul_le_mono_nonneg; lia).
  destruct (mul_rel (2 ^ 20) s h) as (A & -> & HA); [lia|lia|lia|]. rewrite (Z.mul_comm s h) in HA. exists A. split; [reflexivity|]. split; [revert HA N2; clear; generalize (h * s); intros; lia|].
  apply (step_error (2 ^ 20) (2 ^ 149) R T p s h A); try assumption; lia.
Qed.

Lemma abs_swap a b : Z.abs (a - b) = Z.abs (b - a).
Proof. lia. Qed.

Lemma square_pos X A m : 0 <= A -> 2 <= m -> m * Z.abs (X * (A * A) - 2 ^ 447) <= 2 ^ 447 -> 0 < A.
Proof. intros A0 M H. destruct (Z.eq_dec A 0) as [->|N]; [|lia]. exfalso. change (0 * 0) with 0 in H. rewrite Z.mul_0_r in H. replace (Z.abs (0 - 2 ^ 447)) with (2 ^ 447) in H by reflexivity. lia. Qed.

(** Two steps without SIMD, one with SSE. *)
Lemma plain_ok X : rep X -> 2 ^ 23 <= X < 2 ^ 277 ->
  exists r, newton (Fin X) (newton (Fin X) (magic (to_bits (Fin X)))) = Fin r /\ 0 < r /\ 2 ^ 15 * Z.abs (X * (r * r) - 2 ^ 447) <= 2 ^ 447.
Proof.
  intros RX HX. destruct (to_bits_ok X RX HX) as (B & F & EX).
  assert (L : 23 <= Z.log2 X < 277) by (split; [apply Z.log2_le_pow2; lia|apply Z.log2_lt_pow2; lia]).
  destruct (magic_ok (to_bits (Fin X)) B ltac:(clear - F L; lia)) as (R & -> & R0 & HR). rewrite EX in HR. clear B F EX L RX.
  destruct (newton_ok X R HX R0 HR) as (A & -> & A0 & HA).
  apply (step_square (2 ^ 22) 14 (2 ^ 447)) in HA; [|lia|lia|lia|lia|lia|exact HR].
  assert (HA' : 254 * Z.abs (2 ^ 447 - X * (A * A)) <= 2 ^ 447) by (clear HR; revert HA; generalize (X * (A * A)); intros; lia).
  assert (A1 : 0 < A) by (apply (square_pos X A 254); [exact A0|lia|]; rewrite abs_swap; exact HA').
  destruct (newton_ok X A HX A1) as (r & -> & r0 & Hr); [clear HA; revert HA'; generalize (X * (A * A)); intros; lia|].
  apply (step_square (2 ^ 22) 254 (2 ^ 447)) in Hr; [|lia|lia|lia|lia|lia|exact HA'].
  assert (Hr' : 2 ^ 15 * Z.abs (X * (r * r) - 2 ^ 447) <= 2 ^ 447) by (clear HA HA' HR; revert Hr; generalize (X * (r * r)); intros; lia).
  exists r. split; [reflexivity|]. split; [|exact Hr']. apply (square_pos X r (2 ^ 15)); [exact r0|lia|exact Hr'].
Qed.

Lemma sse_ok X R : 2 ^ 23 <= X < 2 ^ 277 -> 0 < R -> 2 ^ 10 * Z.abs (X * (R * R) - 2 ^ 447) <= 2 ^ 447 ->
  exists r, newton_sse (Fin X) (Fin R) = Fin r /\ 0 < r /\ 2 ^ 15 * Z.abs (X * (r * r) - 2 ^ 447) <= 2 ^ 447.
Proof.
  intros HX R0 HR. rewrite abs_swap in HR.
  destruct (newton_sse_ok X R HX R0) as (r & -> & r0 & Hr); [revert HR; generalize (X * (R * R)); intros; lia|].
  apply (step_square (2 ^ 20) (2 ^ 10) (2 ^ 447)) in Hr; [|lia|lia|lia|lia|lia|exact HR].
  assert (Hr' : 2 ^ 15 * Z.abs (X * (r * r) - 2 ^ 447) <= 2 ^ 447) by (clear HR; revert Hr; generalize (X * (r * r)); intros; lia).
  exists r. split; [reflexivity|]. split; [|exact Hr']. apply (square_pos X r (2 ^ 15)); [exact r0|lia|exact Hr'].
Qed.

(** The product with x. *)
Lemma product_ok X r : 2 ^ 23 <= X < 2 ^ 277 -> 0 < r -> 2 ^ 15 * Z.abs (X * (r * r) - 2 ^ 447) <= 2 ^ 447 ->
  exists s, fmul (Fin r) (Fin X) = Fin s /\ 0 <= s /\ 2 ^ 14 * Z.abs (s * s - X * 2 ^ 149) <= X * 2 ^ 149.
Proof.
  intros HX r0 H. destruct (ranges X r HX r0) as (_ & B & _ & _); [clear - H; revert H; generalize (X * (r * r)); intros; lia|].
  destruct (mul_rel (2 ^ 22) r X) as (s & -> & Hs); [lia|lia|lia|]. exists s. split; [reflexivity|]. rewrite (Z.mul_comm r X) in Hs.
  assert (s0 : 0 <= s) by (clear H; revert Hs B; generalize (X * r); intros; lia). split; [exact s0|].
  assert (Q : X * r * (X * r) = X * (X * (r * r))) by ring.
  assert (Q1 : 2 ^ 15 * Z.abs (X * r * (X * r) - X * 2 ^ 447) <= X * 2 ^ 447).
  { rewrite Q. replace (X * (X * (r * r)) - X * 2 ^ 447) with ((X * (r * r) - 2 ^ 447) * X) by ring. rewrite Z.abs_mul, (Z.abs_eq X), Z.mul_assoc, (Z.mul_comm X (2 ^ 447)) by lia. apply abs_scale; [lia|exact H]. }
  clear H Q. revert Hs Q1 B. generalize (X * r). intros w Hs Q1 B.
  assert (Q2 : 2 ^ 22 * Z.abs (s * s * (2 ^ 149 * 2 ^ 149) - w * w) <= 3 * (w * w)).
  { replace (s * s * (2 ^ 149 * 2 ^ 149) - w * w) with ((s * 2 ^ 149 - w) * (s * 2 ^ 149 + w)) by ring. rewrite Z.abs_mul, Z.mul_assoc, (Z.abs_eq (s * 2 ^ 149 + w)) by lia.
    eapply Z.le_trans; [apply abs_scale; [lia|exact Hs]|]. replace (3 * (w * w)) with (w * (3 * w)) by ring. apply Z.mul_le_mono_nonneg_l; lia. }
  revert Q1 Q2. generalize (w * w) (s * s). intros a b Q1 Q2. clear - HX Q1 Q2. lia.
Qed.
