(** * Properties of Sqrt and InverseSqrt: C114; of Arcsin and Arccos: C115. *)

From Verif Require Import Base TextModel NumModel StringModel SpecText FloatTextModel SpecFloatText SpecMath MathModel RoundProofs StrtodProofs FloatTextProofs FloatResult.
From Verif Require Import MathRound MathFast MathFloor MathExp TrigModel SpecTrig TrigProofs SqrtModel SqrtProofs PropTrig.

#[local] Arguments Z.pow : simpl never.

(** What the manuals of the processors promise for _mm_rsqrt_ss: for normal floats a positive
    number whose square times the argument is within 2^-10 of 1 (a relative error of 1.5 * 2^-12
    gives 3 * 2^-12 and a little), and 0 for infinity. Numbers are multiples of 2^-149. *)
Definition processor (rsqrt : f32 -> f32) : Prop :=
  (forall a, rep a -> 2 ^ 23 <= a < 2 ^ 277 -> exists r, rsqrt (Fin a) = Fin r /\ 0 < r /\ 2 ^ 10 * Z.abs (a * (r * r) - 2 ^ 447) <= 2 ^ 447) /\
  rsqrt (Inf false) = Fin 0.

(** ** C114 *)

(** Without SIMD Sqrt(1) is less than 1, and InverseSqrt of infinity is infinite; with SSE both functions
    of infinity, and Sqrt of minus infinity, are NaN. *)
Theorem C114_refuted (v : simd) (rsqrt : f32 -> f32) : processor rsqrt ->
  flt (sqrt_f Plain rsqrt (of_int 1)) (of_int 1) = true /\
  match v with
  | Plain => inverse_sqrt_f v rsqrt (Inf false) = Inf false /\ sqrt_f v rsqrt (Inf false) = Inf false /\ sqrt_f v rsqrt (Inf true) = Fin 0
  | _ => inverse_sqrt_f v rsqrt (Inf false) = Nan /\ sqrt_f v rsqrt (Inf false) = Nan /\ sqrt_f v rsqrt (Inf true) = Nan
  end.
Proof.
  intros [_ P]. split; [reflexivity|]. destruct v; [repeat split; reflexivity| |];
  (unfold inverse_sqrt_f, sqrt_f; rewrite P; repeat split; reflexivity).
Qed.
Print Assumptions C114_refuted.

(** For every normal float x > 0 both functions return a positive number, in every build and for every
    processor: the square of InverseSqrt(x), times x, is within 2^-15 of 1, and the square of Sqrt(x) within
    x * 2^-14 of x. *)
Theorem C114_partial (v : simd) (rsqrt : f32 -> f32) (x : Z) : processor rsqrt -> rep x -> 2 ^ 23 <= x < 2 ^ 277 ->
  exists r s, inverse_sqrt_f v rsqrt (Fin x) = Fin r /\ sqrt_f v rsqrt (Fin x) = Fin s /\ 0 < r /\ 0 < s /\
    2 ^ 15 * Z.abs (x * (r * r) - 2 ^ 447) <= 2 ^ 447 /\ 2 ^ 14 * Z.abs (s * s - x * 2 ^ 149) <= x * 2 ^ 149.
Proof.
  intros [P _] RX HX.
  assert (M : flt (Fin x) min_float = false).
  { replace min_float with (Fin (2 ^ 23)) by reflexivity. cbn [flt]. destruct (Z.ltb_spec x (2 ^ 23)); [lia|reflexivity]. }
  assert (C : exists r, match v with Plain => newton (Fin x) (newton (Fin x) (magic (to_bits (Fin x)))) | _ => newton_sse (Fin x) (rsqrt (Fin x)) end = Fin r /\ 0 < r /\ 2 ^ 15 * Z.abs (x * (r * r) - 2 ^ 447) <= 2 ^ 447).
  { destruct (P x RX HX) as (g & Eg & G0 & HG). destruct v; [exact (plain_ok x RX HX)| |]; rewrite Eg; exact (sse_ok _ g HX G0 HG). }
  destruct C as (r & Er & R0 & HR). destruct (product_ok x r HX R0 HR) as (s & Es & S0 & HS). exists r, s.
  split; [unfold inverse_sqrt_f; rewrite M; exact Er|].
  split; [unfold sqrt_f; rewrite M; destruct v; rewrite Er; exact Es|].
  split; [exact R0|]. split; [|split; [exact HR|exact HS]].
  destruct (Z.eq_dec s 0) as [->|N]; [|lia]. exfalso. clear - HS HX. change (0 * 0) with 0 in HS. lia.
Qed.
Print Assumptions C114_partial.

(** For all other finite floats (zeros, subnormal and negative numbers) Sqrt returns 0 and InverseSqrt
    infinity, in every build. *)
Theorem C114_small (v : simd) (rsqrt : f32 -> f32) (x : Z) : x < 2 ^ 23 ->
  sqrt_f v rsqrt (Fin x) = Fin 0 /\ inverse_sqrt_f v rsqrt (Fin x) = Inf false.
Proof.
  intros H. assert (M : flt (Fin x) min_float = true).
  { replace min_float with (Fin (2 ^ 23)) by reflexivity. cbn [flt]. now apply Z.ltb_lt. }
  unfold sqrt_f, inverse_sqrt_f. rewrite M. split; [|reflexivity]. destruct v; reflexivity.
Qed.
Print Assumptions C114_small.

(** A processor, 2 as an argument, and -4. *)
Definition root (x : f32) : f32 := match x with Fin a => Fin (Z.sqrt (2 ^ 447 / a)) | _ => Fin 0 end.

Example C114_instance : processor root /\ rep (2 ^ 150) /\ 2 ^ 23 <= 2 ^ 150 < 2 ^ 277 /\ - 2 ^ 151 < 2 ^ 23 /\
  sqrt_f Plain root (Fin (2 ^ 150)) <> sqrt_f Sse4 root (Fin (2 ^ 150)).
Proof.
  split.
  - split; [|reflexivity]. intros a _ A. exists (Z.sqrt (2 ^ 447 / a)). split; [reflexivity|].
    pose proof (Z.div_mod (2 ^ 447) a ltac:(lia)) as D. pose proof (Z.mod_pos_bound (2 ^ 447) a ltac:(lia)) as M.
    assert (Q : 2 ^ 170 <= 2 ^ 447 / a) by (apply Z.div_le_lower_bound; lia).
    revert D M Q. generalize (2 ^ 447 / a) (2 ^ 447 mod a). intros q m D M Q.
    pose proof (Z.sqrt_spec q ltac:(lia)) as [S1 S2]. pose proof (Z.sqrt_nonneg q) as S0. revert S0 S1 S2. generalize (Z.sqrt q). intros r S0 S1 S2.
    assert (R : 2 ^ 84 <= r). { destruct (Z.le_gt_cases (2 ^ 84) r); [assumption|exfalso]. assert (Z.succ r * Z.succ r <= 2 ^ 84 * 2 ^ 84) by (apply Z.mul_le_mono_nonneg; lia). lia. }
    split; [lia|]. rewrite D.
    assert (U : r * r <= q <= r * r + 2 * r) by lia. assert (W : 2 ^ 84 * r <= r * r) by (apply Z.mul_le_mono_nonneg_r; lia).
    clear S1 S2 D Q. assert (H : 2 ^ 80 * (q - r * r) <= q) by lia. assert (H1 : a * (2 ^ 80 * (q - r * r)) <= a * q) by (apply Z.mul_le_mono_nonneg_l; lia).
    assert (H2 : 0 <= a * (q - r * r)) by (apply Z.mul_nonneg_nonneg; lia).
    replace (a * (r * r)) with (a * q - a * (q - r * r)) by ring. replace (a * (2 ^ 80 * (q - r * r))) with (2 ^ 80 * (a * (q - r * r))) in H1 by ring.
    assert (H3 : a * 2 ^ 80 <= a * q) by (apply Z.mul_le_mono_nonneg_l; [lia|]; lia).
    revert H1 H2 H3. generalize (a * q) (a * (q - r * r)). intros. lia.
  - split; [apply rep_pow; lia|]. split; [lia|]. split; [lia|]. vm_compute. discriminate.
Qed.

(** ** C115 *)

(** Arcsin and Arccos of NaN are undefined, whatever the processor does; with SSE so is Arccos of 2^64, whose
    square is infinite. *)
Theorem C115_refuted (v : simd) (rsqrt : f32 -> f32) : arcsin_f v rsqrt Nan = UB /\ arccos_f v rsqrt Nan = UB /\
  (v <> Plain -> arccos_f v rsqrt (of_bits 0x5F800000) = UB) /\ of_bits 0x5F800000 = Fin (2 ^ 64 * 2 ^ 149).
Proof.
  assert (E : arctan_f v Nan = UB) by (destruct v; reflexivity). unfold arcsin_f, arccos_f.
  replace (fdiv (sqrt_f v rsqrt (fsub (of_int 1) (fmul Nan Nan))) Nan) with Nan by (now destruct (sqrt_f v rsqrt (fsub (of_int 1) (fmul Nan Nan)))).
  split; [replace (fmul Nan _) with Nan by reflexivity; exact E|]. split; [rewrite E; reflexivity|]. split; [|reflexivity].
  intros N. replace (fsub (of_int 1) (fmul (of_bits 0x5F800000) (of_bits 0x5F800000))) with (Inf true) by reflexivity.
  replace (sqrt_f v rsqrt (Inf true)) with Nan by (destruct v; [now elim N|reflexivity|reflexivity]). replace (fdiv Nan _) with Nan by reflexivity. rewrite E. reflexivity.
Qed.
Print Assumptions C115_refuted.

(** At least 1 in magnitude. *)
Definition outside (x : f32) : Prop := match x with Fin a => 2 ^ 149 <= Z.abs a | Inf _ => True | Nan => False end.

Lemma one_minus y : a_number y -> exists w, fsub (of_int 1) (fmul y y) = w /\
  (flt w min_float = true /\ (w = Inf true /\ ~ (exists a, y = Fin a /\ Z.abs a <= 2 ^ 212) \/ exists b, w = Fin b /\ b < 2 ^ 23) /\ y <> Fin 0 \/
   ~ outside y /\ exists b, w = Fin b /\ rep b /\ 2 ^ 23 <= b <= 2 ^ 149).
Proof.
  intros A. eexists. split; [reflexivity|]. rewrite of_int_1, Z.mul_1_l. replace min_float with (Fin (2 ^ 23)) by reflexivity. destruct y as [a|s|]; [| |contradiction].
  2: { left. replace (fmul (Inf s) (Inf s)) with (Inf false) by (destruct s; reflexivity). cbn. split; [reflexivity|]. split; [left; split; [reflexivity|]; intros (a & H & _); discriminate|discriminate]. }
  assert (P : fmul (Fin a) (Fin a) = Inf false /\ 2 ^ 212 < Z.abs a \/ exists p, fmul (Fin a) (Fin a) = Fin p /\ 0 <= p /\ (Z.abs a <= 2 ^ 212 -> p <= 2 ^ 275) /\ (2 ^ 149 <= Z.abs a -> 2 ^ 149 <= p) /\ (a = 0 -> p = 0)).
  { cbn [fmul]. pose proof (Z.square_nonneg a) as S. assert (Q : 0 <= rnd (a * a) (2 ^ 149)) by (apply rnd_ge; [lia|exact rep_0|lia]).
    assert (Q1 : 2 ^ 149 <= Z.abs a -> 2 ^ 149 <= rnd (a * a) (2 ^ 149)).
    { intros H. apply rnd_ge; [lia|re|]. rewrite <- (Z.abs_square a). apply Z.mul_le_mono_nonneg; lia. }
    assert (Q2 : Z.abs a <= 2 ^ 212 -> rnd (a * a) (2 ^ 149) <= 2 ^ 275).
    { intros H. apply rnd_le; [lia|re|]. rewrite <- (Z.abs_square a). change (2 ^ 275 * 2 ^ 149) with (2 ^ 212 * 2 ^ 212). apply Z.mul_le_mono_nonneg; lia. }
    unfold fround. cbv zeta. destruct (2 ^ 277 <=? round_units (Z.abs (a * a)) (2 ^ 149)) eqn:EL.
    - left. destruct (Z.ltb_spec (a * a) 0); [lia|]. split; [reflexivity|]. destruct (Z.le_gt_cases (Z.abs a) (2 ^ 212)) as [H0|H0]; [|exact H0]. exfalso. specialize (Q2 H0). apply Z.leb_le in EL. unfold rnd in Q2.
      destruct (Z.eq_dec a 0) as [->|NA]; [revert EL; vm_compute; now intros []|]. rewrite Z.sgn_pos in Q2 by nia. lia.
    - right. exists (rnd (a * a) (2 ^ 149)). split; [reflexivity|]. split; [exact Q|]. split; [exact Q2|]. split; [exact Q1|]. intros ->. reflexivity. }
  destruct P as [[-> N]|(p & -> & P0 & P3 & P1 & P2)].
  { left. cbn. split; [reflexivity|]. split; [left; split; [reflexivity|]; intros (a' & H & H'); injection H as <-; lia|]. intros H. injection H as ->. cbn in N. lia. }
  cbn [fsub fneg fadd]. destruct (Z.le_gt_cases p (2 ^ 149)) as [L|L].
  - assert (W : within 0 (2 ^ 149) (fround (2 ^ 149 + - p) 1)) by (apply fround_within; try lia; re). destruct (fround_side (2 ^ 149 + - p) 1 ltac:(lia)) as (R & _).
    destruct W as (b & E & B). rewrite E in *. cbn [a_number] in R. rewrite Z.abs_eq in R by lia. cbn [flt]. destruct (Z.ltb_spec b (2 ^ 23)) as [M|M].
    + left. split; [reflexivity|]. split; [right; now exists b|]. intros H. injection H as ->. rewrite (P2 eq_refl) in E. replace (fround (2 ^ 149 + - 0) 1) with (Fin (2 ^ 149)) in E by reflexivity. injection E as <-. lia.
    + right. split; [|exists b; split; [reflexivity|]; split; [exact R|lia]]. cbn [outside]. intros H. specialize (P1 H). assert (p = 2 ^ 149) by lia. subst p.
      replace (fround (2 ^ 149 + - 2 ^ 149) 1) with (Fin 0) in E by reflexivity. injection E as <-. lia.
  - left. destruct (fround_side (2 ^ 149 + - p) 1 ltac:(lia)) as (_ & _ & S). specialize (S ltac:(lia)).
    assert (NZ : Fin a <> Fin 0) by (intros H; injection H as H; specialize (P2 H); lia).
    destruct (fround (2 ^ 149 + - p) 1) as [b|s|] eqn:E; cbn [nonpos] in S; [| |contradiction].
    + cbn [flt]. split; [apply Z.ltb_lt; lia|]. split; [right; exists b; split; [reflexivity|lia]|exact NZ].
    + subst s. split; [reflexivity|]. split; [|exact NZ]. left. split; [reflexivity|]. intros (a' & H & H'). injection H as <-. specialize (P3 H').
      rewrite (fround_fin _ _ 276) in E by lia. discriminate.
Qed.

Lemma arctan_inf v s : arctan_f v (Inf s) = Ret (Fin (if s then - quarter else quarter)).
Proof. destruct v, s; vm_compute; reflexivity. Qed.

(** Arcsin is defined for every float that is not NaN, at most a quarter turn, on the side of its argument, and a quarter turn from
    1 on. *)
Theorem C115_arcsin_partial (v : simd) (rsqrt : f32 -> f32) (y : f32) : processor rsqrt -> a_number y ->
  exists r, arcsin_f v rsqrt y = Ret (Fin r) /\ (if flt y (Fin 0) then - quarter <= r <= 0 else 0 <= r <= quarter) /\
    (outside y -> Z.abs r = quarter).
Proof.
  intros P A. assert (Q : 0 < quarter) by reflexivity. unfold arcsin_f. destruct (one_minus y A) as (w & -> & [(M & _ & N)|(O & b & -> & R & B)]).
  - unfold inverse_sqrt_f. rewrite M. exists (if flt y (Fin 0) then - quarter else quarter). split; [|destruct (flt y (Fin 0)); lia].
    replace (fmul y (Inf false)) with (Inf (flt y (Fin 0))); [rewrite arctan_inf; reflexivity|]. destruct y as [a|s|]; [| |contradiction]; cbn [fmul flt].
    + destruct (Z.eqb_spec a 0) as [->|]; [now elim N|]. now rewrite xorb_false_r.
    + now rewrite xorb_false_r.
  - destruct (C114_partial v rsqrt b P R ltac:(lia)) as (r & _ & -> & _ & R0 & _). destruct y as [a|s|]; [|now elim O|contradiction]. cbn [fmul flt].
    destruct (fround_side (a * r) (2 ^ 149) ltac:(lia)) as (F1 & F2 & F3).
    destruct (arctan_side v _ (a <? 0) F1) as (t & Et & Ht); [destruct (Z.ltb_spec a 0); [apply F3|apply F2]; nia|]. exists t. split; [exact Et|]. split; [exact Ht|]. intros H. now elim O.
Qed.
Print Assumptions C115_arcsin_partial.

(** Arccos is defined for every float that is not NaN, with SSE up to 2^63 in magnitude; it is between 0 and half a turn, on the
    side of a quarter turn that the sign gives, and 0 or half a turn from 1 on. *)
Theorem C115_arccos_partial (v : simd) (rsqrt : f32 -> f32) (x : f32) : processor rsqrt -> a_number x ->
  v = Plain \/ (exists a, x = Fin a /\ Z.abs a <= 2 ^ 212) ->
  exists r, arccos_f v rsqrt x = Ret (Fin r) /\ (if flt x (Fin 0) then quarter <= r <= half_turn else 0 <= r <= quarter) /\
    (outside x -> r = if flt x (Fin 0) then half_turn else 0).
Proof.
  intros P A HV. destruct turn_facts as (Q & RQ & BQ). unfold arccos_f. rewrite tau2. destruct (one_minus x A) as (w & -> & [(M & W & N)|(O & b & -> & R & B)]).
  - assert (E : sqrt_f v rsqrt w = Fin 0).
    { destruct W as [[-> W]|(b & -> & W)]; [|now apply C114_small]. destruct HV as [->|HV]; [reflexivity|]. now elim W. }
    rewrite E. replace (fdiv (Fin 0) x) with (Fin 0).
    2: { destruct x as [a|s|]; [|reflexivity|contradiction]. cbn [fdiv]. destruct (Z.eqb_spec a 0) as [->|]; [now elim N|]. cbn [Z.mul]. symmetry. rewrite (fround_fin _ _ 1) by lia. reflexivity. }
    rewrite arctan_zero. cbn [bind]. exists (if flt x (Fin 0) then half_turn else 0). destruct (flt x (Fin 0)); [|split; [reflexivity|split; [lia|reflexivity]]].
    split; [reflexivity|]. split; [lia|reflexivity].
  - destruct (C114_partial v rsqrt b P R ltac:(lia)) as (_ & s & _ & -> & _ & S0 & _). destruct x as [a|t|]; [|now elim O|contradiction]. cbn [flt].
    assert (T : exists t, arctan_f v (fdiv (Fin s) (Fin a)) = Ret (Fin t) /\ if a <? 0 then - quarter <= t <= 0 else 0 <= t <= quarter).
    { cbn [fdiv]. destruct (Z.eqb_spec a 0) as [->|NA].
      - destruct (Z.eqb_spec s 0); [lia|]. destruct (Z.ltb_spec s 0); [lia|]. exists quarter. split; [apply arctan_inf|]. cbn. lia.
      - destruct (fround_side (s * 2 ^ 149 * Z.sgn a) (Z.abs a) ltac:(lia)) as (F1 & F2 & F3). apply arctan_side; [exact F1|]. destruct (Z.ltb_spec a 0); [apply F3|apply F2]; nia. }
    destruct T as (t & -> & T). cbn [bind]. destruct (a <? 0).
    + assert (W : within quarter half_turn (fadd (Fin t) (Fin half_turn))) by (cbn [fadd]; apply fround_within; solve [apply RQ | lia]).
      destruct W as (r & -> & W). exists r. split; [reflexivity|]. split; [exact W|]. intros H. now elim O.
    + exists t. split; [reflexivity|]. split; [exact T|]. intros H. now elim O.
Qed.
Print Assumptions C115_arccos_partial.

(** A product of either sign. *)
Lemma mul_rel_abs D a b : 0 < D <= 2 ^ 24 -> 0 < b -> Z.abs a * b <= 2 ^ 276 * 2 ^ 149 -> 2 ^ 23 * 2 ^ 149 * D <= (2 ^ 24 - D) * (Z.abs a * b) ->
  exists r, fmul (Fin a) (Fin b) = Fin r /\ D * Z.abs (Z.abs r * 2 ^ 149 - Z.abs a * b) <= Z.abs a * b /\ 0 <= Z.sgn a * r.
Proof.
  intros HD Hb H L. pose proof (Z.mul_nonneg_nonneg (Z.abs a) b ltac:(lia) ltac:(lia)) as N0.
  destruct (mul_rel D (Z.abs a) b HD ltac:(lia) L) as (r & E & Hr). cbn [fmul] in E |- *.
  rewrite (fround_fin _ _ 276) in E by lia. injection E as E.
  assert (r0 : 0 <= r) by (rewrite <- E; apply rnd_ge; [lia|exact rep_0|lia]).
  destruct (Z.le_gt_cases 0 a) as [S|S].
  - rewrite (Z.abs_eq a) in * by lia. exists r. rewrite (fround_fin _ _ 276) by lia. rewrite E. split; [reflexivity|]. rewrite (Z.abs_eq r) by lia. split; [exact Hr|]. apply Z.mul_nonneg_nonneg; lia.
  - exists (- r). replace (a * b) with (- (Z.abs a * b)) by (rewrite Z.abs_neq by lia; ring). rewrite (fround_fin _ _ 276) by lia. rewrite rnd_neg, E. split; [reflexivity|].
    rewrite Z.abs_opp, (Z.abs_eq r) by lia. split; [exact Hr|]. rewrite Z.sgn_neg by lia. lia.
Qed.

(** 1 - x * x as the code computes it. *)
Lemma one_minus_square a : rep (Z.abs a) -> 2 ^ 23 <= Z.abs a < 2 ^ 149 ->
  exists w, fsub (of_int 1) (fmul (Fin a) (Fin a)) = Fin w /\ rep w /\ 2 ^ 125 <= w <= 2 ^ 149 /\ 2 ^ 23 * Z.abs (w * 2 ^ 149 + a * a - 2 ^ 298) <= 2 ^ 298.
Proof.
  intros RA HA. rewrite of_int_1, Z.mul_1_l.
  pose proof (rep_below (Z.abs a) 125 ltac:(lia) RA ltac:(lia)) as LA.
  assert (SQ : a * a = Z.abs a * Z.abs a) by (symmetry; apply Z.abs_square). assert (S0 : 0 <= a * a) by apply Z.square_nonneg.
  assert (S1 : a * a <= (2 ^ 24 - 1) * 2 ^ 125 * 2 ^ 149).
  { rewrite SQ. apply Z.mul_le_mono_nonneg; lia. }
  assert (FP : exists p, fmul (Fin a) (Fin a) = Fin p /\ 0 <= p <= (2 ^ 24 - 1) * 2 ^ 125 /\ 2 ^ 24 * Z.abs (p * 2 ^ 149 - a * a) <= a * a + 2 ^ 23 * 2 ^ 149).
  { cbn [fmul]. destruct (fround_rel (a * a) (2 ^ 149)) as (p & E & Hp); [lia|lia|]. exists p. split; [exact E|]. split; [|exact Hp].
    rewrite (fround_fin _ _ 276) in E by lia. injection E as <-. split; [apply rnd_ge; [lia|exact rep_0|lia]|]. apply rnd_le; [lia|rewrite Z.abs_eq by lia; exists (2 ^ 24 - 1), 125; lia|lia]. }
  destruct FP as (p & -> & P0 & HP). cbn [fsub fneg fadd].
  assert (W : within (2 ^ 125) (2 ^ 149) (fround (2 ^ 149 + - p) 1)) by (apply fround_within; try lia; re).
  destruct (fround_side (2 ^ 149 + - p) 1 ltac:(lia)) as (RW & _). destruct (fround_rel (2 ^ 149 + - p) 1) as (w & E & HW); [lia|lia|].
  rewrite E in *. destruct W as (w' & E' & W). injection E' as <-. cbn [a_number] in RW. rewrite Z.abs_eq in RW by lia.
  exists w. split; [reflexivity|]. split; [exact RW|]. split; [exact W|]. revert HP HW S0 S1. clear - W P0. generalize (a * a). intros. lia.
Qed.

(** For normal arguments less than 1 in magnitude Arcsin is Arctan (see C109) of a number z of the same sign, for
    which z^2 w is within y^2 * 2^-14 of y^2, where w is a float within 2^-23 of 1 - y^2 and at least 2^-24. *)
Theorem C115_arcsin_tangent_partial (v : simd) (rsqrt : f32 -> f32) (a : Z) : processor rsqrt -> rep (Z.abs a) -> 2 ^ 23 <= Z.abs a < 2 ^ 149 ->
  exists w z, arcsin_f v rsqrt (Fin a) = arctan_f v (Fin z) /\ 0 <= Z.sgn a * z /\ 2 ^ 125 <= w <= 2 ^ 149 /\
    2 ^ 23 * Z.abs (w * 2 ^ 149 + a * a - 2 ^ 298) <= 2 ^ 298 /\
    2 ^ 14 * Z.abs (z * z * w - a * a * 2 ^ 149) <= a * a * 2 ^ 149.
Proof.
  intros P RA HA. unfold arcsin_f.
  destruct (one_minus_square a RA HA) as (w & -> & RW & W & HW). assert (SQ : a * a = Z.abs a * Z.abs a) by (symmetry; apply Z.abs_square).
  destruct (C114_partial v rsqrt w P RW ltac:(lia)) as (r & _ & -> & _ & r0 & _ & Hr & _).
  destruct (ranges w r ltac:(lia) r0) as (BR & BP & _ & _); [clear - Hr; revert Hr; generalize (w * (r * r)); intros; lia|].
  (* r is at least about 1 *)
  assert (R1 : 2 ^ 148 <= r).
  { destruct (Z.le_gt_cases (2 ^ 148) r) as [L|L]; [exact L|exfalso]. assert (r * r <= 2 ^ 148 * 2 ^ 148) by (apply Z.mul_le_mono_nonneg; lia).
    assert (w * (r * r) <= 2 ^ 149 * (2 ^ 148 * 2 ^ 148)) by (apply Z.mul_le_mono_nonneg; try lia; apply Z.square_nonneg). revert Hr H0. clear. generalize (w * (r * r)). intros. lia. }
  assert (AR : 2 ^ 23 * 2 ^ 148 <= Z.abs a * r <= 2 ^ 149 * 2 ^ 213) by (split; apply Z.mul_le_mono_nonneg; lia).
  destruct (mul_rel_abs (2 ^ 21) a r) as (z & Ez & Hz & Sz); [lia|lia|lia|lia|]. rewrite Ez. exists w, z. split; [reflexivity|]. split; [exact Sz|]. split; [exact W|].
  split; [exact HW|].
  (* z^2 w *)
  rewrite <- (Z.abs_square z), SQ. revert Hz AR HA. clear - Hr W r0. generalize (Z.abs z) (Z.abs a) (Z.abs_nonneg z). intros z' a' Z0 Hz AR HA.
  assert (Q1 : 2 ^ 21 * Z.abs (z' * z' * (2 ^ 149 * 2 ^ 149) - a' * r * (a' * r)) <= 3 * (a' * r * (a' * r))).
  { revert Hz AR. generalize (a' * r). intros n Hz AR. replace (z' * z' * (2 ^ 149 * 2 ^ 149) - n * n) with ((z' * 2 ^ 149 - n) * (z' * 2 ^ 149 + n)) by ring. rewrite Z.abs_mul, Z.mul_assoc, (Z.abs_eq (z' * 2 ^ 149 + n)) by lia.
    eapply Z.le_trans; [apply abs_scale; [lia|exact Hz]|]. replace (3 * (n * n)) with (n * (3 * n)) by ring. apply Z.mul_le_mono_nonneg_l; lia. }
  apply (abs_scale _ _ w) in Q1; [|lia]. rewrite <- Z.mul_assoc in Q1. replace (Z.abs (z' * z' * (2 ^ 149 * 2 ^ 149) - a' * r * (a' * r)) * w) with (Z.abs (z' * z' * w * (2 ^ 149 * 2 ^ 149) - w * (r * r) * (a' * a'))) in Q1.
  2: { rewrite <- (Z.abs_eq w) at 3 by lia. rewrite <- Z.abs_mul. f_equal. ring. }
  replace (3 * (a' * r * (a' * r)) * w) with (3 * (w * (r * r) * (a' * a'))) in Q1 by ring.
  assert (Q2 : 2 ^ 15 * Z.abs (w * (r * r) * (a' * a') - 2 ^ 447 * (a' * a')) <= 2 ^ 447 * (a' * a')).
  { rewrite <- Z.mul_sub_distr_r, Z.abs_mul, (Z.abs_eq (a' * a')) by apply Z.square_nonneg. rewrite Z.mul_assoc. apply abs_scale; [apply Z.square_nonneg|exact Hr]. }
  pose proof (Z.square_nonneg a') as A2. revert Q1 Q2 A2. clear. generalize (z' * z' * w) (w * (r * r) * (a' * a')) (a' * a'). intros x y q Q1 Q2 A2. lia.
Qed.
Print Assumptions C115_arcsin_tangent_partial.

(** For the same arguments Arccos is Arctan of a number q of the same sign, plus half a turn for negative ones, where q^2 x^2 is
    within w * 2^-13 of w, a float within 2^-23 of 1 - x^2 and at least 2^-24. *)
Theorem C115_arccos_tangent_partial (v : simd) (rsqrt : f32 -> f32) (a : Z) : processor rsqrt -> rep (Z.abs a) -> 2 ^ 23 <= Z.abs a < 2 ^ 149 ->
  exists w q, arccos_f v rsqrt (Fin a) = (let! t := arctan_f v (Fin q) in Ret (if a <? 0 then fadd t tau_over_2 else t)) /\
    0 <= Z.sgn a * q /\ 2 ^ 125 <= w <= 2 ^ 149 /\ 2 ^ 23 * Z.abs (w * 2 ^ 149 + a * a - 2 ^ 298) <= 2 ^ 298 /\
    2 ^ 13 * Z.abs (q * q * (a * a) - w * 2 ^ 447) <= w * 2 ^ 447.
Proof.
  intros P RA HA. unfold arccos_f. destruct (one_minus_square a RA HA) as (w & -> & RW & W & HW).
  destruct (C114_partial v rsqrt w P RW ltac:(lia)) as (_ & s & _ & -> & _ & s0 & _ & Hs).
  (* the root is between 2^-13 and 2 *)
  assert (B : 2 ^ 136 <= s <= 2 ^ 150).
  { split.
    - destruct (Z.le_gt_cases (2 ^ 136) s) as [L|L]; [exact L|exfalso]. assert (s * s <= 2 ^ 136 * 2 ^ 136) by (apply Z.mul_le_mono_nonneg; lia). revert Hs H. clear - W. generalize (s * s). intros. lia.
    - destruct (Z.le_gt_cases s (2 ^ 150)) as [L|L]; [exact L|exfalso]. assert (2 ^ 150 * 2 ^ 150 <= s * s) by (apply Z.mul_le_mono_nonneg; lia). revert Hs H. clear - W. generalize (s * s). intros. lia. }
  assert (D : exists q, fdiv (Fin s) (Fin a) = Fin q /\ 0 <= Z.sgn a * q /\ 2 ^ 22 * Z.abs (Z.abs q * Z.abs a - s * 2 ^ 149) <= s * 2 ^ 149).
  { cbn [fdiv]. destruct (Z.eqb_spec a 0); [lia|]. destruct (fround_rel (s * 2 ^ 149) (Z.abs a)) as (q & E & Hq); [lia|lia|]. rewrite (fround_fin _ _ 276) in E by lia. injection E as E.
    assert (q0 : 0 <= q) by (rewrite <- E; apply rnd_ge; [lia|exact rep_0|lia]).
    assert (Hq' : 2 ^ 22 * Z.abs (q * Z.abs a - s * 2 ^ 149) <= s * 2 ^ 149) by (revert Hq HA B; clear; generalize (q * Z.abs a) (Z.abs a); intros; lia).
    destruct (Z.lt_trichotomy a 0) as [S|[S|S]]; [|lia|].
    - exists (- q). rewrite (Z.sgn_neg a) by lia. replace (s * 2 ^ 149 * -1) with (- (s * 2 ^ 149)) by ring. rewrite (fround_fin _ _ 276) by lia. rewrite rnd_neg, E. split; [reflexivity|]. split; [lia|]. rewrite Z.abs_opp, (Z.abs_eq q) by lia. exact Hq'.
    - exists q. rewrite (Z.sgn_pos a), Z.mul_1_r by lia. rewrite (fround_fin _ _ 276) by lia. rewrite E. split; [reflexivity|]. split; [lia|]. rewrite (Z.abs_eq q) by lia. exact Hq'. }
  destruct D as (q & -> & Sq & Hq). exists w, q. split; [reflexivity|]. split; [exact Sq|]. split; [exact W|]. split; [exact HW|].
  rewrite <- (Z.abs_square q), <- (Z.abs_square a). revert Hq HA. clear - Hs B W. generalize (Z.abs q) (Z.abs a) (Z.abs_nonneg q). intros q' a' Q0 Hq HA.
  assert (Q1 : 2 ^ 22 * Z.abs (q' * q' * (a' * a') - s * s * 2 ^ 298) <= 3 * (s * s * 2 ^ 298)).
  { replace (q' * q' * (a' * a')) with (q' * a' * (q' * a')) by ring. assert (N : 0 <= q' * a') by (apply Z.mul_nonneg_nonneg; lia). revert N Hq. generalize (q' * a'). intros n N Hq. 
    replace (n * n - s * s * 2 ^ 298) with ((n - s * 2 ^ 149) * (n + s * 2 ^ 149)) by (change (2 ^ 298) with (2 ^ 149 * 2 ^ 149); ring). rewrite Z.abs_mul, Z.mul_assoc, (Z.abs_eq (n + s * 2 ^ 149)) by lia.
    eapply Z.le_trans; [apply abs_scale; [lia|exact Hq]|]. replace (3 * (s * s * 2 ^ 298)) with (s * 2 ^ 149 * (3 * (s * 2 ^ 149))) by (change (2 ^ 298) with (2 ^ 149 * 2 ^ 149); ring). apply Z.mul_le_mono_nonneg_l; lia. }
  revert Q1 Hs. clear - W. generalize (q' * q' * (a' * a')) (s * s). intros. lia.
Qed.
Print Assumptions C115_arccos_tangent_partial.

(** A half and 3/2. *)
Example C115_instance : processor root /\ a_number (Fin (2 ^ 148)) /\ 2 ^ 23 <= Z.abs (2 ^ 148) < 2 ^ 149 /\ ~ outside (Fin (2 ^ 148)) /\ a_number (Fin (3 * 2 ^ 148)) /\ outside (Fin (3 * 2 ^ 148)) /\
  exists r, arcsin_f Plain root (Fin (2 ^ 148)) = Ret (Fin r) /\ 52 * 2 ^ 149 < 100 * r < 53 * 2 ^ 149.
Proof.
  split; [apply C114_instance|]. split; [cbn [a_number]; re|]. split; [lia|]. split; [cbn [outside]; lia|]. split; [cbn [a_number]; apply rep_small; lia|]. split; [cbn [outside]; lia|].
  exists 373652242303632024117526304153216419054485504. split; [reflexivity|]. split; reflexivity.
Qed.
