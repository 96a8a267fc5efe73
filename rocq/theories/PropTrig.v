(** * Properties of Arctan, Sin, Cos, Tan and CosSin: C109, C110, C111. *)

From Verif Require Import Base TextModel NumModel StringModel SpecText FloatTextModel SpecFloatText SpecMath MathModel RoundProofs StrtodProofs FloatTextProofs FloatResult.
From Verif Require Import MathRound MathFast MathFloor MathExp TrigModel SpecTrig TrigProofs.

#[local] Arguments Z.pow : simpl never.

(** The floats that are not NaN: infinities and numbers. *)
Definition a_number (x : f32) : Prop :=
  match x with Fin a => rep (Z.abs a) | Inf _ => True | Nan => False end.

Lemma of_bits_number bits : 0 <= bits < 2 ^ 32 -> of_bits bits = Nan \/ a_number (of_bits bits).
Proof.
  intros B. destruct (Z.eq_dec (f_exponent bits) 255) as [E|E].
  - unfold of_bits. rewrite field_e. fold (f_exponent bits). rewrite E. cbn [Z.eqb Pos.eqb]. destruct (mantissa_field bits =? 0); [right; exact I|now left].
  - right. rewrite of_bits_value by (split; assumption). apply value_rep.
Qed.

(** ** C109: Arctan reads inside its table, for every float, and its result is an angle of at
    most a quarter turn, on the side of its argument. The full statement,

    [forall v bits, 0 <= bits < 2 ^ 32 -> exists r, arctan_f v (of_bits bits) = Ret r],

    is false of the code: for NaN the index of the table is a conversion of NaN to int32. The
    form with two arguments has the same problem for two infinities. *)
Theorem C109_refuted (v : simd) : arctan_f v (of_bits 0x7FC00000) = UB /\
  arctan2_f v (of_bits 0x7F800000) (of_bits 0xFF800000) = UB /\ of_bits 0x7F800000 = Inf false /\ of_bits 0xFF800000 = Inf true.
Proof. destruct v; vm_compute; auto. Qed.
Print Assumptions C109_refuted.

(** A quarter turn and a half turn, as floats: pi/2 and pi rounded. *)
Definition quarter : Z := flo 13176795 126.
Definition half_turn : Z := flo 13176795 127.

Lemma fle_one a : fle (Fin a) (of_int 1) = (a <=? 2 ^ 149).
Proof. rewrite of_int_1. cbn [fle flt]. destruct (Z.ltb_spec (1 * 2 ^ 149) a), (Z.leb_spec a (2 ^ 149)); try lia; reflexivity. Qed.

Lemma tau4 : tau_over_4 = Fin quarter.
Proof. vm_compute. reflexivity. Qed.
Lemma tau2 : tau_over_2 = Fin half_turn.
Proof. vm_compute. reflexivity. Qed.

Lemma rnd_rep n d : 0 < d -> 0 <= n -> rep (rnd n d).
Proof. intros D N. rewrite rnd_nonneg by assumption. now apply round_rep. Qed.

(** The magnitude, for the magnitude of the argument. *)
Lemma arctan_magnitude v a : (rep a /\ 0 <= a -> exists r, arctan_f v (Fin a) = Ret (Fin r) /\ 0 <= r <= quarter /\
    (a <= 2 ^ 149 -> r <= flo 13 145) /\ (2 ^ 149 < a -> flo 3 147 <= r)) /\
  (exists r, arctan_f v (Inf false) = Ret (Fin r) /\ flo 3 147 <= r <= quarter).
Proof.
  assert (L : forall b, rep b -> 0 <= b <= 2 ^ 149 -> exists r, (let! r := arctan_unit v (Fin b) in Ret (fsub tau_over_4 r)) = Ret (Fin r) /\ flo 3 147 <= r <= quarter).
  { intros b R B. destruct (arctan_unit_ok v b R B) as (r & -> & Hr). cbn [bind]. rewrite tau4.
    assert (W : within (flo 3 147) quarter (fsub (Fin quarter) (Fin r))).
    { cbn [fsub fneg fadd]. unfold quarter in *. apply fround_within; try fl; apply flo_rep; lia. }
    destruct W as (s & -> & Hs). exists s. split; [reflexivity|exact Hs]. }
  split.
  - intros [R A]. unfold arctan_f. cbn [fabs_f flt]. unfold negative. cbn [flt]. rewrite (Z.abs_eq a) by exact A. rewrite fle_one.
    replace (a <? 0) with false by lia. destruct (Z.leb_spec a (2 ^ 149)) as [B|B].
    + destruct (arctan_unit_ok v a R ltac:(lia)) as (r & -> & Hr). exists r. split; [reflexivity|]. unfold quarter in *. repeat split; fl.
    + assert (D : fdiv (of_int 1) (Fin a) = Fin (rnd (2 ^ 298) a) /\ 0 <= rnd (2 ^ 298) a <= 2 ^ 149).
      { rewrite of_int_1. cbn [fdiv]. destruct (Z.eqb_spec a 0); [lia|]. rewrite Z.sgn_pos, Z.abs_eq by lia. replace (1 * 2 ^ 149 * 2 ^ 149 * 1) with (2 ^ 298) by reflexivity.
        split; [apply (fround_fin _ _ 149); lia|]. split; [apply rnd_ge; [lia|exact rep_0|lia]|apply rnd_le; [lia|re|lia]]. }
      assert (RR : rep (rnd (2 ^ 298) a)) by (apply rnd_rep; lia).
      destruct D as [-> D]. destruct (L (rnd (2 ^ 298) a) RR D) as (r & -> & Hr). exists r. split; [reflexivity|]. unfold quarter in *. repeat split; fl.
  - destruct (L 0 rep_0 ltac:(lia)) as (r & E & Hr). exists r. split; [|exact Hr]. unfold arctan_f. cbn [fabs_f]. unfold negative. cbn [flt negb].
    replace (fle (Inf false) (of_int 1)) with false by (rewrite of_int_1; reflexivity). rewrite of_int_1. cbn [fdiv]. rewrite E. reflexivity.
Qed.

Lemma arctan_odd v x r : arctan_f v x = Ret r -> arctan_f v (fneg x) = Ret (fneg r) \/ x = Fin 0.
Proof.
  intros H. destruct x as [a|s|]; [|left|left].
  - destruct (Z.eq_dec a 0) as [->|N]; [now right|left]. unfold arctan_f, negative in *. cbn [fneg fabs_f flt] in *. rewrite Z.abs_opp.
    match goal with |- (let! a := ?e in _) = _ => destruct e as [m| |]; try discriminate end. cbn [bind] in *. injection H as <-.
    destruct (Z.ltb_spec (- a) 0), (Z.ltb_spec a 0); try lia; [reflexivity|]. destruct m; cbn [fneg]; [now rewrite Z.opp_involutive|now rewrite Bool.negb_involutive|reflexivity].
  - unfold arctan_f, negative in *. cbn [fneg fabs_f flt] in *.
    match goal with |- (let! a := ?e in _) = _ => destruct e as [m| |]; try discriminate end. cbn [bind] in *. injection H as <-.
    destruct s; cbn [negb]; [|reflexivity]. destruct m; cbn [fneg]; [now rewrite Z.opp_involutive|now rewrite Bool.negb_involutive|reflexivity].
  - revert H. destruct v; vm_compute; discriminate.
Qed.

Lemma arctan_zero v : arctan_f v (Fin 0) = Ret (Fin 0).
Proof. destruct v; vm_compute; reflexivity. Qed.

(** For every float that is not NaN: defined, of the sign of the argument, odd, at most a
    quarter turn; at most 0.8125 for arguments up to 1 and at least 0.75 for the others. *)
Theorem C109_partial (v : simd) (x : f32) : a_number x ->
  exists r, arctan_f v x = Ret (Fin r) /\ arctan_f v (fneg x) = Ret (Fin (- r)) /\ Z.abs r <= quarter /\
    match x with
    | Fin a => 0 <= Z.sgn a * r /\ (Z.abs a <= 2 ^ 149 -> Z.abs r <= flo 13 145) /\ (2 ^ 149 < Z.abs a -> flo 3 147 <= Z.abs r)
    | Inf s => flo 3 147 <= if s then - r else r
    | Nan => False
    end.
Proof.
  assert (Q0 : 0 < flo 3 147) by reflexivity.
  intros H. destruct x as [a|s|]; [| |contradiction].
  - destruct (Z.eq_dec a 0) as [->|N].
    { exists 0. cbn [fneg]. change (- 0) with 0. rewrite arctan_zero. repeat split; try reflexivity; unfold quarter; fl. }
    destruct (proj1 (arctan_magnitude v (Z.abs a)) (conj H (Z.abs_nonneg a))) as (r & E & B & C1 & C2).
    destruct (arctan_odd v (Fin (Z.abs a)) (Fin r) E) as [O|O]; [|injection O; lia]. cbn [fneg] in O.
    destruct (Z.le_gt_cases 0 a) as [P|P].
    + rewrite (Z.abs_eq a) in * by lia. exists r. rewrite (Z.sgn_pos a) by lia. cbn [fneg]. repeat split; try assumption; lia.
    + rewrite (Z.abs_neq a) in * by lia. rewrite Z.opp_involutive in O. exists (- r). rewrite (Z.sgn_neg a) by lia. cbn [fneg]. rewrite Z.opp_involutive.
      repeat split; try assumption; lia.
  - destruct (proj2 (arctan_magnitude v 0)) as (r & E & B). destruct (arctan_odd v (Inf false) (Fin r) E) as [O|O]; [|discriminate]. cbn [fneg negb] in O.
    destruct s; cbn [fneg negb]; [exists (- r); rewrite Z.opp_involutive|exists r]; repeat split; try assumption; lia.
Qed.
Print Assumptions C109_partial.

(** Every float except NaN is meant. *)
Theorem C109_floats bits : 0 <= bits < 2 ^ 32 -> of_bits bits <> Nan -> a_number (of_bits bits).
Proof. intros B N. destruct (of_bits_number bits B) as [E|E]; [contradiction|exact E]. Qed.
Print Assumptions C109_floats.

(** Sides of zero. *)
Definition nonneg (x : f32) : Prop := match x with Fin a => 0 <= a | Inf s => s = false | Nan => False end.
Definition nonpos (x : f32) : Prop := match x with Fin a => a <= 0 | Inf s => s = true | Nan => False end.

Lemma fround_side n d : 0 < d -> a_number (fround n d) /\ (0 <= n -> nonneg (fround n d)) /\ (n < 0 -> nonpos (fround n d)).
Proof.
  intros D. unfold fround. cbv zeta. pose proof (round_rep (Z.abs n) d (Z.abs_nonneg n) D) as R. pose proof (round_nonneg (Z.abs n) d (Z.abs_nonneg n) D) as P.
  set (m := round_units (Z.abs n) d) in *. clearbody m. destruct (2 ^ 277 <=? m).
  - cbn. split; [exact I|]. split; lia.
  - cbn [a_number nonneg nonpos]. split; [|split; [nia|intros; rewrite Z.sgn_neg by lia; lia]]. destruct (Z.sgn_spec n) as [[_ ->]|[[_ ->]|[_ ->]]].
    + now rewrite Z.mul_1_l, Z.abs_eq.
    + exact rep_0.
    + now rewrite Z.abs_mul, Z.mul_1_l, Z.abs_eq.
Qed.

(** An angle on the side of [neg]. *)
Lemma arctan_side v q (neg : bool) : a_number q -> (if neg then nonpos q else nonneg q) ->
  exists r, arctan_f v q = Ret (Fin r) /\ if neg then - quarter <= r <= 0 else 0 <= r <= quarter.
Proof.
  intros A S. destruct (C109_partial v q A) as (r & E & _ & B & H). exists r. split; [exact E|].
  assert (Q0 : 0 < flo 3 147) by reflexivity. destruct q as [a|s|]; [| |contradiction].
  - destruct H as (H & _). destruct (Z.eq_dec a 0) as [->|N].
    + rewrite arctan_zero in E. injection E as <-. destruct neg; lia.
    + destruct neg; cbn in S; [rewrite Z.sgn_neg in H by lia|rewrite Z.sgn_pos in H by lia]; lia.
  - destruct neg; cbn in S; subst s; lia.
Qed.

Lemma turn_facts : (0 <= quarter /\ half_turn = 2 * quarter) /\ (rep (Z.abs quarter) /\ rep (Z.abs half_turn)) /\ half_turn <= 2 ^ 276.
Proof. split; [split; [|reflexivity]|split; [split; apply flo_rep|]]; now apply Z.leb_le. Qed.

(** The quotient's angle is on the side given by both signs. *)
Lemma quotient_angle v y x : a_number y -> a_number x -> (forall s t, ~ (y = Inf s /\ x = Inf t)) ->
  flt (Fin (2 ^ 23)) (fabs_f y) = true -> flt (Fin (2 ^ 23)) (fabs_f x) = true ->
  exists r, arctan_f v (fdiv y x) = Ret (Fin r) /\ if xorb (negative y) (negative x) then - quarter <= r <= 0 else 0 <= r <= quarter.
Proof.
  intros Ay Ax NI Hy Hx. apply arctan_side.
  - destruct y as [a|s|], x as [b|t|]; try contradiction; cbn [fdiv].
    + cbn [fabs_f flt] in Hx. destruct (Z.eqb_spec b 0) as [->|N]; [discriminate|]. assert (D : 0 < Z.abs b) by (clear - N; lia). exact (proj1 (fround_side (a * 2 ^ 149 * Z.sgn b) (Z.abs b) D)).
    + exact rep_0.
    + exact I.
    + elim (NI s t). auto.
  - unfold negative. destruct y as [a|s|], x as [b|t|]; try contradiction; cbn [fdiv flt].
    + cbn [fabs_f flt] in *. destruct (Z.eqb_spec b 0) as [->|N]; [discriminate|]. assert (D : 0 < Z.abs b) by (clear - N; lia).
      destruct (fround_side (a * 2 ^ 149 * Z.sgn b) (Z.abs b) D) as (_ & S1 & S2). revert S1 S2. generalize (fround (a * 2 ^ 149 * Z.sgn b) (Z.abs b)). intros q S1 S2.
      assert (N0 : a <> 0) by (intros ->; discriminate). clear - N N0 S1 S2. destruct (Z.ltb_spec a 0), (Z.ltb_spec b 0); cbn [xorb]; [apply S1|apply S2|apply S2|apply S1];
        ((rewrite Z.sgn_neg by lia) || (rewrite Z.sgn_pos by lia)); lia.
    + destruct (xorb _ _); cbn; lia.
    + destruct s, (b <? 0); reflexivity.
    + elim (NI s t). auto.
Qed.

(** What the comparisons say of each other. *)
Lemma sides_y y : a_number y -> negative y = true /\ flt (Fin (2 ^ 23)) y = false /\ fle (Fin 0) y = false \/ negative y = false /\ flt y (Fin (- 2 ^ 23)) = false /\ fle (Fin 0) y = true.
Proof.
  unfold negative. destruct y as [a|[|]|]; cbn; [|left; auto|right; auto|contradiction]. intros _. assert (P : 0 < 2 ^ 23) by reflexivity. revert P. generalize (2 ^ 23). intros P HP.
  destruct (Z.ltb_spec a 0), (Z.ltb_spec P a), (Z.ltb_spec a (- P)); auto; lia.
Qed.
Lemma sides_x x : a_number x -> (flt (Fin (2 ^ 23)) (fabs_f x) = false -> flt (Fin (2 ^ 23)) x = false /\ flt x (Fin (- 2 ^ 23)) = false) /\
  (negative x = false -> flt x (Fin (- 2 ^ 23)) = false).
Proof.
  unfold negative. destruct x as [a|[|]|]; cbn; intros A; try contradiction; try (split; intros; discriminate || auto; fail). clear A. assert (P : 0 < 2 ^ 23) by reflexivity. revert P. generalize (2 ^ 23). intros P HP.
  destruct (Z.ltb_spec a 0), (Z.ltb_spec P (Z.abs a)), (Z.ltb_spec P a), (Z.ltb_spec a (- P)); split; intros; try discriminate; auto; lia.
Qed.

(** The form with two arguments, for all floats except NaN and two infinities: at most half a
    turn, and on the side of [y] unless that is as good as zero. *)
Theorem C109_pair_partial (v : simd) (y x : f32) : a_number y -> a_number x ->
  (forall s t, ~ (y = Inf s /\ x = Inf t)) ->
  exists r, arctan2_f v y x = Ret (Fin r) /\ Z.abs r <= half_turn /\
    (flt min_float y = true -> 0 <= r) /\ (flt y (fneg min_float) = true -> r <= 0) /\
    (flt x (Fin 0) = false -> Z.abs r <= quarter) /\ (flt x (fneg min_float) = true -> quarter <= Z.abs r).
Proof.
  intros Ay Ax NI. pose proof (sides_y y Ay) as Y. destruct (sides_x y Ay) as [Yx _]. destruct (sides_x x Ax) as [X Xm]. pose proof (quotient_angle v y x Ay Ax NI) as T.
  clear Ay Ax NI. unfold arctan2_f. assert (Xn : negative x = flt x (Fin 0)) by reflexivity. rewrite <- Xn. clear Xn. replace min_float with (Fin (2 ^ 23)) by reflexivity.
  destruct turn_facts as (Q & RQ & BQ). revert Q RQ BQ T. rewrite tau4, tau2. generalize quarter half_turn. intros q4 q2 Q RQ BQ T. cbn [fneg].
  destruct (flt (Fin (2 ^ 23)) (fabs_f y)).
  - clear Yx. destruct (flt (Fin (2 ^ 23)) (fabs_f x)).
    + destruct (T eq_refl eq_refl) as (r & -> & Hr). clear T X. cbn [bind]. destruct (negative x).
      * clear Xm. destruct Y as [(Ny & Y1 & Y2)|(Ny & Y1 & Y2)]; rewrite Ny in Hr; rewrite Y1, Y2; clear Ny Y1 Y2; cbn [xorb] in Hr.
        -- assert (W : within (- q2) (- q4) (fsub (Fin r) (Fin q2))).
           { cbn [fsub fneg fadd]. apply fround_within; rewrite ?Z.abs_opp; try apply RQ; clear - Q BQ Hr; lia. }
           destruct W as (z & -> & W). exists z. clear - W Q. split; [reflexivity|]. repeat split; intros; try discriminate; lia.
        -- assert (W : within q4 q2 (fadd (Fin r) (Fin q2))).
           { cbn [fadd]. apply fround_within; try apply RQ; clear - Q BQ Hr; lia. }
           destruct W as (z & -> & W). exists z. clear - W Q. split; [reflexivity|]. repeat split; intros; try discriminate; lia.
      * exists r. split; [reflexivity|]. rewrite (Xm eq_refl). clear Xm. destruct Y as [(Ny & Y1 & Y2)|(Ny & Y1 & Y2)]; rewrite Ny in Hr; rewrite Y1; clear Ny Y1 Y2; cbn [xorb] in Hr; clear - Hr Q; repeat split; intros; try discriminate; lia.
    + destruct (X eq_refl) as [_ ->]. clear T X Xm. destruct Y as [(Ny & Y1 & Y2)|(Ny & Y1 & Y2)]; rewrite Ny, Y1; eexists; (split; [reflexivity|]); clear - Q; repeat split; intros; try discriminate; lia.
  - destruct (Yx eq_refl) as [-> ->]. clear Yx Y T X. destruct (negative x); [|rewrite (Xm eq_refl)]; eexists; (split; [reflexivity|]); clear - Q; repeat split; intros; try discriminate; lia.
Qed.
Print Assumptions C109_pair_partial.

(** How close it is: within 2^-18 of the angle with that tangent up to 1, and above 1 the quarter of the
    turn less the result for the reciprocal. *)
Theorem C109_near_partial (v : simd) (a : Z) : rep (Z.abs a) ->
  (Z.abs a <= 2 ^ 149 -> exists r, arctan_f v (Fin a) = Ret (Fin (if a <? 0 then - r else r)) /\ near_arctan (Z.abs a) r) /\
  (2 ^ 149 < Z.abs a -> exists q r, fdiv (Fin (2 ^ 149)) (Fin (Z.abs a)) = Fin q /\ 0 <= q <= 2 ^ 149 /\ near_arctan q r /\
     arctan_f v (Fin a) = Ret (if a <? 0 then fneg (fsub tau_over_4 (Fin r)) else fsub tau_over_4 (Fin r))).
Proof.
  intros R. assert (L : fle (Fin (Z.abs a)) (of_int 1) = (Z.abs a <=? 2 ^ 149)) by (rewrite of_int_1, Z.mul_1_l; cbn [fle flt]; rewrite Z.ltb_antisym, negb_involutive; reflexivity).
  split; intros H.
  - destruct (arctan_unit_near v (Z.abs a) R ltac:(lia)) as (k & r & K & KA & Er & N). exists r. split; [|exists k; auto].
    unfold arctan_f. cbn [fabs_f]. rewrite L. destruct (Z.leb_spec (Z.abs a) (2 ^ 149)); [|lia]. rewrite Er. cbn [bind]. unfold negative. cbn [flt]. destruct (a <? 0); reflexivity.
  - assert (D : 0 < Z.abs a) by lia.
    assert (Q : exists q, fdiv (Fin (2 ^ 149)) (Fin (Z.abs a)) = Fin q /\ rep q /\ 0 <= q <= 2 ^ 149).
    { cbn [fdiv]. destruct (Z.eqb_spec (Z.abs a) 0); [lia|]. rewrite (Z.sgn_pos (Z.abs a)), Z.mul_1_r, Z.abs_involutive by lia.
      assert (W : within 0 (2 ^ 149) (fround (2 ^ 149 * 2 ^ 149) (Z.abs a))) by (apply fround_within; try lia; re).
      destruct (fround_side (2 ^ 149 * 2 ^ 149) (Z.abs a) D) as (A & _). destruct W as (q & Eq & W). rewrite Eq in A |- *. cbn [a_number] in A. rewrite Z.abs_eq in A by lia. exists q. auto. }
    destruct Q as (q & Eq & Rq & Bq). destruct (arctan_unit_near v q Rq Bq) as (k & r & K & KA & Er & N). exists q, r. split; [exact Eq|]. split; [exact Bq|]. split; [exists k; auto|].
    unfold arctan_f. cbn [fabs_f]. rewrite L. destruct (Z.leb_spec (Z.abs a) (2 ^ 149)); [lia|]. rewrite of_int_1, Z.mul_1_l, Eq, Er. cbn [bind]. unfold negative. cbn [flt]. reflexivity.
Qed.
Print Assumptions C109_near_partial.

(** A quarter: Arctan(1) is 45 degrees to the last bit, and Arctan(1, -1) is 135. *)
Example C109_instance : a_number (of_int 1) /\ a_number (fneg (of_int 1)) /\
  arctan_f Plain (of_int 1) = Ret (of_bits 0x3F490FDB) /\ arctan2_f Plain (of_int 1) (fneg (of_int 1)) = Ret (of_bits 0x4016CBE4) /\
  arctan2_f Sse2 (fneg (of_int 1)) (Inf false) = Ret (Fin 0).
Proof.
  assert (R : rep (2 ^ 149)) by (apply rep_pow; lia).
  assert (O : of_int 1 = Fin (2 ^ 149)) by (rewrite of_int_1; f_equal; lia).
  split; [rewrite O; exact R|]. split; [rewrite O; exact R|]. split; [vm_compute; reflexivity|]. split; vm_compute; reflexivity.
Qed.

(** ** C110: Sin and Cos *)

(** Not for every finite number: with SSE2 the sine of 3.6 * 10^12 is below -10^27, and without SIMD
    the conversion of 10^8 * 256 / tau to an integer is undefined. *)
Theorem C110_refuted :
  (exists a s, Z.abs a <= 2 ^ 192 /\ sin_f Sse2 (Fin a) = Ret (Fin s) /\ s < - 10 ^ 27 * 2 ^ 149) /\
  (exists a, Z.abs a <= 2 ^ 176 /\ sin_f Plain (Fin a) = UB /\ cos_f Plain (Fin a) = UB).
Proof.
  split.
  - exists (match of_bits 0x54500001 with Fin a => a | _ => 0 end). eexists. split; [vm_compute; discriminate|]. split; [vm_compute; reflexivity|vm_compute; reflexivity].
  - exists (100000000 * 2 ^ 149). split; [vm_compute; discriminate|]. split; vm_compute; reflexivity.
Qed.
Print Assumptions C110_refuted.

(** For all numbers up to 2^17 and in all builds: there is an angle, n/256 of a turn and [b] more,
    that differs from the magnitude of the argument by at most 2^-21 of it and 2^-27, and both
    results are within 2^-16 of sine and cosine of that angle; for negative arguments the sine is
    negated. *)
Theorem C110_partial (a : Z) : Z.abs a <= 2 ^ 17 * 2 ^ 149 ->
  exists n b, 0 <= n /\ 0 <= b <= 2 ^ 144 /\ 2 ^ 21 * Z.abs (n * part + b - Z.abs a) <= Z.abs a + 2 ^ 143 /\
  forall v, exists s c, sin_f v (Fin a) = Ret (Fin (if a <? 0 then - s else s)) /\ cos_f v (Fin a) = Ret (Fin c) /\
    cossin_f v (Fin a) = Ret (Fin c, Fin (if a <? 0 then - s else s)) /\
    Z.abs (s * (2 ^ 60 * 2 * 2 ^ 149) - sine_at n b) <= 2 ^ 45 * 2 ^ 298 /\ Z.abs (c * (2 ^ 60 * 2 * 2 ^ 149) - cosine_at n b) <= 2 ^ 45 * 2 ^ 298.
Proof.
  intros A. assert (A' : 0 <= Z.abs a <= 2 ^ 166) by lia. destruct (sine_cosine_ok (Fin a) (Z.abs a) eq_refl A') as (n & b & N & B & P & V).
  exists n, b. split; [exact N|]. split; [exact B|]. split; [exact P|]. intros v. destruct (V v) as (p & s & c & E & Es & Ec & S & C). exists s, c.
  unfold sin_f, cos_f, cossin_f, negative. cbn [flt]. rewrite E. cbn [bind]. rewrite Es, Ec. destruct (a <? 0); auto 10.
Qed.
Print Assumptions C110_partial.

(** The two zeros being one, Sin and Tan are odd and Cos is even for all floats, in all builds. *)
Theorem C110_symmetry (v : simd) (x : f32) :
  sin_f v (fneg x) = bind (sin_f v x) (fun r => Ret (fneg r)) /\
  cos_f v (fneg x) = cos_f v x /\
  tan_f v (fneg x) = bind (tan_f v x) (fun r => Ret (fneg r)).
Proof.
  assert (A : fabs_f (fneg x) = fabs_f x) by (destruct x; cbn; try rewrite Z.abs_opp; reflexivity).
  assert (T : trig_parts v (fneg x) = trig_parts v x) by (rewrite !trig_parts_unfold, A; reflexivity).
  assert (FF : forall r, fneg (fneg r) = r) by (intros [r|[|]|]; cbn; rewrite ?Z.opp_involutive; reflexivity).
  split; [|split].
  - destruct (Z.eq_dec 0 0) as [_|]; [|contradiction]. unfold sin_f. rewrite T. destruct x as [a|s|].
    + destruct (Z.eq_dec a 0) as [->|N0]; [destruct v; vm_compute; reflexivity|]. destruct (trig_parts v (Fin a)); try reflexivity. cbn [bind]. unfold negative. cbn [fneg flt].
      destruct (Z.ltb_spec (- a) 0), (Z.ltb_spec a 0); try lia; now rewrite ?FF.
    + destruct (trig_parts v (Inf s)); try reflexivity. cbn [bind]. destruct s; cbn; now rewrite ?FF.
    + destruct v; vm_compute; reflexivity.
  - unfold cos_f. now rewrite T.
  - unfold tan_f. rewrite T. destruct x as [a|s|].
    + destruct (Z.eq_dec a 0) as [->|N0]; [destruct v; vm_compute; reflexivity|]. destruct (trig_parts v (Fin a)); try reflexivity. cbn [bind]. unfold negative. cbn [fneg flt].
      destruct (Z.ltb_spec (- a) 0), (Z.ltb_spec a 0); try lia; now rewrite ?FF.
    + destruct (trig_parts v (Inf s)); try reflexivity. cbn [bind]. destruct s; cbn; now rewrite ?FF.
    + destruct v; vm_compute; reflexivity.
Qed.
Print Assumptions C110_symmetry.

(** Tan is the quotient of the two, wherever they are defined. *)
Theorem C110_tangent (v : simd) (x : f32) c s : cossin_f v x = Ret (c, s) -> negative x = false -> tan_f v x = Ret (fdiv s c).
Proof. unfold cossin_f, tan_f. destruct (trig_parts v x) as [p| |]; try discriminate. cbn [bind]. intros E N. rewrite N in *. injection E as <- <-. reflexivity. Qed.
Print Assumptions C110_tangent.

(** One radian, and seven backwards. *)
Example C110_instance : Z.abs (2 ^ 149) <= 2 ^ 17 * 2 ^ 149 /\
  sin_f Plain (of_int 1) = Ret (of_bits 0x3F576AA4) /\ cos_f Plain (of_int 1) = Ret (of_bits 0x3F0A5140) /\
  exists s, sin_f Plain (of_int (-7)) = Ret (Fin s) /\ - 2 ^ 149 < s < - 2 ^ 148.
Proof. split; [vm_compute; discriminate|]. split; [vm_compute; reflexivity|]. split; [vm_compute; reflexivity|]. eexists. split; [vm_compute; reflexivity|]. split; vm_compute; reflexivity. Qed.

(** ** C111: the builds against each other *)

(** Without SIMD the sine of 0.024 is 0.0239976..., with it 0.0239998...: the constants 1/6 and 1/120
    are exchanged there. *)
Theorem C111_refuted : exists x, sin_f Plain x = Ret (of_bits 1019516625) /\ sin_f Sse2 x = Ret (of_bits 1019517801) /\ sin_f Sse4 x = Ret (of_bits 1019517801).
Proof. exists (literal 24 3). split; [|split]; vm_compute; reflexivity. Qed.
Print Assumptions C111_refuted.

(** For all numbers up to 2^17 the two SIMD builds agree, in all four functions, and all builds
    agree up to 2^-15. *)
Theorem C111_partial (a : Z) : Z.abs a <= 2 ^ 17 * 2 ^ 149 ->
  sin_f Sse2 (Fin a) = sin_f Sse4 (Fin a) /\ cos_f Sse2 (Fin a) = cos_f Sse4 (Fin a) /\ tan_f Sse2 (Fin a) = tan_f Sse4 (Fin a) /\ cossin_f Sse2 (Fin a) = cossin_f Sse4 (Fin a) /\
  forall v w, exists s c s' c', cossin_f v (Fin a) = Ret (Fin c, Fin s) /\ cossin_f w (Fin a) = Ret (Fin c', Fin s') /\ Z.abs (s - s') <= 2 ^ 134 /\ Z.abs (c - c') <= 2 ^ 134.
Proof.
  intros A. assert (A' : 0 <= Z.abs a <= 2 ^ 166) by lia. pose proof (sse_parts (Fin a) (Z.abs a) eq_refl A') as E.
  unfold sin_f at 1 2, cos_f, tan_f, cossin_f at 1 2. rewrite E. repeat (split; [reflexivity|]). clear E A'.
  destruct (C110_partial a A) as (n & b & _ & _ & _ & V). intros v w. destruct (V v) as (s & c & _ & _ & E & S & C). destruct (V w) as (s' & c' & _ & _ & E' & S' & C').
  eexists _, _, _, _. split; [exact E|]. split; [exact E'|]. clear - S C S' C'. revert S C S' C'. generalize (sine_at n b) (cosine_at n b). intros. destruct (a <? 0); split; lia.
Qed.
Print Assumptions C111_partial.

Example C111_instance : Z.abs (3 * 2 ^ 149) <= 2 ^ 17 * 2 ^ 149 /\ sin_f Sse2 (Fin (3 * 2 ^ 149)) <> Ret (Fin 0).
Proof. split; [vm_compute; discriminate|]. vm_compute. discriminate. Qed.
