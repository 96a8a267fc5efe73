(** * Properties of Floor, Ceil, Exp and Log: C89 - C91. *)

From Verif Require Import Base TextModel NumModel StringModel SpecText FloatTextModel SpecFloatText SpecMath MathModel RoundProofs StrtodProofs FloatTextProofs FloatResult.
From Verif Require Import MathRound MathFast MathFloor MathLog MathDecade MathScale MathExp.

#[local] Arguments Z.pow : simpl never.

(** ** C89: Floor and Ceil *)

Lemma negate_bits r : 0 <= r < 2 ^ 31 -> f_exponent (2 ^ 31 + r) = f_exponent r /\ f_units (2 ^ 31 + r) = f_units r.
Proof.
  intros H. destruct (abs_fields (2 ^ 31 + r)) as [A B]. assert (E : (2 ^ 31 + r) mod 2 ^ 31 = r).
  { replace (2 ^ 31 + r) with (r + 1 * 2 ^ 31) by lia. rewrite Z.mod_add by lia. apply Z.mod_small. lia. }
  rewrite E in A, B. split; [now symmetry|]. unfold f_units. now rewrite <- A, <- B.
Qed.

(** Integers up to 2^23 are floats. *)
Lemma int_bits k : Z.abs k <= 2 ^ 23 -> exists r, f_finite r /\ f_value r = k * 2 ^ 149.
Proof.
  intros H. destruct (Z.eq_dec k 0) as [->|N]; [exists 0; split; [split; [lia|vm_compute; discriminate]|reflexivity]|].
  assert (R : rep (Z.abs k * 2 ^ 149)) by (exists (Z.abs k), 149; lia).
  destruct (to_bits_ok (Z.abs k * 2 ^ 149) R ltac:(lia)) as (B & E & U). set (x := to_bits _) in *. clearbody x.
  assert (X : f_exponent x <> 255).
  { rewrite E. assert (Z.log2 (Z.abs k * 2 ^ 149) < 173) by (apply Z.log2_lt_pow2; lia). lia. }
  destruct (Z.le_gt_cases 0 k) as [P|P].
  - exists x. split; [split; [lia|exact X]|]. unfold f_value, f_sign. destruct (Z.leb_spec (2 ^ 31) x); [lia|]. rewrite U. lia.
  - destruct (negate_bits x B) as [E1 E2]. exists (2 ^ 31 + x). split; [split; [lia|now rewrite E1]|].
    unfold f_value, f_sign. destruct (Z.leb_spec (2 ^ 31) (2 ^ 31 + x)); [|lia]. rewrite E2, U. lia.
Qed.

(** Full statement, proved: for every finite float and every way of compiling it, Floor
    gives the greatest integer that is not greater, which is a float, and Ceil the least
    one that is not less. *)
Theorem C89_floor (v : simd) (bits : Z) : f_finite bits ->
  exists k r, floor_f v (of_bits bits) = of_bits r /\ f_finite r /\ f_value r = k * 2 ^ 149 /\
    k * 2 ^ 149 <= f_value bits < (k + 1) * 2 ^ 149.
Proof.
  intros F. rewrite of_bits_value by exact F. pose proof (value_rep bits) as R. set (a := f_value bits) in *.
  rewrite (floor_fin v a R). pose proof (Z.div_mod a (2 ^ 149) ltac:(lia)) as D. pose proof (Z.mod_pos_bound a (2 ^ 149) ltac:(lia)) as M.
  set (k := a / 2 ^ 149) in *. clearbody k.
  assert (X : exists r, f_finite r /\ f_value r = k * 2 ^ 149).
  { destruct (Z.le_gt_cases (Z.abs a) (2 ^ 172)) as [L|L]; [apply int_bits; lia|].
    destruct (rep_large a R ltac:(lia)) as [m Em]. exists bits. split; [exact F|]. fold a. lia. }
  destruct X as (r & Fr & Er). exists k, r. rewrite (of_bits_value r Fr), Er. repeat split; try apply Fr; lia.
Qed.
Print Assumptions C89_floor.

Theorem C89_ceil (v : simd) (bits : Z) : f_finite bits ->
  exists k r, ceil_f v (of_bits bits) = of_bits r /\ f_finite r /\ f_value r = k * 2 ^ 149 /\
    (k - 1) * 2 ^ 149 < f_value bits <= k * 2 ^ 149.
Proof.
  intros F. rewrite of_bits_value by exact F. pose proof (value_rep bits) as R. set (a := f_value bits) in *.
  rewrite (ceil_fin v a R). pose proof (Z.div_mod (- a) (2 ^ 149) ltac:(lia)) as D. pose proof (Z.mod_pos_bound (- a) (2 ^ 149) ltac:(lia)) as M.
  set (k := - a / 2 ^ 149) in *. clearbody k.
  assert (X : exists r, f_finite r /\ f_value r = - k * 2 ^ 149).
  { destruct (Z.le_gt_cases (Z.abs a) (2 ^ 172)) as [L|L]; [apply int_bits; lia|].
    destruct (rep_large a R ltac:(lia)) as [m Em]. exists bits. split; [exact F|]. fold a. lia. }
  destruct X as (r & Fr & Er). exists (- k), r. rewrite (of_bits_value r Fr), Er. repeat split; try apply Fr; lia.
Qed.
Print Assumptions C89_ceil.

(** Infinities and NaN are left as they are. *)
Theorem C89_special (v : simd) (bits : Z) : 0 <= bits < 2 ^ 32 -> f_exponent bits = 255 ->
  floor_f v (of_bits bits) = of_bits bits /\ ceil_f v (of_bits bits) = of_bits bits.
Proof.
  intros B E. unfold of_bits. rewrite field_e. fold (f_exponent bits). rewrite E. cbn [Z.eqb Pos.eqb].
  destruct (mantissa_field bits =? 0), (2 ^ 31 <=? bits), v; vm_compute; auto.
Qed.
Print Assumptions C89_special.

(** PositiveFloor is Floor up to 2^23; for 8388609 without SSE4 it gives 8388608. *)
Theorem C89_positive_refuted : f_finite 0x4B000001 /\ f_value 0x4B000001 = 8388609 * 2 ^ 149 /\ floor_f Sse2 (of_bits 0x4B000001) = of_bits 0x4B000001 /\
  positive_floor Sse2 (of_bits 0x4B000001) = of_bits 0x4B000000.
Proof. split; [split; [lia|vm_compute; discriminate]|]. split; [reflexivity|]. split; vm_compute; reflexivity. Qed.
Print Assumptions C89_positive_refuted.

Theorem C89_positive_partial (v : simd) (bits : Z) : f_finite bits -> 0 <= f_value bits <= 2 ^ 23 * 2 ^ 149 ->
  positive_floor v (of_bits bits) = floor_f v (of_bits bits).
Proof.
  intros F H. rewrite of_bits_value by exact F. rewrite positive_floor_small by lia. symmetry. apply floor_small. lia.
Qed.
Print Assumptions C89_positive_partial.

Example C89_e1 : f_finite 0xC0200000 /\ f_value 0xC0200000 = -5 * 2 ^ 148 /\ (* -2.5 *)
  floor_f Plain (of_bits 0xC0200000) = Fin (-3 * 2 ^ 149) /\ floor_f Sse2 (of_bits 0xC0200000) = Fin (-3 * 2 ^ 149) /\
  ceil_f Plain (of_bits 0xC0200000) = Fin (-2 * 2 ^ 149) /\ ceil_f Sse2 (of_bits 0xC0200000) = Fin (-2 * 2 ^ 149) /\
  floor_f Plain (of_bits 0x80000001) = Fin (-1 * 2 ^ 149) /\ floor_f Sse2 (of_bits 0x4B7FFFFF) = Fin (16777215 * 2 ^ 149).
Proof. split; [split; [lia|vm_compute; discriminate]|]. vm_compute. auto 10. Qed.

(** ** C90: Exp *)

(** Full statement: Exp is defined for every number and never decreases. False: it is
    defined from -2^31 up to 2^31 only, infinite at 89 and zero at 90, since the last
    two elements of its table have no initialiser. *)
Theorem C90_refuted (v : simd) :
  (of_bits 0x42B20000 = Fin (89 * 2 ^ 149) /\ exp_f v (of_bits 0x42B20000) = Ret (Inf false)) /\
  (of_bits 0x42B40000 = Fin (90 * 2 ^ 149) /\ exp_f v (of_bits 0x42B40000) = Ret (Fin 0)) /\
  (of_bits 0x4F000000 = Fin (2 ^ 31 * 2 ^ 149) /\ exp_f v (of_bits 0x4F000000) = UB) /\
  (of_bits 0xFF800000 = Inf true /\ exp_f v (of_bits 0xFF800000) = UB).
Proof. destruct v; vm_compute; auto 10. Qed.
Print Assumptions C90_refuted.

(** It is defined exactly from -2^31 up to, and without, 2^31. *)
Theorem C90_defined (v : simd) (bits : Z) : 0 <= bits < 2 ^ 32 ->
  (exists y, exp_f v (of_bits bits) = Ret y) <-> f_finite bits /\ - 2 ^ 31 * 2 ^ 149 <= f_value bits < 2 ^ 31 * 2 ^ 149.
Proof.
  intros B. destruct (Z.eq_dec (f_exponent bits) 255) as [X|X].
  - destruct (C89_special v bits B X) as [E _]. split; [|intros [[_ N] _]; contradiction].
    intros [y Y]. exfalso. unfold exp_f in Y. rewrite E in Y. unfold of_bits in Y. rewrite field_e in Y. fold (f_exponent bits) in Y.
    rewrite X in Y. cbn [Z.eqb Pos.eqb] in Y. destruct (mantissa_field bits =? 0); discriminate Y.
  - assert (F : f_finite bits) by (split; assumption). rewrite of_bits_value by exact F. rewrite exp_value by apply value_rep.
    destruct (Z.leb_spec (- 2 ^ 31 * 2 ^ 149) (f_value bits)) as [L|L]; cbn [andb].
    + destruct (Z.ltb_spec (f_value bits) (2 ^ 31 * 2 ^ 149)) as [U|U].
      * split; [intros _; split; [exact F|lia]|intros _; eexists; reflexivity].
      * split; [intros [y Y]; discriminate Y|lia].
    + split; [intros [y Y]; discriminate Y|lia].
Qed.
Print Assumptions C90_defined.

(** It never decreases from -2^31 up to, and without, 90. *)
Theorem C90_monotone_partial (v : simd) (x y : Z) : f_finite x -> f_finite y ->
  - 2 ^ 31 * 2 ^ 149 <= f_value x -> f_value x <= f_value y -> f_value y < 90 * 2 ^ 149 ->
  exists a b, exp_f v (of_bits x) = Ret a /\ exp_f v (of_bits y) = Ret b /\ ole a b.
Proof.
  intros Fx Fy L H U. rewrite !of_bits_value by assumption. rewrite !exp_value by apply value_rep.
  set (a := f_value x) in *. set (b := f_value y) in *. clearbody a b.
  destruct (Z.leb_spec (- 2 ^ 31 * 2 ^ 149) a); [|lia]. destruct (Z.leb_spec (- 2 ^ 31 * 2 ^ 149) b); [|lia].
  destruct (Z.ltb_spec a (2 ^ 31 * 2 ^ 149)); [|lia]. destruct (Z.ltb_spec b (2 ^ 31 * 2 ^ 149)); [|lia]. cbn [andb]. cbv zeta.
  eexists. eexists. split; [reflexivity|]. split; [reflexivity|].
  assert (D : a / 2 ^ 149 <= b / 2 ^ 149) by (apply Z.div_le_mono; lia).
  assert (Db : b / 2 ^ 149 < 90) by (apply Z.div_lt_upper_bound; lia).
  pose proof (fraction_range a) as Ra. pose proof (fraction_range b) as Rb.
  assert (Fm : a / 2 ^ 149 = b / 2 ^ 149 -> fraction_of a <= fraction_of b) by (intros E; now apply fraction_mono).
  set (i := a / 2 ^ 149) in *. set (j := b / 2 ^ 149) in *. clearbody i j. rewrite !Z.min_l by lia.
  destruct (Z.ltb_spec 0 (j + 88)) as [J|J].
  - destruct (Z.ltb_spec 0 (i + 88)) as [I|I].
    + apply exp_at_order; lia.
    + pose proof (exp_at_mono (j + 88) (fraction_of b) (fraction_of b) ltac:(lia) ltac:(lia) ltac:(lia) ltac:(lia)) as O.
      destruct (exp_at (j + 88) (fraction_of b)) as [c|[]|]; simpl in O |- *; lia || tauto.
  - destruct (Z.ltb_spec 0 (i + 88)); [lia|]. simpl. lia.
Qed.
Print Assumptions C90_monotone_partial.

(** What it gives further out. *)
Theorem C90_outside (v : simd) (x : Z) : f_finite x ->
  - 2 ^ 31 * 2 ^ 149 <= f_value x < -87 * 2 ^ 149 \/ 90 * 2 ^ 149 <= f_value x < 2 ^ 31 * 2 ^ 149 -> exp_f v (of_bits x) = Ret (Fin 0).
Proof.
  intros F H. rewrite of_bits_value by exact F. rewrite exp_value by apply value_rep. set (a := f_value x) in *. clearbody a.
  destruct (Z.leb_spec (- 2 ^ 31 * 2 ^ 149) a); [|lia]. destruct (Z.ltb_spec a (2 ^ 31 * 2 ^ 149)); [|lia]. cbn [andb]. cbv zeta. f_equal.
  destruct (Z.ltb_spec 0 (a / 2 ^ 149 + 88)) as [P|P]; [|reflexivity].
  destruct H as [H|H].
  - exfalso. assert (a / 2 ^ 149 < -87) by (apply Z.div_lt_upper_bound; lia). lia.
  - assert (90 <= a / 2 ^ 149) by (apply Z.div_le_lower_bound; lia). unfold exp_at.
    destruct (poly_range (fraction_of a) (fraction_range a)) as (f & -> & _). destruct entry_179 as [E1 E2].
    assert (I : Z.min (a / 2 ^ 149 + 88) 179 = 178 \/ Z.min (a / 2 ^ 149 + 88) 179 = 179) by lia.
    assert (E : fmul (Fin f) (Fin 0) = Fin 0) by (cbn [fmul]; rewrite Z.mul_0_r; reflexivity).
    destruct I as [-> | ->]; rewrite ?E1, ?E2; exact E.
Qed.
Print Assumptions C90_outside.

Example C90_e1 : f_finite 0xC2AE0000 /\ f_value 0xC2AE0000 = -87 * 2 ^ 149 /\ exp_f Plain (of_bits 0xC2AE0000) = Ret (of_bits 0x00B33687) /\
  exp_f Plain (of_bits 0x00000000) = Ret (of_bits 0x3F800000) /\ exp_f Plain (of_bits 0x3F800000) = Ret (of_bits 0x402DF854).
Proof. split; [split; [lia|vm_compute; discriminate]|]. vm_compute. auto. Qed.

(** ** C91: Log *)

(** Full statement: Log never decreases, and is infinite for infinity and not a number
    for NaN. False: 134217720, the float below 2^27, has a greater logarithm than 2^27;
    infinity and NaN have finite ones. *)
Theorem C91_refuted :
  (f_normal 0x4CFFFFFF /\ f_normal 0x4D000000 /\ f_value 0x4CFFFFFF < f_value 0x4D000000 /\
   exists a b, log_f 0x4CFFFFFF = Fin a /\ log_f 0x4D000000 = Fin b /\ b < a) /\
  (of_bits 0x7F800000 = Inf false /\ exists a, log_f 0x7F800000 = Fin a) /\
  (of_bits 0x7FC00000 = Nan /\ exists a, log_f 0x7FC00000 = Fin a).
Proof.
  split; [|split].
  - split; [split; [lia|vm_compute; auto]|]. split; [split; [lia|vm_compute; auto]|]. split; [vm_compute; reflexivity|].
    exists 13355452698703297112903119171923938664920383488, 13355451337573829429149265318425508937847537664.
    split; [vm_compute; reflexivity|]. split; [vm_compute; reflexivity|reflexivity].
  - split; [reflexivity|]. exists 63314733880207153067082566076682033159659847680. vm_compute. reflexivity.
  - split; [reflexivity|]. exists 63604082782447365461334742772873414305225113600. vm_compute. reflexivity.
Qed.
Print Assumptions C91_refuted.

(** It does not decrease between two powers of two. *)
Theorem C91_monotone_partial (x y : Z) : f_normal x -> f_normal y -> x <= y -> y < 2 ^ 31 -> f_exponent x = f_exponent y ->
  exists a b, log_f x = Fin a /\ log_f y = Fin b /\ a <= b.
Proof.
  intros Nx Ny H L E. destruct (normal_fields x Nx ltac:(lia)) as (E1 & j1 & -> & H1 & J1). destruct (normal_fields y Ny L) as (E2 & j2 & -> & H2 & J2).
  destruct (fields_of E1 j1 ltac:(lia) J1) as [X1 _]. destruct (fields_of E2 j2 ltac:(lia) J2) as [X2 _]. rewrite X1, X2 in E. subst E2.
  rewrite !log_model by lia. destruct (log_sle (E1 - 127) j1 j2) as (a & b & Ea & Eb & R); [lia|lia|lia|lia|]. exists a, b. repeat split; try assumption. lia.
Qed.
Print Assumptions C91_monotone_partial.

(** The signs. *)
Definition check_sign (E : Z) : bool :=
  if E <? 127 then match log_of (E - 127) (2 ^ 23 - 1) with Fin a => a <? 0 | _ => false end
  else match log_of (E - 127) (if E =? 127 then 1 else 0) with Fin a => 0 <? a | _ => false end.

(** The same with the functions of MathFast.v; [log_of] at the ends of a binade. *)
Definition log_of2 (e j : Z) : f32 :=
  fadd2 (if j =? 0 then first_tail else if j =? 2 ^ 23 - 1 then last_tail else tail2 (quotient2 j)) (fmul2 (of_int2 e) kl2).
Lemma log_of2_eq e j : log_of2 e j = log_of e j.
Proof.
  unfold log_of2, log_of. rewrite fadd2_eq, fmul2_eq, of_int2_eq. f_equal.
  destruct (Z.eqb_spec j 0) as [->|_]; [symmetry; apply first_tail_eq|].
  destruct (Z.eqb_spec j (2 ^ 23 - 1)) as [->|_]; [symmetry; apply last_tail_eq|]. now rewrite tail2_eq, quotient2_eq.
Qed.
Definition check_sign2 (E : Z) : bool :=
  if E <? 127 then match log_of2 (E - 127) (2 ^ 23 - 1) with Fin a => a <? 0 | _ => false end
  else match log_of2 (E - 127) (if E =? 127 then 1 else 0) with Fin a => 0 <? a | _ => false end.
Lemma check_sign2_eq E : check_sign2 E = check_sign E.
Proof. unfold check_sign2, check_sign. now rewrite !log_of2_eq. Qed.

Lemma check_signs2 : forallb (fun n => check_sign2 (Z.of_nat n)) (seq 1 254) = true.
Proof. vm_compute. reflexivity. Qed.

Lemma check_signs : forallb (fun n => check_sign (Z.of_nat n)) (seq 1 254) = true.
Proof. apply forallb_forall. intros n I. rewrite <- check_sign2_eq. exact (proj1 (forallb_forall _ _) check_signs2 n I). Qed.

#[local] Opaque check_sign.

Lemma sign_ok E : 1 <= E < 255 -> check_sign E = true.
Proof.
  intros H. assert (I : In (Z.to_nat E) (seq 1 254)) by (clear - H; apply in_seq; lia).
  pose proof (proj1 (forallb_forall _ _) check_signs _ I) as C. cbv beta in C. now rewrite Z2Nat.id in C by (clear C; lia).
Qed.

#[local] Transparent check_sign.

(** Log is negative for normal numbers below 1, zero for 1, and positive above. *)
Theorem C91_sign (x : Z) : f_normal x -> x < 2 ^ 31 -> exists a, log_f x = Fin a /\ (a < 0 <-> f_value x < 2 ^ 149) /\ (0 < a <-> 2 ^ 149 < f_value x).
Proof.
  intros N L. destruct (normal_fields x N L) as (E & j & -> & HE & Hj). pose proof (sign_ok E HE) as C. unfold check_sign in C.
  rewrite log_model by lia.
  assert (V : f_value (E * 2 ^ 23 + j) = (2 ^ 23 + j) * 2 ^ (E - 1)).
  { unfold f_value, f_sign. destruct (Z.leb_spec (2 ^ 31) (E * 2 ^ 23 + j)); [lia|]. apply units_of; lia. }
  rewrite V. clear V. destruct (Z.ltb_spec E 127) as [Lt|Ge].
  - destruct (log_sle (E - 127) j (2 ^ 23 - 1)) as (a & b & Ea & Eb & R); [lia|lia|lia|lia|]. rewrite Eb in C. apply Z.ltb_lt in C.
    exists a. split; [exact Ea|].
    assert ((2 ^ 23 + j) * 2 ^ (E - 1) < 2 ^ 149).
    { apply Z.lt_le_trans with (2 ^ 24 * 2 ^ (E - 1)); [apply Z.mul_lt_mono_pos_r; [apply pow2_pos|]; lia|]. rewrite <- Z.pow_add_r by lia. apply Z.pow_le_mono_r; lia. }
    lia.
  - destruct (Z.eq_dec E 127) as [->|Ne].
    + change (127 =? 127) with true in C. cbv iota in C. change (2 ^ (127 - 1)) with (2 ^ 126). destruct (Z.eq_dec j 0) as [->|Nj].
      * exists 0. split; [vm_compute; reflexivity|]. lia.
      * destruct (log_sle (127 - 127) 1 j) as (a & b & Ea & Eb & R); [lia|lia|lia|lia|]. rewrite Ea in C. apply Z.ltb_lt in C. exists b. split; [exact Eb|]. lia.
    + destruct (Z.eqb_spec E 127); [contradiction|].
      destruct (log_sle (E - 127) 0 j) as (a & b & Ea & Eb & R); [lia|lia|lia|lia|]. rewrite Ea in C. apply Z.ltb_lt in C. exists b. split; [exact Eb|].
      assert (2 ^ 149 < (2 ^ 23 + j) * 2 ^ (E - 1)).
      { apply Z.lt_le_trans with (2 ^ 23 * 2 ^ (E - 1)); [rewrite <- Z.pow_add_r by lia; apply Z.pow_lt_mono_r; lia|]. apply Z.mul_le_mono_nonneg_r; [apply Z.pow_nonneg|]; lia. }
      lia.
Qed.
Print Assumptions C91_sign.

(** Zero and negative numbers. *)
Theorem C91_special (x : Z) : 2 ^ 31 <= x < 2 ^ 32 -> log_f 0 = Inf true /\ log_f x = (if x =? 2 ^ 31 then Inf true else Nan).
Proof.
  intros H. split; [reflexivity|]. unfold log_f. cbv zeta. destruct (i32_cases x ltac:(lia)) as [[Q _]|[_ ->]]; [lia|].
  destruct (Z.ltb_spec 0 (x - 2 ^ 32)); [lia|]. unfold of_bits. cbv zeta. destruct (Z.leb_spec (2 ^ 31) x); [|lia].
  destruct (Z.eqb_spec x (2 ^ 31)) as [->|N]; [reflexivity|].
  destruct (exponent_field x =? 0xFF) eqn:E.
  - destruct (mantissa_field x =? 0); reflexivity.
  - rewrite units_spec. cbn [flt].
    assert (0 < f_units x).
    { destruct (f_bounds x) as [Be Bm]. unfold f_units. destruct (Z.eqb_spec (f_exponent x) 0) as [Z0|Z0].
      - unfold f_exponent, f_mantissa in *. destruct (Z.eq_dec (x mod 2 ^ 23) 0) as [M0|]; [|lia]. exfalso.
        pose proof (Z.div_mod x (2 ^ 23) ltac:(lia)). assert (D : x / 2 ^ 23 - 256 = (x / 2 ^ 23) mod 2 ^ 8).
        { replace (x / 2 ^ 23) with (x / 2 ^ 23 - 256 + 1 * 2 ^ 8) at 2 by lia. rewrite Z.mod_add by lia. symmetry. apply Z.mod_small.
          assert (256 <= x / 2 ^ 23) by (apply Z.div_le_lower_bound; lia). assert (x / 2 ^ 23 < 512) by (apply Z.div_lt_upper_bound; lia). lia. }
        lia.
      - pose proof (pow2_pos (f_exponent x - 1) ltac:(lia)). nia. }
    destruct (Z.ltb_spec (- f_units x) 0); [reflexivity|lia].
Qed.
Print Assumptions C91_special.

Example C91_e1 : f_normal 0x3F7FFFFF /\ log_f 0x3F7FFFFF = Fin (- 2 ^ 126) /\ log_f 0x402DF854 = Fin (2 ^ 149) /\ log_f 0xBF800000 = Nan.
Proof. split; [split; [lia|vm_compute; auto]|]. vm_compute. auto. Qed.
