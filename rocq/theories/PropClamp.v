(** * Properties of Fmin, Fmax, Clamp, Saturate and the signs (C112), and of FloorCeil, the
    one-sided floors and ceilings and Frac (C113). *)

From Verif Require Import Base TextModel NumModel StringModel SpecText FloatTextModel SpecFloatText SpecMath MathModel RoundProofs StrtodProofs FloatTextProofs FloatResult.
From Verif Require Import MathRound MathFast MathFloor MathExp ClampModel.

#[local] Arguments Z.pow : simpl never.

(** The order of the floats, infinities included; NaN is in no order. *)
Definition below (x y : f32) : Prop :=
  match x, y with
  | Nan, _ | _, Nan => False
  | Inf true, _ | _, Inf false => True
  | Fin a, Fin b => a <= b
  | Inf false, _ | _, Inf true => False
  end.
Definition ordered (x : f32) : Prop := x <> Nan.

Lemma flt_below x y : ordered x -> ordered y -> if flt x y then below x y /\ ~ below y x else below y x.
Proof.
  destruct x as [a|[|]|], y as [b|[|]|]; intros X Y; try (elim X; reflexivity); try (elim Y; reflexivity); cbn; try tauto.
  destruct (Z.ltb_spec a b); lia.
Qed.
Lemma below_trans x y z : below x y -> below y z -> below x z.
Proof. destruct x as [a|[|]|], y as [b|[|]|], z as [c|[|]|]; cbn; try tauto. lia. Qed.
Lemma below_refl x : ordered x -> below x x.
Proof. destruct x as [a|[|]|]; intros X; cbn; try exact I; [lia|now elim X]. Qed.
Lemma below_eq x y : below x y -> below y x -> x = y.
Proof. destruct x as [a|[|]|], y as [b|[|]|]; cbn; try tauto. intros. f_equal. lia. Qed.

(** Full statement: the builds agree. False: Saturate(NaN) is 1 without SIMD and 0 with it, Fmax(1, NaN)
    is 1 without and NaN with it; Fsgn(NaN) is 0 and 1; NonzeroFsgn(-0.0F) is 1 and -1. *)
Theorem C112_refuted (v : simd) : v <> Plain ->
  saturate_f Plain Nan = of_int 1 /\ saturate_f v Nan = Fin 0 /\
  fmax_f Plain (of_int 1) Nan = of_int 1 /\ fmax_f v (of_int 1) Nan = Nan /\
  fsgn_f Plain 0x7FC00000 = Fin 0 /\ fsgn_f v 0x7FC00000 = of_int 1 /\
  nonzero_fsgn_f Plain 0x80000000 = of_int 1 /\ nonzero_fsgn_f v 0x80000000 = of_int (-1).
Proof. destruct v; [intros N; now elim N| |]; intros _; repeat split; vm_compute; reflexivity. Qed.
Print Assumptions C112_refuted.

(** They agree where no argument is NaN. *)
Theorem C112_builds_partial (v : simd) (x y z w : f32) : ordered x -> ordered y -> ordered z -> ordered w ->
  fmin_f v x y = fmin_f Plain x y /\ fmax_f v x y = fmax_f Plain x y /\
  fmin4_f v x y z w = fmin4_f Plain x y z w /\ fmax4_f v x y z w = fmax4_f Plain x y z w /\
  clamp_f v x y z = clamp_f Plain x y z /\ saturate_f v x = saturate_f Plain x.
Proof.
  intros X Y Z W.
  assert (M : forall a b, ordered a -> ordered b -> max_ss a b = (if flt a b then b else a)).
  { intros a b A B. unfold max_ss. pose proof (flt_below a b A B) as P. pose proof (flt_below b a B A) as Q. destruct (flt a b), (flt b a); try tauto. now apply below_eq. }
  assert (S : forall a b, fmin_f v a b = fmin_f Plain a b) by (intros; destruct v; reflexivity).
  assert (T : forall a b, ordered a -> ordered b -> fmax_f v a b = fmax_f Plain a b) by (intros; destruct v; [reflexivity| |]; now apply M).
  assert (O : forall a b, ordered a -> ordered b -> ordered (fmax_f Plain a b)) by (intros a b A B; cbn; destruct (flt a b); assumption).
  assert (B1 : of_bits 0x3F800000 = of_int 1) by (vm_compute; reflexivity).
  repeat split; auto.
  - unfold fmin4_f. now rewrite !S.
  - unfold fmax4_f. rewrite (T x y X Y), (T z w Z W). apply T; auto.
  - destruct v; [reflexivity| |]; cbn [clamp_f]; rewrite (M x y X Y); reflexivity.
  - destruct v; [reflexivity| |]; cbn [saturate_f]; rewrite (M x (Fin 0) X) by discriminate; rewrite B1; reflexivity.
Qed.
Print Assumptions C112_builds_partial.

(** In all builds the results are the least and the greatest argument. *)
Theorem C112_least (v : simd) (x y z w : f32) : ordered x -> ordered y -> ordered z -> ordered w ->
  (let m := fmin_f v x y in (m = x \/ m = y) /\ below m x /\ below m y) /\
  (let m := fmax_f v x y in (m = x \/ m = y) /\ below x m /\ below y m) /\
  (let m := fmin3_f v x y z in (m = x \/ m = y \/ m = z) /\ below m x /\ below m y /\ below m z) /\
  (let m := fmax3_f v x y z in (m = x \/ m = y \/ m = z) /\ below x m /\ below y m /\ below z m) /\
  (let m := fmin4_f v x y z w in (m = x \/ m = y \/ m = z \/ m = w) /\ below m x /\ below m y /\ below m z /\ below m w) /\
  (let m := fmax4_f v x y z w in (m = x \/ m = y \/ m = z \/ m = w) /\ below x m /\ below y m /\ below z m /\ below w m).
Proof.
  intros X Y Z W.
  assert (MI : forall a b, ordered a -> ordered b -> ordered (fmin_f v a b) /\ (fmin_f v a b = a \/ fmin_f v a b = b) /\ below (fmin_f v a b) a /\ below (fmin_f v a b) b).
  { intros a b A B. pose proof (flt_below a b A B) as P. assert (E : fmin_f v a b = if flt a b then a else b) by (destruct v; reflexivity). rewrite E.
    destruct (flt a b); repeat split; auto using below_refl; tauto. }
  assert (MA : forall a b, ordered a -> ordered b -> ordered (fmax_f v a b) /\ (fmax_f v a b = a \/ fmax_f v a b = b) /\ below a (fmax_f v a b) /\ below b (fmax_f v a b)).
  { intros a b A B. pose proof (flt_below a b A B) as P. pose proof (flt_below b a B A) as Q.
    assert (E : fmax_f v a b = (if flt a b then b else a) \/ fmax_f v a b = (if flt b a then a else b)) by (destruct v; cbn; auto).
    destruct E as [-> | ->]; destruct (flt a b), (flt b a); repeat split; auto using below_refl; tauto. }
  unfold fmin3_f, fmax3_f, fmin4_f, fmax4_f. cbv zeta.
  destruct (MI x y X Y) as (Oxy & Exy & Bx & By). destruct (MI z w Z W) as (Ozw & Ezw & Bz & Bw). destruct (MI _ _ Oxy Z) as (_ & E3 & B3 & B3'). destruct (MI _ _ Oxy Ozw) as (_ & E4 & B4 & B4').
  destruct (MA x y X Y) as (Oxy' & Exy' & Bx' & By'). destruct (MA z w Z W) as (Ozw' & Ezw' & Bz' & Bw'). destruct (MA _ _ Oxy' Z) as (_ & E3' & C3 & C3'). destruct (MA _ _ Oxy' Ozw') as (_ & E4' & C4 & C4').
  repeat match goal with |- _ /\ _ => split end; try assumption; try solve [eauto 3 using below_trans].
  all: first [ solve [destruct E3 as [-> | ->]; [destruct Exy as [-> | ->]; auto|auto]]
    | solve [destruct E3' as [-> | ->]; [destruct Exy' as [-> | ->]; auto|auto]]
    | solve [destruct E4 as [-> | ->]; [destruct Exy as [-> | ->]; auto|destruct Ezw as [-> | ->]; auto]]
    | solve [destruct E4' as [-> | ->]; [destruct Exy' as [-> | ->]; auto|destruct Ezw' as [-> | ->]; auto]]
    | idtac ].
Qed.
Print Assumptions C112_least.

Theorem C112_zero (v : simd) (x : f32) : ordered x ->
  (let m := fmin_zero v x in (m = x \/ m = Fin 0) /\ below m x /\ below m (Fin 0)) /\
  (let m := fmax_zero v x in (m = x \/ m = Fin 0) /\ below x m /\ below (Fin 0) m).
Proof.
  intros X. assert (O : ordered (Fin 0)) by discriminate.
  replace (fmin_zero v x) with (fmin_f v x (Fin 0)) by (destruct v; reflexivity). replace (fmax_zero v x) with (fmax_f v x (Fin 0)) by (destruct v; reflexivity).
  destruct (C112_least v x (Fin 0) (Fin 0) (Fin 0) X O O O) as (A & B & _). split; assumption.
Qed.
Print Assumptions C112_zero.

(** Clamp is within its limits for every float, NaN included, and changes nothing that is; likewise
    Saturate. *)
Theorem C112_clamp (v : simd) (x y z : f32) : below y z ->
  below y (clamp_f v x y z) /\ below (clamp_f v x y z) z /\ (below y x -> below x z -> clamp_f v x y z = x) /\
  below (Fin 0) (saturate_f v x) /\ below (saturate_f v x) (of_int 1) /\ (below (Fin 0) x -> below x (of_int 1) -> saturate_f v x = x).
Proof.
  assert (G : forall y z, below y z -> below y (clamp_f v x y z) /\ below (clamp_f v x y z) z /\ (below y x -> below x z -> clamp_f v x y z = x)).
  { clear y z. intros y z H. assert (Y : ordered y) by (intros ->; destruct z; exact H). assert (Z : ordered z) by (intros ->; destruct y as [?|[|]|]; exact H).
    destruct x as [a|s|] eqn:Ex.
    3: { assert (F : forall b, flt Nan b = false) by reflexivity. assert (F' : forall b, flt b Nan = false) by (intros [b|[|]|]; reflexivity).
         destruct v; cbn [clamp_f]; unfold min_ss, max_ss; rewrite ?F, ?F'; (split; [|split; [|intros B; destruct y as [?|[|]|]; elim B]]).
         - exact H. - now apply below_refl.
         - destruct (flt y z); [now apply below_refl|exact H].
         - pose proof (flt_below y z Y Z) as P. destruct (flt y z); [tauto|now apply below_refl].
         - destruct (flt y z); [now apply below_refl|exact H].
         - pose proof (flt_below y z Y Z) as P. destruct (flt y z); [tauto|now apply below_refl]. }
    all: rewrite <- Ex in *; assert (X : ordered x) by (rewrite Ex; discriminate); clear Ex.
    all: assert (E : clamp_f v x y z = clamp_f Plain x y z) by (apply (C112_builds_partial v x y z z); assumption); rewrite E; cbn [clamp_f]; cbv zeta; clear E.
    all: pose proof (flt_below x y X Y) as P; pose proof (flt_below x z X Z) as Q; pose proof (flt_below y z Y Z) as R.
    all: destruct (flt x y); [destruct (flt y z)|destruct (flt x z)]; repeat split; intros; auto using below_refl; try tauto; try (apply below_eq; tauto). }
  intros H. destruct (G y z H) as (G1 & G2 & G3). split; [exact G1|]. split; [exact G2|]. split; [exact G3|].
  assert (S : saturate_f v x = clamp_f v x (Fin 0) (of_int 1)) by (assert (B1 : of_bits 0x3F800000 = of_int 1) by (vm_compute; reflexivity); destruct v; cbn [saturate_f clamp_f]; rewrite ?B1; reflexivity).
  rewrite S. apply (G (Fin 0) (of_int 1)). rewrite of_int_1. cbn. lia.
Qed.
Print Assumptions C112_clamp.

(** The signs of all floats but NaN and, for NonzeroFsgn, -0. *)
Theorem C112_signs_partial (v : simd) (bits : Z) : f_finite bits ->
  fsgn_f v bits = of_int (Z.sgn (f_value bits)) /\ (f_value bits <> 0 -> nonzero_fsgn_f v bits = of_int (Z.sgn (f_value bits))).
Proof.
  intros F. assert (L : Z.land 0x80000000 bits = if f_sign bits then 2 ^ 31 else 0).
  { destruct F as [F _]. unfold f_sign. change 0x80000000 with (2 ^ 31). apply Z.bits_inj'. intros n Hn. rewrite Z.land_spec, Z.pow2_bits_eqb by lia.
    destruct (Z.eqb_spec 31 n) as [<-|N]; cbn [andb].
    - destruct (Z.leb_spec (2 ^ 31) bits).
      + rewrite Z.pow2_bits_true by lia. apply Z.testbit_true; [lia|]. replace (bits / 2 ^ 31) with 1; [reflexivity|]. apply Z.div_unique with (bits - 2 ^ 31); lia.
      + rewrite Z.testbit_0_l. apply Z.testbit_false; [lia|]. now rewrite Z.div_small by lia.
    - destruct (2 ^ 31 <=? bits); [now rewrite Z.pow2_bits_false by lia|now rewrite Z.testbit_0_l]. }
  assert (B : of_bits (Z.lor 0x3F800000 (Z.land 0x80000000 bits)) = of_int (if f_sign bits then -1 else 1)) by (rewrite L; destruct (f_sign bits); vm_compute; reflexivity).
  assert (Sg : f_value bits <> 0 -> Z.sgn (f_value bits) = if f_sign bits then -1 else 1).
  { pose proof (proj2 (units_rep bits)) as U. unfold f_value. destruct (f_sign bits); intros N; [apply Z.sgn_neg|apply Z.sgn_pos]; lia. }
  unfold fsgn_f, nonzero_fsgn_f. rewrite B, (of_bits_value bits F). revert Sg. clear. generalize (f_value bits) (f_sign bits). intros a s Sg. cbn [flt].
  assert (P : (if a <? 0 then of_int (-1) else if 0 <? a then of_int 1 else Fin 0) = of_int (Z.sgn a)).
  { destruct (Z.ltb_spec a 0); [now rewrite Z.sgn_neg by lia|]. destruct (Z.ltb_spec 0 a); [now rewrite Z.sgn_pos by lia|]. replace a with 0 by lia. vm_compute. reflexivity. }
  split.
  - destruct (Z.eq_dec a 0) as [->|N]; [destruct v; vm_compute; reflexivity|]. destruct v; [exact P| |]; rewrite (Sg N); (destruct a; [now elim N|reflexivity|reflexivity]).
  - intros N. rewrite (Sg N). destruct v; [|reflexivity|reflexivity]. rewrite <- (Sg N), <- P. destruct (Z.ltb_spec a 0); [reflexivity|]. destruct (Z.ltb_spec 0 a); [reflexivity|lia].
Qed.
Print Assumptions C112_signs_partial.

Example C112_instance : ordered (Inf true) /\ below (of_int 1) (of_int 2) /\ clamp_f Sse2 Nan (of_int 1) (of_int 2) = of_int 1 /\ clamp_f Plain Nan (of_int 1) (of_int 2) = of_int 2 /\
  fmax4_f Sse4 (of_int 3) (Inf true) (of_int 7) (of_int 5) = of_int 7.
Proof. split; [discriminate|]. split; [rewrite !of_int_fin by lia; cbn; lia|]. repeat split; vm_compute; reflexivity. Qed.

(** ** C113: FloorCeil, one-sided floors and ceilings, Frac *)

(** Full statement: FloorCeil stores Floor and Ceil, the one-sided functions are Floor and Ceil on their
    side, and Frac is at least 0 and less than 1. False with SSE2 for 8388609 (FloorCeil) and -8388611 (NegativeFloor), and, in all builds, Frac
    of -2^-149 is 1. *)
Theorem C113_refuted :
  (exists a f, Fin a = of_bits 0x4B000001 /\ a = 8388609 * 2 ^ 149 /\ floor_f Sse2 (Fin a) = Fin a /\ fst (floor_ceil Sse2 (Fin a)) = Fin f /\ f < a) /\
  (exists a, 0 < a /\ floor_f Sse2 (Fin (- a)) = Fin (- a) /\ negative_floor Sse2 (Fin (- a)) <> Fin (- a)) /\
  (forall v, frac_f v (Fin (-1)) = of_int 1).
Proof.
  split; [|split].
  - exists (8388609 * 2 ^ 149). eexists. split; [vm_compute; reflexivity|]. split; [reflexivity|]. split; [vm_compute; reflexivity|]. split; [vm_compute; reflexivity|reflexivity].
  - exists (8388611 * 2 ^ 149). split; [reflexivity|]. split; [vm_compute; reflexivity|vm_compute; discriminate].
  - destruct v; vm_compute; reflexivity.
Qed.
Print Assumptions C113_refuted.

(** Up to 2^23 in magnitude all are the floor and the ceiling, in all builds; with SSE4 and without SIMD for all numbers. *)
Theorem C113_floor_ceil_partial (v : simd) (a : Z) : rep (Z.abs a) -> Z.abs a <= 2 ^ 23 * 2 ^ 149 \/ v <> Sse2 ->
  floor_ceil v (Fin a) = (Fin (a / 2 ^ 149 * 2 ^ 149), Fin (- (- a / 2 ^ 149) * 2 ^ 149)) /\
  (0 <= a -> positive_ceil v (Fin a) = Fin (- (- a / 2 ^ 149) * 2 ^ 149)) /\
  (a <= 0 -> negative_floor v (Fin a) = Fin (a / 2 ^ 149 * 2 ^ 149) /\ negative_ceil v (Fin a) = Fin (- (- a / 2 ^ 149) * 2 ^ 149)).
Proof.
  intros R [H|H].
  2: { destruct v; [| now elim H |]; unfold floor_ceil, positive_ceil, negative_floor, negative_ceil; rewrite (floor_fin _ a R), (ceil_fin _ a R); auto. }
  destruct v; [unfold floor_ceil, positive_ceil, negative_floor, negative_ceil; rewrite (floor_fin _ a R), (ceil_fin _ a R); auto| |unfold floor_ceil, positive_ceil, negative_floor, negative_ceil; rewrite (floor_fin _ a R), (ceil_fin _ a R); auto].
  assert (H' : Z.abs a <= 2 ^ 172) by lia.
  (* a number rounded to an integer, and the integers around it *)
  assert (Fl : forall m, 2 * Z.abs (m * 2 ^ 149 - a) <= 2 ^ 149 -> Z.abs m <= 2 ^ 23 ->
    fsub (Fin (m * 2 ^ 149)) (if flt (Fin a) (Fin (m * 2 ^ 149)) then of_int 1 else Fin 0) = Fin (a / 2 ^ 149 * 2 ^ 149) /\
    fadd (Fin (m * 2 ^ 149)) (if flt (Fin (m * 2 ^ 149)) (Fin a) then of_int 1 else Fin 0) = Fin (- (- a / 2 ^ 149) * 2 ^ 149)).
  { clear R H. intros m D B. rewrite of_int_1. cbn [flt]. split.
    - destruct (Z.ltb_spec a (m * 2 ^ 149)) as [L|L].
      + rewrite (fsub_fin _ _ 173) by lia. replace (m * 2 ^ 149 - 1 * 2 ^ 149) with ((m - 1) * 2 ^ 149) by lia. rewrite rnd_integer by lia. now rewrite (div_between a (m - 1)) by lia.
      + rewrite (fsub_fin _ _ 173) by lia. rewrite Z.sub_0_r, rnd_integer by lia. now rewrite (div_between a m) by lia.
    - destruct (Z.ltb_spec (m * 2 ^ 149) a) as [L|L].
      + rewrite (fadd_fin _ _ 173) by lia. replace (m * 2 ^ 149 + 1 * 2 ^ 149) with ((m + 1) * 2 ^ 149) by lia. rewrite rnd_integer by lia. rewrite (div_between (- a) (- m - 1)) by lia. f_equal. lia.
      + rewrite (fadd_fin _ _ 173) by lia. rewrite Z.add_0_r, rnd_integer by lia. rewrite (div_between (- a) (- m)) by lia. f_equal. lia. }
  split; [|split].
  - destruct (shaken_floor a H') as (r & E & F1 & _). destruct (shaken_ceil a H') as (r' & E' & F2 & _). unfold floor_ceil. rewrite E in E' |- *. injection E' as E'.
    cbv zeta. rewrite F1. rewrite E'. rewrite F2. reflexivity.
  - intros P. unfold positive_ceil. rewrite two23_fin. rewrite (fadd_fin _ _ 173) by lia.
    destruct (rnd_to_integer (a + 2 ^ 172) ltac:(lia)) as (m & -> & D & B). assert (2 ^ 23 <= m <= 2 ^ 24) by lia.
    rewrite (fsub_fin _ _ 173) by lia. replace (m * 2 ^ 149 - 2 ^ 172) with ((m - 2 ^ 23) * 2 ^ 149) by lia. rewrite rnd_integer by lia. apply Fl; lia.
  - intros P. unfold negative_floor, negative_ceil. rewrite two23_fin. rewrite (fsub_fin _ _ 173) by lia.
    destruct (rnd_to_integer (a - 2 ^ 172) ltac:(lia)) as (m & -> & D & B). assert (- 2 ^ 24 <= m <= - 2 ^ 23) by lia.
    rewrite (fadd_fin _ _ 173) by lia. replace (m * 2 ^ 149 + 2 ^ 172) with ((m + 2 ^ 23) * 2 ^ 149) by lia. rewrite rnd_integer by lia. apply Fl; lia.
Qed.
Print Assumptions C113_floor_ceil_partial.

(** Frac of every number is at least 0 and at most 1, in all builds the same, and 0 for integers; for numbers that are not negative it is less than 1. *)
Theorem C113_frac_partial (a : Z) : rep (Z.abs a) -> exists r, 0 <= r <= 2 ^ 149 /\ (forall v, frac_f v (Fin a) = Fin r) /\
  2 ^ 25 * Z.abs (r - a mod 2 ^ 149) <= 2 ^ 149 /\ (a mod 2 ^ 149 = 0 -> r = 0) /\ (0 <= a -> r = a mod 2 ^ 149).
Proof.
  intros R. pose proof (Z.div_mod a (2 ^ 149) ltac:(lia)) as D. pose proof (Z.mod_pos_bound a (2 ^ 149) ltac:(lia)) as M.
  assert (Q : a - a / 2 ^ 149 * 2 ^ 149 = a mod 2 ^ 149) by lia.
  exists (rnd (a mod 2 ^ 149) 1). set (f := a mod 2 ^ 149) in *.
  assert (W : 0 <= rnd f 1 <= 2 ^ 149).
  { split; [rewrite <- (rnd_exact 0 1 rep_0 ltac:(lia))|rewrite <- (rnd_exact (2 ^ 149) 1 (rep_pow 149 ltac:(lia)) ltac:(lia))]; apply rnd_mono; lia. }
  split; [exact W|]. split; [|split; [|split]].
  - intros v. unfold frac_f. rewrite (floor_fin v a R). rewrite (fsub_fin _ _ 150) by lia. now rewrite Q.
  - pose proof (rnd_error f 1 ltac:(lia)) as E.
    assert (G : gap (Z.abs f) 1 <= 125).
    { unfold gap. rewrite Z.div_1_r. apply Z.max_lub; [lia|]. destruct (Z.eq_dec f 0) as [->|N]; [change (Z.log2 (Z.abs 0)) with 0; lia|].
      assert (Z.log2 (Z.abs f) < 149) by (apply Z.log2_lt_pow2; lia). lia. }
    pose proof (Z.pow_le_mono_r 2 _ _ ltac:(lia) G) as P. revert E P. generalize (2 ^ gap (Z.abs f) 1). intros g E P. lia.
  - intros ->. apply (rnd_exact 0 1 rep_0). lia.
  - intros P. rewrite <- (Z.mul_1_r f) at 1. apply rnd_exact; [|lia]. rewrite Z.abs_eq in * by lia.
    (* the lower bits of a float are a float *)
    destruct R as (q & k & K & Qk & Ea). destruct (Z.le_gt_cases 149 k) as [L|L].
    + replace f with 0; [exact rep_0|]. unfold f. rewrite Ea. replace k with (k - 149 + 149) by lia. rewrite Z.pow_add_r, Z.mul_assoc by lia. symmetry. apply Z.mod_mul. lia.
    + exists (q mod 2 ^ (149 - k)), k. pose proof (Z.pow_pos_nonneg 2 (149 - k) ltac:(lia) ltac:(lia)) as P1. pose proof (Z.mod_pos_bound q (2 ^ (149 - k)) P1) as B1.
      split; [lia|]. split; [pose proof (Z.mod_le q (2 ^ (149 - k)) ltac:(lia) P1); lia|].
      unfold f. rewrite Ea. replace 149 with (149 - k + k) at 1 by lia. rewrite Z.pow_add_r by lia. rewrite Z.mul_mod_distr_r by (try apply Z.pow_nonzero; lia). reflexivity.
Qed.
Print Assumptions C113_frac_partial.

(** -2.75, whose fraction is a quarter. *)
Example C113_instance : rep (Z.abs (-11 * 2 ^ 147)) /\ Z.abs (-11 * 2 ^ 147) <= 2 ^ 23 * 2 ^ 149 /\
  floor_ceil Sse2 (Fin (-11 * 2 ^ 147)) = (Fin (-3 * 2 ^ 149), Fin (-2 * 2 ^ 149)) /\ frac_f Sse2 (Fin (-11 * 2 ^ 147)) = Fin (2 ^ 147).
Proof. split; [apply rep_small; lia|]. split; [vm_compute; discriminate|]. split; vm_compute; reflexivity. Qed.
