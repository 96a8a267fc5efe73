(** * Log is monotone within a binade, and the power of ten FloatToString takes from it. *)

From Verif Require Import Base TextModel NumModel StringModel SpecText FloatTextModel SpecFloatText MathModel RoundProofs StrtodProofs FloatTextProofs FloatResult.
From Verif Require Import MathRound MathFast MathFloor.

#[local] Arguments Z.pow : simpl never.

(** ** Constants *)

Definition k13 := Eval vm_compute in ratio 1 13.
Definition k11 := Eval vm_compute in ratio 1 11.
Definition k9 := Eval vm_compute in ratio 1 9.
Definition k7 := Eval vm_compute in ratio 1 7.
Definition k5 := Eval vm_compute in ratio 1 5.
Definition k3 := Eval vm_compute in ratio 1 3.
Definition k2 := Eval vm_compute in of_int 2.
Definition k1 := Eval vm_compute in of_int 1.
Definition kl2 := Eval vm_compute in ln_2.
Definition kl10 := Eval vm_compute in ln_10.
Definition ko10 := Eval vm_compute in one_over_ln_10.

Lemma constants : ratio 1 13 = k13 /\ ratio 1 11 = k11 /\ ratio 1 9 = k9 /\ ratio 1 7 = k7 /\ ratio 1 5 = k5 /\ ratio 1 3 = k3 /\
  of_int 2 = k2 /\ of_int 1 = k1 /\ ln_2 = kl2 /\ ln_10 = kl10 /\ one_over_ln_10 = ko10.
Proof. repeat split; vm_compute; reflexivity. Qed.

Definition tail (y : f32) : f32 :=
  let z := fmul y y in
  fmul (horner z (horner z (horner z (horner z (horner z (horner z k13 k11) k9) k7) k5) k3) k1) (fmul y k2).

Lemma tail_eq y : log_tail y = tail y.
Proof.
  destruct constants as (E1 & E2 & E3 & E4 & E5 & E6 & E7 & E8 & _). unfold log_tail, tail. cbv zeta.
  now rewrite E1, E2, E3, E4, E5, E6, E7, E8.
Qed.

(** The logarithm of (1 + j * 2^-23) * 2^e. *)
Definition quotient (j : Z) : f32 := fdiv (fsub (Fin (2 ^ 149 + j * 2 ^ 126)) k1) (fadd (Fin (2 ^ 149 + j * 2 ^ 126)) k1).
Definition log_of (e j : Z) : f32 := fadd (tail (quotient j)) (fmul (of_int e) kl2).
Definition pos (e j : Z) : f32 := fmul (log_of e j) ko10.

(** ** Order *)

Ltac const := eexists; eexists; (split; [reflexivity|]); (split; [reflexivity|]); split; [|split]; apply Z.leb_le; vm_compute; reflexivity.

Lemma horner_nle p q r r' z z' c : 0 <= p -> 0 <= q -> 149 <= p + q < 400 -> nle p r r' -> nle q z z' -> nle 149 c c ->
  nle (1 + Z.max (p + q - 149) 149) (horner z r c) (horner z' r' c).
Proof. intros Hp Hq H R S C. unfold horner. apply fadd_nle; [lia|lia|lia| |exact C]. apply fmul_nle; [lia|lia|lia|assumption..]. Qed.

Lemma tail_nle y y' : nle 149 y y' -> nle 160 (tail y) (tail y').
Proof.
  intros H. unfold tail. cbv zeta.
  assert (Z2 : nle 149 (fmul y y) (fmul y' y')) by (apply (fmul_nle 149 149); [lia|lia|lia|assumption..]).
  assert (H1 : nle 150 (horner (fmul y y) k13 k11) (horner (fmul y' y') k13 k11)) by (apply (horner_nle 149 149); [lia|lia|lia|const|assumption|const]).
  set (r1 := horner (fmul y y) k13 k11) in *. set (r1' := horner (fmul y' y') k13 k11) in *.
  assert (H2 : nle 151 (horner (fmul y y) r1 k9) (horner (fmul y' y') r1' k9)) by (apply (horner_nle 150 149); [lia|lia|lia|assumption|assumption|const]).
  set (r2 := horner (fmul y y) r1 k9) in *. set (r2' := horner (fmul y' y') r1' k9) in *.
  assert (H3 : nle 152 (horner (fmul y y) r2 k7) (horner (fmul y' y') r2' k7)) by (apply (horner_nle 151 149); [lia|lia|lia|assumption|assumption|const]).
  set (r3 := horner (fmul y y) r2 k7) in *. set (r3' := horner (fmul y' y') r2' k7) in *.
  assert (H4 : nle 153 (horner (fmul y y) r3 k5) (horner (fmul y' y') r3' k5)) by (apply (horner_nle 152 149); [lia|lia|lia|assumption|assumption|const]).
  set (r4 := horner (fmul y y) r3 k5) in *. set (r4' := horner (fmul y' y') r3' k5) in *.
  assert (H5 : nle 154 (horner (fmul y y) r4 k3) (horner (fmul y' y') r4' k3)) by (apply (horner_nle 153 149); [lia|lia|lia|assumption|assumption|const]).
  set (r5 := horner (fmul y y) r4 k3) in *. set (r5' := horner (fmul y' y') r4' k3) in *.
  assert (H6 : nle 155 (horner (fmul y y) r5 k1) (horner (fmul y' y') r5' k1)) by (apply (horner_nle 154 149); [lia|lia|lia|assumption|assumption|const]).
  assert (H7 : nle 150 (fmul y k2) (fmul y' k2)) by (apply (fmul_nle 149 150); [lia|lia|lia|assumption|const]).
  apply (nle_weak 156); [lia|]. apply (fmul_nle 155 150); [lia|lia|lia|assumption..].
Qed.

(** The quotient (f - 1) / (f + 1), where f + 1 is rounded to [h] * 2^-22. *)
Lemma quotient_form j : 0 <= j < 2 ^ 23 -> exists h, 2 ^ 24 + j - 1 <= 2 * h <= 2 ^ 24 + j + 1 /\
  h = div_half_even (2 ^ 24 + j) 2 /\ quotient j = fround (j * 2 ^ 126 * 2 ^ 149) (h * 2 ^ 127).
Proof.
  intros Hj. exists (div_half_even (2 ^ 24 + j) 2).
  assert (B : 2 ^ 24 + j - 1 <= 2 * div_half_even (2 ^ 24 + j) 2 <= 2 ^ 24 + j + 1).
  { destruct (div_half_even_spec (2 ^ 24 + j) 2 ltac:(lia)) as [S _]. lia. }
  split; [exact B|]. split; [reflexivity|].
  unfold quotient. change k1 with (Fin (1 * 2 ^ 149)). rewrite (fsub_fin _ _ 150) by lia. rewrite (fadd_fin _ _ 151) by lia.
  replace (2 ^ 149 + j * 2 ^ 126 - 1 * 2 ^ 149) with (j * 2 ^ 126 * 1) by lia. rewrite rnd_exact by (try (apply rep_small); lia).
  replace (2 ^ 149 + j * 2 ^ 126 + 1 * 2 ^ 149) with ((2 ^ 24 + j) * 2 ^ 126) by lia.
  assert (E : rnd ((2 ^ 24 + j) * 2 ^ 126) 1 = div_half_even (2 ^ 24 + j) 2 * 2 ^ 127).
  { rewrite rnd_nonneg by lia. rewrite round_unfold.
    assert (G : gap ((2 ^ 24 + j) * 2 ^ 126) 1 = 127).
    { unfold gap. rewrite Z.div_1_r, Z.log2_mul_pow2 by lia. rewrite (Z.log2_unique (2 ^ 24 + j) 24) by lia. reflexivity. }
    rewrite G. f_equal. destruct (div_half_even_spec (2 ^ 24 + j) 2 ltac:(lia)) as [S1 S2].
    apply Z.le_antisymm; apply half_even_mono; lia. }
  rewrite E. unfold fdiv. set (h := div_half_even (2 ^ 24 + j) 2) in *.
  destruct (Z.eqb_spec (h * 2 ^ 127) 0) as [Q|Q]; [lia|]. rewrite Z.sgn_pos, Z.abs_eq by lia. now rewrite Z.mul_1_r.
Qed.

Lemma quotient_nle j j' : 0 <= j -> j <= j' -> j' < 2 ^ 23 -> nle 149 (quotient j) (quotient j').
Proof.
  intros H0 H H1. destruct (quotient_form j ltac:(lia)) as (h & B & Eh & ->). destruct (quotient_form j' ltac:(lia)) as (h' & B' & Eh' & ->).
  assert (D : h' - h <= j' - j).
  { destruct (Z.eq_dec j j') as [<-|N]; [lia|]. lia. }
  apply fround_nle; [lia|lia|lia| |lia|lia].
  assert (j * h' <= j' * h).
  { assert (j * (h' - h) <= (j' - j) * h); [|lia]. transitivity (j * (j' - j)); [apply Z.mul_le_mono_nonneg_l; lia|]. rewrite Z.mul_comm. apply Z.mul_le_mono_nonneg_l; lia. }
  lia.
Qed.

Lemma exponent_sle e : Z.abs e <= 128 -> sle 156 (fmul (of_int e) kl2) (fmul (of_int e) kl2).
Proof.
  intros H. rewrite of_int_fin by lia. apply (fmul_sle 156 149); [lia|lia|lia| |const].
  exists (e * 2 ^ 149), (e * 2 ^ 149). repeat split; lia.
Qed.

(** Log is monotone between two powers of two. *)
Lemma log_sle e j j' : Z.abs e <= 128 -> 0 <= j -> j <= j' -> j' < 2 ^ 23 -> sle 161 (log_of e j) (log_of e j').
Proof.
  intros He H0 H H1. unfold log_of. apply (fadd_sle 160 156); [lia|lia|lia| |now apply exponent_sle].
  apply nle_sle, tail_nle. now apply quotient_nle.
Qed.

Lemma pos_sle e j j' : Z.abs e <= 128 -> 0 <= j -> j <= j' -> j' < 2 ^ 23 -> sle 161 (pos e j) (pos e j').
Proof. intros He H0 H H1. unfold pos. apply (fmul_sle 161 149); [lia|lia|lia|now apply log_sle|const]. Qed.

(** ** The model in these terms *)

Lemma land_low b E j : b = E * 2 ^ 23 + j -> 0 <= j < 2 ^ 23 -> Z.land b 0x007FFFFF = j.
Proof.
  intros -> H. change 0x007FFFFF with (Z.ones 23). rewrite Z.land_ones by lia. rewrite Z.add_comm, Z.mod_add by lia. now apply Z.mod_small.
Qed.

Lemma lor_high a x k : 0 <= k -> 0 <= x < 2 ^ k -> Z.lor x (a * 2 ^ k) = a * 2 ^ k + x.
Proof.
  intros Hk Hx. rewrite Z.lor_comm. assert (N : Z.land (a * 2 ^ k) x = 0).
  { apply Z.bits_inj'. intros i Hi. rewrite Z.land_spec, Z.bits_0. destruct (Z.lt_ge_cases i k) as [L|L].
    - rewrite Z.mul_pow2_bits_low by lia. reflexivity.
    - rewrite <- (Z.mod_small x (2 ^ k)) by lia. rewrite Z.mod_pow2_bits_high by lia. apply andb_false_r. }
  rewrite <- Z.lxor_lor by exact N. symmetry. now apply Z.add_nocarry_lxor.
Qed.

Lemma of_bits_spec b : 0 <= b < 2 ^ 31 -> f_exponent b <> 255 -> of_bits b = Fin (f_units b).
Proof.
  intros H N. unfold of_bits. rewrite units_spec, field_e. fold (f_exponent b). cbv zeta.
  destruct (Z.leb_spec (2 ^ 31) b); [lia|]. destruct (Z.eqb_spec (f_exponent b) 0xFF); [lia|reflexivity].
Qed.

Lemma fields_of E j : 0 <= E < 256 -> 0 <= j < 2 ^ 23 -> f_exponent (E * 2 ^ 23 + j) = E /\ f_mantissa (E * 2 ^ 23 + j) = j.
Proof.
  intros HE Hj. unfold f_exponent, f_mantissa. rewrite Z.add_comm, Z.div_add, Z.mod_add, Z.div_small by lia.
  rewrite !Z.mod_small by lia. auto.
Qed.

Lemma units_of E j : 1 <= E < 256 -> 0 <= j < 2 ^ 23 -> f_units (E * 2 ^ 23 + j) = (2 ^ 23 + j) * 2 ^ (E - 1).
Proof. intros HE Hj. unfold f_units. destruct (fields_of E j ltac:(lia) Hj) as [-> ->]. destruct (Z.eqb_spec E 0); [lia|reflexivity]. Qed.

Lemma log_model E j : 1 <= E < 256 -> 0 <= j < 2 ^ 23 -> log_f (E * 2 ^ 23 + j) = log_of (E - 127) j.
Proof.
  intros HE Hj. unfold log_f. destruct (i32_cases (E * 2 ^ 23 + j) ltac:(lia)) as [[_ ->]|[Q _]]; [|lia].
  destruct (Z.ltb_spec 0 (E * 2 ^ 23 + j)); [|lia].
  rewrite Z.shiftr_div_pow2 by lia. rewrite (land_low _ E j eq_refl Hj).
  replace ((E * 2 ^ 23 + j) / 2 ^ 23) with E by (rewrite Z.add_comm, Z.div_add, Z.div_small by lia; lia).
  change 0x3F800000 with (127 * 2 ^ 23). rewrite lor_high by lia. destruct (fields_of 127 j ltac:(lia) Hj) as [F1 _].
  rewrite of_bits_spec by lia. rewrite units_of by lia. unfold log_quotient, log_of, quotient.
  replace ((2 ^ 23 + j) * 2 ^ (127 - 1)) with (2 ^ 149 + j * 2 ^ 126) by (change (127 - 1) with 126; lia).
  destruct constants as (_ & _ & _ & _ & _ & _ & _ & E8 & E9 & _). now rewrite tail_eq, E8, E9.
Qed.

(** The whole part of a finite number, as the exponent of ten. *)
Definition whole (x : f32) : Z := match x with Fin a => a / 2 ^ 149 | _ => 0 end.

Lemma decade_model v E j : 1 <= E < 256 -> 0 <= j < 2 ^ 23 -> decade v (E * 2 ^ 23 + j) = Fin (whole (pos (E - 127) j) * 2 ^ 149).
Proof.
  intros HE Hj. unfold decade. rewrite log_model by assumption. destruct constants as (_ & _ & _ & _ & _ & _ & _ & _ & _ & _ & E11). rewrite E11.
  fold (pos (E - 127) j). destruct (pos_sle (E - 127) j j) as (a & b & Ea & _ & R); [lia..|]. rewrite Ea.
  rewrite floor_small; [reflexivity|]. pose proof (Z.pow_le_mono_r 2 161 172). lia.
Qed.

Lemma whole_mono e j j' : Z.abs e <= 128 -> 0 <= j -> j <= j' -> j' < 2 ^ 23 -> whole (pos e j) <= whole (pos e j').
Proof.
  intros He H0 H H1. destruct (pos_sle e j j' He H0 H H1) as (a & b & -> & -> & _ & L & _). cbn [whole]. apply Z.div_le_mono; lia.
Qed.

(** ** The decades *)

(** The first float in a binade with a new power of ten: exponent field, mantissa and
    power. The 76 rows are checked below; other binades have one power only. *)
Definition steps : list (Z * Z * Z) :=
  [
   (4, 531657, (-37)); (7, 2761733, (-36)); (10, 5549333, (-35)); (14, 322560, (-34)); (17, 2500445, (-33)); (20, 5222617, (-32));
   (24, 118429, (-31)); (27, 2245198, (-30)); (30, 4903662, (-29)); (33, 8226745, (-28)); (37, 1995994, (-27)); (40, 4592156, (-26));
   (43, 7837364, (-25)); (47, 1752572, (-24)); (50, 4287879, (-23)); (53, 7457017, (-22)); (57, 1514893, (-21)); (60, 3990781, (-20));
   (63, 7085642, (-19)); (67, 1282785, (-18)); (70, 3700600, (-17)); (73, 6722916, (-16)); (77, 1056117, (-15)); (80, 3417310, (-14));
   (83, 6368789, (-13)); (87, 834753, (-12)); (90, 3140605, (-11)); (93, 6022922, (-10)); (97, 618585, (-9)); (100, 2870373, (-8));
   (103, 5685132, (-7)); (107, 407480, (-6)); (110, 2606513, (-5)); (113, 5355280, (-4)); (117, 201324, (-3)); (120, 2348808, (-2));
   (123, 5033163, (-1)); (130, 2097152, 1); (133, 4718590, 2); (136, 7995381, 3); (140, 1851384, 4); (143, 4411382, 5);
   (146, 7611379, 6); (150, 1611385, 7); (153, 4111371, 8); (156, 7236352, 9); (160, 1376997, 10); (163, 3818410, 11);
   (166, 6870149, 12); (170, 1148121, 13); (173, 3532303, 14); (176, 6512546, 15); (180, 924600, 16); (183, 3252869, 17);
   (186, 6163252, 18); (190, 706292, 19); (193, 2980028, 20); (196, 5822201, 21); (200, 493169, 22); (203, 2713624, 23);
   (206, 5489089, 24); (210, 284974, 25); (213, 2453380, 26); (216, 5163891, 27); (220, 81708, 28); (223, 2199297, 29);
   (226, 4846185, 30); (229, 8154900, 31); (233, 1951109, 32); (236, 4536052, 33); (239, 7767109, 34); (243, 1708739, 35);
   (246, 4233089, 36); (249, 7388528, 37); (253, 1472051, 38)
  ].

Definition step_of (E : Z) : option (Z * Z) :=
  match find (fun s => fst (fst s) =? E) steps with Some (_, j, D) => Some (j, D) | None => None end.

(** [pos] at the ends of a binade, with the parts that are the same in all of them. *)
Definition first_tail := Eval vm_compute in tail (quotient 0).
Definition last_tail := Eval vm_compute in tail (quotient (2 ^ 23 - 1)).
Definition ends (t : f32) (e : Z) : f32 := fmul (fadd t (fmul (of_int e) kl2)) ko10.

Lemma first_tail_eq : tail (quotient 0) = first_tail.
Proof. vm_compute. reflexivity. Qed.
Lemma last_tail_eq : tail (quotient (2 ^ 23 - 1)) = last_tail.
Proof. vm_compute. reflexivity. Qed.

Lemma ends_first e : pos e 0 = ends first_tail e.
Proof. unfold pos, log_of, ends. rewrite first_tail_eq. reflexivity. Qed.
Lemma ends_last e : pos e (2 ^ 23 - 1) = ends last_tail e.
Proof. unfold pos, log_of, ends. rewrite last_tail_eq. reflexivity. Qed.

(** [u] units are between 10^D and 10^(D+1), up to a factor of 1 - 2^-16 or 1 + 2^-16. *)
Definition tens (D : Z) : Z * Z := (10 ^ Z.max 0 D, 10 ^ Z.max 0 (- D)).
Definition above (D u : Z) : bool := let (P, Q) := tens D in P * 2 ^ 149 * (2 ^ 16 - 1) <=? u * Q * 2 ^ 16.
Definition below (D u : Z) : bool := let (P, Q) := tens D in u * Q * 2 ^ 16 <=? 10 * P * 2 ^ 149 * (2 ^ 16 + 1).

Definition check_binade (E : Z) : bool :=
  let D0 := whole (ends first_tail (E - 127)) in
  let D1 := whole (ends last_tail (E - 127)) in
  above D0 (2 ^ 23 * 2 ^ (E - 1)) && below D1 ((2 ^ 24 - 1) * 2 ^ (E - 1)) && (-38 <=? D0) && (D1 <=? 38) &&
  ((4 <=? E) || (D1 =? -38)) && ((E <=? 4) || (-37 <=? D0)) &&
  match step_of E with
  | None => D0 =? D1
  | Some (j, D) =>
      (D =? D1) && (D0 =? D - 1) && (0 <? j) && (j <? 2 ^ 23) &&
      (whole (pos (E - 127) j) =? D) && (whole (pos (E - 127) (j - 1)) =? D - 1) &&
      above D ((2 ^ 23 + j) * 2 ^ (E - 1)) && below (D - 1) ((2 ^ 23 + j - 1) * 2 ^ (E - 1))
  end.

(** The same checks with the functions of MathFast.v. *)
Definition quotient2 (j : Z) : f32 :=
  if (0 <=? j) && (j <? 2 ^ 23) then fround (j * 2 ^ 148) (half2 (2 ^ 24 + j) 1) else quotient j.
Definition tail2 (y : f32) : f32 :=
  let z := fmul2 y y in
  fmul2 (horner2 z (horner2 z (horner2 z (horner2 z (horner2 z (horner2 z k13 k11) k9) k7) k5) k3) k1) (fmul2 y k2).
Definition ends2 (t : f32) (e : Z) : f32 := fmul2 (fadd2 t (fmul2 (of_int2 e) kl2)) ko10.
Definition whole2 (x : f32) : Z := match x with Fin a => Z.shiftr a 149 | _ => 0 end.
Definition check_binade2 (E : Z) : bool :=
  let D0 := whole2 (ends2 first_tail (E - 127)) in
  let D1 := whole2 (ends2 last_tail (E - 127)) in
  above D0 (2 ^ 23 * 2 ^ (E - 1)) && below D1 ((2 ^ 24 - 1) * 2 ^ (E - 1)) && (-38 <=? D0) && (D1 <=? 38) &&
  ((4 <=? E) || (D1 =? -38)) && ((E <=? 4) || (-37 <=? D0)) &&
  match step_of E with
  | None => D0 =? D1
  | Some (j, D) =>
      (D =? D1) && (D0 =? D - 1) && (0 <? j) && (j <? 2 ^ 23) &&
      (whole2 (ends2 (tail2 (quotient2 j)) (E - 127)) =? D) && (whole2 (ends2 (tail2 (quotient2 (j - 1))) (E - 127)) =? D - 1) &&
      above D ((2 ^ 23 + j) * 2 ^ (E - 1)) && below (D - 1) ((2 ^ 23 + j - 1) * 2 ^ (E - 1))
  end.

Lemma quotient2_eq j : quotient2 j = quotient j.
Proof.
  unfold quotient2. destruct (Z.leb_spec 0 j); [|reflexivity]. destruct (Z.ltb_spec j (2 ^ 23)); [|reflexivity]. cbn [andb].
  destruct (quotient_form j ltac:(lia)) as (h & B & Eh & ->). rewrite (half2_eq _ 1) by lia. change (2 ^ 1) with 2. rewrite <- Eh.
  replace (j * 2 ^ 126 * 2 ^ 149) with (j * 2 ^ 148 * 2 ^ 127) by (rewrite <- !Z.mul_assoc, <- !Z.pow_add_r by lia; reflexivity).
  symmetry. apply fround_cancel; [lia|apply pow2_pos; lia].
Qed.
Lemma tail2_eq y : tail2 y = tail y.
Proof. unfold tail2, tail. cbv zeta. now rewrite !horner2_eq, !fmul2_eq. Qed.
Lemma ends2_eq t e : ends2 t e = ends t e.
Proof. unfold ends2, ends. now rewrite !fmul2_eq, fadd2_eq, of_int2_eq. Qed.
Lemma whole2_eq x : whole2 x = whole x.
Proof. destruct x; try reflexivity. cbn [whole whole2]. now rewrite Z.shiftr_div_pow2. Qed.
Lemma check_binade2_eq E : check_binade2 E = check_binade E.
Proof.
  unfold check_binade2, check_binade. cbv zeta. rewrite !whole2_eq, !ends2_eq. destruct (step_of E) as [[j D]|]; [|reflexivity].
  rewrite !whole2_eq, !ends2_eq, !tail2_eq, !quotient2_eq. unfold pos, log_of, ends. reflexivity.
Qed.

Lemma check_all_ok2 : forallb (fun n => check_binade2 (Z.of_nat n)) (seq 1 254) = true.
Proof. vm_compute. reflexivity. Qed.

Lemma check_all_ok : forallb (fun n => check_binade (Z.of_nat n)) (seq 1 254) = true.
Proof.
  apply forallb_forall. intros n I. rewrite <- check_binade2_eq. exact (proj1 (forallb_forall _ _) check_all_ok2 n I).
Qed.
