(** * Floor and Ceil, MathModel. *)

From Verif Require Import Base TextModel NumModel FloatTextModel MathModel RoundProofs MathRound.

#[local] Arguments Z.pow : simpl never.

Lemma of_int_fin n : Z.abs n <= 2 ^ 24 -> of_int n = Fin (n * 2 ^ 149).
Proof. intros H. unfold of_int. apply fround_exact; lia. Qed.

Lemma two23_fin : two23 = Fin (2 ^ 172).
Proof. unfold two23. rewrite of_int_fin by lia. f_equal. Qed.

Lemma fsub_fin a b p : 0 <= p < 277 -> - (2 ^ p) <= a - b <= 2 ^ p -> fsub (Fin a) (Fin b) = Fin (rnd (a - b) 1).
Proof. intros Hp H. unfold fsub, fneg, fadd. apply (fround_fin _ _ p); lia. Qed.
Lemma fadd_fin a b p : 0 <= p < 277 -> - (2 ^ p) <= a + b <= 2 ^ p -> fadd (Fin a) (Fin b) = Fin (rnd (a + b) 1).
Proof. intros Hp H. unfold fadd. apply (fround_fin _ _ p); lia. Qed.

(** An integer of at most 24 bits is a float. *)
Lemma rnd_integer m : Z.abs m <= 2 ^ 24 -> rnd (m * 2 ^ 149) 1 = m * 2 ^ 149.
Proof. intros H. rewrite <- (Z.mul_1_r (m * 2 ^ 149)) at 1. apply rnd_exact; [apply rep_small; lia|lia]. Qed.

(** Between 2^23 and 2^24 all floats are integers. *)
Lemma rnd_to_integer n : 2 ^ 172 <= Z.abs n <= 2 ^ 173 -> exists m, rnd n 1 = m * 2 ^ 149 /\ 2 * Z.abs (m * 2 ^ 149 - n) <= 2 ^ 149 /\ 2 ^ 23 <= Z.abs m <= 2 ^ 24.
Proof.
  intros H. destruct (Z.eq_dec (Z.abs n) (2 ^ 173)) as [E|N].
  - exists (Z.sgn n * 2 ^ 24). assert (En : n = Z.sgn n * 2 ^ 24 * 2 ^ 149) by (rewrite <- (Z.sgn_abs n) in E; lia).
    assert (Sg : Z.sgn n = 1 \/ Z.sgn n = -1) by lia.
    split; [rewrite En at 1; apply rnd_integer; lia|]. split; lia.
  - assert (G : gap (Z.abs n) 1 = 149).
    { unfold gap. rewrite Z.div_1_r. rewrite (Z.log2_unique (Z.abs n) 172); lia. }
    pose proof (rnd_error n 1 ltac:(lia)) as E. rewrite G in E. unfold rnd in *. rewrite round_unfold, G in *.
    set (q := div_half_even (Z.abs n) (1 * 2 ^ 149)) in *. exists (Z.sgn n * q). split; [ring|]. split; [lia|].
    pose proof (half_even_le (Z.abs n) (1 * 2 ^ 149) (2 ^ 23)) as L. pose proof (half_even_ge (Z.abs n) (1 * 2 ^ 149) (2 ^ 24)) as U. fold q in L, U.
    assert (Sg : Z.sgn n = 1 \/ Z.sgn n = -1) by lia. lia.
Qed.

(** Below 2^23 the error is at most a quarter. *)
Lemma rnd_quarter n : Z.abs n <= 2 ^ 172 -> 4 * Z.abs (rnd n 1 - n) <= 2 ^ 149.
Proof.
  intros H. destruct (Z.eq_dec (Z.abs n) (2 ^ 172)) as [E|N].
  - assert (En : n = Z.sgn n * 2 ^ 23 * 2 ^ 149) by (rewrite <- (Z.sgn_abs n) in E; lia).
    rewrite En. rewrite rnd_integer by lia. lia.
  - pose proof (rnd_error n 1 ltac:(lia)) as E. rewrite Z.mul_1_r, Z.mul_1_l in E.
    assert (G : gap (Z.abs n) 1 <= 148).
    { unfold gap. rewrite Z.div_1_r. destruct (Z.eq_dec n 0) as [->|N0]; [simpl; lia|].
      assert (Z.log2 (Z.abs n) < 172) by (apply Z.log2_lt_pow2; lia). lia. }
    pose proof (Z.pow_le_mono_r 2 _ _ ltac:(lia) G). lia.
Qed.

Lemma shake_ok a : Z.abs a <= 2 ^ 172 -> exists r, shake (Fin a) = Fin (r * 2 ^ 149) /\
  Z.abs (r * 2 ^ 149 - a) <= 2 ^ 149 /\ (forall m, a = m * 2 ^ 149 -> r = m) /\ Z.abs r <= 2 ^ 23.
Proof.
  intros H. unfold shake. rewrite two23_fin.
  assert (Mult : forall m, a = m * 2 ^ 149 -> shake (Fin a) = Fin (m * 2 ^ 149) /\ Z.abs m <= 2 ^ 23).
  { intros m E. assert (Hm : Z.abs m <= 2 ^ 23) by lia. split; [|exact Hm]. unfold shake. rewrite two23_fin, E.
    rewrite (fsub_fin _ _ 173) by lia. replace (m * 2 ^ 149 - 2 ^ 172) with ((m - 2 ^ 23) * 2 ^ 149) by lia. rewrite rnd_integer by lia.
    rewrite (fadd_fin _ _ 173) by lia. replace ((m - 2 ^ 23) * 2 ^ 149 + 2 ^ 172) with (m * 2 ^ 149) by lia. rewrite rnd_integer by lia.
    rewrite (fadd_fin _ _ 173) by lia. replace (m * 2 ^ 149 + 2 ^ 172) with ((m + 2 ^ 23) * 2 ^ 149) by lia. rewrite rnd_integer by lia.
    rewrite (fsub_fin _ _ 173) by lia. replace ((m + 2 ^ 23) * 2 ^ 149 - 2 ^ 172) with (m * 2 ^ 149) by lia. now rewrite rnd_integer by lia. }
  unfold shake in Mult. rewrite two23_fin in Mult.
  assert (Main : exists r, fsub (fadd (fadd (fsub (Fin a) (Fin (2 ^ 172))) (Fin (2 ^ 172))) (Fin (2 ^ 172))) (Fin (2 ^ 172)) = Fin (r * 2 ^ 149) /\
     Z.abs (r * 2 ^ 149 - a) <= 2 ^ 149 /\ Z.abs r <= 2 ^ 23).
  { rewrite (fsub_fin a (2 ^ 172) 173) by lia. destruct (Z.le_gt_cases 0 a) as [P|P].
    - pose proof (rnd_quarter (a - 2 ^ 172) ltac:(lia)) as E1. pose proof (rnd_range (a - 2 ^ 172) 1 172 ltac:(lia) ltac:(lia) ltac:(lia)) as R1.
      assert (N1 : rnd (a - 2 ^ 172) 1 <= 0) by (rewrite <- (rnd_exact 0 1 rep_0 ltac:(lia)); apply rnd_mono; lia).
      set (x1 := rnd (a - 2 ^ 172) 1) in *. rewrite (fadd_fin x1 _ 173) by lia.
      pose proof (rnd_quarter (x1 + 2 ^ 172) ltac:(lia)) as E2. pose proof (rnd_range (x1 + 2 ^ 172) 1 172 ltac:(lia) ltac:(lia) ltac:(lia)) as R2.
      assert (N2 : 0 <= rnd (x1 + 2 ^ 172) 1) by (rewrite <- (rnd_exact 0 1 rep_0 ltac:(lia)); apply rnd_mono; lia).
      set (x2 := rnd (x1 + 2 ^ 172) 1) in *. rewrite (fadd_fin x2 _ 173) by lia.
      destruct (rnd_to_integer (x2 + 2 ^ 172) ltac:(lia)) as (m & -> & E3 & Hm).
      assert (m <= 2 ^ 24 /\ 2 ^ 23 <= m) by lia.
      rewrite (fsub_fin _ _ 173) by lia. replace (m * 2 ^ 149 - 2 ^ 172) with ((m - 2 ^ 23) * 2 ^ 149) by lia. rewrite rnd_integer by lia.
      exists (m - 2 ^ 23). split; [reflexivity|]. lia.
    - destruct (rnd_to_integer (a - 2 ^ 172) ltac:(lia)) as (m & -> & E1 & Hm).
      assert (- 2 ^ 24 <= m <= - 2 ^ 23) by lia.
      rewrite (fadd_fin _ _ 173) by lia. replace (m * 2 ^ 149 + 2 ^ 172) with ((m + 2 ^ 23) * 2 ^ 149) by lia. rewrite rnd_integer by lia.
      rewrite (fadd_fin _ _ 173) by lia. replace ((m + 2 ^ 23) * 2 ^ 149 + 2 ^ 172) with ((m + 2 ^ 24) * 2 ^ 149) by lia. rewrite rnd_integer by lia.
      rewrite (fsub_fin _ _ 173) by lia. replace ((m + 2 ^ 24) * 2 ^ 149 - 2 ^ 172) with ((m + 2 ^ 23) * 2 ^ 149) by lia. rewrite rnd_integer by lia.
      exists (m + 2 ^ 23). split; [reflexivity|]. lia. }
  destruct Main as (r & E & D & B). exists r. split; [exact E|]. split; [exact D|]. split; [|exact B].
  intros m Em. destruct (Mult m Em) as [E' _]. rewrite E in E'. injection E' as E'. lia.
Qed.

Lemma of_int_1 : of_int 1 = Fin (1 * 2 ^ 149).
Proof. apply of_int_fin. lia. Qed.

Lemma div_between a r : r * 2 ^ 149 <= a < (r + 1) * 2 ^ 149 -> a / 2 ^ 149 = r.
Proof. intros H. symmetry. apply Z.div_unique with (a - r * 2 ^ 149); lia. Qed.

(** Floor of a number that is not large; no need for it to be a float. *)
Lemma shaken_floor a : Z.abs a <= 2 ^ 172 -> exists r, shake (Fin a) = Fin (r * 2 ^ 149) /\
  fsub (Fin (r * 2 ^ 149)) (if flt (Fin a) (Fin (r * 2 ^ 149)) then of_int 1 else Fin 0) = Fin (a / 2 ^ 149 * 2 ^ 149) /\
  (if flt (Fin a) (Fin (r * 2 ^ 149)) then fsub (Fin (r * 2 ^ 149)) (of_int 1) else Fin (r * 2 ^ 149)) = Fin (a / 2 ^ 149 * 2 ^ 149).
Proof.
  intros H. destruct (shake_ok a H) as (r & E & D & M & B). exists r. split; [exact E|]. rewrite of_int_1. cbn [flt].
  destruct (Z.ltb_spec a (r * 2 ^ 149)) as [L|L].
  - rewrite (fsub_fin _ _ 173) by lia. replace (r * 2 ^ 149 - 1 * 2 ^ 149) with ((r - 1) * 2 ^ 149) by lia. rewrite rnd_integer by lia.
    rewrite (div_between a (r - 1)) by lia. auto.
  - rewrite (fsub_fin _ _ 173) by lia. rewrite Z.sub_0_r, rnd_integer by lia.
    rewrite (div_between a r); [auto|]. split; [lia|].
    destruct (Z.eq_dec a ((r + 1) * 2 ^ 149)) as [Q|Q]; [|lia]. pose proof (M (r + 1) Q). lia.
Qed.

Lemma shaken_ceil a : Z.abs a <= 2 ^ 172 -> exists r, shake (Fin a) = Fin (r * 2 ^ 149) /\
  fadd (Fin (r * 2 ^ 149)) (if flt (Fin (r * 2 ^ 149)) (Fin a) then of_int 1 else Fin 0) = Fin (- (- a / 2 ^ 149) * 2 ^ 149) /\
  (if flt (Fin (r * 2 ^ 149)) (Fin a) then fadd (Fin (r * 2 ^ 149)) (of_int 1) else Fin (r * 2 ^ 149)) = Fin (- (- a / 2 ^ 149) * 2 ^ 149).
Proof.
  intros H. destruct (shake_ok a H) as (r & E & D & M & B). exists r. split; [exact E|]. rewrite of_int_1. cbn [flt].
  destruct (Z.ltb_spec (r * 2 ^ 149) a) as [L|L].
  - rewrite (fadd_fin _ _ 173) by lia. replace (r * 2 ^ 149 + 1 * 2 ^ 149) with ((r + 1) * 2 ^ 149) by lia. rewrite rnd_integer by lia.
    rewrite (div_between (- a) (- (r + 1))) by lia. rewrite Z.opp_involutive. auto.
  - rewrite (fadd_fin _ _ 173) by lia. rewrite Z.add_0_r, rnd_integer by lia.
    rewrite (div_between (- a) (- r)); [rewrite Z.opp_involutive; auto|]. split; [lia|].
    destruct (Z.eq_dec a ((r - 1) * 2 ^ 149)) as [Q|Q]; [|lia]. pose proof (M (r - 1) Q). lia.
Qed.

(** Floats of magnitude 2^23 and more are integers. *)
Lemma rep_large a : rep (Z.abs a) -> 2 ^ 172 <= Z.abs a -> exists m, a = m * 2 ^ 149.
Proof.
  intros (q & k & Hk & Hq & E) L. destruct (Z.le_gt_cases 149 k) as [G|G].
  - exists (Z.sgn a * (q * 2 ^ (k - 149))). rewrite <- (Z.abs_sgn a) at 1. rewrite E.
    replace k with (k - 149 + 149) at 1 by lia. rewrite Z.pow_add_r by lia. ring.
  - pose proof (Z.pow_le_mono_r 2 k 148 ltac:(lia) ltac:(lia)). pose proof (pow2_pos k Hk).
    assert (q * 2 ^ k <= 2 ^ 24 * 2 ^ 148) by (apply Z.mul_le_mono_nonneg; lia).
    assert (q = 2 ^ 24 /\ 2 ^ k = 2 ^ 148) as [-> Ek] by nia. exists (Z.sgn a * 2 ^ 23). rewrite <- (Z.abs_sgn a) at 1. rewrite E, Ek. ring.
Qed.

Lemma floor_small v a : Z.abs a <= 2 ^ 172 -> floor_f v (Fin a) = Fin (a / 2 ^ 149 * 2 ^ 149).
Proof.
  intros H. destruct (shaken_floor a H) as (r & E & F1 & F2). destruct v; cbn [floor_f fabs_f]; [| |reflexivity].
  - rewrite E, two23_fin, F2. cbn [flt]. destruct (Z.ltb_spec (Z.abs a) (2 ^ 172)) as [L|L]; [reflexivity|].
    assert (Q : a = Z.sgn a * 2 ^ 23 * 2 ^ 149) by (rewrite <- (Z.abs_sgn a) at 1; lia).
    rewrite Q at 2. rewrite Z.div_mul by lia. f_equal. exact Q.
  - rewrite E, two23_fin, F1. cbn [flt]. destruct (Z.ltb_spec (2 ^ 172) (Z.abs a)) as [L|L]; [lia|reflexivity].
Qed.

Lemma ceil_small v a : Z.abs a <= 2 ^ 172 -> ceil_f v (Fin a) = Fin (- (- a / 2 ^ 149) * 2 ^ 149).
Proof.
  intros H. destruct (shaken_ceil a H) as (r & E & F1 & F2). destruct v; cbn [ceil_f fabs_f]; [| |reflexivity].
  - rewrite E, two23_fin, F2. cbn [flt]. destruct (Z.ltb_spec (Z.abs a) (2 ^ 172)) as [L|L]; [reflexivity|].
    assert (Q : a = Z.sgn a * 2 ^ 23 * 2 ^ 149) by (rewrite <- (Z.abs_sgn a) at 1; lia).
    rewrite Q at 2. rewrite <- Z.mul_opp_l, Z.div_mul by lia. f_equal. lia.
  - rewrite E, two23_fin, F1. cbn [flt]. destruct (Z.ltb_spec (2 ^ 172) (Z.abs a)) as [L|L]; [lia|reflexivity].
Qed.

Lemma floor_fin v a : rep (Z.abs a) -> floor_f v (Fin a) = Fin (a / 2 ^ 149 * 2 ^ 149).
Proof.
  intros R. destruct (Z.le_gt_cases (Z.abs a) (2 ^ 172)) as [L|L]; [now apply floor_small|].
  destruct (rep_large a R ltac:(lia)) as [m Q].
  assert (F : Fin a = Fin (a / 2 ^ 149 * 2 ^ 149)) by (rewrite Q at 2; rewrite Z.div_mul by lia; now rewrite Q).
  destruct v; cbn [floor_f fabs_f]; [| |reflexivity]; rewrite two23_fin; cbn [flt].
  - destruct (Z.ltb_spec (Z.abs a) (2 ^ 172)); [lia|exact F].
  - destruct (Z.ltb_spec (2 ^ 172) (Z.abs a)); [exact F|lia].
Qed.

Lemma ceil_fin v a : rep (Z.abs a) -> ceil_f v (Fin a) = Fin (- (- a / 2 ^ 149) * 2 ^ 149).
Proof.
  intros R. destruct (Z.le_gt_cases (Z.abs a) (2 ^ 172)) as [L|L]; [now apply ceil_small|].
  destruct (rep_large a R ltac:(lia)) as [m Q].
  assert (F : Fin a = Fin (- (- a / 2 ^ 149) * 2 ^ 149)) by (rewrite Q at 2; rewrite <- Z.mul_opp_l, Z.div_mul by lia; f_equal; lia).
  destruct v; cbn [ceil_f fabs_f]; [| |reflexivity]; rewrite two23_fin; cbn [flt].
  - destruct (Z.ltb_spec (Z.abs a) (2 ^ 172)); [lia|exact F].
  - destruct (Z.ltb_spec (2 ^ 172) (Z.abs a)); [exact F|lia].
Qed.

(** PositiveFloor up to 2^23. *)
Lemma positive_floor_small v a : 0 <= a <= 2 ^ 172 -> positive_floor v (Fin a) = Fin (a / 2 ^ 149 * 2 ^ 149).
Proof.
  intros H. destruct v; cbn [positive_floor]; [apply floor_small; lia| |reflexivity].
  rewrite two23_fin, of_int_1. rewrite (fadd_fin _ _ 173) by lia.
  destruct (rnd_to_integer (a + 2 ^ 172) ltac:(lia)) as (m & -> & D & B). assert (2 ^ 23 <= m <= 2 ^ 24) by lia.
  rewrite (fsub_fin _ _ 173) by lia. replace (m * 2 ^ 149 - 2 ^ 172) with ((m - 2 ^ 23) * 2 ^ 149) by lia. rewrite rnd_integer by lia.
  cbn [flt]. destruct (Z.ltb_spec a ((m - 2 ^ 23) * 2 ^ 149)) as [L|L].
  - rewrite (fsub_fin _ _ 173) by lia. replace ((m - 2 ^ 23) * 2 ^ 149 - 1 * 2 ^ 149) with ((m - 2 ^ 23 - 1) * 2 ^ 149) by lia. rewrite rnd_integer by lia.
    now rewrite (div_between a (m - 2 ^ 23 - 1)) by lia.
  - rewrite (fsub_fin _ _ 173) by lia. rewrite Z.sub_0_r, rnd_integer by lia.
    now rewrite (div_between a (m - 2 ^ 23)) by lia.
Qed.
