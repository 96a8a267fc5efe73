(** * The text of a double under "%.17g" is an RFC number that rounds back to it. *)

From Verif Require Import Base NumModel SpecNum SpecRfc StrtodProofs RoundProofs.

#[local] Arguments Z.eqb : simpl nomatch.
#[local] Arguments Z.ltb : simpl nomatch.

Lemma pow10_pos n : 0 <= n -> 0 < 10 ^ n.
Proof. intros. apply Z.pow_pos_nonneg; lia. Qed.

Lemma abs_mul_pos a c : 0 < c -> Z.abs a * c = Z.abs (a * c).
Proof. intros. rewrite Z.abs_mul, (Z.abs_eq c) by lia. reflexivity. Qed.

(** ** Rounding does not depend on how the fraction is written *)

Lemma rounds_AB_cross neg A B A' B' d : 0 < B -> 0 < B' -> A * B' = A' * B ->
  rounds_AB neg A B d -> rounds_AB neg A' B' d.
Proof.
  intros HB HB' E (H1 & H2 & H3 & H4). split; [exact H1|]. split; [exact H2|].
  set (T := overflow_threshold) in *.
  split.
  - intros H. apply H3. apply (Z.mul_le_mono_pos_r _ _ B'); [lia|]. rewrite E. nia.
  - intros H. destruct H4 as [H5 H6]; [apply (Z.mul_lt_mono_pos_r B'); [lia|]; rewrite E; nia|].
    split; [exact H5|]. intros g Hg Hf. specialize (H6 g Hg Hf).
    assert (HD : forall u, Z.abs (A' - B' * u) * B = Z.abs (A - B * u) * B').
    { intros u. transitivity (Z.abs ((A' - B' * u) * B)); [rewrite Z.abs_mul, (Z.abs_eq B) by lia; reflexivity|].
      transitivity (Z.abs ((A - B * u) * B')); [|rewrite Z.abs_mul, (Z.abs_eq B') by lia; reflexivity].
      f_equal. transitivity (A' * B - B' * u * B); [ring|]. rewrite <- E. ring. }
    pose proof (HD (magnitude d)) as Dd. pose proof (HD (magnitude g)) as Dg. destruct H6 as [H6 H7]. split.
    + apply (Z.mul_le_mono_pos_r _ _ B); [lia|]. rewrite Dd, Dg. apply Z.mul_le_mono_nonneg_r; lia.
    + intros He. apply H7. apply (Z.mul_cancel_r _ _ B'); [lia|]. rewrite <- Dd, <- Dg. now rewrite He.
Qed.

Lemma rounds_shift neg m e k d : 0 <= k -> rounds neg (m * 10 ^ k) (e - k) d -> rounds neg m e d.
Proof.
  intros Hk H. change (rounds_AB neg (dec_A m e) (dec_B e) d).
  change (rounds_AB neg (dec_A (m * 10 ^ k) (e - k)) (dec_B (e - k)) d) in H.
  eapply rounds_AB_cross; [| | |exact H]; try apply dec_B_pos.
  unfold dec_A, dec_B.
  assert (E : 10 ^ k * 10 ^ Z.max 0 (e - k) * 10 ^ Z.max 0 (- e) = 10 ^ Z.max 0 e * 10 ^ Z.max 0 (- (e - k))).
  { rewrite <- !Z.pow_add_r by lia. f_equal. lia. }
  transitivity (m * (10 ^ k * 10 ^ Z.max 0 (e - k) * 10 ^ Z.max 0 (- e)) * 2 ^ 1074); [ring|].
  rewrite E. ring.
Qed.

(** ** The gap around a double *)

Lemma gap d g : valid_double d -> is_finite d -> valid_double g -> is_finite g -> magnitude d <> magnitude g ->
  magnitude d <= 2 ^ 53 * Z.abs (magnitude d - magnitude g).
Proof.
  intros Hd Fd Hg Fg Hne.
  destruct d as [sd|sd| |sd m e]; try contradiction; [simpl magnitude in *; lia|].
  apply valid_finite in Hd. destruct Hd as (He & Hm & Hn).
  destruct g as [sg|sg| |sg m' e']; try contradiction.
  - simpl magnitude in *. set (x := Z.pos m * 2 ^ (e + 1074)) in *.
    assert (0 <= x) by (unfold x; nia). lia.
  - apply valid_finite in Hg. destruct Hg as (He' & Hm' & Hn'). simpl magnitude in *.
    destruct (Z.le_gt_cases e e') as [C|C].
    + replace (e' + 1074) with ((e' - e) + (e + 1074)) in * by lia.
      rewrite (Z.pow_add_r 2 (e' - e)) in * by lia.
      assert (0 < 2 ^ (e + 1074)) by (apply Z.pow_pos_nonneg; lia).
      set (u := 2 ^ (e + 1074)) in *. set (y := 2 ^ (e' - e)) in *.
      replace (Z.pos m * u - Z.pos m' * (y * u)) with ((Z.pos m - Z.pos m' * y) * u) in * by ring.
      assert (Z.pos m - Z.pos m' * y <> 0) by (intros E0; apply Hne; replace (Z.pos m) with (Z.pos m' * y) by lia; ring).
      rewrite Z.abs_mul, (Z.abs_eq u) by lia.
      assert (1 <= Z.abs (Z.pos m - Z.pos m' * y)) by lia.
      set (z := Z.abs (Z.pos m - Z.pos m' * y)) in *. nia.
    + destruct Hn as [Hn|Hn]; [lia|].
      replace (e + 1074) with ((e - e') + (e' + 1074)) in * by lia.
      rewrite (Z.pow_add_r 2 (e - e')) in * by lia.
      assert (0 < 2 ^ (e' + 1074)) by (apply Z.pow_pos_nonneg; lia).
      set (u := 2 ^ (e' + 1074)) in *.
      assert (2 <= 2 ^ (e - e')) by (apply (Z.pow_le_mono_r 2 1); lia).
      set (y := 2 ^ (e - e')) in *.
      replace (Z.pos m * (y * u)) with ((Z.pos m * y) * u) in * by ring.
      assert (2 ^ 53 <= Z.pos m * y) by (change (2 ^ 53) with (2 ^ 52 * 2); nia).
      set (w := Z.pos m * y) in *. rewrite <- Z.mul_sub_distr_r, Z.abs_mul, (Z.abs_eq u), (Z.abs_eq (w - _)) by lia.
      nia.
Qed.

Lemma magnitude_nonneg d : 0 <= magnitude d.
Proof. destruct d; simpl; lia. Qed.

Lemma magnitude_max d : valid_double d -> is_finite d -> magnitude d <= (2 ^ 54 - 2) * 2 ^ (970 + 1074).
Proof.
  intros Hv Hf. destruct d as [s|s| |s m e]; try contradiction; simpl magnitude.
  - vm_compute. discriminate.
  - apply valid_finite in Hv. destruct Hv as (He & Hm & _).
    apply Z.le_trans with ((2 ^ 53 - 1) * 2 ^ (971 + 1074)).
    + apply Z.mul_le_mono_nonneg; [lia|lia|lia|apply Z.pow_le_mono_r; lia].
    + vm_compute. discriminate.
Qed.

(** A fraction with relative error below 5e-17 rounds to the double. *)
Lemma close_rounds d s A B : valid_double d -> is_finite d -> sign_of d = Some s -> 0 < B ->
  2 * 10 ^ 16 * Z.abs (A - B * magnitude d) <= B * magnitude d -> rounds_AB s A B d.
Proof.
  intros Hv Hf Hs HB H. split; [exact Hv|]. split; [exact Hs|].
  pose proof (magnitude_nonneg d) as M0. pose proof (magnitude_max d Hv Hf) as M1.
  assert (HT : A < B * overflow_threshold).
  { rewrite threshold_units. remember (2 ^ (970 + 1074)) as u eqn:Eu.
    assert (0 < u) by (rewrite Eu; apply Z.pow_pos_nonneg; lia). clear Eu.
    set (x := magnitude d) in *.
    assert (Hx : B * x <= B * ((2 ^ 54 - 2) * u)) by (apply Z.mul_le_mono_nonneg_l; lia).
    set (v := B * u) in *. assert (0 < v) by (unfold v; nia).
    replace (B * ((2 ^ 54 - 2) * u)) with ((2 ^ 54 - 2) * v) in Hx by (unfold v; ring).
    replace (B * ((2 ^ 54 - 1) * u)) with ((2 ^ 54 - 1) * v) by (unfold v; ring).
    set (y := B * x) in *.
    change (2 ^ 54) with 18014398509481984 in *. change (10 ^ 16) with 10000000000000000 in *. lia. }
  split; [lia|]. intros _. split; [exact Hf|]. intros g Hg Fg.
  destruct (Z.eq_dec (magnitude d) (magnitude g)) as [E|E]; [rewrite E; split; [lia|congruence]|].
  pose proof (gap d g Hv Hf Hg Fg E) as HG.
  assert (HS : Z.abs (A - B * magnitude d) < Z.abs (A - B * magnitude g)); [|split; [lia|lia]].
  set (x := magnitude d) in *. set (z := magnitude g) in *.
  assert (HG2 : B * x <= 2 ^ 53 * Z.abs (B * x - B * z)).
  { rewrite <- Z.mul_sub_distr_l, Z.abs_mul, (Z.abs_eq B) by lia.
    replace (2 ^ 53 * (B * Z.abs (x - z))) with (B * (2 ^ 53 * Z.abs (x - z))) by ring. apply Z.mul_le_mono_nonneg_l; lia. }
  assert (B * x <> B * z) by (intros E0; apply Z.mul_cancel_l in E0; lia).
  set (X := B * x) in *. set (Y := B * z) in *.
  change (2 ^ 53) with 9007199254740992 in *. change (10 ^ 16) with 10000000000000000 in *. lia.
Qed.

(** ** The seventeen digits *)

(** T/B = 10^(X-16). *)
Definition dT (X : Z) : Z := 10 ^ Z.max 0 (X - 16).
Definition dB (X : Z) : Z := 10 ^ Z.max 0 (16 - X).

Lemma dT_pos X : 0 < dT X.
Proof. apply pow10_pos. lia. Qed.
Lemma dB_pos X : 0 < dB X.
Proof. apply pow10_pos. lia. Qed.

(** P/Q < 10^X, for P, Q > 0. *)
Definition below (P Q X : Z) : Prop := dec_num P X < dec_den Q X.

Lemma dec_exp_spec n : forall X P Q, ~ below P Q X -> below P Q (X + Z.of_nat n) ->
  let Y := dec_exp n X P Q in X <= Y < X + Z.of_nat n /\ ~ below P Q Y /\ below P Q (Y + 1).
Proof.
  induction n as [|n IH]; intros X P Q H1 H2; simpl.
  - replace (X + Z.of_nat 0) with X in H2 by lia. contradiction.
  - destruct (Z.ltb_spec (dec_num P (X + 1)) (dec_den Q (X + 1))) as [C|C].
    + repeat split; auto; lia.
    + specialize (IH (X + 1) P Q). destruct IH as (A & B & C0).
      * unfold below. lia.
      * replace (X + 1 + Z.of_nat n) with (X + Z.of_nat (S n)) by lia. exact H2.
      * repeat split; auto; lia.
Qed.

Lemma below_scaled P Q X : 0 < Q -> (below P Q X <-> P * dB X < Q * dT X * 10 ^ 16).
Proof.
  intros HQ. unfold below, dec_num, dec_den, dB, dT.
  set (a := Z.max 0 (- X)). set (b := Z.max 0 X). set (c := Z.max 0 (16 - X)). set (t := Z.max 0 (X - 16)).
  assert (E : 10 ^ b * 10 ^ c = 10 ^ t * 10 ^ 16 * 10 ^ a).
  { rewrite <- !Z.pow_add_r by lia. f_equal. lia. }
  pose proof (pow10_pos a ltac:(lia)). pose proof (pow10_pos c ltac:(lia)).
  set (pa := 10 ^ a) in *. set (pb := 10 ^ b) in *. set (pc := 10 ^ c) in *. set (pt := 10 ^ t * 10 ^ 16) in *.
  replace (Q * 10 ^ t * 10 ^ 16) with (Q * pt) by (unfold pt; ring).
  rewrite (Z.mul_lt_mono_pos_r pc (P * pa)) by lia.
  rewrite (Z.mul_lt_mono_pos_r pa (P * pc)) by lia.
  assert (E2 : Q * pb * pc = Q * pt * pa) by (transitivity (Q * (pb * pc)); [ring|rewrite E; ring]). rewrite E2.
  replace (P * pa * pc) with (P * pc * pa) by ring. reflexivity.
Qed.

Lemma below_next P Q X : 0 < Q -> (below P Q (X + 1) <-> P * dB X < Q * dT X * 10 ^ 17).
Proof.
  intros HQ. rewrite below_scaled by auto.
  assert (E : dT (X + 1) * dB X = 10 * dT X * dB (X + 1)).
  { unfold dT, dB. change 10 with (10 ^ 1) at 3. rewrite <- !Z.pow_add_r by lia. f_equal. lia. }
  pose proof (dB_pos X). pose proof (dB_pos (X + 1)).
  rewrite (Z.mul_lt_mono_pos_r (dB X) (P * dB (X + 1))) by lia.
  rewrite (Z.mul_lt_mono_pos_r (dB (X + 1)) (P * dB X)) by lia.
  replace (Q * dT (X + 1) * 10 ^ 16 * dB X) with (Q * dT X * 10 ^ 17 * dB (X + 1)).
  - replace (P * dB (X + 1) * dB X) with (P * dB X * dB (X + 1)) by ring. reflexivity.
  - transitivity (Q * 10 ^ 16 * (dT (X + 1) * dB X)); [rewrite E; change (10 ^ 17) with (10 * 10 ^ 16); ring|ring].
Qed.

Lemma sci17_at P Q Y D X : 0 < P -> 0 < Q -> -330 <= Y < 370 -> ~ below P Q Y -> below P Q (Y + 1) ->
  (let D := div_half_even (dec_num P (Y - 16)) (dec_den Q (Y - 16)) in
   if D =? 10 ^ 17 then (10 ^ 16, Y + 1) else (D, Y)) = (D, X) ->
  10 ^ 16 <= D < 10 ^ 17 /\ -330 <= X <= 370 /\
  2 * 10 ^ 16 * Z.abs (P * dB X - Q * dT X * D) <= P * dB X.
Proof.
  intros HP HQ HY HY1 HY2 E. cbv zeta in E.
  rewrite below_scaled in HY1 by auto. rewrite below_next in HY2 by auto.
  change (dec_num P (Y - 16)) with (P * 10 ^ Z.max 0 (- (Y - 16))) in E.
  change (dec_den Q (Y - 16)) with (Q * dT Y) in E.
  replace (10 ^ Z.max 0 (- (Y - 16))) with (dB Y) in E by (unfold dB; f_equal; lia).
  pose proof (dT_pos Y) as Tp. pose proof (dB_pos Y) as Bp.
  assert (HQT : 0 < Q * dT Y) by nia.
  destruct (div_half_even_spec (P * dB Y) (Q * dT Y) HQT) as [HD _].
  set (D0 := div_half_even (P * dB Y) (Q * dT Y)) in *.
  set (N := P * dB Y) in *. set (M := Q * dT Y) in *.
  assert (HE : 2 * 10 ^ 16 * Z.abs (N - M * D0) <= N) by lia.
  assert (HD0 : 10 ^ 16 <= D0 <= 10 ^ 17).
  { split.
    - apply Z.nlt_ge. intros C. assert (M * D0 <= M * (10 ^ 16 - 1)) by (apply Z.mul_le_mono_nonneg_l; lia).
      change (10 ^ 16) with 10000000000000000 in *. lia.
    - apply Z.nlt_ge. intros C. assert (M * (10 ^ 17 + 1) <= M * D0) by (apply Z.mul_le_mono_nonneg_l; lia).
      change (10 ^ 17) with 100000000000000000 in *. lia. }
  destruct (Z.eqb_spec D0 (10 ^ 17)) as [C|C]; injection E as <- <-.
  - split; [split; [reflexivity|vm_compute; reflexivity]|]. split; [lia|].
    assert (EE : dT (Y + 1) * dB Y = 10 * dT Y * dB (Y + 1)).
    { unfold dT, dB. change 10 with (10 ^ 1) at 3. rewrite <- !Z.pow_add_r by lia. f_equal. lia. }
    pose proof (dB_pos (Y + 1)) as Bp'.
    apply (Z.mul_le_mono_pos_r _ _ (dB Y)); [lia|].
    rewrite <- Z.mul_assoc, abs_mul_pos by lia.
    replace ((P * dB (Y + 1) - Q * dT (Y + 1) * 10 ^ 16) * dB Y) with ((N - M * D0) * dB (Y + 1)).
    + rewrite Z.abs_mul, (Z.abs_eq (dB (Y + 1))) by lia. rewrite Z.mul_assoc.
      replace (P * dB (Y + 1) * dB Y) with (N * dB (Y + 1)) by (unfold N; ring).
      apply Z.mul_le_mono_nonneg_r; lia.
    + transitivity (P * dB (Y + 1) * dB Y - Q * 10 ^ 16 * (dT (Y + 1) * dB Y)); [|ring].
      rewrite EE, C. unfold N, M. change (10 ^ 17) with (10 * 10 ^ 16). ring.
  - split; [lia|]. split; [lia|]. exact HE.
Qed.

Lemma sci17_spec P Q : 0 < P -> 0 < Q -> Q <= P * 10 ^ 330 -> P < Q * 10 ^ 370 ->
  forall D X, sci17 P Q = (D, X) ->
  10 ^ 16 <= D < 10 ^ 17 /\ -330 <= X <= 370 /\
  2 * 10 ^ 16 * Z.abs (P * dB X - Q * dT X * D) <= P * dB X.
Proof.
  intros HP HQ H1 H2 D X E. unfold sci17 in E. revert E.
  pose proof (dec_exp_spec 700 (-330) P Q) as HX. revert HX. generalize (dec_exp 700 (-330) P Q) as Y.
  change (-330 + Z.of_nat 700) with 370. cbv zeta. intros Y HX E.
  destruct HX as (HY & HY1 & HY2).
  { unfold below, dec_num, dec_den. rewrite Z.max_r, Z.max_l by lia. rewrite Z.pow_0_r. change (- -330) with 330. lia. }
  { unfold below, dec_num, dec_den. rewrite Z.max_l, Z.max_r by lia. rewrite Z.pow_0_r. lia. }
  exact (sci17_at P Q Y D X HP HQ HY HY1 HY2 E).
Qed.

(** The digits round back to the double. *)
Lemma sci17_rounds s m e D X : valid_double (S754_finite s m e) ->
  sci17 (Zpos m * 2 ^ Z.max 0 e) (2 ^ Z.max 0 (- e)) = (D, X) ->
  10 ^ 16 <= D < 10 ^ 17 /\ -330 <= X <= 370 /\ rounds s D (X - 16) (S754_finite s m e).
Proof.
  intros Hv E. set (d := S754_finite s m e) in *.
  assert (Hf : is_finite d) by exact I.
  pose proof (proj1 (valid_finite s m e) Hv) as (He & Hm & _).
  set (P := Zpos m * 2 ^ Z.max 0 e) in *. set (Q := 2 ^ Z.max 0 (- e)) in *.
  assert (HQ : 0 < Q) by (apply Z.pow_pos_nonneg; lia).
  assert (HP : 0 < P) by (apply Z.mul_pos_pos; [lia|apply Z.pow_pos_nonneg; lia]).
  assert (EU : P * 2 ^ 1074 = Q * magnitude d).
  { unfold P, Q. simpl magnitude. transitivity (Zpos m * (2 ^ Z.max 0 e * 2 ^ 1074)); [ring|].
    transitivity (Zpos m * (2 ^ Z.max 0 (- e) * 2 ^ (e + 1074))); [|ring].
    rewrite <- !Z.pow_add_r by lia. do 2 f_equal. lia. }
  destruct (sci17_spec P Q HP HQ) with (D := D) (X := X) as (H1 & H2 & H3); auto.
  { apply Z.le_trans with (2 ^ 1074).
    - apply Z.pow_le_mono_r; lia.
    - apply Z.le_trans with (10 ^ 330); [vm_compute; discriminate|]. apply Z.le_trans with (1 * 10 ^ 330); [lia|].
      apply Z.mul_le_mono_nonneg_r; [apply Z.pow_nonneg; lia|lia]. }
  { apply Z.lt_le_trans with (2 ^ 53 * 2 ^ 971).
    - unfold P. apply Z.lt_le_trans with (2 ^ 53 * 2 ^ Z.max 0 e).
      + apply Z.mul_lt_mono_pos_r; [apply Z.pow_pos_nonneg; lia|lia].
      + apply Z.mul_le_mono_nonneg_l; [lia|]. apply Z.pow_le_mono_r; lia.
    - apply Z.le_trans with (1 * 10 ^ 370); [vm_compute; discriminate|].
      apply Z.mul_le_mono_nonneg_r; [apply Z.pow_nonneg; lia|lia]. }
  split; [exact H1|]. split; [exact H2|].
  apply (close_rounds d s (dec_A D (X - 16)) (dec_B (X - 16))); auto; [apply dec_B_pos|].
  unfold dec_A, dec_B. replace (- (X - 16)) with (16 - X) by lia. fold (dT X) (dB X).
  pose proof (dB_pos X).
  remember (2 ^ 1074) as W eqn:EW. assert (HW : 0 < W) by (rewrite EW; apply Z.pow_pos_nonneg; lia). clear EW.
  set (u := magnitude d) in *. set (K := 2 * 10 ^ 16) in *. assert (HK : 0 < K) by reflexivity.
  apply (Z.mul_le_mono_pos_r _ _ Q); [lia|].
  rewrite <- Z.mul_assoc, abs_mul_pos by lia.
  replace ((D * dT X * W - dB X * u) * Q) with ((Q * dT X * D - P * dB X) * W).
  - rewrite Z.abs_mul, (Z.abs_eq W) by lia.
    replace (dB X * u * Q) with (P * dB X * W) by (transitivity (dB X * (P * W)); [ring|rewrite EU; ring]).
    rewrite Z.mul_assoc. apply Z.mul_le_mono_nonneg_r; [lia|]. lia.
  - transitivity (Q * dT X * D * W - dB X * (P * W)); [ring|]. rewrite EU. ring.
Qed.

(** ** Digit strings *)

Lemma dvalue_app a b : dvalue (a ++ b) = dvalue a * 10 ^ Z.of_nat (length b) + dvalue b.
Proof.
  induction a as [|c a IH]; simpl; [lia|]. rewrite IH, app_length, Nat2Z.inj_add, Z.pow_add_r by lia. ring.
Qed.

Lemma dvalue_zeros k : dvalue (repeat 48 k) = 0.
Proof. induction k as [|k IH]; simpl; [reflexivity|]. rewrite IH. lia. Qed.

Lemma digits_zeros k : digits (repeat 48 k).
Proof. induction k; simpl; constructor; auto. unfold digit. lia. Qed.

Lemma low_digits_spec n : forall z, 0 <= z < 10 ^ Z.of_nat n ->
  digits (low_digits n z) /\ length (low_digits n z) = n /\ dvalue (low_digits n z) = z.
Proof.
  induction n as [|n IH]; intros z Hz; simpl low_digits.
  - change (10 ^ Z.of_nat 0) with 1 in Hz. repeat split; [constructor|]. simpl. lia.
  - replace (Z.of_nat (S n)) with (1 + Z.of_nat n) in Hz by lia. rewrite Z.pow_add_r in Hz by lia.
    change (10 ^ 1) with 10 in Hz.
    pose proof (Z.div_mod z 10 ltac:(lia)) as E. pose proof (Z.mod_pos_bound z 10 ltac:(lia)) as B.
    destruct (IH (z / 10)) as (H1 & H2 & H3); [lia|].
    split; [|split].
    + apply Forall_app. split; [exact H1|]. repeat constructor; unfold digit; lia.
    + rewrite app_length. simpl. lia.
    + rewrite dvalue_app, H3. simpl. lia.
Qed.

(** A digit string whose value needs all places does not start with 0. *)
Lemma dvalue_lt s : digits s -> dvalue s < 10 ^ Z.of_nat (length s).
Proof.
  intros H. induction H as [|c s Hc _ IH]; simpl; [lia|].
  replace (Z.of_nat (S (length s))) with (1 + Z.of_nat (length s)) by lia. rewrite Z.pow_add_r by lia.
  unfold digit in Hc. change (10 ^ 1) with 10. pose proof (pow10_pos (Z.of_nat (length s)) ltac:(lia)). nia.
Qed.

Lemma head_nonzero n z : 10 ^ Z.of_nat n <= z < 10 ^ Z.of_nat (S n) ->
  exists c r, low_digits (S n) z = c :: r /\ c <> 48 /\ length r = n.
Proof.
  intros Hz. pose proof (pow10_pos (Z.of_nat n) ltac:(lia)).
  destruct (low_digits_spec (S n) z) as (H1 & H2 & H3); [lia|].
  destruct (low_digits (S n) z) as [|c r]; [discriminate|]. simpl in H2. injection H2 as H2.
  exists c, r. split; [reflexivity|]. split; [|exact H2]. intros ->. inversion H1 as [|? ? _ Hr].
  simpl in H3. pose proof (dvalue_lt r Hr) as Hl. rewrite H2 in *. rewrite Z.sub_diag in H3. lia.
Qed.

Lemma strip0_spec s : exists k, s = strip0 s ++ repeat 48 k.
Proof.
  induction s as [|c s (k & IH)]; [now exists O|]. simpl.
  destruct (strip0 s) as [|x r] eqn:E.
  - destruct (Z.eqb_spec c 48) as [->|_].
    + exists (S k). simpl. now rewrite IH at 1.
    + exists k. simpl. now rewrite IH at 1.
  - exists k. simpl. now rewrite IH at 1.
Qed.

Lemma strip0_digits s : digits s -> digits (strip0 s).
Proof. intros H. destruct (strip0_spec s) as (k & E). rewrite E in H. apply Forall_app in H. apply H. Qed.

Lemma strip0_length s : (length (strip0 s) <= length s)%nat.
Proof. destruct (strip0_spec s) as (k & E). rewrite E at 2. rewrite app_length. lia. Qed.

Lemma strip0_empty s : strip0 s = [] -> Forall (fun c => c = 48) s.
Proof.
  intros H. destruct (strip0_spec s) as (k & E). rewrite H in E. rewrite E. simpl. clear.
  induction k; simpl; constructor; auto.
Qed.

(** ** The three layouts of "%g" are RFC numbers *)

Lemma number_text s sg ip ff ex x d :
  (sg = [] /\ s = false \/ sg = [45] /\ s = true) -> digits ip -> digits ff ->
  (ip = [48] \/ exists c r, ip = c :: r /\ c <> 48) -> exp_text ex x ->
  (ip = [48] -> ex = [] \/ strip0 ff <> []) ->
  rounds s (dvalue (ip ++ ff)) (x - Z.of_nat (length ff)) d ->
  core_num (sg ++ ip ++ frac_part ff ++ ex) d.
Proof.
  intros Hsg Hip Hff Hlead Hex Hz Hr. split.
  - destruct (strip0_spec ff) as (k & E).
    exists s, (dvalue (ip ++ strip0 ff)), (x - Z.of_nat (length (strip0 ff))). split.
    + apply rfc_number_intro; auto.
      * unfold frac_part. pose proof (strip0_digits ff Hff) as Hs. destruct (strip0 ff) eqn:E0; constructor. exact Hs.
      * unfold frac_part. destruct (strip0 ff); congruence.
    + apply (rounds_shift _ _ _ (Z.of_nat k)); [lia|].
      replace (dvalue (ip ++ strip0 ff) * 10 ^ Z.of_nat k) with (dvalue (ip ++ ff)).
      * replace (x - Z.of_nat (length (strip0 ff)) - Z.of_nat k) with (x - Z.of_nat (length ff)); [exact Hr|].
        rewrite E at 1. rewrite app_length, repeat_length. lia.
      * rewrite E at 1. rewrite app_assoc, dvalue_app, dvalue_zeros, repeat_length. lia.
  - intros (sg' & e & r & Hsg' & He & E).
    assert (E2 : ip ++ frac_part ff ++ ex = 48 :: e :: r).
    { destruct ip as [|c ip]; [destruct Hlead as [?|(? & ? & ? & _)]; discriminate|]. inversion Hip as [|? ? Hc _]; subst.
      destruct Hsg as [[-> _]|[-> _]], Hsg' as [->| ->]; simpl in E |- *; auto; try discriminate; try congruence;
        exfalso; unfold digit in Hc; injection E as E3 E4; lia. }
    destruct Hlead as [->|(c & r0 & -> & Hc)]; [|injection E2; congruence].
    simpl in E2. injection E2 as E2. specialize (Hz eq_refl). unfold frac_part in E2.
    destruct Hz as [->|Hz].
    + rewrite app_nil_r in E2. destruct (strip0 ff); [discriminate|]. simpl in E2. injection E2 as E3 _. lia.
    + destruct (strip0 ff); [congruence|]. simpl in E2. injection E2 as E3 _. lia.
Qed.

Lemma exp_part_text X : -330 <= X <= 370 -> exp_text (exp_part X) X /\ (length (exp_part X) <= 5)%nat.
Proof.
  intros HX. unfold exp_part.
  set (n := if Z.abs X <? 100 then 2%nat else 3%nat).
  assert (E : (if Z.abs X <? 100 then low_digits 2 (Z.abs X) else low_digits 3 (Z.abs X)) = low_digits n (Z.abs X))
    by (unfold n; destruct (Z.abs X <? 100); reflexivity).
  cbv zeta. rewrite E. clear E.
  destruct (low_digits_spec n (Z.abs X)) as (H1 & H2 & H3).
  { unfold n. destruct (Z.ltb_spec (Z.abs X) 100); [change (10 ^ Z.of_nat 2) with 100|change (10 ^ Z.of_nat 3) with 1000]; lia. }
  assert (Hn : (2 <= n <= 3)%nat) by (unfold n; destruct (Z.abs X <? 100); lia).
  split.
  - change ([101; if X <? 0 then 45 else 43] ++ low_digits n (Z.abs X)) with (101 :: [if X <? 0 then 45 else 43] ++ low_digits n (Z.abs X)).
    assert (HT : exp_text (101 :: [if X <? 0 then 45 else 43] ++ low_digits n (Z.abs X))
                   (if X <? 0 then - dvalue (low_digits n (Z.abs X)) else dvalue (low_digits n (Z.abs X)))).
    { apply ex_some; auto.
      + destruct (X <? 0); constructor.
      + intros E. rewrite E in H2. simpl in H2. lia. }
    rewrite H3 in HT. replace (if X <? 0 then - Z.abs X else Z.abs X) with X in HT; [exact HT|].
    destruct (Z.ltb_spec X 0); lia.
  - rewrite app_length, H2. simpl. lia.
Qed.

Lemma format_sci_text s sg D X d : (sg = [] /\ s = false \/ sg = [45] /\ s = true) ->
  10 ^ 16 <= D < 10 ^ 17 -> -330 <= X <= 370 -> rounds s D (X - 16) d ->
  core_num (sg ++ format_sci D X) d /\ (length (sg ++ format_sci D X) <= 24)%nat.
Proof.
  intros Hsg HD HX Hr.
  destruct (low_digits_spec 17 D) as (H1 & H2 & H3); [change (10 ^ Z.of_nat 17) with (10 ^ 17); lia|].
  destruct (head_nonzero 16 D) as (c & r & E & Hc & Hl); [exact HD|].
  assert (Hlsg : (length sg <= 1)%nat) by (destruct Hsg as [[-> _]|[-> _]]; simpl; lia).
  unfold format_sci. remember (low_digits 17 D) as ds eqn:Eds. clear Eds. cbv zeta.
  assert (Hfl : forall l, (length (frac_part l) <= S (length l))%nat).
  { intros l. unfold frac_part. pose proof (strip0_length l). destruct (strip0 l); simpl in *; lia. }
  destruct ((X <? -4) || (17 <=? X)) eqn:C.
  - subst ds. simpl firstn. simpl skipn. inversion H1 as [|? ? Hc1 Hr1]; subst x l.
    destruct (exp_part_text X HX) as [Hx1 Hx2]. split.
    + apply (number_text s sg [c] r (exp_part X) X); auto.
      * repeat constructor; apply Hc1.
      * right. eauto.
      * congruence.
      * simpl app. rewrite H3. rewrite Hl. exact Hr.
    + specialize (Hfl r). rewrite !app_length. change (length [c]) with 1%nat. lia.
  - apply orb_false_iff in C. destruct C as [C1 C2].
    apply Z.ltb_ge in C1. apply Z.leb_gt in C2.
    destruct (Z.leb_spec 0 X) as [C3|C3].
    + remember (Z.to_nat (X + 1)) as n eqn:En. assert (Hn : (1 <= n <= 17)%nat) by lia.
      pose proof (firstn_skipn n ds) as Es. pose proof (firstn_length n ds) as L1. pose proof (skipn_length n ds) as L2.
      rewrite H2 in L1, L2. rewrite <- Es in H1. apply Forall_app in H1. destruct H1 as [H1a H1b].
      split.
      * replace (frac_part (skipn n ds)) with (frac_part (skipn n ds) ++ []) by apply app_nil_r.
        apply (number_text s sg (firstn n ds) (skipn n ds) [] 0); auto.
        -- right. subst ds. destruct n; [lia|]. simpl. eauto.
        -- constructor.
        -- rewrite Es, H3, L2. replace (0 - Z.of_nat (17 - n)) with (X - 16) by lia. exact Hr.
      * specialize (Hfl (skipn n ds)). rewrite !app_length. lia.
    + remember (Z.to_nat (- X - 1)) as n eqn:En. assert (Hn : (n <= 3)%nat) by lia.
      split.
      * replace (frac_part (repeat 48 n ++ ds)) with (frac_part (repeat 48 n ++ ds) ++ []) by apply app_nil_r.
        apply (number_text s sg [48] (repeat 48 n ++ ds) [] 0); auto.
        -- repeat constructor; unfold digit; lia.
        -- apply Forall_app. split; [apply digits_zeros|exact H1].
        -- constructor.
        -- rewrite dvalue_app. replace (dvalue (repeat 48 n ++ ds)) with D.
           2:{ rewrite dvalue_app, dvalue_zeros, H3. lia. }
           replace (dvalue [48]) with 0 by reflexivity. rewrite Z.mul_0_l, Z.add_0_l.
           rewrite app_length, repeat_length, H2. replace (0 - Z.of_nat (n + 17)) with (X - 16) by lia. exact Hr.
      * specialize (Hfl (repeat 48 n ++ ds)). rewrite !app_length in *. rewrite repeat_length in Hfl. change (length [48]) with 1%nat. lia.
Qed.

Lemma zero_rounds s : rounds s 0 0 (S754_zero s).
Proof. apply (rounds_dec s 0 0 (S754_zero s)); [lia|reflexivity]. Qed.

(** The text of a finite double. *)
Theorem fmt17g_ok d : valid_double d -> is_finite d -> core_num (fmt17g d) d /\ (length (fmt17g d) <= 24)%nat.
Proof.
  intros Hv Hf. destruct d as [s|s| |s m e]; try contradiction; unfold fmt17g.
  - split; [|destruct s; simpl; lia].
    replace ((if s then [45] else []) ++ [48]) with ((if s then [45] else []) ++ [48] ++ frac_part [] ++ []) by reflexivity.
    apply (number_text s _ [48] [] [] 0); auto.
    + destruct s; auto.
    + repeat constructor; unfold digit; lia.
    + constructor.
    + constructor.
    + apply zero_rounds.
  - destruct (sci17 (Zpos m * 2 ^ Z.max 0 e) (2 ^ Z.max 0 (- e))) as [D X] eqn:E.
    destruct (sci17_rounds s m e D X Hv E) as (H1 & H2 & H3).
    apply (format_sci_text s); auto. destruct s; auto.
Qed.
