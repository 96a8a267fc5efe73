(** * What FloatToString returns, in terms of the specification. *)

From Verif Require Import Base Str TextModel StringModel SpecNum SpecText DynModel FloatTextModel SpecFloatText.
From Verif Require Import StrtodProofs FormatProofs StringProofs FloatTextProofs FloatNumber.

(** ** The fields of a float *)

Lemma field_e x : exponent_field x = (x / 2 ^ 23) mod 2 ^ 8.
Proof. unfold exponent_field. change 0xFF with (Z.ones 8). rewrite Z.land_ones, Z.shiftr_div_pow2 by lia. reflexivity. Qed.

Lemma field_m x : mantissa_field x = x mod 2 ^ 23.
Proof. unfold mantissa_field. change 0x007FFFFF with (Z.ones 23). now rewrite Z.land_ones by lia. Qed.

Lemma i32_cases x : 0 <= x < 2 ^ 32 -> x < 2 ^ 31 /\ i32 x = x \/ 2 ^ 31 <= x /\ i32 x = x - 2 ^ 32.
Proof.
  intros H. unfold i32. destruct (Z.lt_ge_cases x (2 ^ 31)) as [L|L]; [left|right]; (split; [exact L|]).
  - rewrite Z.mod_small by lia. lia.
  - replace (x + 2 ^ 31) with (x - 2 ^ 31 + 1 * 2 ^ 32) by lia. rewrite Z.mod_add, Z.mod_small by lia. lia.
Qed.

Lemma i32_fields x : 0 <= x < 2 ^ 32 ->
  exponent_field (i32 x) = f_exponent x /\ mantissa_field (i32 x) = f_mantissa x /\ (i32 x <? 0) = f_sign x.
Proof.
  intros H. rewrite field_e, field_m. unfold f_exponent, f_mantissa, f_sign.
  destruct (i32_cases x H) as [[L ->]|[L ->]].
  - split; [reflexivity|]. split; [reflexivity|]. destruct (Z.ltb_spec x 0), (Z.leb_spec (2 ^ 31) x); auto; lia.
  - split; [|split].
    + replace (x - 2 ^ 32) with (x + (- 512) * 2 ^ 23) by lia. rewrite Z.div_add by lia.
      change (-512) with (- 2 * 2 ^ 8). apply Z.mod_add. lia.
    + replace (x - 2 ^ 32) with (x + (- 512) * 2 ^ 23) by lia. apply Z.mod_add. lia.
    + destruct (Z.ltb_spec (x - 2 ^ 32) 0), (Z.leb_spec (2 ^ 31) x); auto; lia.
Qed.

Lemma fabs_spec x : fabs_bits x = x mod 2 ^ 31.
Proof. unfold fabs_bits. change 0x7FFFFFFF with (Z.ones 31). now rewrite Z.land_ones by lia. Qed.

Lemma abs_fields x : f_exponent (x mod 2 ^ 31) = f_exponent x /\ f_mantissa (x mod 2 ^ 31) = f_mantissa x.
Proof.
  unfold f_exponent, f_mantissa. change (2 ^ 31) with (2 ^ 23 * 2 ^ 8). rewrite Z.rem_mul_r by lia.
  rewrite (Z.mul_comm (2 ^ 23)). rewrite Z.div_add, Z.mod_add by lia. rewrite Z.mod_mod by lia.
  rewrite (Z.div_small (x mod 2 ^ 23)) by (apply Z.mod_pos_bound; lia). rewrite Z.add_0_l, Z.mod_mod by lia. auto.
Qed.

Lemma units_spec x : units (fabs_bits x) = f_units x.
Proof.
  rewrite fabs_spec. unfold units, f_units. destruct (abs_fields x) as [A B]. rewrite <- A, <- B.
  rewrite field_e, field_m. reflexivity.
Qed.

Lemma f_bounds x : 0 <= f_exponent x < 2 ^ 8 /\ 0 <= f_mantissa x < 2 ^ 23.
Proof. unfold f_exponent, f_mantissa. split; apply Z.mod_pos_bound; lia. Qed.

Lemma moderate_test x : f_normal x ->
  (float_lt (fabs_bits x) c_small || negb (float_lt (fabs_bits x) c_large) = false <-> f_moderate x).
Proof.
  intros N. unfold float_lt. rewrite units_spec. unfold f_moderate.
  change (units c_small) with (13743895 * 2 ^ (149 - 37)). change (units c_large) with (100000 * 2 ^ 149).
  rewrite orb_false_iff, negb_false_iff, Z.ltb_ge, Z.ltb_lt. tauto.
Qed.

(** The exponent field of a moderate number. *)
Lemma moderate_exponent x : f_moderate x -> 113 <= f_exponent x <= 143.
Proof.
  intros ((R & N) & L & U). unfold f_units in *. destruct (Z.eqb_spec (f_exponent x) 0); [lia|].
  destruct (f_bounds x) as [_ M]. set (E := f_exponent x) in *. set (m := f_mantissa x) in *. split.
  - apply Z.nlt_ge. intros C. assert (P : 2 ^ (E - 1) <= 2 ^ 111) by (apply Z.pow_le_mono_r; lia).
    assert ((2 ^ 23 + m) * 2 ^ (E - 1) <= (2 * 2 ^ 23) * 2 ^ 111) by (apply Z.mul_le_mono_nonneg; lia). lia.
  - apply Z.nlt_ge. intros C. assert (P : 2 ^ 143 <= 2 ^ (E - 1)) by (apply Z.pow_le_mono_r; lia).
    assert (2 ^ 23 * 2 ^ 143 <= (2 ^ 23 + m) * 2 ^ (E - 1)) by (apply Z.mul_le_mono_nonneg; lia). lia.
Qed.

(** ** From storage to texts *)

Lemma st_stored M b t b' : (M < length b)%nat -> st M (skipn (S M) b) (t ++ [0]) b' -> nul_free t -> stored_within b (S M) t b'.
Proof.
  intros HL (j & -> & L) N. rewrite app_length in L. cbn [length] in L. split; [lia|].
  split; [rewrite !app_length, skipn_length; cbn [length]; lia|].
  split; [split; [exact N|]; exists (j ++ skipn (S M) b); rewrite <- app_assoc; reflexivity|].
  rewrite app_assoc. rewrite skipn_app. rewrite skipn_all2 by (rewrite !app_length; cbn [length]; lia).
  replace (S M - length ((t ++ [0%Z]) ++ j))%nat with 0%nat by (rewrite !app_length; cbn [length]; lia). reflexivity.
Qed.

Lemma nul_free_firstn n t : nul_free t -> nul_free (firstn n t).
Proof. intros H. rewrite <- (firstn_skipn n t) in H. apply Forall_app in H. apply H. Qed.

Lemma power_nul_free p ex : power_text p ex -> nul_free ex.
Proof.
  intros [[_ ->]|(_ & w & W & ->)]; [constructor|]. constructor; [lia|]. apply (numeral_nul_free p w W).
Qed.

Lemma whole_nul_free neg n w ds ex p : numeral n w -> digits ds -> power_text p ex -> nul_free (sign_of neg ++ w ++ 46 :: ds ++ ex).
Proof.
  intros W D E. apply nul_free_app; [destruct neg; repeat constructor; lia|].
  apply nul_free_app; [apply (numeral_nul_free n w W)|]. constructor; [lia|]. apply nul_free_app; [now apply digits_nul_free|].
  now apply (power_nul_free p).
Qed.

(** ** Accuracy *)

Lemma carry_mod m k D r : (2 <= k)%nat -> m * 10 ^ Z.of_nat k = D * 2 ^ 23 + r -> D mod 100 = 99 -> r mod 100 = 8.
Proof.
  intros K E H. replace (Z.of_nat k) with (2 + Z.of_nat (k - 2)) in E by lia. rewrite Z.pow_add_r in E by lia. change (10 ^ 2) with 100 in E.
  pose proof (Z.div_mod D 100 ltac:(lia)) as DM. rewrite H in DM.
  replace r with (8 + (m * 10 ^ Z.of_nat (k - 2) - D / 100 * 2 ^ 23 - 8304722) * 100) by (change (2 ^ 23) with 8388608 in *; lia).
  rewrite Z.mod_add by lia. reflexivity.
Qed.

(** [X] * 10^-7 is the number written, [V] * 2^-23 the one that should be. *)
Lemma fraction_value W m ds0 ds room : fraction 7 room m ds0 -> (7 <= room)%nat -> ds0 <> [] -> tidied ds0 ds ->
  let X := (W * 10 ^ Z.of_nat (length ds) + dvalue ds) * 10 ^ (7 - Z.of_nat (length ds)) in
  - (100 * 2 ^ 23) <= X * 2 ^ 23 - (W * 2 ^ 23 + m) * 10 ^ 7 <= 100 * 2 ^ 23.
Proof.
  intros (D0 & L0 & r & R & E & S & _ & _) Rm Ne (D & Nd & L & Nz & V) X.
  set (k0 := length ds0) in *. set (k := length ds) in *.
  assert (K : (1 <= k0)%nat) by (destruct ds0; [congruence|subst k0; cbn [length]; lia]).
  assert (P : 10 ^ (7 - Z.of_nat k) = 10 ^ Z.of_nat (k0 - k) * 10 ^ (7 - Z.of_nat k0)) by (rewrite <- Z.pow_add_r by lia; f_equal; lia).
  assert (Q : 10 ^ 7 = 10 ^ Z.of_nat k * 10 ^ (7 - Z.of_nat k)) by (rewrite <- Z.pow_add_r by lia; f_equal; lia).
  assert (Q0 : 10 ^ 7 = 10 ^ Z.of_nat k0 * 10 ^ (7 - Z.of_nat k0)) by (rewrite <- Z.pow_add_r by lia; f_equal; lia).
  assert (T : exists c, (c = 0 \/ c = 1 /\ (2 <= k0)%nat /\ dvalue ds0 mod 100 = 99) /\ dvalue ds * 10 ^ Z.of_nat (k0 - k) = dvalue ds0 + c).
  { destruct V as [V|(V & V2 & V3)]; [exists 0; split; [now left|lia]|exists 1; split; [right; auto|lia]]. }
  destruct T as (c & C & T).
  assert (EX : X * 2 ^ 23 - (W * 2 ^ 23 + m) * 10 ^ 7 = (c * 2 ^ 23 - r) * 10 ^ (7 - Z.of_nat k0)).
  { assert (X = W * 10 ^ 7 + (dvalue ds0 + c) * 10 ^ (7 - Z.of_nat k0)) as ->.
    { subst X. rewrite Z.mul_add_distr_r. f_equal; [rewrite Q; lia|]. rewrite P, <- T. lia. }
    assert (m * 10 ^ 7 = (dvalue ds0 * 2 ^ 23 + r) * 10 ^ (7 - Z.of_nat k0)) as Em by (rewrite Q0, <- E; lia).
    rewrite !Z.mul_add_distr_r. rewrite Em. lia. }
  rewrite EX. clear EX X P Q Q0 T.
  assert (B : (5 <= k0)%nat \/ c = 0 /\ r < 2).
  { destruct S as [S|[S|S]]; [left; lia| |left; lia]. destruct C as [C|(_ & C2 & C3)]; [right; auto|]. exfalso.
    pose proof (carry_mod _ _ _ _ C2 E C3) as Hr. rewrite Z.mod_small in Hr by lia. lia. }
  assert (c = 0 \/ c = 1) by tauto. clear C E.
  destruct B as [B|[-> B]].
  - assert (k0 = 5 \/ k0 = 6 \/ k0 = 7)%nat as [-> | [-> | ->]] by lia; change (2 ^ 23) with 8388608 in *; simpl (10 ^ _); lia.
  - assert (10 ^ (7 - Z.of_nat k0) <= 10 ^ 6) by (apply Z.pow_le_mono_r; lia). assert (0 < 10 ^ (7 - Z.of_nat k0)) by (apply Z.pow_pos_nonneg; lia).
    change (10 ^ 6) with 1000000 in *. change (2 ^ 23) with 8388608 in *. nia.
Qed.

Lemma within_102 mf E W m ds0 ds room : 1 <= E -> split_number (2 ^ 23 + mf) (E - 127) W m ->
  fraction 7 room m ds0 -> (7 <= room)%nat -> ds0 <> [] -> tidied ds0 ds ->
  within W ds ((2 ^ 23 + mf) * 2 ^ (E - 1)) 102.
Proof.
  intros HE (Hm & HW & Sp) F Rm Ne T. pose proof (fraction_value W m ds0 ds room F Rm Ne T) as B. cbv zeta in B.
  destruct F as (_ & F7 & _). destruct T as (_ & _ & T & _). split; [lia|].
  set (X := (W * 10 ^ Z.of_nat (length ds) + dvalue ds) * 10 ^ (7 - Z.of_nat (length ds))) in *. clearbody X.
  set (mant := 2 ^ 23 + mf) in *. set (u := mant * 2 ^ (E - 1)).
  destruct Sp as [(He & V)|(He & -> & L & U)].
  - assert (u = (W * 2 ^ 23 + m) * 2 ^ 126) as Eu.
    { rewrite V. subst u. rewrite <- Z.mul_assoc, <- Z.pow_add_r by lia. do 2 f_equal. lia. }
    rewrite Eu. apply Z.abs_le. change (2 ^ 149) with (2 ^ 23 * 2 ^ 126). lia.
  - assert (P : 2 ^ 126 = 2 ^ (- (E - 127)) * 2 ^ (E - 1)) by (rewrite <- Z.pow_add_r by lia; f_equal; lia).
    assert (0 < 2 ^ (E - 1)) by (apply Z.pow_pos_nonneg; lia).
    assert (m * 2 ^ 126 <= u < (m + 1) * 2 ^ 126) as Hu.
    { subst u. rewrite P, !Z.mul_assoc. split; [apply Z.mul_le_mono_nonneg_r; lia|apply Z.mul_lt_mono_pos_r; lia]. }
    clearbody u. apply Z.abs_le. change (2 ^ 149) with (2 ^ 23 * 2 ^ 126). rewrite Z.mul_0_l, Z.add_0_l in B.
    change (10 ^ 7) with 10000000 in *. change (2 ^ 23) with 8388608 in *. lia.
Qed.

(** Multiples of 1/16. *)
Lemma exact_sixteenth mf E W m ds0 ds room a : 1 <= E -> split_number (2 ^ 23 + mf) (E - 127) W m ->
  fraction 7 room m ds0 -> (7 <= room)%nat -> ds0 <> [] -> tidied ds0 ds ->
  (2 ^ 23 + mf) * 2 ^ (E - 1) = a * 2 ^ 145 ->
  (W * 10 ^ Z.of_nat (length ds) + dvalue ds) * 2 ^ 149 = a * 2 ^ 145 * 10 ^ Z.of_nat (length ds) /\ (length ds <= 4)%nat.
Proof.
  intros HE (Hm & HW & Sp) (D0 & L0 & r & R & Er & S & I & _) Rm Ne (D & Nd & L & Nz & V) A.
  set (mant := 2 ^ 23 + mf) in *.
  assert (Q : W * 2 ^ 23 + m = a * 2 ^ 19).
  { destruct Sp as [(He & Sp)|(He & -> & Lo & Up)].
    - rewrite Sp. apply (Z.mul_reg_r _ _ (2 ^ 126)); [lia|]. rewrite <- !Z.mul_assoc, <- !Z.pow_add_r by lia.
      replace (E - 127 + 126) with (E - 1) by lia. exact A.
    - assert (P : 2 ^ 126 = 2 ^ (- (E - 127)) * 2 ^ (E - 1)) by (rewrite <- Z.pow_add_r by lia; f_equal; lia).
      assert (0 < 2 ^ (E - 1)) by (apply Z.pow_pos_nonneg; lia).
      assert (mant = a * 2 ^ 19 * 2 ^ (- (E - 127))) as Em.
      { apply (Z.mul_reg_r _ _ (2 ^ (E - 1))); [lia|]. rewrite A. rewrite <- !Z.mul_assoc, <- P. lia. }
      assert (0 < 2 ^ (- (E - 127))) by (apply Z.pow_pos_nonneg; lia). rewrite Em in Lo, Up.
      apply Z.mul_le_mono_pos_r in Lo; [|lia]. apply Z.mul_lt_mono_pos_r in Up; [|lia]. lia. }
  assert (Qm : exists c, m = c * 2 ^ 19) by (exists (a - W * 16); lia). destruct Qm as (c & Qm).
  set (k0 := length ds0) in *. set (k := length ds) in *.
  assert (K4 : (k0 <= 4)%nat).
  { destruct (Nat.le_gt_cases k0 4) as [K|K]; [exact K|]. specialize (I 4%nat ltac:(lia)). rewrite Qm in I.
    replace (c * 2 ^ 19 * 10 ^ Z.of_nat 4) with (c * 625 * 2 ^ 23) in I by (change (10 ^ Z.of_nat 4) with (625 * 2 ^ 4); lia).
    rewrite Z.mod_mul in I by lia. lia. }
  assert (r < 2) by (destruct S as [S|[S|S]]; lia).
  assert (r = 0) as ->.
  { rewrite Qm in Er. assert (Dv : (2 ^ 19 | r)) by (exists (c * 10 ^ Z.of_nat k0 - dvalue ds0 * 2 ^ 4); lia).
    destruct Dv as (z & Dv). change (2 ^ 19) with 524288 in Dv. lia. }
  assert (V' : dvalue ds * 10 ^ Z.of_nat (k0 - k) = dvalue ds0).
  { destruct V as [V|(_ & V2 & V3)]; [exact V|]. pose proof (carry_mod _ _ _ _ V2 Er V3) as Z8. discriminate Z8. }
  split; [|lia]. rewrite Z.add_0_r in Er.
  assert (P : 10 ^ Z.of_nat k0 = 10 ^ Z.of_nat k * 10 ^ Z.of_nat (k0 - k)) by (rewrite <- Z.pow_add_r by lia; f_equal; lia).
  assert (G : (W * 10 ^ Z.of_nat k + dvalue ds) * 2 ^ 23 = a * 2 ^ 19 * 10 ^ Z.of_nat k).
  { apply (Z.mul_reg_r _ _ (10 ^ Z.of_nat (k0 - k))); [apply Z.pow_nonzero; lia|]. rewrite <- Q.
    rewrite P, <- V' in Er. lia. }
  change (2 ^ 149) with (2 ^ 23 * 2 ^ 126). change (2 ^ 145) with (2 ^ 19 * 2 ^ 126). lia.
Qed.

(** ** Lengths *)

Lemma dvalue_nonneg ds : digits ds -> 0 <= dvalue ds.
Proof.
  induction 1 as [|d ds Hd _ IH]; [simpl; lia|]. cbn [dvalue]. unfold digit in Hd.
  assert (0 <= 10 ^ Z.of_nat (length ds)) by (apply Z.pow_nonneg; lia). nia.
Qed.

Lemma numeral_length n w j : 0 <= n < 10 ^ Z.of_nat (S j) -> numeral n w -> (1 <= length w <= S j)%nat.
Proof.
  intros Hn W. inversion W as [|d ds D N|d ds D N]; subst; cbn [length]; [lia| |].
  - inversion D as [|? ? Hd Ds]; subst. unfold digit in Hd. pose proof (dvalue_nonneg ds Ds). cbn [dvalue] in Hn.
    split; [lia|]. destruct (Nat.le_gt_cases (length ds) j) as [K|K]; [lia|]. exfalso.
    assert (10 ^ Z.of_nat (S j) <= 10 ^ Z.of_nat (length ds)) by (apply Z.pow_le_mono_r; lia). nia.
  - exfalso. inversion D as [|? ? Hd Ds]; subst. unfold digit in Hd. pose proof (dvalue_nonneg ds Ds). cbn [dvalue] in Hn.
    assert (0 < 10 ^ Z.of_nat (length ds)) by (apply Z.pow_pos_nonneg; lia). nia.
Qed.

(** ** All numbers that are not special *)

Lemma normal_prints strict scale bits b M a p : f_normal bits -> written scale bits a p -> 0 <= a < 2 ^ 32 -> (1 <= M)%nat ->
  float_to_string strict scale bits b (Z.of_nat M) = print_number strict (f_sign bits) (f_exponent a) (f_mantissa a) p b (Z.of_nat M).
Proof.
  intros N W A HM. pose proof N as ((B & B') & X). unfold float_to_string. destruct (Z.ltb_spec (Z.of_nat M) 1); [lia|]. cbv zeta.
  destruct (i32_fields bits ltac:(lia)) as (-> & -> & ->).
  destruct (Z.eqb_spec (f_exponent bits) 0); [lia|]. change 0xFF with 255. destruct (Z.eqb_spec (f_exponent bits) 255); [lia|].
  pose proof (moderate_test bits N) as Mt.
  destruct W as [(Mo & -> & ->)|(Mo & Sc)].
  - apply Mt in Mo. rewrite Mo. destruct (abs_fields bits) as [-> ->]. reflexivity.
  - destruct (_ || _); [|exfalso; tauto]. rewrite fabs_spec, Sc.
    destruct (i32_fields a A) as (-> & -> & _). reflexivity.
Qed.

Lemma written_exists scale bits : f_normal bits -> exists a p, written scale bits a p.
Proof.
  intros N. pose proof (moderate_test bits N) as Mt. destruct (_ || _).
  - destruct (scale (bits mod 2 ^ 31)) as [a p] eqn:E. exists a, p. right. split; [|exact E]. intros C. apply Mt in C. discriminate.
  - exists (bits mod 2 ^ 31), 0. left. tauto.
Qed.

(** ** Texts as numbers *)

Lemma numeral_rfc n w : 0 <= n -> numeral n w -> digits w /\ (w = [48] \/ exists c r, w = c :: r /\ c <> 48) /\ dvalue w = n.
Proof.
  intros H W. inversion W as [|d ds D N|d ds D N]; subst.
  - split; [repeat constructor; unfold digit; lia|]. split; [now left|reflexivity].
  - split; [exact D|]. split; [right; eauto|reflexivity].
  - exfalso. inversion D as [|? ? Hd Ds]; subst. unfold digit in Hd. pose proof (dvalue_nonneg ds Ds). cbn [dvalue] in H.
    assert (0 < 10 ^ Z.of_nat (length ds)) by (apply Z.pow_pos_nonneg; lia). nia.
Qed.

Lemma power_rfc p ex : power_text p ex -> exp_text ex p.
Proof.
  intros [(-> & ->)|(_ & w & W & ->)]; [constructor|]. inversion W as [|d ds D N|d ds D N]; subst.
  - change 0 with (dvalue [48]). apply (ex_some 101 [] false [48]); [auto|constructor|repeat constructor; unfold digit; lia|discriminate].
  - apply (ex_some 101 [] false (d :: ds)); [auto|constructor|exact D|discriminate].
  - apply (ex_some 101 [45] true (d :: ds)); [auto|constructor|exact D|discriminate].
Qed.

Lemma digits_point a b x y : digits a -> digits b -> a ++ 46 :: x = b ++ 46 :: y -> a = b /\ x = y.
Proof.
  intros A. revert b. induction A as [|c a C A IH]; intros b B E.
  - destruct B as [|d b D B]; [injection E as <-; auto|]. injection E as <- _. unfold digit in D. lia.
  - destruct B as [|d b D B]; cbn [app] in E; injection E as -> E; [unfold digit in C; lia|].
    destruct (IH b B E) as [-> ->]. auto.
Qed.

Lemma point_unique neg neg' n n' ds ds' t : point_text neg n ds t -> point_text neg' n' ds' t -> neg = neg' /\ n = n' /\ ds = ds'.
Proof.
  intros (N & _ & _ & w & W & ->) (N' & _ & _ & w' & W' & E).
  destruct (numeral_rfc n w N W) as (D & _ & V). destruct (numeral_rfc n' w' N' W') as (D' & _ & V').
  assert (Q : neg = neg' /\ w ++ 46 :: ds = w' ++ 46 :: ds').
  { destruct neg, neg'; cbn [sign_of app] in E.
    - injection E as E. auto.
    - exfalso. destruct w' as [|d w']; [discriminate E|]. injection E as <- _. inversion D' as [|? ? Hd _]; subst. unfold digit in Hd. lia.
    - exfalso. destruct w as [|d w]; [discriminate E|]. injection E as -> _. inversion D as [|? ? Hd _]; subst. unfold digit in Hd. lia.
    - auto. }
  destruct Q as [-> Q]. destruct (digits_point w w' ds ds' D D' Q) as [-> ->]. subst. auto.
Qed.
