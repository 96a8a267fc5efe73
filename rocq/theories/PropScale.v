(** * Properties of FloatToString with its own Log, Floor and Exp: C92. *)

From Verif Require Import Base Str TextModel StringModel SpecNum SpecText DynModel FloatTextModel MathModel SpecFloatText SpecMath.
From Verif Require Import StrtodProofs FormatProofs StringProofs DynProofs FloatTextProofs FloatNumber FloatResult PropFloatText.
From Verif Require Import MathRound MathDecade MathScale MathExp.

#[local] Arguments Z.pow : simpl never.

(** ** The scaled number *)

Lemma abs_normal bits : f_normal bits -> f_normal (bits mod 2 ^ 31) /\ bits mod 2 ^ 31 < 2 ^ 31 /\ f_units (bits mod 2 ^ 31) = f_units bits.
Proof.
  intros [B N]. destruct (abs_fields bits) as [E M]. pose proof (Z.mod_pos_bound bits (2 ^ 31) ltac:(lia)).
  split; [split; [lia|now rewrite E]|]. split; [lia|]. unfold f_units. now rewrite E, M.
Qed.

Lemma real_ok v bits : f_normal bits -> least_scaled <= bits mod 2 ^ 31 -> exists a p, real_scale v (bits mod 2 ^ 31) = (a, p) /\
  0 <= a < 2 ^ 31 /\ 126 <= f_exponent a <= 130 /\ -37 <= p <= 38 /\
  10 ^ Z.max 0 p * 2 ^ 149 * (2 ^ 16 - 1) <= f_units bits * 10 ^ Z.max 0 (- p) * 2 ^ 16 /\
  Z.abs (f_units a * 10 ^ Z.max 0 p - f_units bits * 10 ^ Z.max 0 (- p)) * 2 ^ 17 <= f_units bits * 10 ^ Z.max 0 (- p).
Proof.
  intros N L. destruct (abs_normal bits N) as (N' & U & E).
  destruct (scale_ok v (bits mod 2 ^ 31) N' ltac:(lia)) as (a & p & Sc & H). rewrite E in H. exists a, p. unfold real_scale. rewrite Sc. auto.
Qed.

(** The assumption of C78 and C82 is met, but for the numbers below [least_scaled]. *)
Lemma real_scales v bits : (f_normal bits -> least_scaled <= bits mod 2 ^ 31) -> scales (real_scale v) bits.
Proof.
  intros L a p N _ E. destruct (real_ok v bits N (L N)) as (a' & p' & E' & A & X & P & _). rewrite E in E'. injection E' as <- <-. lia.
Qed.

(** ** C92 *)

(** Full statement: FloatToString is defined for every float and every text of finite
    numbers is near the number. False: for normal numbers below about 1e-37 it
    divides by zero, and then shifts by a negative number, whatever the limit. Powers of ten are
    written as 0.99999 and a power. *)
Theorem C92_refuted (v : simd) (strict : bool) (bits : Z) (b : list Z) (max : Z) : f_normal bits -> bits mod 2 ^ 31 < least_scaled ->
  b <> [] -> 1 <= max -> float_to_string strict (real_scale v) bits b max = UB.
Proof.
  intros N L Nb HM. destruct (abs_normal bits N) as (N' & U & E).
  assert (Sc : real_scale v (bits mod 2 ^ 31) = (0x7F800000, -38)) by (unfold real_scale; rewrite (scale_least v _ N' L); reflexivity).
  assert (W : written (real_scale v) bits 0x7F800000 (-38)).
  { right. split; [|exact Sc]. intros (_ & Lo & _). rewrite <- E in Lo.
    destruct (normal_fields _ N' U) as (X & j & Ex & HX & Hj). rewrite Ex in L, Lo. rewrite MathLog.units_of in Lo by lia.
    assert (X <= 4) by (unfold least_scaled in L; lia). assert (2 ^ (X - 1) <= 2 ^ 3) by (apply Z.pow_le_mono_r; lia).
    assert ((2 ^ 23 + j) * 2 ^ (X - 1) <= 2 ^ 24 * 2 ^ 3) by (apply Z.mul_le_mono_nonneg; try lia; apply Z.pow_nonneg; lia).
    change (149 - 37) with 112 in Lo. lia. }
  replace max with (Z.of_nat (Z.to_nat max)) by lia.
  rewrite (normal_prints strict (real_scale v) bits b (Z.to_nat max) 0x7F800000 (-38) N W ltac:(lia) ltac:(lia)).
  destruct b as [|c b]; [contradiction|]. unfold print_number. change (f_exponent 0x7F800000 - 0x7F) with 128. cbv zeta.
  destruct (f_sign bits); reflexivity.
Qed.
Print Assumptions C92_refuted.

(** The other floats: with enough storage the text and its terminator are written and
    nothing behind the limit; with the rules for [<<] before C++20 up to 512, and from 1e5 on. *)
Theorem C92_defined_partial (v : simd) (strict : bool) (bits : Z) (b : list Z) (max : Z) : 0 <= bits < 2 ^ 32 ->
  (f_normal bits -> least_scaled <= bits mod 2 ^ 31) -> Z.max 0 max < Z.of_nat (length b) ->
  (strict = true -> f_moderate bits -> f_units bits < 512 * 2 ^ 149) ->
  exists b' r t, float_to_string strict (real_scale v) bits b max = Ret (b', r) /\
    stored_within b (S (Z.to_nat max)) t b' /\ 0 <= r <= Z.max 0 max.
Proof.
  intros B L H Hs. apply C78_partial; [now apply real_scales|exact B|exact H|].
  intros St a p N [(Mo & -> & ->)|(Mo & Sc)].
  - destruct (abs_fields bits) as [-> _]. specialize (Hs St Mo). unfold f_units in Hs. destruct N as [_ N].
    destruct (Z.eqb_spec (f_exponent bits) 0); [lia|]. destruct (f_bounds bits) as [_ Bm].
    destruct (Z.le_gt_cases 136 (f_exponent bits)) as [G|G]; [|lia]. exfalso.
    assert (2 ^ 135 <= 2 ^ (f_exponent bits - 1)) by (apply Z.pow_le_mono_r; lia). change (512 * 2 ^ 149) with (2 ^ 23 * 2 ^ 135) in Hs.
    assert (2 ^ 23 * 2 ^ 135 <= (2 ^ 23 + f_mantissa bits) * 2 ^ (f_exponent bits - 1)) by (apply Z.mul_le_mono_nonneg; lia). lia.
  - destruct (real_ok v bits N (L N)) as (a' & p' & E' & A & X & P & _). rewrite Sc in E'. injection E' as <- <-. lia.
Qed.
Print Assumptions C92_defined_partial.

(** ** Accuracy *)

Lemma numeral_short p x : numeral p x -> -100 < p < 100 -> (length x <= 3)%nat.
Proof.
  assert (G : forall d ds, digits (d :: ds) -> d <> 48 -> dvalue (d :: ds) < 100 -> (length ds <= 1)%nat).
  { intros d ds H Hd Hv. inversion H as [|? ? H1 H2]; subst. pose proof (dvalue_nonneg ds H2). unfold digit in H1. cbn [dvalue] in Hv.
    destruct (Nat.le_gt_cases (length ds) 1) as [K|K]; [exact K|]. exfalso.
    assert (10 ^ 2 <= 10 ^ Z.of_nat (length ds)) by (apply Z.pow_le_mono_r; lia). nia. }
  intros H Hr. inversion H as [|d ds Hd Hz|d ds Hd Hz]; subst; [simpl; lia| |]; specialize (G d ds Hd Hz ltac:(lia)); simpl; lia.
Qed.

Lemma close_within n ds s u p : within n ds s 102 -> 0 <= u ->
  10 ^ Z.max 0 p * 2 ^ 149 * (2 ^ 16 - 1) <= u * 10 ^ Z.max 0 (- p) * 2 ^ 16 ->
  Z.abs (s * 10 ^ Z.max 0 p - u * 10 ^ Z.max 0 (- p)) * 2 ^ 17 <= u * 10 ^ Z.max 0 (- p) ->
  close (n * 10 ^ Z.of_nat (length ds) + dvalue ds) (p - Z.of_nat (length ds)) u.
Proof.
  intros (L7 & W) Hu A E. unfold close. set (N := n * 10 ^ Z.of_nat (length ds) + dvalue ds) in *. set (e := p - Z.of_nat (length ds)) in *.
  set (x := 7 - Z.of_nat (length ds) + Z.max 0 p - Z.max 0 e).
  assert (Hx : 0 <= x) by (unfold x, e; lia).
  assert (E1 : 10 ^ Z.max 0 e * 10 ^ x = 10 ^ (7 - Z.of_nat (length ds)) * 10 ^ Z.max 0 p) by (rewrite <- !Z.pow_add_r by (unfold x, e; lia); f_equal; unfold x; lia).
  assert (E2 : 10 ^ Z.max 0 (- e) * 10 ^ x = 10 ^ Z.max 0 (- p) * 10 ^ 7) by (rewrite <- !Z.pow_add_r by (unfold x, e; lia); f_equal; unfold x, e; lia).
  assert (PX : 0 < 10 ^ x) by (apply Z.pow_pos_nonneg; lia).
  assert (PP : 0 < 10 ^ Z.max 0 p) by (apply Z.pow_pos_nonneg; lia). assert (PQ : 0 < 10 ^ Z.max 0 (- p)) by (apply Z.pow_pos_nonneg; lia).
  apply (Z.mul_le_mono_pos_r _ _ (10 ^ x) PX).
  replace (Z.abs (N * 10 ^ Z.max 0 e * 2 ^ 149 - u * 10 ^ Z.max 0 (- e)) * 50000 * 10 ^ x)
    with (Z.abs (N * 10 ^ Z.max 0 e * 2 ^ 149 - u * 10 ^ Z.max 0 (- e)) * Z.abs (10 ^ x) * 50000) by (rewrite (Z.abs_eq (10 ^ x)) by lia; ring).
  rewrite <- Z.abs_mul.
  replace ((N * 10 ^ Z.max 0 e * 2 ^ 149 - u * 10 ^ Z.max 0 (- e)) * 10 ^ x)
    with (N * 2 ^ 149 * (10 ^ Z.max 0 e * 10 ^ x) - u * (10 ^ Z.max 0 (- e) * 10 ^ x)) by ring.
  replace (u * 10 ^ Z.max 0 (- e) * 10 ^ x) with (u * (10 ^ Z.max 0 (- e) * 10 ^ x)) by ring. rewrite E1, E2.
  set (P := 10 ^ Z.max 0 p) in *. set (Q := 10 ^ Z.max 0 (- p)) in *. set (T := 10 ^ (7 - Z.of_nat (length ds))) in *.
  clear E1 E2. clearbody P Q T x N.
  assert (I : N * 2 ^ 149 * (T * P) - u * (Q * 10 ^ 7) = (N * T * 2 ^ 149 - s * 10 ^ 7) * P + (s * P - u * Q) * 10 ^ 7) by ring.
  assert (J : Z.abs (N * 2 ^ 149 * (T * P) - u * (Q * 10 ^ 7)) <= Z.abs (N * T * 2 ^ 149 - s * 10 ^ 7) * P + Z.abs (s * P - u * Q) * 10 ^ 7).
  { rewrite I. etransitivity; [apply Z.abs_triangle|]. rewrite !Z.abs_mul, (Z.abs_eq P), (Z.abs_eq (10 ^ 7)) by lia. lia. }
  assert (K : Z.abs (N * T * 2 ^ 149 - s * 10 ^ 7) * P <= 102 * (P * 2 ^ 149)).
  { replace (102 * (P * 2 ^ 149)) with (102 * 2 ^ 149 * P) by ring. apply Z.mul_le_mono_nonneg_r; [lia|exact W]. }
  replace (u * (Q * 10 ^ 7)) with (u * Q * 10 ^ 7) in * by ring.
  set (V := Z.abs (N * 2 ^ 149 * (T * P) - u * Q * 10 ^ 7)) in *. set (V1 := Z.abs (N * T * 2 ^ 149 - s * 10 ^ 7) * P) in *. set (V2 := Z.abs (s * P - u * Q)) in *.
  set (Y := u * Q) in *. set (PU := P * 2 ^ 149) in *. assert (0 <= Y) by (unfold Y; nia). clearbody V V1 V2 Y PU. clear - J K A E H. lia.
Qed.

(** Numbers that are written with a power of ten, with at least 15 characters: the
    text is an RFC 8259 number of at most 15 characters, with the right sign, a point,
    at most seven digits behind it, a power from -37 to 38, and a value within 2e-5
    of the number. It depends neither on the rules for shifts nor on how Floor is
    compiled. *)
Theorem C92_accurate (v : simd) (strict : bool) (bits : Z) (b : list Z) (M : nat) : f_normal bits -> ~ f_moderate bits ->
  least_scaled <= bits mod 2 ^ 31 -> (15 <= M)%nat -> (M < length b)%nat ->
  exists b' r t n ds p ex, float_to_string strict (real_scale v) bits b (Z.of_nat M) = Ret (b', r) /\ stored_within b (S M) t b' /\
    (length t <= 15)%nat /\ (exists q, point_text (f_sign bits) n ds q /\ t = q ++ ex) /\ no_trailing_zero ds /\ (length ds <= 7)%nat /\
    exp_text ex p /\ -37 <= p <= 38 /\ n < 16 /\
    rfc_number t (f_sign bits) (n * 10 ^ Z.of_nat (length ds) + dvalue ds) (p - Z.of_nat (length ds)) /\
    close (n * 10 ^ Z.of_nat (length ds) + dvalue ds) (p - Z.of_nat (length ds)) (f_units bits).
Proof.
  intros N Mo L HM HL. destruct (real_ok v bits N L) as (a0 & p0 & Sc & A & X & P & Lo & Er).
  assert (W0 : forall a p, written (real_scale v) bits a p -> a = a0 /\ p = p0).
  { intros a p [(Q & _)|(_ & Q)]; [tauto|]. rewrite Sc in Q. injection Q as <- <-. auto. }
  destruct (number_ok strict (real_scale v) bits b M (real_scales v bits (fun _ => L)) N ltac:(lia) HL) as (a & p & W & m & w & ds & ex & b' & r & Wr & Sp & Nw & E & S & D & Dn & D7 & Dz & Ex & R & F).
  { intros _ a p Wr. destruct (W0 a p Wr) as [-> ->]. lia. }
  destruct (W0 a p Wr) as [-> ->]. destruct (f_bounds a0) as [_ Ma].
  assert (HW : 0 <= W < 16).
  { destruct Sp as (Hm & HW & Sp). split; [exact HW|]. destruct Sp as [(He & V)|(_ & -> & _)]; [|lia].
    assert (2 ^ (f_exponent a0 - 127) <= 2 ^ 3) by (apply Z.pow_le_mono_r; lia).
    assert (0 < 2 ^ (f_exponent a0 - 127)) by (apply Z.pow_pos_nonneg; lia).
    change (2 ^ 23) with 8388608 in *. change (2 ^ 3) with 8 in *. nia. }
  pose proof (numeral_length W w 1 ltac:(simpl; lia) Nw) as Lw.
  assert (Ls : (length (sign_of (f_sign bits)) <= 1)%nat) by (destruct (f_sign bits); simpl; lia).
  assert (Le : (length ex <= 4)%nat).
  { destruct Ex as [(_ & ->)|(_ & x & Ex & ->)]; [simpl; lia|]. pose proof (numeral_short p0 x Ex ltac:(lia)). cbn [length]. lia. }
  assert (Lt : (length (sign_of (f_sign bits) ++ w ++ 46%Z :: ds ++ ex) <= 15)%nat) by (rewrite !app_length; cbn [length]; rewrite app_length; lia).
  rewrite firstn_all2 in S by lia.
  assert (Wi : within W ds (f_units a0) 102).
  { destruct F as (ds0 & F & Fn & T); [rewrite app_length; lia|]. unfold f_units. destruct (Z.eqb_spec (f_exponent a0) 0); [lia|].
    eapply within_102; eauto; [lia|rewrite app_length; lia]. }
  pose proof (power_rfc p0 ex Ex) as Px.
  exists b', r, (sign_of (f_sign bits) ++ w ++ 46 :: ds ++ ex), W, ds, p0, ex. split; [exact E|]. split; [exact S|]. split; [exact Lt|].
  split; [|split; [exact Dz|split; [exact D7|split; [exact Px|split; [exact P|split; [lia|split]]]]]].
  - exists (sign_of (f_sign bits) ++ w ++ 46 :: ds). split.
    + split; [lia|]. split; [exact Dn|]. split; [exact D|]. exists w. auto.
    + now rewrite <- !app_assoc.
  - destruct (numeral_rfc W w ltac:(lia) Nw) as (Dw & Zw & Vw).
    replace (W * 10 ^ Z.of_nat (length ds) + dvalue ds) with (dvalue (w ++ ds)) by (rewrite dvalue_app, Vw; reflexivity).
    replace (sign_of (f_sign bits) ++ w ++ 46 :: ds ++ ex) with (sign_of (f_sign bits) ++ w ++ (46 :: ds) ++ ex) by reflexivity.
    apply rfc_number_intro; [destruct (f_sign bits); auto|exact Dw|exact Zw|constructor; exact D|auto|exact Px].
  - apply (close_within W ds (f_units a0)); [exact Wi|apply (units_rep bits)|exact Lo|exact Er].
Qed.
Print Assumptions C92_accurate.

Example C92_e1 : f_normal 0x7F7FFFFF /\ ~ f_moderate 0x7F7FFFFF /\ least_scaled <= 0x7F7FFFFF mod 2 ^ 31 /\
  float_to_string true (real_scale Plain) 0xFF7FFFFF (repeat 7 16) 15 = Ret (`"-3.4028093e38" ++ 0 :: repeat 7 2, 2) /\
  float_to_string true (real_scale Sse2) 0x02081CC9 (repeat 7 16) 15 = Ret (`"0.99999e-37" ++ 0 :: repeat 7 4, 3) /\
  float_to_string true (real_scale Sse4) 0x501502F9 (repeat 7 16) 15 = Ret (`"0.99999e10" ++ 0 :: repeat 7 5, 2) /\
  f_normal 0x02081CC8 /\ float_to_string true (real_scale Sse4) 0x02081CC8 (repeat 7 16) 15 = UB.
Proof.
  split; [split; [lia|vm_compute; auto]|]. split; [intros (_ & _ & H); vm_compute in H; discriminate H|]. split; [vm_compute; discriminate|].
  split; [vm_compute; reflexivity|]. split; [vm_compute; reflexivity|]. split; [vm_compute; reflexivity|]. split; [split; [lia|vm_compute; auto]|vm_compute; reflexivity].
Qed.
