(** * Properties of FloatToString and of strings made from float: C78 - C82. *)

From Verif Require Import Base Str TextModel StringModel SpecNum SpecText DynModel FloatTextModel MathModel SpecFloatText.
From Verif Require Import StrtodProofs FormatProofs StringProofs DynProofs FloatTextProofs FloatNumber FloatResult.

(** The assumption about Log, Floor and Exp for a number they are used for: the scaled
    number is between 2^-31 and 2^24 (it should be between 1 and 10) and the power
    fits. PropScale.v proves for which numbers it holds of the code. *)
Definition scales (scale : Z -> Z * Z) (bits : Z) : Prop :=
  forall a p, f_normal bits -> ~ f_moderate bits -> scale (bits mod 2 ^ 31) = (a, p) ->
    0 <= a < 2 ^ 32 /\ 96 <= f_exponent a <= 150 /\ - 2 ^ 31 < p < 2 ^ 31.

(** ** The result for all floats *)

Lemma wrs_st M tl t b s : st M tl t b -> (length t + length s <= S M)%nat ->
  exists b', wrs b (length t) s = Ret b' /\ st M tl (t ++ s) b'.
Proof.
  revert t b. induction s as [|c s IH]; intros t b S H.
  - exists b. rewrite app_nil_r. auto.
  - cbn [length] in H. destruct (st_wr M tl t b c S ltac:(lia)) as (b1 & E & S1). cbn [wrs]. rewrite E. cbn [bind].
    assert (L : length (t ++ [c]) = Datatypes.S (length t)) by (rewrite app_length; cbn [length]; lia). rewrite <- L.
    destruct (IH (t ++ [c]) b1 S1 ltac:(lia)) as (b2 & E2 & S2). exists b2. rewrite <- app_assoc in S2. auto.
Qed.

Lemma fixed_ok M b t : (M < length b)%nat -> (length t <= M)%nat -> nul_free t ->
  exists b', wrs b 0 (t ++ [0]) = Ret b' /\ stored_within b (S M) t b'.
Proof.
  intros H L N. pose proof (st_start M b H) as S0.
  destruct (wrs_st M _ [] b (t ++ [0]) S0) as (b' & E & S1); [rewrite app_length; cbn [length]; lia|].
  exists b'. split; [exact E|]. apply st_stored; auto.
Qed.

Lemma written_range scale bits a p : scales scale bits -> f_normal bits -> written scale bits a p ->
  0 <= a < 2 ^ 32 /\ 96 <= f_exponent a <= 150 /\ - 2 ^ 31 < p < 2 ^ 31.
Proof.
  intros Sc N [(Mo & -> & ->)|(Mo & E)]; [|now apply Sc].
  pose proof (Z.mod_pos_bound bits (2 ^ 31) ltac:(lia)). destruct (abs_fields bits) as [-> _].
  pose proof (moderate_exponent bits Mo). lia.
Qed.

(** Everything about numbers that are not special, in one statement. *)
Lemma number_ok strict scale bits b M : scales scale bits -> f_normal bits -> (1 <= M)%nat -> (M < length b)%nat ->
  (strict = true -> forall a p, written scale bits a p -> f_exponent a < 136) ->
  exists a p W m w ds ex b' r, written scale bits a p /\ split_number (2 ^ 23 + f_mantissa a) (f_exponent a - 127) W m /\ numeral W w /\
    float_to_string strict scale bits b (Z.of_nat M) = Ret (b', r) /\
    stored_within b (S M) (firstn M (sign_of (f_sign bits) ++ w ++ 46 :: ds ++ ex)) b' /\
    digits ds /\ ds <> [] /\ (length ds <= 7)%nat /\ no_trailing_zero ds /\ power_text p ex /\
    returned M p (sign_of (f_sign bits) ++ w ++ 46 :: ds) ex r /\
    ((length (sign_of (f_sign bits) ++ w) + 8 <= M)%nat -> exists ds0,
      fraction 7 (M - length (sign_of (f_sign bits) ++ w) - 1) m ds0 /\ ds0 <> [] /\ tidied ds0 ds).
Proof.
  intros Sc N HM HL Hs. destruct (written_exists scale bits N) as (a & p & Wr).
  destruct (written_range scale bits a p Sc N Wr) as (A & E & P). destruct (f_bounds a) as [_ Fm].
  destruct (print_ok strict M b (f_sign bits) (f_exponent a) (f_mantissa a) p E Fm P HM HL ltac:(intros St; eauto))
    as (W & m & w & ds & ex & b' & r & Sp & Nw & Pr & S & D & Dn & D7 & Dz & Ex & R & F).
  exists a, p, W, m, w, ds, ex, b', r. split; [exact Wr|]. split; [exact Sp|]. split; [exact Nw|].
  rewrite (normal_prints strict scale bits b M a p N Wr A HM). split; [exact Pr|]. split; [|repeat (split; [assumption|]); exact F].
  apply st_stored; [exact HL|exact S|]. apply nul_free_firstn. now apply (whole_nul_free _ W _ _ _ p).
Qed.

(** ** C78: safety *)

(** Full statement: for every number, limit and storage of at least that many
    characters and the terminator, FloatToString writes a text with its terminator,
    and nothing behind the limit. With the rules for [<<] before C++20 false for
    512.0F. *)
Theorem C78_refuted : f_moderate 0x44000000 /\ forall scale b max, (1 <= length b)%nat -> 1 <= max ->
  float_to_string true scale 0x44000000 b max = UB.
Proof.
  split; [split; [split; [lia|vm_compute; auto]|vm_compute; split; [discriminate|reflexivity]]|].
  intros scale [|c b] max L H; [simpl in L; lia|]. unfold float_to_string. destruct (Z.ltb_spec max 1); [lia|]. reflexivity.
Qed.
Print Assumptions C78_refuted.

Theorem C78_partial (strict : bool) (scale : Z -> Z * Z) (bits : Z) (b : list Z) (max : Z) :
  scales scale bits -> 0 <= bits < 2 ^ 32 -> Z.max 0 max < Z.of_nat (length b) ->
  (strict = true -> forall a p, f_normal bits -> written scale bits a p -> f_exponent a < 136) ->
  exists b' r t, float_to_string strict scale bits b max = Ret (b', r) /\
    stored_within b (S (Z.to_nat max)) t b' /\ 0 <= r <= Z.max 0 max.
Proof.
  intros Sc B L Hs. destruct (Z.lt_ge_cases max 1) as [M1|M1].
  - unfold float_to_string. destruct (Z.ltb_spec max 1); [|lia].
    destruct b as [|c b]; [simpl in L; lia|]. eexists (0 :: b), 0, []. split; [reflexivity|].
    replace (Z.to_nat max) with 0%nat by lia. split; [|lia]. split; [simpl; lia|]. split; [reflexivity|]. split; [split; [constructor|now exists b]|reflexivity].
  - replace max with (Z.of_nat (Z.to_nat max)) by lia. set (M := Z.to_nat max) in *. rewrite Nat2Z.id.
    destruct (i32_fields bits B) as (Fe & Fm & Fs). pose proof (f_bounds bits) as [Eb _].
    assert (K : f_exponent bits = 0 \/ f_exponent bits = 255 \/ f_normal bits) by (unfold f_normal; lia).
    destruct K as [K|[K|N]].
    + unfold float_to_string. destruct (Z.ltb_spec (Z.of_nat M) 1); [lia|]. cbv zeta. rewrite Fe, K. cbn [Z.eqb].
      destruct (Z.leb_spec 3 (Z.of_nat M)).
      * destruct (fixed_ok M b [48; 46; 48]) as (b' & E & S); [lia|simpl; lia|repeat constructor; lia|].
        cbn [app] in E. rewrite E. cbn [bind]. exists b', 3, [48; 46; 48]. split; [reflexivity|]. split; [exact S|lia].
      * destruct (fixed_ok M b [48]) as (b' & E & S); [lia|simpl; lia|repeat constructor; lia|].
        cbn [app] in E. rewrite E. cbn [bind]. exists b', 1, [48]. split; [reflexivity|]. split; [exact S|lia].
    + unfold float_to_string. destruct (Z.ltb_spec (Z.of_nat M) 1); [lia|]. cbv zeta. rewrite Fe, K.
      change (255 =? 0) with false. change (255 =? 0xFF) with true. cbv iota.
      destruct (Z.leb_spec 4 (Z.of_nat M)).
      * assert (G : exists t b', wrs b 0 (if i32 bits <? 0 then 45 :: (if mantissa_field (i32 bits) =? 0 then [73; 78; 70; 0] else [78; 65; 78; 0])
          else (if mantissa_field (i32 bits) =? 0 then [73; 78; 70; 0] else [78; 65; 78; 0])) = Ret b' /\ stored_within b (S M) t b').
        { destruct (i32 bits <? 0), (mantissa_field (i32 bits) =? 0).
          - exists [45; 73; 78; 70]. apply (fixed_ok M b [45; 73; 78; 70]); [lia|simpl; lia|repeat constructor; lia].
          - exists [45; 78; 65; 78]. apply (fixed_ok M b [45; 78; 65; 78]); [lia|simpl; lia|repeat constructor; lia].
          - exists [73; 78; 70]. apply (fixed_ok M b [73; 78; 70]); [lia|simpl; lia|repeat constructor; lia].
          - exists [78; 65; 78]. apply (fixed_ok M b [78; 65; 78]); [lia|simpl; lia|repeat constructor; lia]. }
        destruct G as (t & b' & E & S). rewrite E. cbn [bind]. exists b', (3 + (if i32 bits <? 0 then 1 else 0)), t.
        split; [reflexivity|]. split; [exact S|]. destruct (i32 bits <? 0); lia.
      * destruct (fixed_ok M b []) as (b' & E & S); [lia|simpl; lia|constructor|]. cbn [app wrs] in E.
        destruct (wr b 0 0) as [b1| |]; [|discriminate E..]. cbn [bind] in E |- *. exists b1, 0, []. split; [reflexivity|].
        injection E as <-. split; [exact S|lia].
    + destruct (number_ok strict scale bits b M Sc N ltac:(lia) ltac:(lia) ltac:(intros; eapply Hs; eauto))
        as (a & p & W & m & w & ds & ex & b' & r & _ & _ & _ & E & S & _ & _ & _ & _ & _ & R & _).
      exists b', r. eexists. split; [exact E|]. split; [exact S|].
      destruct R as [[_ R]|(_ & _ & R)]; rewrite firstn_length in R; lia.
Qed.
Print Assumptions C78_partial.

(** 1e10 and a scaling function that gives 1 and 10. *)
Definition scale_1e10 (bits : Z) : Z * Z := (0x3F800000, 10).

Lemma scale_1e10_ok bits : scales scale_1e10 bits.
Proof. intros a p _ _ E. injection E as <- <-. vm_compute. intuition discriminate. Qed.

Example C78_e1 : float_to_string false scale_1e10 0x44000000 (repeat 7 20) 12 = Ret (`"512.0" ++ 0 :: repeat 7 14, 5) /\
  float_to_string true scale_1e10 0xC0490FDB (repeat 7 20) 12 = Ret (`"-3.1415927" ++ 0 :: repeat 7 9, 10) /\
  float_to_string true scale_1e10 0xC0490FDB (repeat 7 20) 4 = Ret (`"-3.1" ++ 0 :: repeat 7 15, 4) /\
  float_to_string true scale_1e10 0xFF800000 (repeat 7 20) 4 = Ret (`"-INF" ++ 0 :: repeat 7 15, 4).
Proof. vm_compute. repeat split. Qed.

(** ** C79: the result is the length of the text *)

(** Full statement: FloatToString returns the number of characters written; the
    length of a String<0> made from a float is that of its text. False for numbers
    written with an exponent: only the digits of the exponent are counted. What is
    appended to such a string then overwrites its text. *)
Theorem C79_refuted (v : simd) : f_normal 0x501502F9 /\
  float_to_string false (real_scale v) 0x501502F9 (repeat 7 64) 63 = Ret (`"0.99999e10" ++ 0 :: repeat 7 53, 2) /\
  (exists d, new_float (fun _ => repeat 7 64) false (real_scale v) 0x501502F9 = Ret d /\ holds (chars d) (`"0.99999e10") /\ logical d = 3) /\
  exists d d', new_float (fun _ => repeat 7 64) false (real_scale v) 0x501502F9 = Ret d /\
    dyn_append (fun n => repeat 7 (Z.to_nat n)) d (`"kg" ++ [0]) = Ret d' /\ holds (chars d') (`"0.kg").
Proof.
  assert (E : real_scale v 0x501502F9 = real_scale Sse4 0x501502F9) by (destruct v; vm_compute; reflexivity).
  assert (F : forall strict b max, float_to_string strict (real_scale v) 0x501502F9 b max = float_to_string strict (real_scale Sse4) 0x501502F9 b max).
  { intros strict b max. unfold float_to_string. change (fabs_bits 0x501502F9) with 0x501502F9. now rewrite E. }
  split; [split; [lia|vm_compute; auto]|]. unfold new_float. rewrite F. split; [vm_compute; reflexivity|]. split.
  - eexists. split; [vm_compute; reflexivity|]. split; [|reflexivity]. split; [repeat constructor; vm_compute; discriminate|eexists; reflexivity].
  - do 2 eexists. split; [vm_compute; reflexivity|]. split; [vm_compute; reflexivity|]. split; [repeat constructor; vm_compute; discriminate|eexists; reflexivity].
Qed.
Print Assumptions C79_refuted.

(** True for numbers from 1e-4 up to 1e5. *)
Theorem C79_partial (scale : Z -> Z * Z) (bits : Z) (b : list Z) (M : nat) : f_moderate bits -> (1 <= M)%nat -> (M < length b)%nat ->
  exists b' t, float_to_string false scale bits b (Z.of_nat M) = Ret (b', Z.of_nat (length t)) /\ stored_within b (S M) t b'.
Proof.
  intros Mo HM HL. pose proof (proj1 Mo) as N.
  assert (Wr : written scale bits (bits mod 2 ^ 31) 0) by (left; auto).
  set (scale' := fun _ : Z => (bits mod 2 ^ 31, 0)).
  assert (Sc : scales scale' bits).
  { intros a p _ _ E. injection E as <- <-. destruct (abs_fields bits) as [-> _]. pose proof (moderate_exponent bits Mo).
    pose proof (Z.mod_pos_bound bits (2 ^ 31) ltac:(lia)). lia. }
  destruct (number_ok false scale' bits b M Sc N HM HL ltac:(discriminate))
    as (a & p & W & m & w & ds & ex & b' & r & Wr' & _ & _ & E & S & _ & _ & _ & _ & Ex & R & _).
  assert (Wr2 : written scale' bits (bits mod 2 ^ 31) 0) by (left; auto).
  pose proof (Z.mod_pos_bound bits (2 ^ 31) ltac:(lia)) as Mb.
  rewrite (normal_prints false scale' bits b M _ _ N Wr2 ltac:(lia) HM) in E. rewrite (normal_prints false scale bits b M _ _ N Wr ltac:(lia) HM).
  assert (p = 0) as -> by (destruct Wr' as [(_ & _ & Q)|(Q & _)]; [exact Q|tauto]).
  destruct Ex as [(_ & ->)|(Q & _)]; [|congruence]. rewrite app_nil_r in *.
  exists b'. eexists. split; [|exact S]. rewrite E. destruct R as [[_ R]|(Q & _)]; [|congruence]. rewrite app_nil_r in R. now rewrite R.
Qed.
Print Assumptions C79_partial.


Example C79_e1 : f_moderate 0x42F6E979 /\ float_to_string false scale_1e10 0x42F6E979 (repeat 7 9) 8 = Ret (`"123.456" ++ [0; 7], 7) /\
  float_to_string false scale_1e10 0x42F6E979 (repeat 7 16) 15 = Ret (`"123.4560012" ++ 0 :: repeat 7 4, 11).
Proof. split; [split; [split; [lia|vm_compute; auto]|vm_compute; split; [discriminate|reflexivity]]|]. vm_compute. auto. Qed.

(** ** C80: accuracy *)

(** [t] is a decimal number with at most seven digits behind the point, no
    superfluous zeros, the right sign, and at most 1.02e-5 from the float. *)
Definition float_text (bits : Z) (t : list Z) : Prop :=
  exists n ds, point_text (f_sign bits) n ds t /\ within n ds (f_units bits) 102 /\ no_trailing_zero ds.

Lemma moderate_whole bits W m : f_moderate bits -> split_number (2 ^ 23 + f_mantissa bits) (f_exponent bits - 127) W m -> 0 <= W < 100000.
Proof.
  intros Mo (Hm & HW & Sp). pose proof (moderate_exponent bits Mo) as HE. destruct Mo as (N & _ & U). unfold f_units in U.
  destruct (Z.eqb_spec (f_exponent bits) 0); [lia|]. split; [exact HW|].
  destruct Sp as [(He & V)|(_ & -> & _)]; [|lia].
  assert ((2 ^ 23 + f_mantissa bits) * 2 ^ (f_exponent bits - 1) = (W * 2 ^ 23 + m) * 2 ^ 126) as Eu.
  { rewrite V, <- Z.mul_assoc, <- Z.pow_add_r by lia. do 2 f_equal. lia. }
  rewrite Eu in U. change (2 ^ 149) with (2 ^ 23 * 2 ^ 126) in U. lia.
Qed.

Lemma moderate_ok scale bits b M : f_moderate bits -> (14 <= M)%nat -> (M < length b)%nat ->
  exists b' W m w ds ds0 room, float_to_string false scale bits b (Z.of_nat M) = Ret (b', Z.of_nat (length (sign_of (f_sign bits) ++ w ++ 46 :: ds))) /\
    stored_within b (S M) (sign_of (f_sign bits) ++ w ++ 46 :: ds) b' /\
    split_number (2 ^ 23 + f_mantissa bits) (f_exponent bits - 127) W m /\ numeral W w /\ fraction 7 room m ds0 /\ (7 <= room)%nat /\
    ds0 <> [] /\ tidied ds0 ds.
Proof.
  intros Mo HM HL. pose proof (proj1 Mo) as N.
  assert (Wr : written scale bits (bits mod 2 ^ 31) 0) by (left; auto).
  set (scale' := fun _ : Z => (bits mod 2 ^ 31, 0)).
  assert (Sc : scales scale' bits).
  { intros a p _ _ E. injection E as <- <-. destruct (abs_fields bits) as [-> _]. pose proof (moderate_exponent bits Mo).
    pose proof (Z.mod_pos_bound bits (2 ^ 31) ltac:(lia)). lia. }
  destruct (number_ok false scale' bits b M Sc N ltac:(lia) HL ltac:(discriminate))
    as (a & p & W & m & w & ds & ex & b' & r & Wr' & Sp & Nw & E & S & D & Dn & D7 & Dz & Ex & R & F).
  assert (Wr2 : written scale' bits (bits mod 2 ^ 31) 0) by (left; auto).
  pose proof (Z.mod_pos_bound bits (2 ^ 31) ltac:(lia)) as Mb.
  rewrite (normal_prints false scale' bits b M _ _ N Wr2 ltac:(lia) ltac:(lia)) in E. rewrite (normal_prints false scale bits b M _ _ N Wr ltac:(lia) ltac:(lia)).
  assert (Q : a = bits mod 2 ^ 31 /\ p = 0) by (destruct Wr' as [(_ & Q)|(Q & _)]; [exact Q|tauto]). destruct Q as [-> ->].
  destruct (abs_fields bits) as [Q1 Q2]. rewrite Q1, Q2 in *. clear Q1 Q2.
  destruct Ex as [(_ & ->)|(Q & _)]; [|congruence]. rewrite app_nil_r in *.
  pose proof (moderate_whole bits W m Mo Sp) as HW. pose proof (numeral_length W w 4 HW Nw) as Lw.
  assert (Ls : (length (sign_of (f_sign bits)) <= 1)%nat) by (destruct (f_sign bits); simpl; lia).
  assert (Lt : (length (sign_of (f_sign bits) ++ w ++ 46%Z :: ds) <= M)%nat) by (rewrite !app_length; cbn [length]; lia).
  rewrite firstn_all2 in S by exact Lt.
  destruct F as (ds0 & F & Fn & T); [rewrite app_length; lia|].
  exists b', W, m, w, ds, ds0. eexists. split.
  - rewrite E. destruct R as [[_ R]|(Q & _)]; [|congruence]. rewrite app_nil_r, firstn_all2 in R by exact Lt. now rewrite R.
  - split; [exact S|]. split; [exact Sp|]. split; [exact Nw|]. split; [exact F|]. split; [rewrite app_length; lia|]. auto.
Qed.

(** Fourteen characters are always enough. *)
Theorem C80_accurate (scale : Z -> Z * Z) (bits : Z) (b : list Z) (M : nat) : f_moderate bits -> (14 <= M)%nat -> (M < length b)%nat ->
  exists b' t, float_to_string false scale bits b (Z.of_nat M) = Ret (b', Z.of_nat (length t)) /\ stored_within b (S M) t b' /\
    (length t <= 14)%nat /\ float_text bits t.
Proof.
  intros Mo HM HL. destruct (moderate_ok scale bits b M Mo HM HL) as (b' & W & m & w & ds & ds0 & room & E & S & Sp & Nw & F & R & Fn & T).
  exists b'. eexists. split; [exact E|]. split; [exact S|].
  pose proof (moderate_whole bits W m Mo Sp) as HW. pose proof (numeral_length W w 4 HW Nw) as Lw.
  assert (Ls : (length (sign_of (f_sign bits)) <= 1)%nat) by (destruct (f_sign bits); simpl; lia).
  pose proof T as (Td & Tn & Tl & Tz & _). pose proof F as (_ & F7 & _).
  split; [rewrite !app_length; cbn [length]; lia|]. pose proof (moderate_exponent bits Mo).
  exists W, ds. split; [|split; [|exact Tz]].
  - split; [lia|]. split; [exact Tn|]. split; [exact Td|]. exists w. auto.
  - unfold f_units. destruct (Z.eqb_spec (f_exponent bits) 0); [lia|]. eapply within_102; eauto. lia.
Qed.
Print Assumptions C80_accurate.

(** Strings made from such numbers: String<len> with [len] at least 14; String<0>, new
    or assigned to, with the right length. *)
Theorem C80_fixed_string (len : nat) (scale : Z -> Z * Z) (bits : Z) (b : list Z) : (14 <= len)%nat -> length b = S len -> f_moderate bits ->
  exists b' t, fix_assign_float len false scale b bits = Ret b' /\ length b' = S len /\ holds b' t /\ float_text bits t.
Proof.
  intros H L Mo. destruct (C80_accurate scale bits b len Mo H ltac:(lia)) as (b' & t & E & (S1 & S2 & S3 & _) & _ & T).
  unfold fix_assign_float. rewrite E. cbn [bind]. exists b', t. split; [reflexivity|]. split; [lia|]. auto.
Qed.
Print Assumptions C80_fixed_string.

Theorem C80_dynamic_string (g : Z -> list Z) (scale : Z -> Z * Z) (bits : Z) (d : dyn) : (forall n, 0 <= n -> Z.of_nat (length (g n)) = n) ->
  f_moderate bits -> shape d -> exists d1 d2 t1 t2, new_float g false scale bits = Ret d1 /\ exact d1 t1 /\ float_text bits t1 /\
    dyn_assign_float g false scale d bits = Ret d2 /\ exact d2 t2 /\ float_text bits t2.
Proof.
  intros Hg Mo Sh. unfold new_float, dyn_assign_float. destruct (resize_ok g Hg d 64 Sh ltac:(lia)) as (S1 & _ & P1). pose proof S1 as (_ & L1 & _).
  pose proof (Hg 64 ltac:(lia)) as L0. change 63 with (Z.of_nat 63).
  destruct (C80_accurate scale bits (g 64) 63 Mo ltac:(lia) ltac:(lia)) as (b1 & t1 & E1 & (_ & K1 & H1 & _) & _ & T1).
  destruct (C80_accurate scale bits (chars (resize g d 64)) 63 Mo ltac:(lia) ltac:(lia)) as (b2 & t2 & E2 & (_ & K2 & H2 & _) & _ & T2).
  rewrite E1, E2. cbn [bind]. exists (Dyn (Z.of_nat (length t1) + 1) 64 (Some b1) local_init). eexists. exists t1, t2.
  split; [reflexivity|]. split.
  - split; [|split; [exact H1|reflexivity]]. split; [reflexivity|]. split; [cbn; lia|discriminate].
  - split; [exact T1|]. split; [reflexivity|]. split; [|exact T2].
    split; [apply shape_logical, shape_with; [exact S1|lia]|]. split; [rewrite chars_logical, chars_with; exact H2|reflexivity].
Qed.
Print Assumptions C80_dynamic_string.

Example C80_e1 : f_moderate 0x38D1B717 /\ f_moderate 0x47C34FFF /\
  float_to_string false scale_1e10 0xC7C34FFF (repeat 7 15) 14 = Ret (`"-99999.9921875" ++ [0], 14) /\
  float_to_string false scale_1e10 0x38D1B717 (repeat 7 15) 14 = Ret (`"0.0000998" ++ 0 :: repeat 7 5, 9) /\
  float_text 0xC7C34FFF (`"-99999.9921875") /\ within 0 (`"0000998") (f_units 0x38D1B717) 102.
Proof.
  assert (M : f_moderate 0x38D1B717 /\ f_moderate 0x47C34FFF).
  { split; (split; [split; [lia|vm_compute; auto]|vm_compute; split; [discriminate|reflexivity] || (split; discriminate)]). }
  split; [apply M|]. split; [apply M|]. split; [reflexivity|]. split; [reflexivity|].
  split; [|split; [simpl; lia|vm_compute; discriminate]].
  exists 99999, (`"9921875"). split; [|split; [split; [simpl; lia|vm_compute; discriminate]|]].
  - split; [lia|]. split; [discriminate|]. split; [repeat constructor; unfold digit; simpl; lia|]. exists (`"99999").
    split; [apply (num_pos 57 (`"9999")); [repeat constructor; unfold digit; simpl; lia|discriminate]|reflexivity].
  - right. exists (`"992187"), 53. split; [reflexivity|lia].
Qed.

(** ** C81: different numbers, different texts *)

(** Full statement: the text determines the number. False: 0.9199901 and 0.92, between
    which there are 166 other numbers, are both written 0.92; numbers below 2^-126,
    and -0, are written 0.0. *)
Theorem C81_refuted :
  (exists x y, f_moderate x /\ f_moderate y /\ x + 167 = y /\ forall scale,
     float_to_string false scale x (repeat 7 64) 63 = Ret (`"0.92" ++ 0 :: `"99" ++ repeat 7 57, 4) /\
     float_to_string false scale y (repeat 7 64) 63 = Ret (`"0.92" ++ 0 :: `"99" ++ repeat 7 57, 4)) /\
  forall strict scale x, 0 <= x < 2 ^ 32 -> f_exponent x = 0 ->
     float_to_string strict scale x (repeat 7 64) 63 = Ret (`"0.0" ++ 0 :: repeat 7 60, 3).
Proof.
  split.
  - exists 0x3F6B8478, 0x3F6B851F.
    split; [split; [split; [lia|vm_compute; auto]|vm_compute; split; [discriminate|reflexivity]]|].
    split; [split; [split; [lia|vm_compute; auto]|vm_compute; split; [discriminate|reflexivity]]|].
    split; [reflexivity|]. intros scale. split; reflexivity.
  - intros strict scale x H E. unfold float_to_string. change (63 <? 1) with false. cbv iota zeta.
    destruct (i32_fields x H) as (-> & _ & _). rewrite E. reflexivity.
Qed.
Print Assumptions C81_refuted.

(** Multiples of 1/16 are written exactly, with at most four digits. *)
Theorem C81_exact_partial (scale : Z -> Z * Z) (bits : Z) (b : list Z) (M : nat) (a : Z) : f_moderate bits -> (14 <= M)%nat -> (M < length b)%nat ->
  f_units bits = a * 2 ^ (149 - 4) ->
  exists b' t n ds, float_to_string false scale bits b (Z.of_nat M) = Ret (b', Z.of_nat (length t)) /\ stored_within b (S M) t b' /\
    point_text (f_sign bits) n ds t /\ (length ds <= 4)%nat /\ no_trailing_zero ds /\
    (n * 10 ^ Z.of_nat (length ds) + dvalue ds) * 16 = a * 10 ^ Z.of_nat (length ds).
Proof.
  intros Mo HM HL A. destruct (moderate_ok scale bits b M Mo HM HL) as (b' & W & m & w & ds & ds0 & room & E & S & Sp & Nw & F & R & Fn & T).
  exists b'. eexists. exists W, ds. split; [exact E|]. split; [exact S|]. pose proof (moderate_exponent bits Mo).
  pose proof T as (Td & Tn & Tl & Tz & _). unfold f_units in A. destruct (Z.eqb_spec (f_exponent bits) 0); [lia|].
  destruct (exact_sixteenth (f_mantissa bits) (f_exponent bits) W m ds0 ds room a ltac:(lia) Sp F R Fn T A) as [X L4].
  split; [split; [apply Sp|]; split; [exact Tn|]; split; [exact Td|]; exists w; auto|]. split; [exact L4|]. split; [exact Tz|].
  change (2 ^ 149) with (16 * 2 ^ 145) in X. apply (Z.mul_reg_r _ _ (2 ^ 145)); [lia|]. lia.
Qed.
Print Assumptions C81_exact_partial.

(** Two multiples of 1/16 with the same text are the same. *)
Theorem C81_injective_partial (scale : Z -> Z * Z) (x y : Z) (b c b' c' t : list Z) (M : nat) (i j r s : Z) : f_moderate x -> f_moderate y ->
  (14 <= M)%nat -> (M < length b)%nat -> (M < length c)%nat -> f_units x = i * 2 ^ (149 - 4) -> f_units y = j * 2 ^ (149 - 4) ->
  float_to_string false scale x b (Z.of_nat M) = Ret (b', r) -> holds b' t ->
  float_to_string false scale y c (Z.of_nat M) = Ret (c', s) -> holds c' t -> f_sign x = f_sign y /\ i = j.
Proof.
  intros Mx My HM Hb Hc X Y Ex Hx Ey Hy.
  destruct (C81_exact_partial scale x b M i Mx HM Hb X) as (b2 & t2 & n & ds & E2 & (_ & _ & H2 & _) & P2 & _ & _ & V2).
  destruct (C81_exact_partial scale y c M j My HM Hc Y) as (c2 & t3 & k & es & E3 & (_ & _ & H3 & _) & P3 & _ & _ & V3).
  rewrite Ex in E2. injection E2 as <- _. rewrite Ey in E3. injection E3 as <- _.
  assert (t2 = t) as -> by (rewrite <- (proj2 (holds_nul _ _ H2)), <- (proj2 (holds_nul _ _ Hx)); reflexivity).
  assert (t3 = t) as -> by (rewrite <- (proj2 (holds_nul _ _ H3)), <- (proj2 (holds_nul _ _ Hy)); reflexivity).
  destruct (point_unique _ _ _ _ _ _ _ P2 P3) as (S & -> & ->). split; [exact S|].
  assert (0 < 10 ^ Z.of_nat (length es)) by (apply Z.pow_pos_nonneg; lia). rewrite V2 in V3. apply Z.mul_reg_r in V3; lia.
Qed.
Print Assumptions C81_injective_partial.

Example C81_e1 : f_units 0x3D800000 = 1 * 2 ^ (149 - 4) /\
  float_to_string false scale_1e10 0x3D800000 (repeat 7 16) 15 = Ret (`"0.0625" ++ 0 :: repeat 7 9, 6) /\
  f_units 0x4640E400 = 197520 * 2 ^ (149 - 4) /\ float_to_string false scale_1e10 0x4640E400 (repeat 7 16) 15 = Ret (`"12345.0" ++ 0 :: repeat 7 8, 7).
Proof. vm_compute. auto. Qed.

(** ** C82: the text is a number *)

(** Full statement: the text is a number in the sense of RFC 8259, of about the value
    of the float. False for infinities and for texts that are cut. *)
Theorem C82_refuted :
  (forall scale, float_to_string false scale 0x7F800000 (repeat 7 16) 15 = Ret (`"INF" ++ 0 :: repeat 7 12, 3)) /\
  (forall neg m e, ~ rfc_number (`"INF") neg m e) /\
  f_moderate 0x4640E400 /\ f_units 0x4640E400 = 12345 * 2 ^ 149 /\
  forall scale, fix_assign_float 3 false scale [7; 7; 7; 7] 0x4640E400 = Ret (`"123" ++ [0]).
Proof.
  split; [reflexivity|]. split.
  - intros neg m e H. inversion H as [sg ng ip fr fp ex x Hs Hd Hi Hf Hn He E].
    destruct Hs as [[-> _]|[-> _]]; [|discriminate E]. destruct Hi as [->|(c & r & -> & _)]; [discriminate E|].
    inversion Hd as [|? ? D _]; subst. injection E as -> _. unfold digit in D. lia.
  - split; [split; [split; [lia|vm_compute; auto]|vm_compute; split; [discriminate|reflexivity]]|]. split; reflexivity.
Qed.
Print Assumptions C82_refuted.

(** For all finite floats, with at least 29 characters, the text is an RFC 8259
    number: the digits of a number within 1.02e-5 of the scaled one and the power. *)
Theorem C82_partial (scale : Z -> Z * Z) (bits : Z) (b : list Z) (M : nat) : scales scale bits -> 0 <= bits < 2 ^ 32 -> f_exponent bits <> 255 ->
  (29 <= M)%nat -> (M < length b)%nat ->
  exists b' t r, float_to_string false scale bits b (Z.of_nat M) = Ret (b', r) /\ stored_within b (S M) t b' /\
    (f_exponent bits = 0 /\ rfc_number t false 0 (-1) \/
     exists a p n ds, written scale bits a p /\ within n ds (f_units a) 102 /\ no_trailing_zero ds /\
       rfc_number t (f_sign bits) (n * 10 ^ Z.of_nat (length ds) + dvalue ds) (p - Z.of_nat (length ds))).
Proof.
  intros Sc B NI HM HL. pose proof (f_bounds bits) as [Eb _]. destruct (Z.eq_dec (f_exponent bits) 0) as [K|K].
  - destruct (i32_fields bits B) as (Fe & _ & _). unfold float_to_string. destruct (Z.ltb_spec (Z.of_nat M) 1); [lia|]. cbv zeta. rewrite Fe, K. cbn [Z.eqb].
    destruct (Z.leb_spec 3 (Z.of_nat M)); [|lia].
    destruct (fixed_ok M b [48; 46; 48]) as (b' & E & S); [lia|simpl; lia|repeat constructor; lia|].
    cbn [app] in E. rewrite E. cbn [bind]. exists b', [48; 46; 48], 3. split; [reflexivity|]. split; [exact S|]. left. split; [reflexivity|].
    apply (rfc_number_intro [] false [48] [46; 48] [48] [] 0); [auto|repeat constructor; unfold digit; lia|auto| |discriminate|constructor].
    constructor. repeat constructor; unfold digit; lia.
  - assert (N : f_normal bits) by (unfold f_normal; lia).
    destruct (number_ok false scale bits b M Sc N ltac:(lia) HL ltac:(discriminate))
      as (a & p & W & m & w & ds & ex & b' & r & Wr & Sp & Nw & E & S & D & Dn & D7 & Dz & Ex & R & F).
    destruct (written_range scale bits a p Sc N Wr) as (A & Ea & P). destruct (f_bounds a) as [_ Ma].
    assert (HW : 0 <= W < 10 ^ Z.of_nat 8).
    { destruct Sp as (Hm & HW & Sp). split; [exact HW|]. destruct Sp as [(He & V)|(_ & -> & _)]; [|simpl; lia].
      assert (2 ^ (f_exponent a - 127) <= 2 ^ 23) by (apply Z.pow_le_mono_r; lia).
      assert (0 < 2 ^ (f_exponent a - 127)) by (apply Z.pow_pos_nonneg; lia).
      change (10 ^ Z.of_nat 8) with 100000000. change (2 ^ 23) with 8388608 in *. nia. }
    pose proof (numeral_length W w 7 HW Nw) as Lw.
    assert (Ls : (length (sign_of (f_sign bits)) <= 1)%nat) by (destruct (f_sign bits); simpl; lia).
    assert (Le : (length ex <= 12)%nat).
    { destruct Ex as [(_ & ->)|(_ & x & X & ->)]; [simpl; lia|]. pose proof (numeral32_length p x X P). cbn [length]. lia. }
    rewrite firstn_all2 in S by (rewrite !app_length; cbn [length]; rewrite app_length; lia).
    exists b'. eexists. exists r. split; [exact E|]. split; [exact S|]. right. exists a, p, W, ds. split; [exact Wr|]. split; [|split; [exact Dz|]].
    + destruct F as (ds0 & F & Fn & T); [rewrite app_length; lia|]. unfold f_units. destruct (Z.eqb_spec (f_exponent a) 0); [lia|].
      eapply within_102; eauto; [lia|rewrite app_length; lia].
    + destruct (numeral_rfc W w ltac:(lia) Nw) as (Dw & Zw & Vw). pose proof (power_rfc p ex Ex) as Px.
      replace (W * 10 ^ Z.of_nat (length ds) + dvalue ds) with (dvalue (w ++ ds)) by (rewrite dvalue_app, Vw; reflexivity).
      replace (sign_of (f_sign bits) ++ w ++ 46 :: ds ++ ex) with (sign_of (f_sign bits) ++ w ++ (46 :: ds) ++ ex) by reflexivity.
      apply rfc_number_intro; [destruct (f_sign bits); auto|exact Dw|exact Zw|constructor; exact D|auto|exact Px].
Qed.
Print Assumptions C82_partial.

Example C82_e1 : scales scale_1e10 0xD01502F9 /\ float_to_string false scale_1e10 0xD01502F9 (repeat 7 31) 30 = Ret (`"-1.0e10" ++ 0 :: repeat 7 23, 2) /\
  rfc_number (`"-1.0e10") true 10 9.
Proof.
  split; [apply scale_1e10_ok|]. split; [reflexivity|].
  apply (rfc_number_intro [45] true [49] [46; 48] [48] (`"e10") 10); [auto|repeat constructor; unfold digit; lia| | |discriminate|].
  - right. exists 49, []. split; [reflexivity|lia].
  - constructor. repeat constructor; unfold digit; lia.
  - apply (ex_some 101 [] false (`"10")); [auto|constructor|repeat constructor; unfold digit; simpl; lia|discriminate].
Qed.
