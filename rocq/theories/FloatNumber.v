(** * The number FloatToString writes. *)

From Verif Require Import Base Str TextModel StringModel SpecNum SpecText DynModel FloatTextModel SpecFloatText.
From Verif Require Import StrtodProofs FormatProofs StringProofs FloatTextProofs.

(** ** The whole number *)

(** The text of the power. *)
Definition power_text (power : Z) (ex : list Z) : Prop :=
  power = 0 /\ ex = [] \/ power <> 0 /\ exists w, numeral power w /\ ex = 101 :: w.

(** The result: the number of characters or, behind an exponent, that of its numeral. *)
Definition returned (M : nat) (power : Z) (q ex : list Z) (r : Z) : Prop :=
  (power = 0 \/ (M <= length q)%nat) /\ r = Z.of_nat (length (firstn M (q ++ ex))) \/
  power <> 0 /\ (length q < M)%nat /\ r = Z.of_nat (length (firstn (M - length q - 1) (skipn 1 ex))).

Lemma finish_ok M tl t b : st M tl t b -> (length t <= M)%nat ->
  exists b', finish b (length t) = Ret (b', Z.of_nat (length t)) /\ st M tl (t ++ [0]) b'.
Proof. intros S H. destruct (st_wr M tl t b 0 S H) as (b' & E & S'). exists b'. unfold finish. rewrite E. auto. Qed.

Lemma rest_ok M tl p m power b : 0 <= m < 2 ^ 23 -> - 2 ^ 31 < power < 2 ^ 31 ->
  st M tl (p ++ [46]) b -> (length (p ++ [46%Z]) < M)%nat ->
  exists ds0 ds ex b' r, rest_of_number m power b (length (p ++ [46])) (Z.of_nat M) = Ret (b', r) /\
    st M tl (firstn M (p ++ 46 :: ds ++ ex) ++ [0]) b' /\ fraction 7 (M - length (p ++ [46])) m ds0 /\ ds0 <> [] /\ tidied ds0 ds /\
    power_text power ex /\ returned M power (p ++ 46 :: ds) ex r /\ (length (p ++ 46%Z :: ds) <= M)%nat.
Proof.
  intros Hm Hp S H. unfold rest_of_number.
  destruct (fraction_loop_ok M tl 7 m 0 0 b (p ++ [46]) Hm S ltac:(lia)) as (ds0 & b1 & E1 & S1 & F & K1). rewrite E1. cbn [bind].
  assert (A : (p ++ [46]) ++ ds0 = p ++ 46 :: ds0) by (rewrite <- app_assoc; reflexivity). rewrite A in *.
  pose proof F as (D & L7 & _ & _ & _ & _ & _ & Ne). specialize (Ne ltac:(lia) ltac:(lia)).
  destruct (tidy_ok M tl p ds0 b1 S1 D Ne K1) as (ds & b2 & E2 & S2 & T). rewrite E2. cbn [bind].
  assert (K2 : (length (p ++ 46%Z :: ds) <= M)%nat).
  { destruct T as (_ & _ & T & _). rewrite app_length in *. cbn [length] in *. lia. }
  destruct (Z.eqb_spec power 0) as [P|P]; cbn [negb andb].
  - destruct (finish_ok M tl _ b2 S2 K2) as (b3 & E3 & S3). exists ds0, ds, [], b3, (Z.of_nat (length (p ++ 46 :: ds))).
    rewrite app_nil_r. rewrite firstn_all2 by lia. split; [exact E3|]. split; [exact S3|]. split; [exact F|]. split; [exact Ne|]. split; [exact T|].
    split; [left; split; [exact P|reflexivity]|]. split; [|exact K2]. left. split; [left; exact P|]. rewrite app_nil_r, firstn_all2 by lia. reflexivity.
  - destruct (Z.ltb_spec (Z.of_nat (length (p ++ 46 :: ds))) (Z.of_nat M)) as [Hl|Hl].
    + destruct (st_wr M tl _ b2 101 S2 K2) as (b3 & E3 & S3). rewrite E3. cbn [bind].
      set (q := p ++ 46 :: ds) in *.
      assert (L3 : length (q ++ [101]) = Datatypes.S (length q)) by (rewrite app_length; simpl; lia).
      destruct (st_int M tl _ b3 power S3 ltac:(lia) Hp) as (w & b4 & W & E4 & S4). rewrite L3 in *.
      exists ds0, ds, (101 :: w), b4. eexists. split; [exact E4|].
      replace (firstn M (p ++ 46 :: ds ++ 101 :: w)) with ((q ++ [101]) ++ firstn (M - Datatypes.S (length q)) w).
      2: { replace (p ++ 46 :: ds ++ 101 :: w) with ((q ++ [101]) ++ w) by (subst q; rewrite <- !app_assoc; reflexivity).
           rewrite (firstn_app M (q ++ [101])), L3. rewrite (firstn_all2 (q ++ [101])) by lia. reflexivity. }
      rewrite <- (app_assoc (q ++ [101])). split; [exact S4|]. split; [exact F|]. split; [exact Ne|]. split; [exact T|].
      split; [right; split; [exact P|exists w; split; [exact W|reflexivity]]|]. split; [|exact K2]. right. split; [exact P|]. fold q. split; [lia|].
      cbn [skipn]. replace (M - length q - 1)%nat with (M - Datatypes.S (length q))%nat by lia. reflexivity.
    + destruct (finish_ok M tl _ b2 S2 K2) as (b3 & E3 & S3). assert (LM : length (p ++ 46 :: ds) = M) by lia.
      destruct (integer_to_string_ok power Hp) as (w & W & _). exists ds0, ds, (101 :: w), b3. eexists. split; [exact E3|].
      assert (Q : firstn M ((p ++ 46 :: ds) ++ 101 :: w) = p ++ 46 :: ds).
      { rewrite (firstn_app M (p ++ 46 :: ds)). rewrite (firstn_all2 (p ++ 46 :: ds)) by lia. rewrite LM, Nat.sub_diag. apply app_nil_r. }
      replace (p ++ 46 :: ds ++ 101 :: w) with ((p ++ 46 :: ds) ++ 101 :: w) by (rewrite <- app_assoc; reflexivity). rewrite Q.
      split; [exact S3|]. split; [exact F|]. split; [exact Ne|]. split; [exact T|]. split; [right; split; [exact P|exists w; split; [exact W|reflexivity]]|]. split; [|exact K2].
      left. split; [right; lia|]. rewrite Q. reflexivity.
Qed.

(** The whole part and the fraction in units of 2^-23 of [mant] * 2^([e] - 23). *)
Definition split_number (mant e whole m : Z) : Prop :=
  0 <= m < 2 ^ 23 /\ 0 <= whole /\
  (0 <= e /\ whole * 2 ^ 23 + m = mant * 2 ^ e \/
   e < 0 /\ whole = 0 /\ m * 2 ^ (- e) <= mant < (m + 1) * 2 ^ (- e)).

Lemma nul_free_app a b : nul_free a -> nul_free b -> nul_free (a ++ b).
Proof. intros A B. apply Forall_app. auto. Qed.

Lemma digits_nul_free ds : digits ds -> nul_free ds.
Proof. intros D. eapply Forall_impl; [|exact D]. unfold digit. lia. Qed.

Lemma numeral_nul_free n w : numeral n w -> nul_free w /\ w <> [].
Proof.
  intros H. inversion H; subst.
  - split; [repeat constructor; lia|discriminate].
  - split; [now apply digits_nul_free|discriminate].
  - split; [constructor; [lia|]; now apply digits_nul_free|discriminate].
Qed.

(** Everything [print_number] does. [T] is the text without the limit on its length;
    the digits are those of the fraction unless the text is cut before the end of the
    seven digits. *)
Lemma print_ok strict M b neg E mf power : 96 <= E <= 150 -> 0 <= mf < 2 ^ 23 -> - 2 ^ 31 < power < 2 ^ 31 ->
  (1 <= M)%nat -> (M < length b)%nat -> (strict = true -> E < 136) ->
  exists whole m w ds ex b' r, split_number (2 ^ 23 + mf) (E - 127) whole m /\ numeral whole w /\
    print_number strict neg E mf power b (Z.of_nat M) = Ret (b', r) /\
    st M (skipn (S M) b) (firstn M (sign_of neg ++ w ++ 46 :: ds ++ ex) ++ [0]) b' /\
    digits ds /\ ds <> [] /\ (length ds <= 7)%nat /\ no_trailing_zero ds /\ power_text power ex /\
    returned M power (sign_of neg ++ w ++ 46 :: ds) ex r /\
    ((length (sign_of neg ++ w) + 8 <= M)%nat -> exists ds0, fraction 7 (M - length (sign_of neg ++ w) - 1) m ds0 /\ ds0 <> [] /\ tidied ds0 ds).
Proof.
  intros HE Hm Hp HM HL Hs. pose proof (st_start M b HL) as S0. set (tl := skipn (S M) b) in *.
  unfold print_number. change 0x7F with 127.
  assert (Lor : Z.lor mf 0x00800000 = 2 ^ 23 + mf).
  { rewrite Z.lor_comm. change 0x00800000 with (1 * 2 ^ 23).
    assert (G : forall a x k, 0 <= k -> 0 <= x < 2 ^ k -> Z.lor (a * 2 ^ k) x = a * 2 ^ k + x).
    { intros a x k Hk Hx. rewrite <- Z.shiftl_mul_pow2 by lia.
      assert (N : Z.land (Z.shiftl a k) x = 0).
      { apply Z.bits_inj'. intros n Hn. rewrite Z.land_spec, Z.bits_0. destruct (Z.lt_ge_cases n k) as [L|L].
        - rewrite Z.shiftl_spec_low by lia. reflexivity.
        - rewrite <- (Z.mod_small x (2 ^ k)) by lia. rewrite Z.mod_pow2_bits_high by lia. apply andb_false_r. }
      rewrite <- Z.lxor_lor by exact N. symmetry. now apply Z.add_nocarry_lxor. }
    rewrite G by lia. lia. }
  cbv zeta. rewrite Lor. set (mant := 2 ^ 23 + mf) in *. set (e := E - 127) in *.
  assert (Sg : exists b1, (if neg then let! b := wr b 0 45 in Ret (b, 1%nat) else Ret (b, 0%nat)) = Ret (b1, length (sign_of neg)) /\
    st M tl (sign_of neg) b1 /\ (length (sign_of neg) <= M)%nat).
  { destruct neg.
    - destruct (st_wr M tl [] b 45 S0 ltac:(simpl; lia)) as (b1 & E1 & S1). change (length []) with 0%nat in E1.
      exists b1. rewrite E1. split; [reflexivity|]. split; [exact S1|simpl; lia].
    - exists b. split; [reflexivity|]. split; [exact S0|simpl; lia]. }
  destruct Sg as (b1 & E1 & S1 & K1). rewrite E1. cbn [bind]. clear E1. set (s := sign_of neg) in *.
  assert (Np : exists ex, power_text power ex).
  { destruct (Z.eq_dec power 0) as [P|P]; [exists []; left; split; [exact P|reflexivity]|]. destruct (integer_to_string_ok power Hp) as (w & W & _).
    exists (101 :: w). right. split; [exact P|exists w; split; [exact W|reflexivity]]. }
  (* the two ways to go on *)
  assert (Cut : forall whole m w b2, split_number mant e whole m -> numeral whole w ->
    st M tl (firstn M (s ++ w ++ [46])) b2 -> (M <= length (s ++ w ++ [46%Z]))%nat ->
    exists whole m w ds ex b' r, split_number mant e whole m /\ numeral whole w /\
    finish b2 M = Ret (b', r) /\ st M tl (firstn M (s ++ w ++ 46 :: ds ++ ex) ++ [0]) b' /\
    digits ds /\ ds <> [] /\ (length ds <= 7)%nat /\ no_trailing_zero ds /\ power_text power ex /\
    returned M power (s ++ w ++ 46 :: ds) ex r /\
    ((length (s ++ w) + 8 <= M)%nat -> exists ds0, fraction 7 (M - length (s ++ w) - 1) m ds0 /\ ds0 <> [] /\ tidied ds0 ds)).
  { intros whole m w b2 Sp W S2 K2. destruct Np as (ex & Ex).
    assert (L2 : length (firstn M (s ++ w ++ [46])) = M) by (rewrite firstn_length; lia).
    destruct (finish_ok M tl _ b2 S2 ltac:(lia)) as (b3 & E3 & S3). rewrite L2 in E3.
    assert (Q : firstn M (s ++ w ++ 46 :: [48] ++ ex) = firstn M (s ++ w ++ [46])).
    { replace (s ++ w ++ 46 :: [48] ++ ex) with ((s ++ w ++ [46]) ++ [48] ++ ex) by (rewrite <- !app_assoc; reflexivity).
      rewrite firstn_app. replace (M - length (s ++ w ++ [46%Z]))%nat with 0%nat by lia. apply app_nil_r. }
    exists whole, m, w, [48], ex, b3, (Z.of_nat M). rewrite Q. split; [exact Sp|]. split; [exact W|]. split; [exact E3|]. split; [exact S3|].
    split; [repeat constructor; unfold digit; lia|]. split; [discriminate|]. split; [simpl; lia|]. split; [left; reflexivity|]. split; [exact Ex|].
    split.
    - left. split; [right; rewrite !app_length in *; cbn [length] in *; lia|].
      replace ((s ++ w ++ 46 :: [48]) ++ ex) with (s ++ w ++ 46 :: [48] ++ ex) by (rewrite <- !app_assoc; reflexivity). rewrite Q, L2. reflexivity.
    - intros K. rewrite !app_length in *. cbn [length] in *. lia. }
  assert (Go : forall whole m w b2, split_number mant e whole m -> numeral whole w ->
    st M tl (s ++ w ++ [46]) b2 -> (length (s ++ w ++ [46%Z]) < M)%nat ->
    exists whole' m' w' ds ex b' r, split_number mant e whole' m' /\ numeral whole' w' /\
    rest_of_number m power b2 (length (s ++ w ++ [46])) (Z.of_nat M) = Ret (b', r) /\ st M tl (firstn M (s ++ w' ++ 46 :: ds ++ ex) ++ [0]) b' /\
    digits ds /\ ds <> [] /\ (length ds <= 7)%nat /\ no_trailing_zero ds /\ power_text power ex /\
    returned M power (s ++ w' ++ 46 :: ds) ex r /\
    ((length (s ++ w') + 8 <= M)%nat -> exists ds0, fraction 7 (M - length (s ++ w') - 1) m' ds0 /\ ds0 <> [] /\ tidied ds0 ds)).
  { intros whole m w b2 Sp W S2 K2. rewrite app_assoc in S2, K2.
    destruct (rest_ok M tl (s ++ w) m power b2 ltac:(apply Sp) Hp S2 K2) as (ds0 & ds & ex & b3 & r & E3 & S3 & F & Ne & T & Ex & R & K3).
    exists whole, m, w, ds, ex, b3, r. split; [exact Sp|]. split; [exact W|]. rewrite (app_assoc s w [46]). split; [exact E3|].
    rewrite <- app_assoc in S3. split; [exact S3|]. pose proof T as (Td & Tn & Tl & Tz & _). split; [exact Td|]. split; [exact Tn|].
    pose proof F as (_ & F7 & _). split; [lia|]. split; [exact Tz|]. split; [exact Ex|].
    assert (A : (s ++ w) ++ 46 :: ds = s ++ w ++ 46 :: ds) by (rewrite <- app_assoc; reflexivity). rewrite A in *.
    split; [exact R|].
    intros _. exists ds0. split; [|auto]. replace (M - length (s ++ w) - 1)%nat with (M - length ((s ++ w) ++ [46%Z]))%nat; [exact F|].
      rewrite (app_length (s ++ w)). cbn [length]. lia. }
  assert (Pm : 2 ^ 23 <= mant < 2 ^ 24) by (subst mant; change (2 ^ 24) with (2 * 2 ^ 23); lia).
  destruct (Z.leb_spec 0 e) as [He|He].
  - unfold shr, shl. destruct (Z.ltb_spec (23 - e) 0); [lia|]. destruct (Z.ltb_spec 31 (23 - e)); [lia|]. cbn [orb bind].
    destruct (Z.ltb_spec e 0); [lia|]. destruct (Z.ltb_spec 31 e); [lia|]. cbn [orb].
    assert (Sh : strict && (2 ^ 32 <=? mant * 2 ^ e) = false).
    { destruct strict; [|reflexivity]. specialize (Hs eq_refl). cbn [andb]. apply Z.leb_gt.
      assert (2 ^ e <= 2 ^ 8) by (apply Z.pow_le_mono_r; lia). change (2 ^ 24) with 16777216 in Pm. change (2 ^ 23) with 8388608 in Pm.
      change (2 ^ 8) with 256 in *. change (2 ^ 32) with 4294967296. assert (0 < 2 ^ e) by (apply Z.pow_pos_nonneg; lia). nia. }
    rewrite Sh. cbn [bind]. rewrite Z.shiftr_div_pow2 by lia. change 0x007FFFFF with (Z.ones 23). rewrite Z.land_ones by lia.
    assert (I : i32 (mant * 2 ^ e) mod 2 ^ 23 = (mant * 2 ^ e) mod 2 ^ 23).
    { unfold i32. rewrite <- Zminus_mod_idemp_r. change (2 ^ 31 mod 2 ^ 23) with 0. rewrite Z.sub_0_r.
      change (2 ^ 32) with (2 ^ 23 * 2 ^ 9). rewrite Z.rem_mul_r by lia.
      rewrite (Z.mul_comm (2 ^ 23) (_ mod _)), Z.mod_add by lia. rewrite Z.mod_mod by lia.
      rewrite <- Zplus_mod_idemp_r. change (2 ^ 31 mod 2 ^ 23) with 0. rewrite Z.add_0_r. reflexivity. }
    rewrite I.
    assert (Wh : mant / 2 ^ (23 - e) = mant * 2 ^ e / 2 ^ 23).
    { replace (2 ^ 23) with (2 ^ (23 - e) * 2 ^ e) by (rewrite <- Z.pow_add_r by lia; f_equal; lia).
      symmetry. apply Z.div_mul_cancel_r; apply Z.pow_nonzero; lia. }
    rewrite Wh. set (whole := mant * 2 ^ e / 2 ^ 23). set (m := (mant * 2 ^ e) mod 2 ^ 23).
    pose proof (Z.div_mod (mant * 2 ^ e) (2 ^ 23) ltac:(lia)) as DM. pose proof (Z.mod_pos_bound (mant * 2 ^ e) (2 ^ 23) ltac:(lia)) as MB.
    assert (P2 : 0 < 2 ^ e <= 2 ^ 23) by (split; [apply Z.pow_pos_nonneg; lia|apply Z.pow_le_mono_r; lia]).
    assert (Wb : 0 <= whole < 2 ^ 24).
    { subst whole. split; [apply Z.div_pos; [apply Z.mul_nonneg_nonneg|]; lia|]. apply Z.div_lt_upper_bound; [lia|].
      change (2 ^ 24) with 16777216 in *. change (2 ^ 23) with 8388608 in *. nia. }
    assert (Sp : split_number mant e whole m).
    { split; [exact MB|]. split; [lia|]. left. split; [exact He|]. subst whole m. lia. }
    destruct (st_int M tl s b1 whole S1 K1 ltac:(lia)) as (w & b2 & W & E2 & S2). rewrite E2. cbn [bind]. rewrite Nat2Z.id.
    destruct (numeral_nul_free whole w W) as [_ Wn].
    destruct (Nat.leb_spec M (length s + length w)) as [C|C].
    + assert (Lf : length (firstn (M - length s) w) = (M - length s)%nat) by (rewrite firstn_length; lia). rewrite Lf.
      replace (length s + (M - length s))%nat with M by lia. rewrite Z.ltb_irrefl. cbn [bind]. rewrite Z.eqb_refl.
      apply (Cut whole m w b2 Sp W); [|rewrite !app_length; lia].
      replace (firstn M (s ++ w ++ [46])) with (s ++ firstn (M - length s) w); [rewrite app_assoc in S2; exact (st_cut _ _ _ _ _ S2)|].
      rewrite firstn_app. rewrite (firstn_all2 s) by lia. f_equal. rewrite firstn_app. replace (M - length s - length w)%nat with 0%nat by lia.
      rewrite app_nil_r; reflexivity.
    + rewrite (firstn_all2 w) in * by lia. rewrite <- app_length. rewrite app_assoc in S2. apply st_cut in S2.
      assert (L3 : (length (s ++ w) < M)%nat) by (rewrite app_length; lia).
      destruct (Z.ltb_spec (Z.of_nat (length (s ++ w))) (Z.of_nat M)); [|lia].
      destruct (st_wr M tl (s ++ w) b2 46 S2 ltac:(lia)) as (b3 & E3 & S3). rewrite E3. cbn [bind].
      assert (L4 : length (s ++ w ++ [46]) = Datatypes.S (length (s ++ w))) by (rewrite !app_length; cbn [length]; lia).
      rewrite <- app_assoc in S3. rewrite <- L4.
      destruct (Z.eqb_spec (Z.of_nat (length (s ++ w ++ [46]))) (Z.of_nat M)) as [Q|Q].
      * assert (QM : length (s ++ w ++ [46]) = M) by lia. rewrite QM. apply (Cut whole m w b3 Sp W); [|lia]. rewrite firstn_all2 by lia. exact S3.
      * apply (Go whole m w b3 Sp W S3). lia.
  - assert (P2 : 0 < 2 ^ (- e)) by (apply Z.pow_pos_nonneg; lia).
    assert (Pe : 2 ^ 1 <= 2 ^ (- e)) by (apply Z.pow_le_mono_r; lia). change (2 ^ 1) with 2 in Pe.
    assert (Sp : split_number mant e 0 (mant / 2 ^ (- e))).
    { pose proof (Z.div_mod mant (2 ^ (- e)) ltac:(lia)) as DM. pose proof (Z.mod_pos_bound mant (2 ^ (- e)) ltac:(lia)) as MB.
      split; [|split; [lia|right; split; [exact He|split; [reflexivity|lia]]]].
      split; [apply Z.div_pos; lia|]. apply Z.div_lt_upper_bound; [lia|]. change (2 ^ 24) with (2 * 2 ^ 23) in Pm. nia. }
    assert (W : numeral 0 [48]) by constructor.
    destruct (Z.leb_spec (Z.of_nat (length s) + 2) (Z.of_nat M)) as [C|C].
    + destruct (st_wr M tl s b1 48 S1 K1) as (b2 & E2 & S2). rewrite E2. cbn [bind].
      assert (L2 : length (s ++ [48]) = Datatypes.S (length s)) by (rewrite app_length; cbn [length]; lia). rewrite <- L2.
      destruct (st_wr M tl (s ++ [48]) b2 46 S2 ltac:(lia)) as (b3 & E3 & S3). rewrite E3. cbn [bind]. rewrite <- app_assoc in S3.
      assert (L3 : length (s ++ [48] ++ [46]) = Datatypes.S (length (s ++ [48]))) by (rewrite !app_length; cbn [length]; lia). rewrite <- L3.
      destruct (Z.eqb_spec (Z.of_nat (length (s ++ [48] ++ [46]))) (Z.of_nat M)) as [Q|Q].
      * assert (QM : length (s ++ [48] ++ [46]) = M) by lia. rewrite QM. apply (Cut 0 _ [48] b3 Sp W); [|lia]. rewrite firstn_all2 by lia. exact S3.
      * unfold shr. destruct (Z.ltb_spec (- e) 0); [lia|]. destruct (Z.ltb_spec 31 (- e)); [lia|]. cbn [orb bind].
        rewrite Z.shiftr_div_pow2 by lia. apply (Go 0 _ [48] b3 Sp W S3). lia.
    + destruct (Z.ltb_spec (Z.of_nat (length s)) (Z.of_nat M)) as [C'|C'].
      * destruct (st_wr M tl s b1 48 S1 K1) as (b2 & E2 & S2). rewrite E2. cbn [bind]. replace (Datatypes.S (length s)) with M by lia.
        apply (Cut 0 _ [48] b2 Sp W); [|rewrite !app_length; cbn [length]; lia].
        replace (firstn M (s ++ [48] ++ [46])) with (s ++ [48]); [exact S2|].
        rewrite firstn_app, (firstn_all2 s) by lia. replace (M - length s)%nat with 1%nat by lia. reflexivity.
      * cbn [bind]. replace (length s) with M by lia. apply (Cut 0 _ [48] b1 Sp W); [|rewrite !app_length; cbn [length]; lia].
        replace (firstn M (s ++ [48] ++ [46])) with s; [exact S1|].
        rewrite firstn_app, (firstn_all2 s) by lia. replace (M - length s)%nat with 0%nat by lia. simpl. rewrite app_nil_r; reflexivity.
Qed.
