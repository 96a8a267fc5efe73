(** * The values computed by the portable number reader. *)

From Verif Require Import Base NumModel SpecNum RoundProofs StrtodProofs SpecPortable PortableModel PortableProofs.

(** ** Scaling of the rounding condition *)

Lemma rounds_AB_scale neg A B c d : 0 < c -> rounds_AB neg A B d -> rounds_AB neg (A * c) (B * c) d.
Proof.
  intros Hc (V & S & I & N). split; [auto|]. split; [auto|]. split.
  - intros H. apply I. nia.
  - intros H. destruct N as [F M]; [nia|]. split; [auto|]. intros g Vg Fg. destruct (M g Vg Fg) as [M1 M2].
    replace (A * c - B * c * magnitude d) with ((A - B * magnitude d) * c) by ring.
    replace (A * c - B * c * magnitude g) with ((A - B * magnitude g) * c) by ring.
    rewrite !Z.abs_mul, (Z.abs_eq c) by lia. split; [nia|]. intros E. apply M2. nia.
Qed.

Lemma rounds_AB_unscale neg A B c d : 0 < c -> rounds_AB neg (A * c) (B * c) d -> rounds_AB neg A B d.
Proof.
  intros Hc (V & S & I & N). split; [auto|]. split; [auto|]. split.
  - intros H. apply I. nia.
  - intros H. destruct N as [F M]; [nia|]. split; [auto|]. intros g Vg Fg. destruct (M g Vg Fg) as [M1 M2].
    replace (A * c - B * c * magnitude d) with ((A - B * magnitude d) * c) in * by ring.
    replace (A * c - B * c * magnitude g) with ((A - B * magnitude g) * c) in * by ring.
    rewrite !Z.abs_mul, (Z.abs_eq c) in * by lia. split; [nia|]. intros E. apply M2. nia.
Qed.

Lemma rounds_AB_cross neg A B A' B' d : 0 < B -> 0 < B' -> A * B' = A' * B -> rounds_AB neg A B d -> rounds_AB neg A' B' d.
Proof.
  intros H1 H2 E H. apply (rounds_AB_scale neg A B B' d H2) in H. rewrite E, (Z.mul_comm B B') in H.
  now apply rounds_AB_unscale in H.
Qed.

(** ** Operations on positive doubles are rounded once *)

Lemma pow2_split a b : 0 <= a -> 0 <= b -> 2 ^ a * 2 ^ b = 2 ^ (a + b).
Proof. intros. now rewrite Z.pow_add_r. Qed.

Lemma dmul_rounds s m e t n f : valid_double (S754_finite s m e) -> valid_double (S754_finite t n f) ->
  rounds_AB (xorb s t) (magnitude (S754_finite s m e) * magnitude (S754_finite t n f)) (2 ^ 1074)
    (dmul (S754_finite s m e) (S754_finite t n f)).
Proof.
  intros V1 V2. apply valid_finite in V1, V2. simpl magnitude. unfold dmul.
  assert (P : forall z, 0 < 2 ^ Z.max 0 z) by (intros; apply Z.pow_pos_nonneg; lia).
  eapply rounds_AB_cross. 4:{ apply round_ratio_ok; [|auto]. pose proof (P (e + f)). nia. }
  - auto.
  - apply Z.pow_pos_nonneg; lia.
  - replace (Zpos m * Zpos n * 2 ^ Z.max 0 (e + f) * 2 ^ 1074 * 2 ^ 1074)
      with (Zpos m * Zpos n * (2 ^ Z.max 0 (e + f) * 2 ^ 1074 * 2 ^ 1074)) by ring.
    replace (Zpos m * 2 ^ (e + 1074) * (Zpos n * 2 ^ (f + 1074)) * 2 ^ Z.max 0 (- (e + f)))
      with (Zpos m * Zpos n * (2 ^ (e + 1074) * 2 ^ (f + 1074) * 2 ^ Z.max 0 (- (e + f)))) by ring.
    f_equal. rewrite !pow2_split by lia. f_equal. lia.
Qed.

Lemma ddiv_rounds s m e t n f : valid_double (S754_finite s m e) -> valid_double (S754_finite t n f) ->
  rounds_AB (xorb s t) (magnitude (S754_finite s m e) * 2 ^ 1074) (magnitude (S754_finite t n f))
    (ddiv (S754_finite s m e) (S754_finite t n f)).
Proof.
  intros V1 V2. apply valid_finite in V1, V2. simpl magnitude. unfold ddiv.
  assert (P : forall z, 0 < 2 ^ Z.max 0 z) by (intros; apply Z.pow_pos_nonneg; lia).
  assert (Q : 0 < 2 ^ (f + 1074)) by (apply Z.pow_pos_nonneg; lia).
  pose proof (P (- (e - f))).
  eapply rounds_AB_cross. 4:{ apply round_ratio_ok; [pose proof (P (e - f))|]; nia. }
  - nia.
  - nia.
  - replace (Zpos m * 2 ^ Z.max 0 (e - f) * 2 ^ 1074 * (Zpos n * 2 ^ (f + 1074)))
      with (Zpos m * Zpos n * (2 ^ Z.max 0 (e - f) * 2 ^ 1074 * 2 ^ (f + 1074))) by ring.
    replace (Zpos m * 2 ^ (e + 1074) * 2 ^ 1074 * (Zpos n * 2 ^ Z.max 0 (- (e - f))))
      with (Zpos m * Zpos n * (2 ^ (e + 1074) * 2 ^ 1074 * 2 ^ Z.max 0 (- (e - f)))) by ring.
    f_equal. rewrite !pow2_split by lia. f_equal. lia.
Qed.

Lemma dadd_rounds m e n f : valid_double (S754_finite false m e) -> valid_double (S754_finite false n f) ->
  rounds_AB false (magnitude (S754_finite false m e) + magnitude (S754_finite false n f)) 1
    (dadd (S754_finite false m e) (S754_finite false n f)).
Proof.
  intros V1 V2. apply valid_finite in V1, V2. simpl magnitude. unfold dadd, signed. cbv zeta.
  assert (P : forall z, 0 < 2 ^ Z.max 0 z) by (intros; apply Z.pow_pos_nonneg; lia).
  set (k := Z.min e f).
  assert (Pe : 0 < 2 ^ (e - k)) by (apply Z.pow_pos_nonneg; lia).
  assert (Pf : 0 < 2 ^ (f - k)) by (apply Z.pow_pos_nonneg; lia).
  set (z := Zpos m * 2 ^ (e - k) + Zpos n * 2 ^ (f - k)).
  assert (Hz : 0 < z) by (unfold z; nia).
  replace (z =? 0) with false by lia. replace (z <? 0) with false by lia. rewrite (Z.abs_eq z) by lia.
  eapply rounds_AB_cross. 4:{ apply round_ratio_ok; [|auto]. pose proof (P k). nia. }
  - auto.
  - lia.
  - unfold z.
    replace ((Zpos m * 2 ^ (e - k) + Zpos n * 2 ^ (f - k)) * 2 ^ Z.max 0 k * 2 ^ 1074 * 1)
      with (Zpos m * (2 ^ (e - k) * 2 ^ Z.max 0 k * 2 ^ 1074) + Zpos n * (2 ^ (f - k) * 2 ^ Z.max 0 k * 2 ^ 1074)) by ring.
    replace ((Zpos m * 2 ^ (e + 1074) + Zpos n * 2 ^ (f + 1074)) * 2 ^ Z.max 0 (- k))
      with (Zpos m * (2 ^ (e + 1074) * 2 ^ Z.max 0 (- k)) + Zpos n * (2 ^ (f + 1074) * 2 ^ Z.max 0 (- k))) by ring.
    rewrite !pow2_split by lia. f_equal; f_equal; f_equal; lia.
Qed.

(** ** Exact values *)

Lemma representable m s : 0 < m < 2 ^ 53 -> 0 <= s <= 900 ->
  exists m' e, valid_double (S754_finite false m' e) /\ magnitude (S754_finite false m' e) = m * 2 ^ (s + 1074).
Proof.
  intros Hm Hs. pose proof (Z.log2_spec m ltac:(lia)) as [L1 L2]. pose proof (Z.log2_nonneg m) as L0.
  set (L := Z.log2 m) in *.
  assert (HL : L <= 52). { assert (L < 53); [|lia]. apply (Z.pow_lt_mono_r_iff 2); lia. }
  assert (HP : 0 < m * 2 ^ (52 - L)) by (apply Z.mul_pos_pos; [lia|]; apply Z.pow_pos_nonneg; lia).
  exists (Z.to_pos (m * 2 ^ (52 - L))), (s + L - 52). split.
  - apply valid_finite. rewrite Z2Pos.id by auto. split; [lia|].
    assert (E1 : 2 ^ L * 2 ^ (52 - L) = 2 ^ 52) by (rewrite pow2_split by lia; f_equal; lia).
    assert (E2 : 2 ^ Z.succ L * 2 ^ (52 - L) = 2 ^ 53) by (rewrite pow2_split by lia; f_equal; lia).
    assert (0 < 2 ^ (52 - L)) by (apply Z.pow_pos_nonneg; lia).
    rewrite <- E1, <- E2. split; [|right]; nia.
  - simpl magnitude. rewrite Z2Pos.id by auto. rewrite <- Z.mul_assoc, pow2_split by lia. do 2 f_equal. lia.
Qed.

Lemma rounds_exact A B d m e : 0 < B -> rounds_AB false A B d ->
  valid_double (S754_finite false m e) -> B * magnitude (S754_finite false m e) = A -> d = S754_finite false m e.
Proof.
  intros HB H V E. eapply rounds_AB_unique; [exact HB|exact H|]. split; [auto|]. split; [reflexivity|].
  pose proof V as V'. apply valid_finite in V'. split.
  - intros HO. exfalso. rewrite <- E in HO. apply Z.mul_le_mono_pos_l in HO; [|auto].
    rewrite threshold_units in HO. simpl magnitude in HO.
    assert (Zpos m * 2 ^ (e + 1074) <= Zpos m * 2 ^ (971 + 1074)).
    { apply Z.mul_le_mono_nonneg_l; [lia|]. apply Z.pow_le_mono_r; lia. }
    assert (2 ^ (971 + 1074) = 2 * 2 ^ (970 + 1074)) by (rewrite <- Z.pow_succ_r by lia; f_equal; lia).
    assert (0 < 2 ^ (970 + 1074)) by (apply Z.pow_pos_nonneg; lia).
    set (T := 2 ^ (970 + 1074)) in *. rewrite H1 in H0.
    assert (Zpos m * (2 * T) <= (2 ^ 53 - 1) * (2 * T)) by (apply Z.mul_le_mono_nonneg_r; lia).
    nia.
  - intros _. split; [exact I|]. intros g _ _. rewrite E, Z.sub_diag. simpl Z.abs. split; [lia|].
    intros E0 Hne. exfalso. apply Hne. symmetry in E0. apply Z.abs_0_iff in E0. nia.
Qed.

Lemma dec_rounds_AB m e : 0 <= m -> rounds_AB false (dec_A m e) (dec_B e) (dec_to_double false m e).
Proof. intros H. exact (dec_to_double_ok false m e H). Qed.

(** A decimal whose value is a 53-bit integer times a power of two is exact. *)
Lemma dec_exact k j m s : 0 <= j -> 0 < m < 2 ^ 53 -> 0 <= s <= 900 -> 0 <= k -> k * 10 ^ j = m * 2 ^ s ->
  exists m' e, dec_to_double false k j = S754_finite false m' e /\ valid_double (S754_finite false m' e) /\
    magnitude (S754_finite false m' e) = k * 10 ^ j * 2 ^ 1074.
Proof.
  intros Hj Hm Hs Hk E. destruct (representable m s Hm Hs) as (m' & e & V & M).
  assert (M' : magnitude (S754_finite false m' e) = k * 10 ^ j * 2 ^ 1074).
  { rewrite M, E. rewrite <- Z.mul_assoc, pow2_split by lia. reflexivity. }
  exists m', e. split; [|auto]. eapply (rounds_exact _ _ _ _ _ _ (dec_rounds_AB k j Hk) V).
  Unshelve. 2:apply dec_B_pos. rewrite M'. unfold dec_A, dec_B.
  replace (Z.max 0 (- j)) with 0 by lia. replace (Z.max 0 j) with j by lia. lia.
Qed.

Lemma int_exact k : 0 < k <= 2 ^ 53 -> exists m e, dint k = S754_finite false m e /\
  valid_double (S754_finite false m e) /\ magnitude (S754_finite false m e) = k * 2 ^ 1074.
Proof.
  intros H. assert (E : exists m s, 0 < m < 2 ^ 53 /\ 0 <= s <= 900 /\ k * 10 ^ 0 = m * 2 ^ s).
  { destruct (Z.eq_dec k (2 ^ 53)) as [->|N]; [exists 1, 53|exists k, 0]; lia. }
  destruct E as (m & s & Hm & Hs & E).
  destruct (dec_exact k 0 m s ltac:(lia) Hm Hs ltac:(lia) E) as (m' & e & H1 & H2 & H3).
  exists m', e. split; [exact H1|]. split; [auto|]. rewrite H3. lia.
Qed.

Lemma dint_rounds k d : 0 < k -> rounds_AB false (k * 2 ^ 1074) 1 d -> d = dint k.
Proof.
  intros Hk H. eapply rounds_AB_unique; [|exact H|]; [lia|].
  pose proof (dec_rounds_AB k 0 ltac:(lia)) as R. unfold dec_A, dec_B in R.
  replace (Z.max 0 0) with 0 in R by lia. replace (Z.max 0 (- 0)) with 0 in R by lia.
  replace (k * 10 ^ 0 * 2 ^ 1074) with (k * 2 ^ 1074) in R by lia. exact R.
Qed.

Lemma dint_zero : dint 0 = S754_zero false.
Proof. reflexivity. Qed.

Lemma times_ten a : 0 < a <= 2 ^ 53 -> dmul (dint a) dten = dint (10 * a).
Proof.
  intros H. destruct (int_exact a H) as (m & e & E1 & V1 & M1).
  destruct (int_exact 10 ltac:(lia)) as (n & f & E2 & V2 & M2).
  apply dint_rounds; [lia|]. unfold dten. rewrite E1, E2.
  pose proof (dmul_rounds false m e false n f V1 V2) as R. rewrite M1, M2 in R. simpl xorb in R.
  eapply rounds_AB_cross; [| | |exact R]; [apply Z.pow_pos_nonneg; lia|lia|ring].
Qed.

Lemma plus_int a x : 0 < a <= 2 ^ 53 -> 0 < x <= 2 ^ 53 -> dadd (dint a) (dint x) = dint (a + x).
Proof.
  intros H H'. destruct (int_exact a H) as (m & e & E1 & V1 & M1).
  destruct (int_exact x H') as (n & f & E2 & V2 & M2).
  apply dint_rounds; [lia|]. rewrite E1, E2.
  pose proof (dadd_rounds m e n f V1 V2) as R. rewrite M1, M2 in R.
  eapply rounds_AB_cross; [| | |exact R]; [lia|lia|ring].
Qed.

Lemma whole_step a x : 0 <= a -> 0 <= x < 10 -> 10 * a + x <= 2 ^ 53 ->
  dadd (dmul (dint a) dten) (dint x) = dint (10 * a + x).
Proof.
  intros Ha Hx Hb. destruct (Z.eq_dec a 0) as [->|Na].
  - rewrite dint_zero. replace (10 * 0 + x) with x by lia.
    destruct (int_exact 10 ltac:(lia)) as (n & f & E2 & _). unfold dten. rewrite E2. simpl dmul.
    destruct (Z.eq_dec x 0) as [->|Nx]; [reflexivity|].
    destruct (int_exact x ltac:(lia)) as (m & e & E & _). rewrite E. reflexivity.
  - rewrite times_ten by lia. destruct (Z.eq_dec x 0) as [->|Nx].
    + rewrite dint_zero, Z.add_0_r. destruct (int_exact (10 * a) ltac:(lia)) as (m & e & E & _). rewrite E. reflexivity.
    + rewrite plus_int by lia. reflexivity.
Qed.

Lemma whole_exact_from ds : digits ds -> forall a, 0 <= a -> a * 10 ^ Z.of_nat (length ds) + dvalue ds <= 2 ^ 53 ->
  whole_val (dint a) ds = dint (a * 10 ^ Z.of_nat (length ds) + dvalue ds).
Proof.
  induction ds as [|c ds IH]; intros HD a Ha Hb.
  - simpl. f_equal. change (10 ^ Z.of_nat 0) with 1. lia.
  - inversion HD as [|? ? Hc HD']; subst. unfold digit in Hc. simpl. simpl in Hb.
    rewrite Nat2Z.inj_succ, Z.pow_succ_r in * by lia.
    assert (HP : 0 < 10 ^ Z.of_nat (length ds)) by (apply Z.pow_pos_nonneg; lia).
    pose proof (dvalue_nonneg ds HD').
    set (P := 10 ^ Z.of_nat (length ds)) in *.
    assert (E : a * (10 * P) + ((c - 48) * P + dvalue ds) = (10 * a + (c - 48)) * P + dvalue ds) by ring.
    rewrite E in *. rewrite whole_step; [|lia|lia|nia]. apply IH; [auto|lia|auto].
Qed.

Lemma whole_exact ds : digits ds -> dvalue ds <= 2 ^ 53 -> whole_val (S754_zero false) ds = dint (dvalue ds).
Proof.
  intros HD Hb. rewrite <- dint_zero. rewrite whole_exact_from; [f_equal; lia|exact HD|lia|lia].
Qed.

(** ** Exponents *)

Lemma exp_val_from ds : digits ds -> forall e, 0 <= e ->
  exp_val (Z.min e 65535) ds = Z.min (e * 10 ^ Z.of_nat (length ds) + dvalue ds) 65535.
Proof.
  induction ds as [|c ds IH]; intros HD e He.
  - simpl. change (10 ^ Z.of_nat 0) with 1. f_equal. lia.
  - inversion HD as [|? ? Hc HD']; subst. unfold digit in Hc. simpl.
    replace (Z.min (Z.min e 65535 * 10 + (c - 48)) 65535) with (Z.min (e * 10 + (c - 48)) 65535) by lia.
    rewrite IH by (auto; lia). rewrite Nat2Z.inj_succ, Z.pow_succ_r by lia. f_equal. ring.
Qed.

Lemma exp_val_min ds : digits ds -> exp_val 0 ds = Z.min (dvalue ds) 65535.
Proof. intros HD. change 0 with (Z.min 0 65535) at 1. rewrite exp_val_from by (auto; lia). f_equal. Qed.

Lemma five_pow e : 0 <= e <= 22 -> 0 < 5 ^ e < 2 ^ 53 /\ 1 * 10 ^ e = 5 ^ e * 2 ^ e.
Proof.
  intros H. split.
  - split; [apply Z.pow_pos_nonneg; lia|]. eapply Z.le_lt_trans; [apply (Z.pow_le_mono_r 5 e 22); lia|reflexivity].
  - rewrite <- Z.pow_mul_l. change (5 * 2) with 10. lia.
Qed.

(** An integer of at most 53 bits with an exponent up to 22 is correctly rounded. *)
Lemma integer_exponent ip ds : digits ip -> dvalue ip <= 2 ^ 53 -> digits ds -> dvalue ds <= 22 ->
  literal_value ip [] (Some (false, ds)) = dec_to_double false (dvalue ip) (dvalue ds).
Proof.
  intros HI Hb HD Hx. pose proof (dvalue_nonneg ip HI) as P1. pose proof (dvalue_nonneg ds HD) as P2.
  unfold literal_value, scaled. simpl frac_val. rewrite exp_val_min by auto.
  replace (Z.min (dvalue ds) 65535) with (dvalue ds) by lia. unfold power_of.
  replace (309 <=? dvalue ds) with false by lia. rewrite whole_exact by auto.
  set (k := dvalue ip) in *. set (e := dvalue ds) in *.
  destruct (five_pow e ltac:(lia)) as [F1 F2].
  destruct (dec_exact 1 e (5 ^ e) e ltac:(lia) F1 ltac:(lia) ltac:(lia) F2) as (n & f & E2 & V2 & M2).
  destruct (Z.eq_dec k 0) as [->|Nk].
  - rewrite dint_zero, E2. reflexivity.
  - destruct (int_exact k ltac:(lia)) as (m & g & E1 & V1 & M1). rewrite E1, E2.
    eapply rounds_AB_unique; [apply dec_B_pos| |apply dec_rounds_AB; lia].
    pose proof (dmul_rounds false m g false n f V1 V2) as R. rewrite M1, M2 in R. simpl xorb in R.
    eapply rounds_AB_cross; [| | |exact R]; [apply Z.pow_pos_nonneg; lia|apply dec_B_pos|].
    unfold dec_A, dec_B. replace (Z.max 0 (- e)) with 0 by lia. replace (Z.max 0 e) with e by lia. ring.
Qed.

Lemma integer_plain ip : digits ip -> dvalue ip <= 2 ^ 53 ->
  literal_value ip [] None = dec_to_double false (dvalue ip) 0.
Proof. intros HI Hb. unfold literal_value, scaled. simpl frac_val. now rewrite whole_exact. Qed.

(** ** NaN *)

(** Not NaN and without a minus sign. *)
Definition regular (d : double) : Prop := valid_double d /\ sign_of d = Some false.
Definition positive (d : double) : Prop :=
  match d with S754_finite false _ _ => valid_double d | _ => False end.

Lemma round_regular p q : 0 < p -> 0 < q -> regular (round_ratio false p q).
Proof. intros H1 H2. destruct (round_ratio_ok false p q H1 H2) as (V & S & _). split; auto. Qed.

Lemma dmul_positive d g : regular d -> positive g -> regular (dmul d g).
Proof.
  intros [V S] P. destruct g as [|[] | |[] n f]; try contradiction.
  destruct d as [s|s| |s m e]; simpl in S; try discriminate; injection S as ->; try (split; reflexivity).
  simpl dmul. apply round_regular; [|apply Z.pow_pos_nonneg; lia].
  assert (0 < 2 ^ Z.max 0 (e + f)) by (apply Z.pow_pos_nonneg; lia). nia.
Qed.

Lemma dadd_regular d g : regular d -> regular g -> regular (dadd d g).
Proof.
  intros [V S] [V' S']. destruct d as [s|s| |s m e]; simpl in S; try discriminate; injection S as ->;
  destruct g as [s'|s'| |s' n f]; simpl in S'; try discriminate; injection S' as ->;
    try (split; [first [exact V|exact V'|reflexivity]|reflexivity]).
  destruct (dadd_rounds m e n f V V') as (A & B & _). split; auto.
Qed.

Lemma dint_regular x : 0 <= x -> regular (dint x).
Proof. intros H. destruct (dec_to_double_ok false x 0 H) as (V & S & _). split; auto. Qed.

(** Positive or infinite: the divisors of the fraction. *)
Definition large (d : double) : Prop := positive d \/ d = S754_infinity false.

Lemma positive_dint x : 0 < x <= 2 ^ 53 -> positive (dint x).
Proof. intros H. destruct (int_exact x H) as (m & e & -> & V & _). exact V. Qed.

Lemma large_regular d : large d -> regular d.
Proof.
  intros [P| ->]; [|split; reflexivity]. destruct d as [|[] | |[] n f]; try contradiction. split; [exact P|reflexivity].
Qed.

Lemma dmul_ten_large d : large d -> large (dmul d dten).
Proof.
  pose proof (positive_dint 10 ltac:(lia)) as PT. fold dten in PT.
  intros [P| ->]; [|right; destruct dten as [|[] | |[] n f]; try contradiction; reflexivity].
  pose proof (dmul_positive d dten (large_regular d (or_introl P)) PT) as [V S].
  destruct (int_exact 10 ltac:(lia)) as (n & f & E2 & V2 & M2). unfold dten in *. rewrite E2 in *.
  destruct d as [|[] | |[] m e]; try contradiction.
  pose proof (dmul_rounds false m e false n f P V2) as (_ & _ & I & N). rewrite M2 in I, N.
  set (r := dmul _ _) in *. destruct r as [s|s| |s m' e'] eqn:Er; simpl in S; try discriminate; injection S as ->.
  - exfalso. apply valid_finite in P. simpl magnitude in *.
    set (A := Zpos m * 2 ^ (e + 1074) * (10 * 2 ^ 1074)) in *.
    destruct (Z.lt_ge_cases A (2 ^ 1074 * overflow_threshold)) as [L|L]; [|specialize (I ltac:(lia)); discriminate].
    destruct (N L) as [_ H]. specialize (H (S754_finite false m e) ltac:(apply valid_finite; auto) Logic.I) as [H _].
    simpl magnitude in H. unfold A in H.
    assert (0 < 2 ^ (e + 1074)) by (apply Z.pow_pos_nonneg; lia).
    assert (0 < 2 ^ 1074) by (apply Z.pow_pos_nonneg; lia).
    set (X := Zpos m * 2 ^ (e + 1074)) in *. assert (0 < X) by (unfold X; nia).
    assert (0 < X * 2 ^ 1074) by nia.
    replace (X * (10 * 2 ^ 1074) - 2 ^ 1074 * 0) with (10 * (X * 2 ^ 1074)) in H by ring.
    replace (X * (10 * 2 ^ 1074) - 2 ^ 1074 * X) with (9 * (X * 2 ^ 1074)) in H by ring. lia.
  - right. reflexivity.
  - left. exact V.
Qed.

Lemma ddiv_large d g : regular d -> d <> S754_infinity false -> large g -> regular (ddiv d g).
Proof.
  intros [V S] Hd L. destruct d as [s|s| |s m e]; simpl in S; try discriminate; injection S as ->; [|congruence|];
    (destruct L as [P| ->]; [|split; reflexivity]);
    destruct g as [|[] | |[] n f]; try contradiction; [split; reflexivity|].
  destruct (ddiv_rounds false m e false n f V P) as (A & B & _). split; auto.
Qed.

Lemma dint_digit_finite x : 0 <= x < 10 -> dint x <> S754_infinity false.
Proof.
  intros H. destruct (Z.eq_dec x 0) as [->|N]; [discriminate|].
  destruct (int_exact x ltac:(lia)) as (m & e & -> & _). discriminate.
Qed.

Lemma whole_regular ds : digits ds -> forall v, regular v -> regular (whole_val v ds).
Proof.
  induction ds as [|c ds IH]; intros HD v Hv; [exact Hv|]. inversion HD as [|? ? Hc HD']; subst. unfold digit in Hc.
  simpl. apply IH; auto. apply dadd_regular; [|apply dint_regular; lia].
  apply dmul_positive; auto. apply positive_dint. lia.
Qed.

Lemma frac_regular ds : digits ds -> forall v dec, regular v -> large dec -> regular (frac_val v dec ds).
Proof.
  induction ds as [|c ds IH]; intros HD v dec Hv HL; [exact Hv|]. inversion HD as [|? ? Hc HD']; subst. unfold digit in Hc.
  simpl. apply IH; auto; [|now apply dmul_ten_large]. apply dadd_regular; auto.
  apply ddiv_large; auto; [apply dint_regular; lia|apply dint_digit_finite; lia].
Qed.

(** Without an exponent beyond the tables, the value is a number, positive or 0. *)
Lemma mantissa_regular ip fp : digits ip -> digits fp -> regular (frac_val (whole_val (S754_zero false) ip) dten fp).
Proof.
  intros H1 H2. apply frac_regular; auto; [apply whole_regular; auto; split; reflexivity|].
  left. apply positive_dint. lia.
Qed.

Lemma power_positive (neg : bool) e : 0 <= e <= 308 -> positive (power_of neg e).
Proof.
  intros H. unfold power_of. replace (309 <=? e) with false by lia.
  assert (P : forall x, -308 <= x <= 308 -> positive (dec_to_double false 1 x)).
  { clear. intros x Hx. destruct (dec_to_double_ok false 1 x ltac:(lia)) as (V & S & I & N).
    assert (HB : 0 < dec_B x) by apply dec_B_pos.
    assert (HA : dec_B x < dec_A 1 x /\ dec_A 1 x < dec_B x * overflow_threshold).
    { unfold dec_A, dec_B. destruct (Z.le_gt_cases 0 x) as [L|L].
      - replace (Z.max 0 (- x)) with 0 by lia. replace (Z.max 0 x) with x by lia. change (10 ^ 0) with 1.
        assert (1 <= 10 ^ x) by (apply (Z.pow_le_mono_r 10 0 x); lia).
        assert (10 ^ x <= 10 ^ 308) by (apply Z.pow_le_mono_r; lia).
        assert (10 ^ 308 < 2 ^ 1024 - 2 ^ 970) by reflexivity.
        assert (1 < 2 ^ 1074) by reflexivity. unfold overflow_threshold.
        set (T := 2 ^ 1024 - 2 ^ 970) in *. set (U := 2 ^ 1074) in *. set (Y := 10 ^ x) in *. nia.
      - replace (Z.max 0 (- x)) with (- x) by lia. replace (Z.max 0 x) with 0 by lia. change (10 ^ 0) with 1.
        assert (1 <= 10 ^ (- x)) by (apply (Z.pow_le_mono_r 10 0 (- x)); lia).
        assert (10 ^ (- x) <= 10 ^ 308) by (apply Z.pow_le_mono_r; lia).
        assert (10 ^ 308 < 2 ^ 1074) by reflexivity.
        assert (2 ^ 1074 < overflow_threshold) by reflexivity.
        set (T := overflow_threshold) in *. set (U := 2 ^ 1074) in *. set (Y := 10 ^ (- x)) in *. nia. }
    destruct (N (proj2 HA)) as [F M]. destruct (dec_to_double false 1 x) as [s|s| |s m e]; simpl in S; try discriminate; try contradiction;
      injection S as ->; [|exact V].
    exfalso. assert (V1 : valid_double (S754_finite false 1 (-1074))) by reflexivity.
    destruct (M _ V1 Logic.I) as [M1 _]. change (magnitude (S754_finite false 1 (-1074))) with 1 in M1. simpl magnitude in M1. lia. }
  destruct neg; apply P; lia.
Qed.

(** The value is NaN exactly in two cases. *)
Lemma literal_nan ip fp ex : digits ip -> digits fp -> (forall neg ds, ex = Some (neg, ds) -> digits ds) ->
  literal_value ip fp ex = S754_nan <->
  exists neg ds, ex = Some (neg, ds) /\ 309 <= dvalue ds /\
    frac_val (whole_val (S754_zero false) ip) dten fp = if neg then S754_infinity false else S754_zero false.
Proof.
  intros HI HF HE. pose proof (mantissa_regular ip fp HI HF) as R. unfold literal_value.
  set (v := frac_val _ _ _) in *. destruct ex as [[neg ds]|]; simpl.
  - specialize (HE neg ds eq_refl). rewrite exp_val_min by auto. pose proof (dvalue_nonneg ds HE).
    destruct (Z.le_gt_cases 309 (dvalue ds)) as [L|L].
    + unfold power_of. replace (309 <=? Z.min (dvalue ds) 65535) with true by lia.
      destruct R as [V S]. split.
      * intros E. exists neg, ds. split; [auto|]. split; [auto|].
        destruct v as [s|s| |s m e]; simpl in S; try discriminate; injection S as ->; destruct neg; simpl in E; congruence.
      * intros (neg' & ds' & E & _ & E'). injection E as <- <-. rewrite E'. now destruct neg.
    + split.
      * intros E. exfalso. pose proof (dmul_positive v (power_of neg (Z.min (dvalue ds) 65535)) R (power_positive neg (Z.min (dvalue ds) 65535) ltac:(lia))) as [_ S].
        rewrite E in S. discriminate.
      * intros (neg' & ds' & E & L' & _). injection E as <- <-. lia.
  - split; [|intros (? & ? & ? & _); discriminate]. intros E. destruct R as [_ S]. rewrite E in S. discriminate.
Qed.

(** Zeros. *)
Lemma zeros_whole ds : Forall (fun c => c = 48) ds -> whole_val (S754_zero false) ds = S754_zero false.
Proof.
  intros H. assert (E : dvalue ds = 0) by (induction H as [|c ds Hc _ IH]; simpl; [auto|]; subst c; rewrite IH; lia).
  rewrite whole_exact, E; [reflexivity| |lia].
  eapply Forall_impl; [|exact H]. intros c ->. unfold digit. lia.
Qed.

Lemma zeros_frac ds : Forall (fun c => c = 48) ds -> forall dec, large dec ->
  frac_val (S754_zero false) dec ds = S754_zero false.
Proof.
  induction 1 as [|c ds -> _ IH]; intros dec L; [reflexivity|]. cbn [frac_val].
  change (dint (48 - 48)) with (S754_zero false).
  assert (E : dadd (S754_zero false) (ddiv (S754_zero false) dec) = S754_zero false).
  { destruct L as [P| ->]; [|reflexivity]. destruct dec as [|[] | |[] n f]; try contradiction. reflexivity. }
  rewrite E. apply IH. now apply dmul_ten_large.
Qed.

Lemma zeros_mantissa ip fp : Forall (fun c => c = 48) (ip ++ fp) ->
  frac_val (whole_val (S754_zero false) ip) dten fp = S754_zero false.
Proof.
  intros H. apply Forall_app in H. destruct H as [H1 H2]. rewrite zeros_whole by auto. apply zeros_frac; auto.
  left. apply positive_dint. lia.
Qed.
