(** * The rounding model is round-to-nearest-even. *)

From Verif Require Import Base NumModel SpecNum.

(** ** Canonical doubles *)

Lemma digits2_pos_log2 m : Zpos (digits2_pos m) = Z.log2 (Zpos m) + 1.
Proof.
  induction m as [m IH|m IH|]; simpl digits2_pos.
  - rewrite Pos2Z.inj_succ, IH. change (Zpos m~1) with (2 * Zpos m + 1).
    rewrite Z.log2_succ_double by lia. lia.
  - rewrite Pos2Z.inj_succ, IH. change (Zpos m~0) with (2 * Zpos m).
    rewrite Z.log2_double by lia. lia.
  - reflexivity.
Qed.

Lemma valid_finite s m e : valid_double (S754_finite s m e) <->
  -1074 <= e <= 971 /\ Zpos m < 2 ^ 53 /\ (e = -1074 \/ 2 ^ 52 <= Zpos m).
Proof.
  unfold valid_double, valid_binary, bounded, canonical_mantissa, fexp, emin.
  rewrite digits2_pos_log2.
  pose proof (Z.log2_spec (Zpos m) ltac:(lia)) as [H1 H2].
  pose proof (Z.log2_nonneg (Zpos m)) as H0.
  rewrite andb_true_iff. rewrite <- Zeq_is_eq_bool, <- Zle_is_le_bool.
  change (3 - 1024 - 53) with (-1074). change (1024 - 53) with 971.
  set (L := Z.log2 (Zpos m)) in *.
  assert (P53 : Zpos m < 2 ^ 53 <-> L < 53).
  { split; intros H.
    - apply (Z.pow_lt_mono_r_iff 2); lia.
    - apply Z.lt_le_trans with (2 ^ Z.succ L); [lia|]. apply Z.pow_le_mono_r; lia. }
  assert (P52 : 2 ^ 52 <= Zpos m <-> 52 <= L).
  { split; intros H.
    - assert (52 < Z.succ L); [|lia]. apply (Z.pow_lt_mono_r_iff 2); lia.
    - apply Z.le_trans with (2 ^ L); [|lia]. apply Z.pow_le_mono_r; lia. }
  rewrite P53, P52. lia.
Qed.

(** ** Integer division rounding *)

Lemma div_half_even_spec n d : 0 < d ->
  2 * Z.abs (n - d * div_half_even n d) <= d /\
  (2 * Z.abs (n - d * div_half_even n d) = d -> Z.even (div_half_even n d) = true).
Proof.
  intros Hd. unfold div_half_even.
  pose proof (Z.div_mod n d ltac:(lia)) as E. pose proof (Z.mod_pos_bound n d Hd) as B.
  set (q := n / d) in *. set (r := n mod d) in *.
  destruct (Z.compare_spec (2 * r) d) as [C|C|C].
  - destruct (Z.even q) eqn:Ev.
    + split; [lia|auto].
    + split; [lia|]. intros _. replace (q + 1) with (Z.succ q) by lia. rewrite Z.even_succ.
      rewrite <- Z.negb_even, Ev. reflexivity.
  - split; [lia|]. intros. lia.
  - split; [lia|]. intros. lia.
Qed.

Lemma nearest_int n d q : 0 < d -> 2 * Z.abs (n - d * q) <= d ->
  forall z, Z.abs (n - d * q) <= Z.abs (n - d * z).
Proof.
  intros Hd H z. destruct (Z.eq_dec z q) as [->|Hne]; [lia|].
  assert (z <= q - 1 \/ q + 1 <= z) as [Hz|Hz] by lia; nia.
Qed.

Lemma nearest_int_tie n d q z : 0 < d -> 2 * Z.abs (n - d * q) <= d -> z <> q ->
  Z.abs (n - d * q) = Z.abs (n - d * z) -> 2 * Z.abs (n - d * q) = d.
Proof.
  intros Hd H Hne E.
  assert (z <= q - 1 \/ q + 1 <= z) as [Hz|Hz] by lia; nia.
Qed.

(** ** Scaling *)

Lemma scale_den_pos q k : 0 < q -> 0 < scale_den q k.
Proof. intros. unfold scale_den. apply Z.mul_pos_pos; [lia|]. apply Z.pow_pos_nonneg; lia. Qed.

Lemma scale_num_pos p k : 0 < p -> 0 < scale_num p k.
Proof. intros. unfold scale_num. apply Z.mul_pos_pos; [lia|]. apply Z.pow_pos_nonneg; lia. Qed.

(** p/q/2^k = (p/q/2^k') * 2^(k'-k) *)
Lemma scale_cross p q k k' : k <= k' ->
  scale_num p k * scale_den q k' = scale_num p k' * 2 ^ (k' - k) * scale_den q k.
Proof.
  intros H. unfold scale_num, scale_den.
  transitivity (p * q * 2 ^ (Z.max 0 (- k) + Z.max 0 k')).
  - rewrite Z.pow_add_r by lia. ring.
  - replace (Z.max 0 (- k) + Z.max 0 k') with (Z.max 0 (- k') + (k' - k) + Z.max 0 k) by lia.
    rewrite !Z.pow_add_r by lia. ring.
Qed.

Lemma scale_lt p q k k' x : 0 < q -> k <= k' ->
  (scale_num p k < scale_den q k * (x * 2 ^ (k' - k)) <-> scale_num p k' < scale_den q k' * x).
Proof.
  intros Hq Hk. pose proof (scale_cross p q k k' Hk) as E.
  pose proof (scale_den_pos q k Hq). pose proof (scale_den_pos q k' Hq).
  assert (0 < 2 ^ (k' - k)) by (apply Z.pow_pos_nonneg; lia).
  set (a := scale_num p k) in *. set (a' := scale_num p k') in *.
  set (d := scale_den q k) in *. set (d' := scale_den q k') in *. set (w := 2 ^ (k' - k)) in *.
  split; intros L.
  - apply Z.mul_lt_mono_pos_l with (w * d); [nia|].
    replace (w * d * a') with (a' * w * d) by ring. rewrite <- E.
    replace (w * d * (d' * x)) with (d * (x * w) * d') by ring.
    apply Z.mul_lt_mono_pos_r; lia.
  - apply Z.mul_lt_mono_pos_r with d'; [lia|]. rewrite E.
    replace (d * (x * w) * d') with (d' * x * (w * d)) by ring.
    replace (a' * w * d) with (a' * (w * d)) by ring.
    apply Z.mul_lt_mono_pos_r; nia.
Qed.

Lemma scale_le p q k k' x : 0 < q -> k <= k' ->
  (scale_den q k * (x * 2 ^ (k' - k)) <= scale_num p k <-> scale_den q k' * x <= scale_num p k').
Proof.
  intros Hq Hk. pose proof (scale_lt p q k k' x Hq Hk). lia.
Qed.

(** ** The binade *)

Lemma binade_spec p q : 0 < p -> 0 < q ->
  let k := binade p q in
  -1074 <= k /\ scale_num p k < scale_den q k * 2 ^ 53 /\
  (-1074 < k -> scale_den q k * 2 ^ 52 <= scale_num p k).
Proof.
  intros Hp Hq. unfold binade.
  pose proof (Z.log2_spec p Hp) as [P1 P2]. pose proof (Z.log2_spec q Hq) as [Q1 Q2].
  pose proof (Z.log2_nonneg p). pose proof (Z.log2_nonneg q).
  set (a := Z.log2 p) in *. set (c := Z.log2 q) in *. set (k0 := a - c - 53).
  (* bounds at exponent k0 *)
  assert (L0 : scale_den q k0 * 2 ^ 52 < scale_num p k0).
  { unfold scale_den, scale_num.
    apply Z.lt_le_trans with (2 ^ Z.succ c * 2 ^ Z.max 0 k0 * 2 ^ 52).
    - apply Z.mul_lt_mono_pos_r; [lia|]. apply Z.mul_lt_mono_pos_r; [apply Z.pow_pos_nonneg; lia|lia].
    - rewrite <- !Z.pow_add_r by lia.
      apply Z.le_trans with (2 ^ a * 2 ^ Z.max 0 (- k0)).
      + rewrite <- Z.pow_add_r by lia. apply Z.pow_le_mono_r; lia.
      + apply Z.mul_le_mono_nonneg_r; [apply Z.pow_nonneg; lia|lia]. }
  assert (U0 : scale_num p k0 < scale_den q k0 * 2 ^ 54).
  { unfold scale_den, scale_num.
    apply Z.lt_le_trans with (2 ^ Z.succ a * 2 ^ Z.max 0 (- k0)).
    - apply Z.mul_lt_mono_pos_r; [apply Z.pow_pos_nonneg; lia|lia].
    - apply Z.le_trans with (2 ^ c * 2 ^ Z.max 0 k0 * 2 ^ 54).
      + rewrite <- !Z.pow_add_r by lia. apply Z.pow_le_mono_r; lia.
      + apply Z.mul_le_mono_nonneg_r; [lia|]. apply Z.mul_le_mono_nonneg_r; [apply Z.pow_nonneg; lia|lia]. }
  set (k1 := if scale_num p k0 <? scale_den q k0 * 2 ^ 53 then k0 else k0 + 1).
  assert (B1 : scale_num p k1 < scale_den q k1 * 2 ^ 53 /\ scale_den q k1 * 2 ^ 52 <= scale_num p k1).
  { unfold k1. destruct (Z.ltb_spec (scale_num p k0) (scale_den q k0 * 2 ^ 53)) as [L|L].
    - split; lia.
    - split.
      + apply (scale_lt p q k0 (k0 + 1) (2 ^ 53) Hq); [lia|].
        replace (k0 + 1 - k0) with 1 by lia. rewrite <- Z.pow_add_r by lia. exact U0.
      + apply (scale_le p q k0 (k0 + 1) (2 ^ 52) Hq); [lia|].
        replace (k0 + 1 - k0) with 1 by lia. rewrite <- Z.pow_add_r by lia. exact L. }
  destruct B1 as [B1 B2]. cbv zeta.
  destruct (Z.max_spec k1 (-1074)) as [[Hm ->]|[Hm ->]].
  - split; [lia|]. split; [|lia].
    apply (scale_lt p q k1 (-1074) (2 ^ 53) Hq); [lia|].
    eapply Z.lt_le_trans; [exact B1|]. apply Z.mul_le_mono_nonneg_l.
    + pose proof (scale_den_pos q k1 Hq). lia.
    + assert (1 <= 2 ^ (-1074 - k1)) by (apply (Z.pow_le_mono_r 2 0); lia). nia.
  - split; [lia|]. split; [exact B1|]. intros _. exact B2.
Qed.

(** ** Units *)

(** Distance in units of 2^-1074 against distance in units of 2^k. *)
Lemma units_scale p q k u : -1074 <= k ->
  (p * 2 ^ 1074 - q * u) * 2 ^ Z.max 0 (- k) = scale_num p k * 2 ^ 1074 - q * u * 2 ^ Z.max 0 (- k).
Proof. intros. unfold scale_num. ring. Qed.

Lemma units_scale_mult p q k m : -1074 <= k ->
  (p * 2 ^ 1074 - q * (m * 2 ^ (k + 1074))) * 2 ^ Z.max 0 (- k) = (scale_num p k - scale_den q k * m) * 2 ^ 1074.
Proof.
  intros H. rewrite units_scale by lia. unfold scale_den.
  replace (q * (m * 2 ^ (k + 1074)) * 2 ^ Z.max 0 (- k)) with (q * m * 2 ^ (k + 1074 + Z.max 0 (- k))).
  - replace (k + 1074 + Z.max 0 (- k)) with (Z.max 0 k + 1074) by lia.
    rewrite Z.pow_add_r by lia. ring.
  - rewrite (Z.pow_add_r 2 (k + 1074)) by lia. ring.
Qed.

(** Comparing distances in units through distances at exponent k. *)
Lemma abs_scaled a b c : 0 < c -> Z.abs (a * c) = Z.abs a * c /\ (Z.abs a <= Z.abs b <-> Z.abs (a * c) <= Z.abs (b * c)) /\
  (Z.abs a = Z.abs b <-> Z.abs (a * c) = Z.abs (b * c)).
Proof. intros Hc. rewrite !Z.abs_mul. rewrite (Z.abs_eq c) by lia. split; [reflexivity|]. split; nia. Qed.

(** Magnitudes of canonical doubles. *)
Lemma magnitude_cases g : valid_double g -> is_finite g ->
  exists M s, 0 <= M < 2 ^ 53 /\ 0 <= s <= 2045 /\ magnitude g = M * 2 ^ s.
Proof.
  destruct g as [sg|sg| |sg m e]; simpl; intros Hv Hf; try contradiction.
  - exists 0, 0. lia.
  - apply valid_finite in Hv. exists (Zpos m), (e + 1074). repeat split; lia.
Qed.

(** ** The main lemma: the finite result is nearest *)

Definition in_range (p q : Z) : Prop := p * 2 ^ 1074 < q * overflow_threshold.

Lemma nearest_grid p q m : 0 < p -> 0 < q ->
  let k := binade p q in
  m = div_half_even (scale_num p k) (scale_den q k) ->
  0 <= m <= 2 ^ 53 /\ (-1074 < k -> 2 ^ 52 <= m) /\
  forall g, valid_double g -> is_finite g ->
    Z.abs (p * 2 ^ 1074 - q * (m * 2 ^ (k + 1074))) <= Z.abs (p * 2 ^ 1074 - q * magnitude g) /\
    (Z.abs (p * 2 ^ 1074 - q * (m * 2 ^ (k + 1074))) = Z.abs (p * 2 ^ 1074 - q * magnitude g) ->
     m * 2 ^ (k + 1074) <> magnitude g -> Z.even m = true).
Proof.
  intros Hp Hq k Em. destruct (binade_spec p q Hp Hq) as (K1 & K2 & K3). fold k in K1, K2, K3.
  pose proof (scale_den_pos q k Hq) as Hd. pose proof (scale_num_pos p k Hp) as Hn.
  destruct (div_half_even_spec (scale_num p k) (scale_den q k) Hd) as [D1 D2]. rewrite <- Em in D1, D2.
  set (a := scale_num p k) in *. set (d := scale_den q k) in *.
  split; [|split].
  - split; nia.
  - intros H. specialize (K3 H). nia.
  - intros g Hv Hf. destruct (magnitude_cases g Hv Hf) as (M & s & HM & Hs & ->).
    assert (Hc : 0 < 2 ^ Z.max 0 (- k)) by (apply Z.pow_pos_nonneg; lia).
    assert (H1074 : 0 < 2 ^ 1074) by (apply Z.pow_pos_nonneg; lia).
    destruct (Z.le_gt_cases (k + 1074) s) as [Hks|Hks].
    + (* a multiple of the step *)
      replace (M * 2 ^ s) with (M * 2 ^ (s - (k + 1074)) * 2 ^ (k + 1074)).
      2:{ rewrite <- Z.mul_assoc, <- Z.pow_add_r by lia. f_equal. f_equal. lia. }
      set (z := M * 2 ^ (s - (k + 1074))).
      destruct (abs_scaled (p * 2 ^ 1074 - q * (m * 2 ^ (k + 1074))) (p * 2 ^ 1074 - q * (z * 2 ^ (k + 1074))) _ Hc)
        as (_ & C1 & C2).
      rewrite C1, C2. rewrite !units_scale_mult by lia. fold a d.
      destruct (abs_scaled (a - d * m) (a - d * z) _ H1074) as (_ & C3 & C4). rewrite <- C3, <- C4.
      split.
      * apply nearest_int; auto.
      * intros E Hne. apply D2. apply nearest_int_tie with z; auto. intros ->. apply Hne. reflexivity.
    + (* below the binade *)
      assert (Hk : -1074 < k) by lia. specialize (K3 Hk).
      assert (HMs : M * 2 ^ s < 2 ^ 52 * 2 ^ (k + 1074)).
      { apply Z.lt_le_trans with (2 ^ 53 * 2 ^ s).
        - apply Z.mul_lt_mono_pos_r; [apply Z.pow_pos_nonneg; lia|lia].
        - rewrite <- !Z.pow_add_r by lia. apply Z.pow_le_mono_r; lia. }
      assert (Hx : q * (2 ^ 52 * 2 ^ (k + 1074)) <= p * 2 ^ 1074).
      { apply Z.mul_le_mono_pos_r with (2 ^ Z.max 0 (- k)); [auto|].
        pose proof (units_scale_mult p q k (2 ^ 52) ltac:(lia)) as E. fold a d in E.
        assert (0 <= (a - d * 2 ^ 52) * 2 ^ 1074) by nia. lia. }
      assert (Hm : Z.abs (p * 2 ^ 1074 - q * (m * 2 ^ (k + 1074))) <= Z.abs (p * 2 ^ 1074 - q * (2 ^ 52 * 2 ^ (k + 1074)))).
      { destruct (abs_scaled (p * 2 ^ 1074 - q * (m * 2 ^ (k + 1074))) (p * 2 ^ 1074 - q * (2 ^ 52 * 2 ^ (k + 1074))) _ Hc)
          as (_ & C1 & _).
        rewrite C1, !units_scale_mult by lia. fold a d.
        destruct (abs_scaled (a - d * m) (a - d * 2 ^ 52) _ H1074) as (_ & C3 & _). rewrite <- C3.
        apply nearest_int; auto. }
      assert (Hstrict : Z.abs (p * 2 ^ 1074 - q * (2 ^ 52 * 2 ^ (k + 1074))) < Z.abs (p * 2 ^ 1074 - q * (M * 2 ^ s))).
      { generalize dependent (2 ^ 52 * 2 ^ (k + 1074)). generalize dependent (M * 2 ^ s).
        intros u1 u2 ? ? ?. assert (q * u1 < q * u2) by (apply Z.mul_lt_mono_pos_l; lia). lia. }
      split; lia.
Qed.

(** The statement of [rounds] for a magnitude A/B. *)
Definition rounds_AB (neg : bool) (A B : Z) (d : spec_float) : Prop :=
  valid_double d /\ sign_of d = Some neg /\
  (B * overflow_threshold <= A -> d = S754_infinity neg) /\
  (A < B * overflow_threshold ->
     is_finite d /\
     forall g, valid_double g -> is_finite g ->
       Z.abs (A - B * magnitude d) <= Z.abs (A - B * magnitude g) /\
       (Z.abs (A - B * magnitude d) = Z.abs (A - B * magnitude g) ->
        magnitude d <> magnitude g -> even_mantissa d)).

Lemma threshold_units : overflow_threshold = (2 ^ 54 - 1) * 2 ^ (970 + 1074).
Proof.
  unfold overflow_threshold. rewrite Z.pow_add_r by lia.
  replace (2 ^ 1024) with (2 ^ 54 * 2 ^ 970) by (rewrite <- Z.pow_add_r by lia; reflexivity). ring.
Qed.

(** p/q against the overflow threshold, seen from an exponent k <= 970. *)
Lemma threshold_k p q k : 0 < q -> -1074 <= k <= 970 ->
  (p * 2 ^ 1074 < q * overflow_threshold <-> scale_num p k < scale_den q k * ((2 ^ 54 - 1) * 2 ^ (970 - k))).
Proof.
  intros Hq Hk. rewrite threshold_units.
  pose proof (units_scale_mult p q 970 (2 ^ 54 - 1) ltac:(lia)) as E.
  assert (H1 : 0 < 2 ^ Z.max 0 (-970)) by (apply Z.pow_pos_nonneg; lia).
  assert (H2 : 0 < 2 ^ 1074) by (apply Z.pow_pos_nonneg; lia).
  change (- (970)) with (-970) in E.
  rewrite (scale_lt p q k 970 (2 ^ 54 - 1) Hq) by lia.
  split; intros L.
  - assert ((p * 2 ^ 1074 - q * ((2 ^ 54 - 1) * 2 ^ (970 + 1074))) * 2 ^ Z.max 0 (-970) < 0) by nia.
    rewrite E in H. nia.
  - assert ((scale_num p 970 - scale_den q 970 * (2 ^ 54 - 1)) * 2 ^ 1074 < 0) by nia.
    rewrite <- E in H. nia.
Qed.

Lemma round_ratio_ok neg p q : 0 < p -> 0 < q -> rounds_AB neg (p * 2 ^ 1074) q (round_ratio neg p q).
Proof.
  intros Hp Hq.
  destruct (binade_spec p q Hp Hq) as (K1 & K2 & K3).
  remember (div_half_even (scale_num p (binade p q)) (scale_den q (binade p q))) as m eqn:Em.
  destruct (nearest_grid p q m Hp Hq Em) as (M1 & M2 & M3).
  pose proof (scale_den_pos q (binade p q) Hq) as Hd.
  destruct (div_half_even_spec (scale_num p (binade p q)) (scale_den q (binade p q)) Hd) as [D1 D2].
  rewrite <- Em in D1, D2.
  unfold round_ratio. cbv zeta. rewrite <- Em.
  set (k := binade p q) in *. set (a := scale_num p k) in *. set (d := scale_den q k) in *.
  (* the range *)
  assert (Hover : p * 2 ^ 1074 < q * overflow_threshold <->
                  k <= 970 \/ k = 971 /\ m < 2 ^ 53).
  { destruct (Z.le_gt_cases k 970) as [Hk|Hk].
    - split; [auto|]. intros _. apply (threshold_k p q k Hq); [lia|]. fold a d.
      eapply Z.lt_le_trans; [exact K2|]. apply Z.mul_le_mono_nonneg_l; [lia|].
      assert (1 <= 2 ^ (970 - k)) by (apply (Z.pow_le_mono_r 2 0); lia).
      nia.
    - rewrite (threshold_k p q 970 Hq) by lia. replace (970 - 970) with 0 by lia. rewrite Z.pow_0_r, Z.mul_1_r.
      pose proof (scale_cross p q 970 k ltac:(lia)) as E. fold a d in E.
      pose proof (scale_den_pos q 970 Hq) as H970.
      specialize (K3 ltac:(lia)).
      destruct (Z.eq_dec k 971) as [->|Hne].
      + (* k = 971 *)
        replace (971 - 970) with 1 in E by lia. rewrite Z.pow_1_r in E.
        split.
        * intros L. right. split; [auto|].
          assert (L' : 2 * a < (2 ^ 54 - 1) * d).
          { apply Z.mul_lt_mono_pos_r with (scale_den q 970); [lia|].
            replace (2 * a * scale_den q 970) with (a * 2 * scale_den q 970) by ring. rewrite <- E.
            replace ((2 ^ 54 - 1) * d * scale_den q 970) with (scale_den q 970 * (2 ^ 54 - 1) * d) by ring.
            apply Z.mul_lt_mono_pos_r; lia. }
          nia.
        * intros [|[_ L]]; [lia|].
          assert (L' : 2 * a < (2 ^ 54 - 1) * d).
          { destruct (Z.lt_ge_cases (2 * a) ((2 ^ 54 - 1) * d)) as [|G]; [auto|exfalso].
            assert (Hm : m = 2 ^ 53 - 1) by nia.
            assert (T : 2 * Z.abs (a - d * m) = d) by nia.
            apply D2 in T. rewrite Hm in T. vm_compute in T. discriminate. }
          apply Z.mul_lt_mono_pos_r with d; [lia|]. rewrite E.
          replace (scale_den q 970 * (2 ^ 54 - 1) * d) with ((2 ^ 54 - 1) * d * scale_den q 970) by ring.
          apply Z.mul_lt_mono_pos_r; lia.
      + split; [|lia]. intros L. exfalso.
        assert (4 <= 2 ^ (k - 970)) by (apply (Z.pow_le_mono_r 2 2); lia).
        assert (scale_num p 970 * d < scale_den q 970 * (2 ^ 54 - 1) * d) by (apply Z.mul_lt_mono_pos_r; lia).
        rewrite E in H0.
        assert (d * 2 ^ 54 <= a * 2 ^ (k - 970)) by nia.
        assert (d * 2 ^ 54 * scale_den q 970 <= a * 2 ^ (k - 970) * scale_den q 970) by (apply Z.mul_le_mono_nonneg_r; lia).
        nia. }
  destruct (Z.eqb_spec m (2 ^ 53)) as [Hc|Hc].
  - (* carry *)
    destruct (Z.ltb_spec 971 (k + 1)) as [Hk|Hk].
    + split; [reflexivity|]. split; [reflexivity|]. split; [reflexivity|]. intros L. apply Hover in L. lia.
    + assert (Hv : valid_double (S754_finite neg (2 ^ 52)%positive (k + 1))).
      { apply valid_finite. change (Zpos (2 ^ 52)) with (2 ^ 52). lia. }
      change (2 ^ 52) with (Zpos (2 ^ 52)). cbv iota.
      split; [exact Hv|]. split; [reflexivity|]. split.
      { intros L. assert (p * 2 ^ 1074 < q * overflow_threshold) by (apply Hover; lia). lia. }
      intros _. split; [exact I|].
      assert (Em' : magnitude (S754_finite neg (2 ^ 52)%positive (k + 1)) = m * 2 ^ (k + 1074)).
      { unfold magnitude. change (Zpos (2 ^ 52)) with (2 ^ 52). rewrite Hc.
        rewrite <- !Z.pow_add_r by lia. f_equal. lia. }
      intros g Hg Hf. rewrite Em'. destruct (M3 g Hg Hf) as [N1 N2]. split; [exact N1|].
      intros _ _. reflexivity.
  - destruct (Z.ltb_spec 971 k) as [Hk|Hk].
    + split; [reflexivity|]. split; [reflexivity|]. split; [reflexivity|]. intros L. apply Hover in L. lia.
    + assert (Hlt : p * 2 ^ 1074 < q * overflow_threshold) by (apply Hover; lia).
      destruct m as [|m'|m'] eqn:Em2.
      * split; [reflexivity|]. split; [reflexivity|]. split; [lia|]. intros _.
        split; [exact I|]. intros g Hg Hf. simpl magnitude. destruct (M3 g Hg Hf) as [N1 N2].
        rewrite Z.mul_0_l in N1, N2. split; [exact N1|]. intros _ _. exact I.
      * assert (Hv : valid_double (S754_finite neg m' k)).
        { apply valid_finite. lia. }
        split; [exact Hv|]. split; [reflexivity|]. split; [lia|]. intros _.
        split; [exact I|]. intros g Hg Hf. simpl magnitude. destruct (M3 g Hg Hf) as [N1 N2].
        split; [exact N1|]. intros E1 E2. simpl. apply (N2 E1 E2).
      * lia.
Qed.

Lemma dec_to_double_ok neg m e : 0 <= m -> rounds neg m e (dec_to_double neg m e).
Proof.
  intros Hm. unfold dec_to_double.
  change (rounds_AB neg (dec_A m e) (dec_B e)
    (if m =? 0 then S754_zero neg
     else if 0 <=? e then round_ratio neg (m * 10 ^ e) 1 else round_ratio neg m (10 ^ (- e)))).
  assert (HB : 0 < dec_B e) by (unfold dec_B; apply Z.pow_pos_nonneg; lia).
  assert (HT : 0 < overflow_threshold) by (vm_compute; reflexivity).
  destruct (Z.eqb_spec m 0) as [->|Hm0].
  - unfold rounds_AB, dec_A. rewrite !Z.mul_0_l.
    split; [reflexivity|]. split; [reflexivity|]. split; [intros; nia|].
    intros _. split; [exact I|]. intros g Hg Hf. simpl magnitude. rewrite Z.mul_0_r. simpl.
    split; [lia|]. intros _ _. exact I.
  - unfold dec_A, dec_B. destruct (Z.leb_spec 0 e) as [He|He].
    + rewrite Z.max_r, Z.max_l by lia. rewrite Z.pow_0_r.
      apply round_ratio_ok; [|lia]. apply Z.mul_pos_pos; [lia|]. apply Z.pow_pos_nonneg; lia.
    + rewrite Z.max_l, Z.max_r by lia. rewrite Z.pow_0_r, Z.mul_1_r.
      apply round_ratio_ok; [lia|]. apply Z.pow_pos_nonneg; lia.
Qed.

(** ** The specification determines the double *)

Lemma pow2_mod_le a b : 0 <= b <= a -> exists c, 0 < c /\ 2 ^ a = c * 2 ^ b.
Proof.
  intros H. exists (2 ^ (a - b)). split; [apply Z.pow_pos_nonneg; lia|].
  rewrite <- Z.pow_add_r by lia. f_equal. lia.
Qed.

Lemma magnitude_inj d g : valid_double d -> valid_double g -> is_finite d -> is_finite g ->
  sign_of d = sign_of g -> magnitude d = magnitude g -> d = g.
Proof.
  assert (Hpos : forall s m e, valid_double (S754_finite s m e) -> 0 < magnitude (S754_finite s m e)).
  { intros s m e Hv. apply valid_finite in Hv. simpl. apply Z.mul_pos_pos; [lia|]. apply Z.pow_pos_nonneg; lia. }
  intros Hd Hg Fd Fg Es Em.
  destruct d as [s|s| |s m e], g as [s'|s'| |s' m' e']; simpl in Fd, Fg; try contradiction;
    simpl in Es; injection Es as <-.
  - reflexivity.
  - apply Hpos in Hg. simpl in *. lia.
  - apply Hpos in Hd. simpl in *. lia.
  - apply valid_finite in Hd, Hg. simpl in Em.
    assert (W : forall m m' e e', -1074 <= e -> e < e' -> Zpos m < 2 ^ 53 -> 2 ^ 52 <= Zpos m' ->
              Zpos m * 2 ^ (e + 1074) = Zpos m' * 2 ^ (e' + 1074) -> False).
    { clear. intros m m' e e' He Hlt Hm Hm' E.
      replace (2 ^ (e' + 1074)) with (2 ^ (e' - e) * 2 ^ (e + 1074)) in E.
      2:{ rewrite <- Z.pow_add_r by lia. f_equal. lia. }
      assert (0 < 2 ^ (e + 1074)) by (apply Z.pow_pos_nonneg; lia).
      assert (2 <= 2 ^ (e' - e)) by (apply (Z.pow_le_mono_r 2 1); lia).
      rewrite Z.mul_assoc in E. apply Z.mul_reg_r in E; [|lia].
      remember (2 ^ (e' - e)) as y. clear Heqy.
      assert (Zpos m' * 2 <= Zpos m' * y) by (apply Z.mul_le_mono_nonneg_l; lia). lia. }
    destruct (Z.lt_trichotomy e e') as [L|[L|L]].
    + exfalso. apply (W m m' e e'); try lia.
    + subst e'. assert (0 < 2 ^ (e + 1074)) by (apply Z.pow_pos_nonneg; lia).
      assert (Zpos m = Zpos m') by nia. congruence.
    + exfalso. apply (W m' m e' e); try lia.
Qed.

(** The next double up: one step above an even mantissa. *)
Lemma even_step d : valid_double d -> is_finite d -> even_mantissa d ->
  exists g w, valid_double g /\ is_finite g /\ 0 < w /\ magnitude g = magnitude d + w /\
    (forall h, valid_double h -> is_finite h -> magnitude h = magnitude d + w -> ~ even_mantissa h) /\
    (forall h, valid_double h -> is_finite h -> magnitude d < magnitude h -> magnitude d + w <= magnitude h).
Proof.
  intros Hv Hf He. destruct d as [s|s| |s m e]; simpl in Hf; try contradiction.
  - exists (S754_finite s 1 (-1074)), 1.
    assert (Hg : valid_double (S754_finite s 1 (-1074))) by reflexivity.
    split; [exact Hg|]. split; [exact I|]. split; [lia|]. split; [reflexivity|].
    split; [|intros; simpl in *; lia].
    intros h Hh Hfh Em.
    destruct h as [s'|s'| |s' m' e']; simpl in Hfh; try contradiction; simpl in Em; try lia.
    apply (magnitude_inj (S754_finite false m' e') (S754_finite false 1 (-1074))) in Em; auto.
    + injection Em as -> ->. simpl. discriminate.
  - unfold even_mantissa in He. pose proof Hv as Hv'. apply valid_finite in Hv'. destruct Hv' as (V1 & V2 & V3).
    assert (Hlt : Zpos m + 1 < 2 ^ 53).
    { assert (Zpos m <> 2 ^ 53 - 1). { intros E. rewrite E in He. vm_compute in He. discriminate. } lia. }
    assert (Hg : valid_double (S754_finite s (m + 1) e)).
    { apply valid_finite. rewrite Pos2Z.inj_add. lia. }
    exists (S754_finite s (m + 1) e), (2 ^ (e + 1074)).
    split; [exact Hg|]. split; [exact I|]. split; [apply Z.pow_pos_nonneg; lia|].
    split; [simpl; rewrite Pos2Z.inj_add; ring|].
    split.
    2:{ intros h Hh Hfh L. destruct h as [s'|s'| |s' m' e']; simpl in Hfh; try contradiction; simpl in L |- *.
        - assert (0 < 2 ^ (e + 1074)) by (apply Z.pow_pos_nonneg; lia). nia.
        - apply valid_finite in Hh.
          assert (0 < 2 ^ (e + 1074)) by (apply Z.pow_pos_nonneg; lia).
          destruct (Z.le_gt_cases e e') as [Hle|Hgt].
          + replace (2 ^ (e' + 1074)) with (2 ^ (e' - e) * 2 ^ (e + 1074)) in *
              by (rewrite <- Z.pow_add_r by lia; f_equal; lia).
            assert (0 < 2 ^ (e' - e)) by (apply Z.pow_pos_nonneg; lia).
            remember (2 ^ (e + 1074)) as X. remember (2 ^ (e' - e)) as Y. clear HeqX HeqY.
            rewrite Z.mul_assoc in L |- *. remember (Zpos m' * Y) as W. clear HeqW.
            assert (Zpos m < W) by nia.
            assert ((Zpos m + 1) * X <= W * X) by (apply Z.mul_le_mono_nonneg_r; lia). lia.
          + exfalso.
            replace (2 ^ (e + 1074)) with (2 ^ (e - e') * 2 ^ (e' + 1074)) in *
              by (rewrite <- Z.pow_add_r by lia; f_equal; lia).
            assert (2 <= 2 ^ (e - e')) by (apply (Z.pow_le_mono_r 2 1); lia).
            assert (0 < 2 ^ (e' + 1074)) by (apply Z.pow_pos_nonneg; lia).
            remember (2 ^ (e' + 1074)) as X. remember (2 ^ (e - e')) as Y. clear HeqX HeqY.
            rewrite Z.mul_assoc in L.
            assert (2 ^ 52 * 2 <= Zpos m * Y) by (apply Z.mul_le_mono_nonneg; lia).
            assert (Zpos m' < Zpos m * Y) by lia.
            remember (Zpos m * Y) as W. clear HeqW. nia. }
    intros h Hh Hfh Em.
    assert (Em' : magnitude h = magnitude (S754_finite s (m + 1) e)).
    { rewrite Em. simpl. rewrite Pos2Z.inj_add. ring. }
    destruct h as [s'|s'| |s' m' e']; simpl in Hfh; try contradiction.
    + exfalso. simpl in Em. assert (0 < 2 ^ (e + 1074)) by (apply Z.pow_pos_nonneg; lia). nia.
    + apply (magnitude_inj (S754_finite false m' e') (S754_finite false (m + 1) e)) in Em'; auto.
      injection Em' as -> ->. unfold even_mantissa. rewrite Pos2Z.inj_add, Z.add_1_r, Z.even_succ, <- Z.negb_even.
      rewrite He. discriminate.
Qed.

Lemma rounds_AB_unique neg A B d g : 0 < B -> rounds_AB neg A B d -> rounds_AB neg A B g -> d = g.
Proof.
  intros HB (Vd & Sd & Id & Nd) (Vg & Sg & Ig & Ng).
  destruct (Z.le_gt_cases (B * overflow_threshold) A) as [H|H].
  - rewrite Id, Ig; auto.
  - destruct (Nd H) as [Fd Md]. destruct (Ng H) as [Fg Mg].
    destruct (Md g Vg Fg) as [D1 D2]. destruct (Mg d Vd Fd) as [G1 G2].
    assert (E : Z.abs (A - B * magnitude d) = Z.abs (A - B * magnitude g)) by lia.
    apply magnitude_inj; auto; [congruence|].
    destruct (Z.eq_dec (magnitude d) (magnitude g)) as [|Hne]; [auto|exfalso].
    assert (Ed : even_mantissa d) by auto. assert (Eg : even_mantissa g) by auto.
    assert (W : forall x y, valid_double x -> valid_double y -> is_finite x -> is_finite y ->
              even_mantissa x -> even_mantissa y -> magnitude x < magnitude y ->
              Z.abs (A - B * magnitude x) = Z.abs (A - B * magnitude y) ->
              (forall z, valid_double z -> is_finite z -> Z.abs (A - B * magnitude x) <= Z.abs (A - B * magnitude z)) -> False).
    { clear - HB. intros x y Vx Vy Fx Fy Ex Ey Hlt Hab Hmin.
      destruct (even_step x Vx Fx Ex) as (z & w & Vz & Fz & Hw & Mz & Hz & Hz').
      specialize (Hmin z Vz Fz). rewrite Mz in Hmin.
      destruct (Z.eq_dec (magnitude y) (magnitude x + w)) as [E|E]; [exact (Hz y Vy Fy E Ey)|].
      set (a := magnitude x) in *. set (c := magnitude y) in *.
      assert (B * a < B * c) by (apply Z.mul_lt_mono_pos_l; lia).
      assert (M : 2 * A = B * a + B * c) by lia.
      assert (B * a < B * (a + w)) by (apply Z.mul_lt_mono_pos_l; lia).
      destruct (Z.lt_ge_cases (a + w) c) as [L|L].
      - assert (B * (a + w) < B * c) by (apply Z.mul_lt_mono_pos_l; lia). lia.
      - specialize (Hz' y Vy Fy Hlt). fold a c in Hz'. lia. }
    destruct (Z.lt_ge_cases (magnitude d) (magnitude g)).
    + eapply (W d g); eauto. intros z Vz Fz. apply (Md z Vz Fz).
    + eapply (W g d); eauto; [lia|]. intros z Vz Fz. apply (Mg z Vz Fz).
Qed.

Lemma dec_B_pos e : 0 < dec_B e.
Proof. unfold dec_B. apply Z.pow_pos_nonneg; lia. Qed.

Lemma rounds_unique neg m e d g : rounds neg m e d -> rounds neg m e g -> d = g.
Proof. intros Hd Hg. apply (rounds_AB_unique neg (dec_A m e) (dec_B e)); auto. apply dec_B_pos. Qed.

Lemma rounds_dec neg m e d : 0 <= m -> rounds neg m e d <-> d = dec_to_double neg m e.
Proof.
  intros Hm. split; [|intros ->; now apply dec_to_double_ok].
  intros H. eapply rounds_unique; [exact H|]. now apply dec_to_double_ok.
Qed.

Lemma dec_to_double_neg neg m e : dneg (dec_to_double neg m e) = dec_to_double (negb neg) m e.
Proof.
  unfold dec_to_double. destruct (m =? 0); [reflexivity|].
  destruct (0 <=? e); unfold round_ratio; cbv zeta;
    match goal with |- dneg (let '(_, _) := ?X in _) = _ => destruct X as [m' k'] end;
    destruct (971 <? k'); try reflexivity; destruct m'; reflexivity.
Qed.

Lemma dec_to_double_xor (b : bool) neg m e :
  (if b then dneg (dec_to_double neg m e) else dec_to_double neg m e) = dec_to_double (xorb b neg) m e.
Proof. destruct b; [rewrite dec_to_double_neg; reflexivity|destruct neg; reflexivity]. Qed.
