(** * Proofs about the integer helpers, the hash template, hexadecimal and type texts. *)

From Verif Require Import Base Str TextModel StringModel BasicModel SpecNum SpecText SpecBasic ToolsModel.
From Verif Require Import StringProofs.

(** ** Integer helpers *)

Lemma signed_ok w x : - 2 ^ (w - 1) <= x < 2 ^ (w - 1) -> signed w x = Ret x.
Proof. intros H. unfold signed. destruct (Z.leb_spec (- 2 ^ (w - 1)) x), (Z.ltb_spec x (2 ^ (w - 1))); simpl; trivial; lia. Qed.

Lemma signed_ub w x : ~ (- 2 ^ (w - 1) <= x < 2 ^ (w - 1)) -> signed w x = UB.
Proof. intros H. unfold signed. destruct (Z.leb_spec (- 2 ^ (w - 1)) x), (Z.ltb_spec x (2 ^ (w - 1))); simpl; trivial; lia. Qed.

(** The sign as a shift. *)
Lemma sign_shift k x : 0 <= k -> - 2 ^ k <= x < 2 ^ k -> Z.shiftr x k = if x <? 0 then -1 else 0.
Proof.
  intros Hk H. rewrite Z.shiftr_div_pow2 by lia. destruct (Z.ltb_spec x 0).
  - symmetry. apply (Z.div_unique _ _ _ (x + 2 ^ k)); lia.
  - apply Z.div_small. lia.
Qed.

Lemma abs_c_ok w x : 1 < w -> - 2 ^ (w - 1) < x < 2 ^ (w - 1) -> abs_c w x = Ret (Z.abs x).
Proof.
  intros Hw H. unfold abs_c. rewrite sign_shift by lia. cbv zeta. destruct (Z.ltb_spec x 0).
  - rewrite Z.lxor_m1_r. unfold Z.lnot. rewrite signed_ok by lia. f_equal. lia.
  - rewrite Z.lxor_0_r. rewrite signed_ok by lia. f_equal. lia.
Qed.

Lemma sgn_c_ok w x : 1 < w -> - 2 ^ (w - 1) < x < 2 ^ (w - 1) -> sgn_c w x = Ret (Z.sgn x).
Proof.
  intros Hw H. unfold sgn_c. rewrite signed_ok by lia. cbn [bind]. rewrite !sign_shift by lia.
  assert (P : 2 ^ 1 <= 2 ^ (w - 1)) by (apply Z.pow_le_mono_r; lia). change (2 ^ 1) with 2 in P.
  destruct (Z.ltb_spec x 0), (Z.ltb_spec (- x) 0); try lia; rewrite signed_ok by lia; f_equal; lia.
Qed.

Lemma least_ub w : 1 < w -> abs_c w (- 2 ^ (w - 1)) = UB /\ sgn_c w (- 2 ^ (w - 1)) = UB.
Proof.
  intros Hw. assert (0 < 2 ^ (w - 1)) by (apply Z.pow_pos_nonneg; lia). split.
  - unfold abs_c. rewrite sign_shift by lia. cbv zeta. destruct (Z.ltb_spec (- 2 ^ (w - 1)) 0); [|lia].
    rewrite Z.lxor_m1_r. unfold Z.lnot. apply signed_ub. lia.
  - unfold sgn_c. rewrite signed_ub by lia. reflexivity.
Qed.

Lemma min_zero_ok w x : 0 < w -> - 2 ^ (w - 1) <= x < 2 ^ (w - 1) -> min_zero_c w x = Z.min x 0.
Proof.
  intros Hw H. unfold min_zero_c. rewrite sign_shift by lia. destruct (Z.ltb_spec x 0).
  - rewrite Z.land_m1_r. lia.
  - rewrite Z.land_0_r. lia.
Qed.

Lemma max_zero_ok w x : 0 < w -> - 2 ^ (w - 1) <= x < 2 ^ (w - 1) -> max_zero_c w x = Z.max x 0.
Proof.
  intros Hw H. unfold max_zero_c. rewrite sign_shift by lia. destruct (Z.ltb_spec x 0).
  - change (Z.lnot (-1)) with 0. rewrite Z.land_0_r. lia.
  - change (Z.lnot 0) with (-1). rewrite Z.land_m1_r. lia.
Qed.

Lemma inc_mod_ok m x : 0 <= x < m -> m < 2 ^ 31 -> inc_mod m x = Ret ((x + 1) mod m).
Proof.
  intros H M. unfold inc_mod. rewrite signed_ok by (change (32 - 1) with 31; lia). cbn [bind]. f_equal.
  destruct (Z.ltb_spec (x + 1) m); [now rewrite Z.mod_small by lia|].
  replace (x + 1) with (1 * m) by lia. now rewrite Z.mod_mul by lia.
Qed.

Lemma dec_mod_ok m x : 0 <= x < m -> m < 2 ^ 31 -> dec_mod m x = Ret ((x - 1) mod m).
Proof.
  intros H M. unfold dec_mod. rewrite signed_ok by (change (32 - 1) with 31; lia). cbn [bind].
  destruct (Z.ltb_spec (x - 1) 0); [|now rewrite Z.mod_small by lia].
  rewrite signed_ok by (change (32 - 1) with 31; lia). f_equal. apply (Z.mod_unique _ _ (-1)); lia.
Qed.

Lemma overflow_zero_ok x y : - 2 ^ 31 <= x - y < 2 ^ 31 -> overflow_zero x y = Ret (if x <? y then x else 0).
Proof.
  intros H. unfold overflow_zero. rewrite signed_ok by (change (32 - 1) with 31; lia). cbn [bind].
  rewrite sign_shift by lia. f_equal. destruct (Z.ltb_spec (x - y) 0), (Z.ltb_spec x y); try lia.
  - apply Z.land_m1_r.
  - apply Z.land_0_r.
Qed.

Lemma overflow_zero_ub x y : ~ (- 2 ^ 31 <= x - y < 2 ^ 31) -> overflow_zero x y = UB.
Proof. intros H. unfold overflow_zero. rewrite signed_ub by (change (32 - 1) with 31; lia). reflexivity. Qed.

Lemma log2_range n : 1 <= n < 2 ^ 32 -> 0 <= Z.log2 n <= 31.
Proof.
  intros H. split; [apply Z.log2_nonneg|]. assert (Z.log2 n < 32); [|lia]. apply Z.log2_lt_pow2; lia.
Qed.

Lemma cntlz_ok n : 1 <= n < 2 ^ 32 -> cntlz n = 31 - Z.log2 n.
Proof. intros H. unfold cntlz. destruct (Z.eqb_spec n 0); lia. Qed.

Lemma int_log2_ok n : 1 <= n < 2 ^ 32 -> 2 ^ int_log2 n <= n < 2 ^ (int_log2 n + 1) /\ 0 <= int_log2 n < 32.
Proof.
  intros H. unfold int_log2. rewrite cntlz_ok by trivial. replace (31 - (31 - Z.log2 n)) with (Z.log2 n) by lia.
  pose proof (Z.log2_spec n ltac:(lia)). pose proof (log2_range n H). rewrite <- Z.add_1_r in *. lia.
Qed.

Lemma pow2_floor_ok n : 1 <= n < 2 ^ 32 -> exists r, pow2_floor n = Ret r /\ power2 r /\ r <= n < 2 * r.
Proof.
  intros H. pose proof (log2_range n H) as L. pose proof (Z.log2_spec n ltac:(lia)) as S. exists (2 ^ Z.log2 n).
  split; [|split; [exists (Z.log2 n); lia|rewrite Z.pow_succ_r in S; lia]].
  unfold pow2_floor. rewrite cntlz_ok by trivial. destruct (Z.ltb_spec 31 (31 - Z.log2 n)); [lia|]. f_equal.
  change 0x80000000 with (2 ^ 31). rewrite Z.shiftr_div_pow2 by lia. rewrite <- Z.pow_sub_r by lia. f_equal. lia.
Qed.

Lemma u32_i32 x : 0 <= x < 2 ^ 32 -> u32 (i32 x) = x.
Proof.
  intros H. unfold u32, i32. change 4294967296 with (2 ^ 32).
  rewrite Zminus_mod_idemp_l. replace (x + 2 ^ 31 - 2 ^ 31) with x by lia. apply Z.mod_small. lia.
Qed.

Lemma pow2_ceil_ok n : 1 <= n <= 2 ^ 31 -> exists r, pow2_ceil n = Ret r /\ power2 r /\ n <= r < 2 * n.
Proof.
  intros H. assert (U : u32 (n - 1) = n - 1) by (apply Z.mod_small; lia). unfold pow2_ceil. rewrite U.
  destruct (Z.eq_dec n 1) as [->|N].
  { exists 1. split; [reflexivity|]. split; [exists 0; split; [lia|reflexivity]|lia]. }
  rewrite cntlz_ok by lia. pose proof (Z.log2_spec (n - 1) ltac:(lia)) as S. pose proof (Z.log2_nonneg (n - 1)) as L0.
  assert (L : Z.log2 (n - 1) < 31) by (apply Z.log2_lt_pow2; lia).
  replace (32 - (31 - Z.log2 (n - 1))) with (Z.succ (Z.log2 (n - 1))) by lia.
  destruct (Z.ltb_spec 31 (Z.succ (Z.log2 (n - 1)))); [lia|]. rewrite Z.shiftl_1_l.
  assert (2 ^ Z.succ (Z.log2 (n - 1)) <= 2 ^ 31) by (apply Z.pow_le_mono_r; lia).
  rewrite u32_i32 by (split; [apply Z.pow_nonneg; lia|lia]). eexists. split; [reflexivity|].
  split; [exists (Z.succ (Z.log2 (n - 1))); split; [lia|reflexivity]|]. rewrite Z.pow_succ_r in *; lia.
Qed.

(** Outside these ranges the shift count is 32. *)
Lemma pow2_ub n : pow2_floor 0 = UB /\ (n = 0 \/ 2 ^ 31 < n < 2 ^ 32 -> pow2_ceil n = UB).
Proof.
  split; [reflexivity|]. intros [->|H]; [reflexivity|]. unfold pow2_ceil.
  assert (U : u32 (n - 1) = n - 1) by (apply Z.mod_small; lia). rewrite U, cntlz_ok by lia.
  assert (31 <= Z.log2 (n - 1)) by (apply Z.log2_le_pow2; lia).
  destruct (Z.ltb_spec 31 (32 - (31 - Z.log2 (n - 1)))); [reflexivity|lia].
Qed.

(** ** Exchange *)

Lemma rd_nth b i x : nth_error b i = Some x -> rd b i = Ret x.
Proof. intros H. unfold rd. now rewrite H. Qed.

Lemma wr_nth b : forall i c, (i < length b)%nat -> exists b', wr b i c = Ret b' /\ length b' = length b /\
  nth_error b' i = Some c /\ forall k, k <> i -> nth_error b' k = nth_error b k.
Proof.
  induction b as [|x b IH]; intros i c H; simpl in H; [lia|]. destruct i as [|i].
  - exists (c :: b). split; [reflexivity|]. split; [reflexivity|]. split; [reflexivity|].
    intros [|k] N; [congruence|reflexivity].
  - destruct (IH i c ltac:(lia)) as (b' & E & L & N & K). exists (x :: b'). cbn [wr]. rewrite E. cbn [bind].
    split; [reflexivity|]. split; [simpl; lia|]. split; [exact N|]. intros [|k] N'; [reflexivity|]. simpl. apply K. congruence.
Qed.

Lemma exchange_ok b i j x y : i <> j -> nth_error b i = Some x -> nth_error b j = Some y ->
  exists b', exchange b i j = Ret b' /\ length b' = length b /\ nth_error b' i = Some y /\ nth_error b' j = Some x /\
    forall k, k <> i -> k <> j -> nth_error b' k = nth_error b k.
Proof.
  intros D X Y. assert (Li : (i < length b)%nat) by (apply nth_error_Some; congruence).
  assert (Lj : (j < length b)%nat) by (apply nth_error_Some; congruence).
  unfold exchange. cbv zeta. rewrite (rd_nth _ _ _ X), (rd_nth _ _ _ Y). cbn [bind].
  destruct (wr_nth b i (Z.lxor x y) Li) as (b1 & E1 & L1 & N1 & K1). rewrite E1. cbn [bind].
  assert (Y1 : nth_error b1 j = Some y) by (rewrite K1; auto). rewrite (rd_nth _ _ _ Y1), (rd_nth _ _ _ N1). cbn [bind].
  destruct (wr_nth b1 j (Z.lxor y (Z.lxor x y)) ltac:(lia)) as (b2 & E2 & L2 & N2 & K2). rewrite E2. cbn [bind].
  assert (X2 : nth_error b2 i = Some (Z.lxor x y)) by (rewrite K2; auto). rewrite (rd_nth _ _ _ X2), (rd_nth _ _ _ N2). cbn [bind].
  destruct (wr_nth b2 i (Z.lxor (Z.lxor x y) (Z.lxor y (Z.lxor x y))) ltac:(lia)) as (b3 & E3 & L3 & N3 & K3).
  exists b3. split; [exact E3|]. split; [lia|].
  assert (A : Z.lxor y (Z.lxor x y) = x).
  { rewrite Z.lxor_comm, Z.lxor_assoc, Z.lxor_nilpotent, Z.lxor_0_r. reflexivity. }
  rewrite A in *. split; [rewrite N3; f_equal|split].
  - rewrite (Z.lxor_comm x y), Z.lxor_assoc, Z.lxor_nilpotent. apply Z.lxor_0_r.
  - rewrite K3 by auto. exact N2.
  - intros k Hi Hj. rewrite K3, K2, K1 by auto. reflexivity.
Qed.

Lemma exchange_same b i x : nth_error b i = Some x -> exists b', exchange b i i = Ret b' /\ nth_error b' i = Some 0.
Proof.
  intros X. assert (Li : (i < length b)%nat) by (apply nth_error_Some; congruence).
  unfold exchange. cbv zeta. rewrite (rd_nth _ _ _ X). cbn [bind]. rewrite Z.lxor_nilpotent.
  destruct (wr_nth b i 0 Li) as (b1 & E1 & L1 & N1 & _). rewrite E1. cbn [bind].
  rewrite (rd_nth _ _ _ N1). cbn [bind]. rewrite Z.lxor_nilpotent.
  destruct (wr_nth b1 i 0 ltac:(lia)) as (b2 & E2 & L2 & N2 & _). rewrite E2. cbn [bind].
  rewrite (rd_nth _ _ _ N2). cbn [bind]. rewrite Z.lxor_nilpotent.
  destruct (wr_nth b2 i 0 ltac:(lia)) as (b3 & E3 & L3 & N3 & _).
  exists b3. split; [exact E3|exact N3].
Qed.

(** ** StaticHash *)

Lemma static_hash_step h c : 0 <= h < 2 ^ 32 -> is_byte c ->
  u32 ((Z.lxor h c * 0x6B84DF47) mod 2 ^ 64 + 1) = u32 (u32 (Z.lxor h c * 0x6B84DF47) + 1).
Proof.
  intros H C. unfold u32. rewrite Zplus_mod_idemp_l. rewrite <- (Z.add_mod_idemp_l ((_ * _) mod _)) by lia.
  change (2 ^ 64) with (4294967296 * 4294967296). rewrite <- (Z.add_mod_idemp_l (Z.lxor h c * _)) by lia. f_equal. f_equal.
  rewrite Z.rem_mul_r by lia. rewrite (Z.mul_comm 4294967296 (_ mod _)), Z.mod_add by lia. apply Z.mod_mod. lia.
Qed.

Lemma static_hash_ok sc p s : forall h, holds p s -> 0 <= h < 2 ^ 32 -> bytes s ->
  (sc = false \/ Forall (fun c => c < 128) s) ->
  hash_text p h = Ret (fold_left (fun h c =>
    if c =? 0 then h else u32 ((Z.lxor h (u32 (char_value sc c)) * 0x6B84DF47) mod 2 ^ 64 + 1)) s h).
Proof.
  revert p. induction s as [|c s IH]; intros p h (NF & r & ->) Hh B A; cbn [app hash_text fold_left].
  - reflexivity.
  - inversion NF; subst. inversion B; subst. destruct (Z.eqb_spec c 0); [congruence|].
    assert (V : u32 (char_value sc c) = c).
    { unfold char_value. assert (sc && (128 <=? c) = false) as ->.
      { destruct A as [->|A]; [reflexivity|]. inversion A; subst. destruct sc; simpl; [|reflexivity].
        destruct (Z.leb_spec 128 c); [lia|reflexivity]. }
      apply Z.mod_small. unfold is_byte in *. lia. }
    rewrite V, static_hash_step by auto. apply IH.
    + split; [assumption|]. now exists r.
    + apply Z.mod_pos_bound. lia.
    + assumption.
    + destruct A as [A|A]; [now left|right]. now inversion A.
Qed.

(** ** Hexadecimal texts *)

Lemma hex_table d : 0 <= d < 16 -> exists c, rd hex_digit_table (Z.to_nat d) = Ret c /\ hex_char c d /\ c <> 0.
Proof.
  intros H. assert (C : d = 0 \/ d = 1 \/ d = 2 \/ d = 3 \/ d = 4 \/ d = 5 \/ d = 6 \/ d = 7 \/ d = 8 \/ d = 9 \/ d = 10 \/
    d = 11 \/ d = 12 \/ d = 13 \/ d = 14 \/ d = 15) by lia. unfold hex_char.
  repeat (destruct C as [->|C]; [eexists; split; [reflexivity|lia]|]). subst d. eexists. split; [reflexivity|lia].
Qed.

Lemma hex_text_cons c d t v : hex_char c d -> hex_text t v -> hex_text (c :: t) (d * 16 ^ Z.of_nat (length t) + v).
Proof.
  intros C. induction 1 as [|t v c' d' T IH C'].
  - simpl. change (16 ^ Z.of_nat 0) with 1. replace (d * 1 + 0) with (16 * 0 + d) by lia.
    change [c] with ([] ++ [c]). constructor; [constructor|exact C].
  - rewrite app_length. simpl length. replace (Z.of_nat (length t + 1)) with (Z.succ (Z.of_nat (length t))) by lia.
    rewrite Z.pow_succ_r by lia. rewrite app_comm_cons.
    replace (d * (16 * 16 ^ Z.of_nat (length t)) + (16 * v + d')) with (16 * (d * 16 ^ Z.of_nat (length t) + v) + d') by lia.
    now constructor.
Qed.

Lemma hex_writes_ok n : forall num b i, 0 <= num -> (i + n + 1 <= length b)%nat ->
  exists t, hex_writes n num b i = Ret (splice b i (t ++ [0])) /\ length t = n /\
    hex_text t (num mod 16 ^ Z.of_nat n) /\ nul_free t.
Proof.
  induction n as [|n IH]; intros num b i Hn Hb.
  - exists []. cbn [hex_writes]. rewrite wr_splice by lia. split; [reflexivity|]. split; [reflexivity|].
    change (16 ^ Z.of_nat 0) with 1. rewrite Z.mod_1_r. split; constructor.
  - cbn [hex_writes]. change 15 with (Z.ones 4). rewrite Z.land_ones by lia. rewrite Z.shiftr_div_pow2 by lia.
    assert (P : 2 ^ (4 * Z.of_nat n) = 16 ^ Z.of_nat n).
    { rewrite Z.pow_mul_r by lia. reflexivity. } rewrite P. change (2 ^ 4) with 16.
    pose proof (Z.mod_pos_bound (num / 16 ^ Z.of_nat n) 16 ltac:(lia)) as M.
    destruct (hex_table _ M) as (c & E & C & Nz). rewrite E. cbn [bind]. rewrite wr_splice by lia. cbn [bind].
    destruct (IH num (splice b i [c]) (S i) Hn) as (t & Et & L & T & F).
    { rewrite splice_length; simpl; lia. }
    exists (c :: t). rewrite Et. rewrite splice_splice by (rewrite app_length; simpl; lia). split; [reflexivity|].
    split; [simpl; lia|]. split; [|now constructor].
    replace (num mod 16 ^ Z.of_nat (S n)) with ((num / 16 ^ Z.of_nat n) mod 16 * 16 ^ Z.of_nat (length t) + num mod 16 ^ Z.of_nat n).
    + now apply hex_text_cons.
    + rewrite L. replace (Z.of_nat (S n)) with (Z.of_nat n + 1) by lia. rewrite Z.pow_add_r by lia. rewrite Z.pow_1_r.
      rewrite Z.rem_mul_r; [lia| |lia]. apply Z.pow_nonzero; lia.
Qed.

Lemma hex_text_unique t v : hex_text t v -> forall w, hex_text t w -> v = w.
Proof.
  induction 1 as [|t v c d T IH C]; intros w W.
  - inversion W as [|t' v' c' d' T' C' E]; [reflexivity|]. destruct t'; discriminate.
  - inversion W as [E|t' v' c' d' T' C' E].
    + destruct t; discriminate.
    + apply app_inj_tail in E. destruct E as [-> ->]. rewrite (IH _ T'). unfold hex_char in *. lia.
Qed.

(** ** Types *)

Lemma lor_add a b k : 0 <= k -> 0 <= b < 2 ^ k -> Z.lor (a * 2 ^ k) b = a * 2 ^ k + b.
Proof.
  intros Hk Hb. rewrite <- Z.lxor_lor; [symmetry; apply Z.add_nocarry_lxor|].
  - rewrite <- Z.shiftl_mul_pow2 by lia. apply Z.bits_inj'. intros n Hn. rewrite Z.land_spec, Z.bits_0.
    destruct (Z.lt_ge_cases n k) as [L|L].
    + rewrite Z.shiftl_spec_low by lia. reflexivity.
    + rewrite <- (Z.mod_small b (2 ^ k)) by lia. rewrite Z.mod_pow2_bits_high by lia. apply andb_false_r.
  - rewrite <- Z.shiftl_mul_pow2 by lia. apply Z.bits_inj'. intros n Hn. rewrite Z.land_spec, Z.bits_0.
    destruct (Z.lt_ge_cases n k) as [L|L].
    + rewrite Z.shiftl_spec_low by lia. reflexivity.
    + rewrite <- (Z.mod_small b (2 ^ k)) by lia. rewrite Z.mod_pow2_bits_high by lia. apply andb_false_r.
Qed.

Lemma string_to_type_ok p s : holds p s -> bytes s -> exists v, string_to_type p = Ret v /\ type_number s v.
Proof.
  intros (NF & r & ->) B. unfold string_to_type.
  assert (Sh : forall a, is_byte a -> u32 (Z.shiftl a 24) = a * 2 ^ 24).
  { intros a Ha. unfold is_byte in Ha. rewrite Z.shiftl_mul_pow2 by lia. apply Z.mod_small. lia. }
  destruct s as [|a s]; [exists 0; split; [reflexivity|]; exists 0, 0, 0, 0; split; [reflexivity|lia]|].
  inversion NF as [|? ? Na NF1]; subst. inversion B as [|? ? Ba B1]; subst. cbn [app rd nth_error bind].
  destruct (Z.eqb_spec a 0); [congruence|]. cbv zeta. rewrite (Sh a Ba). unfold is_byte in Ba.
  destruct s as [|b s]; [exists (a * 2 ^ 24); split; [reflexivity|]; exists a, 0, 0, 0; split; [reflexivity|lia]|].
  inversion NF1 as [|? ? Nb NF2]; subst. inversion B1 as [|? ? Bb B2]; subst. cbn [app rd nth_error bind].
  destruct (Z.eqb_spec b 0); [congruence|]. unfold is_byte in Bb. rewrite !Z.shiftl_mul_pow2 by lia.
  rewrite lor_add by lia.
  destruct s as [|c s]; [eexists; split; [reflexivity|]; exists a, b, 0, 0; split; [reflexivity|lia]|].
  inversion NF2 as [|? ? Nc NF3]; subst. inversion B2 as [|? ? Bc B3]; subst. cbn [app rd nth_error bind].
  destruct (Z.eqb_spec c 0); [congruence|]. unfold is_byte in Bc.
  replace (a * 2 ^ 24 + b * 2 ^ 16) with ((a * 2 ^ 8 + b) * 2 ^ 16) by lia.
  rewrite Z.shiftl_mul_pow2 by lia. rewrite lor_add by lia.
  destruct s as [|d s]; [eexists; split; [reflexivity|]; exists a, b, c, 0; split; [reflexivity|lia]|].
  inversion NF3 as [|? ? Nd NF4]; subst. inversion B3 as [|? ? Bd B4]; subst. cbn [app rd nth_error bind].
  destruct (Z.eqb_spec d 0); [congruence|]. unfold is_byte in Bd.
  replace ((a * 2 ^ 8 + b) * 2 ^ 16 + c * 2 ^ 8) with (((a * 2 ^ 8 + b) * 2 ^ 8 + c) * 2 ^ 8) by lia. rewrite lor_add by lia.
  eexists. split; [reflexivity|]. exists a, b, c, d. split; [reflexivity|lia].
Qed.

Lemma byte_parts a b c d : is_byte a -> is_byte b -> is_byte c -> is_byte d ->
  let v := a * 2 ^ 24 + b * 2 ^ 16 + c * 2 ^ 8 + d in
  Z.shiftr v 24 = a /\ byte_of (Z.shiftr v 16) = b /\ byte_of (Z.shiftr v 8) = c /\ byte_of v = d.
Proof.
  intros A B C D. cbv zeta. unfold is_byte, byte_of in *. rewrite !Z.shiftr_div_pow2 by lia.
  change (2 ^ 24) with 16777216. change (2 ^ 16) with 65536. change (2 ^ 8) with 256.
  repeat split; Z.div_mod_to_equations; lia.
Qed.

Lemma fix_four_ok w x y z a b c d e : exists r, fix_four [w; x; y; z; e] a b c d = Ret r /\ r = [a; b; c; d; 0].
Proof. eexists. split; reflexivity. Qed.
