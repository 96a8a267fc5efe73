(** * Lemmas about the Text functions and about String<len>. *)

From Verif Require Import Base TextModel StringModel SpecNum SpecText StrtodProofs FormatProofs.

#[local] Arguments Z.eqb : simpl nomatch.
#[local] Arguments Z.ltb : simpl nomatch.

(** Replacing the bytes from [i] on by [s]. *)
Definition splice (b : list Z) (i : nat) (s : list Z) : list Z := firstn i b ++ s ++ skipn (i + length s) b.

Lemma splice_length b i s : (i + length s <= length b)%nat -> length (splice b i s) = length b.
Proof. intros H. unfold splice. rewrite !app_length, firstn_length, skipn_length. lia. Qed.

Lemma wr_splice b i c : (i < length b)%nat -> wr b i c = Ret (splice b i [c]).
Proof.
  revert i. induction b as [|x b IH]; intros i H; [simpl in H; lia|].
  destruct i as [|i]; [reflexivity|]. cbn [wr]. rewrite IH by (simpl in H; lia). reflexivity.
Qed.

Lemma wr_out b i c : (length b <= i)%nat -> wr b i c = UB.
Proof.
  revert i. induction b as [|x b IH]; intros i H; [destruct i; reflexivity|].
  destruct i as [|i]; [simpl in H; lia|]. cbn [wr]. rewrite IH by (simpl in H; lia). reflexivity.
Qed.

Lemma skipn_skipn {A} (x y : nat) : forall l : list A, skipn x (skipn y l) = skipn (x + y) l.
Proof.
  induction y as [|y IH]; intros l; [now rewrite Nat.add_0_r|].
  rewrite Nat.add_succ_r. destruct l as [|c l]; [now rewrite !skipn_nil|]. simpl. apply IH.
Qed.

Lemma splice_splice b i c s : (i + 1 + length s <= length b)%nat -> splice (splice b i [c]) (S i) s = splice b i (c :: s).
Proof.
  intros H. unfold splice. cbn [length].
  rewrite (app_assoc (firstn i b) [c]), firstn_app.
  assert (E : length (firstn i b ++ [c]) = S i) by (rewrite app_length, firstn_length; simpl; lia).
  rewrite E, Nat.sub_diag, firstn_O, app_nil_r, (firstn_all2 (n := S i)) by lia.
  rewrite skipn_app, E, (skipn_all2 (n := (S i + length s)%nat)) by lia. simpl app at 2.
  rewrite skipn_skipn, <- app_assoc. cbn [app length]. do 3 f_equal. f_equal. lia.
Qed.

Lemma cstr_terminated p : terminated p -> exists rest, p = cstr p ++ 0 :: rest /\ nul_free (cstr p).
Proof.
  induction p as [|c p IH]; intros H; [destruct H as [[|] H]; discriminate|]. simpl.
  destruct (Z.eqb_spec c 0) as [->|Hc]; [exists p; split; [reflexivity|constructor]|].
  destruct IH as (rest & E & Hn); [eapply terminated_tail; eauto|].
  exists rest. split; [simpl; congruence|constructor; auto].
Qed.

Lemma get_text_length_ok s rest : nul_free s -> get_text_length (s ++ 0 :: rest) = Ret (length s).
Proof.
  induction 1 as [|c s Hc Hs IH]; simpl; [reflexivity|].
  destruct (Z.eqb_spec c 0); [congruence|]. now rewrite IH.
Qed.

Lemma copy_text_ok s rest : nul_free s -> forall b i, (i + length s + 1 <= length b)%nat ->
  copy_text (s ++ 0 :: rest) b i = Ret (splice b i (s ++ [0])).
Proof.
  induction 1 as [|c s Hc Hs IH]; intros b i H; simpl.
  - rewrite wr_splice by (simpl in H; lia). reflexivity.
  - simpl in H. rewrite wr_splice by lia. cbn [bind]. destruct (Z.eqb_spec c 0); [congruence|].
    rewrite IH by (rewrite splice_length; simpl; lia). rewrite splice_splice; [reflexivity|]. rewrite app_length. simpl. lia.
Qed.

Lemma copy_text_loop_ok max : forall s rest b i, nul_free s -> (i + Nat.min max (length s) + 1 <= length b)%nat ->
  copy_text_loop max (s ++ 0 :: rest) b i = Ret (splice b i (firstn max s ++ [0])).
Proof.
  induction max as [|max IH]; intros s rest b i Hs H.
  - simpl. rewrite wr_splice by lia. reflexivity.
  - destruct Hs as [|c s Hc Hs]; simpl in H; cbn [copy_text_loop app rd nth_error bind].
    + simpl. rewrite wr_splice by lia. reflexivity.
    + simpl. destruct (Z.eqb_spec c 0); [congruence|]. rewrite wr_splice by lia. cbn [bind].
      rewrite IH; [|auto|rewrite splice_length; simpl; lia]. rewrite splice_splice; [reflexivity|].
      rewrite app_length, firstn_length. simpl. lia.
Qed.

Lemma copy_text_max_ok s rest b i max : nul_free s -> (i + Nat.min (Z.to_nat max) (length s) + 1 <= length b)%nat ->
  copy_text_max (s ++ 0 :: rest) b i max = Ret (splice b i (firstn (Z.to_nat max) s ++ [0])).
Proof. apply copy_text_loop_ok. Qed.

(** A source without terminator is fine when it has [max] characters. *)
Lemma copy_text_loop_prefix max : forall s rest b i, nul_free s -> length s = max -> (i + max + 1 <= length b)%nat ->
  copy_text_loop max (s ++ rest) b i = Ret (splice b i (s ++ [0])).
Proof.
  induction max as [|max IH]; intros s rest b i Hs HL H.
  - destruct s; [|discriminate]. simpl. rewrite wr_splice by lia. reflexivity.
  - destruct Hs as [|c s Hc Hs]; simpl in HL; [discriminate|]. simpl.
    destruct (Z.eqb_spec c 0); [congruence|]. rewrite wr_splice by lia. cbn [bind].
    rewrite IH; [|auto|lia|rewrite splice_length; simpl; lia]. rewrite splice_splice; [reflexivity|].
    rewrite app_length. simpl. lia.
Qed.

(** ** Numerals *)

Lemma digit_loop_ok cap : forall fuel num c, 0 <= num < 10 ^ Z.of_nat (fuel - 1) -> (length c + fuel <= S cap)%nat -> (1 <= fuel)%nat ->
  (num = 0 -> (2 <= fuel)%nat) -> digits c ->
  exists ds, digit_loop fuel cap num c = Ret (ds ++ c) /\ digits ds /\ ds <> [] /\ dvalue ds = num /\
    (num <> 0 -> exists d r, ds = d :: r /\ d <> 48) /\ (num = 0 -> ds = [48]).
Proof.
  induction fuel as [|fuel IH]; intros num c Hn Hl Hf Hz Hc; [lia|]. cbn [digit_loop].
  destruct (Nat.leb_spec cap (length c)) as [Hcap|Hcap].
  { destruct fuel; [|lia]. simpl in Hn. rewrite Z.pow_0_r in Hn. lia. }
  assert (Er : Z.rem num 10 = num mod 10) by (apply Z.rem_mod_nonneg; lia).
  assert (Eq : Z.quot num 10 = num / 10) by (apply Z.quot_div_nonneg; lia).
  rewrite Er, Eq. pose proof (Z.mod_pos_bound num 10 ltac:(lia)) as Hm. pose proof (Z.div_mod num 10 ltac:(lia)) as Hdm.
  destruct (Z.eqb_spec (num / 10) 0) as [E|E].
  - exists [num mod 10 + 48]. split; [reflexivity|].
    split; [repeat constructor; unfold digit; lia|]. split; [discriminate|].
    split; [simpl; rewrite Z.pow_0_r; lia|]. split.
    + intros H. exists (num mod 10 + 48), []. split; [reflexivity|]. lia.
    + intros ->. reflexivity.
  - assert (0 < num / 10) by (pose proof (Z.div_pos num 10); lia).
    destruct (IH (num / 10) ((num mod 10 + 48) :: c)) as (ds & E1 & Hds & Hne & Hv & Hnz & _).
    + split; [lia|]. apply Z.div_lt_upper_bound; [lia|].
      destruct fuel as [|fuel]; [simpl in Hn; rewrite Z.pow_0_r in Hn; exfalso; assert (num = 0) by lia; subst num; now apply E|].
      replace (10 * 10 ^ Z.of_nat (S fuel - 1)) with (10 ^ Z.of_nat (S (S fuel) - 1)); [lia|].
      replace (Z.of_nat (S (S fuel) - 1)) with (Z.succ (Z.of_nat (S fuel - 1))) by lia. rewrite Z.pow_succ_r by lia. reflexivity.
    + simpl. lia.
    + destruct fuel; [|lia]. simpl in Hn. rewrite Z.pow_0_r in Hn. exfalso. assert (num = 0) by lia. subst num. now apply E.
    + lia.
    + constructor; [unfold digit; lia|auto].
    + exists (ds ++ [num mod 10 + 48]). split; [rewrite E1, <- app_assoc; reflexivity|].
      split; [apply Forall_app; split; [auto|repeat constructor; unfold digit; lia]|].
      split; [destruct ds; discriminate|]. split.
      * rewrite dvalue_app. simpl. rewrite Z.pow_0_r, Hv. change (Z.of_nat 1) with 1. rewrite Z.pow_1_r. lia.
      * split; [|intros Hz0; exfalso; rewrite Hz0 in E; now apply E]. intros _. destruct Hnz as (d & r & -> & Hd); [lia|].
        exists d, (r ++ [num mod 10 + 48]). auto.
Qed.

Lemma emit_ok chars : forall b i a max, (i + a + Nat.min (Z.to_nat max - a) (length chars) + 1 <= length b)%nat ->
  emit chars b i a max =
    Ret (splice b (i + a) (firstn (Z.to_nat max - a) chars ++ [0]),
         Z.of_nat (a + Nat.min (Z.to_nat max - a) (length chars))).
Proof.
  induction chars as [|ch chars IH]; intros b i a max H; cbn [emit].
  - rewrite wr_splice by lia. cbn [bind]. rewrite firstn_nil. simpl. do 2 f_equal. lia.
  - destruct (Z.ltb_spec (Z.of_nat a) max) as [Hl|Hl].
    + simpl in H. rewrite wr_splice by lia. cbn [bind].
      replace (Z.to_nat max - a)%nat with (S (Z.to_nat max - S a)) in * by lia.
      rewrite IH by (rewrite splice_length; simpl; lia).
      replace (i + S a)%nat with (S (i + a)) by lia. rewrite splice_splice by (rewrite app_length, firstn_length; simpl; lia).
      simpl. do 2 f_equal. lia.
    + rewrite wr_splice by lia. cbn [bind]. replace (Z.to_nat max - a)%nat with 0%nat by lia. simpl. do 2 f_equal. lia.
Qed.

(** The magnitude computed by Abs and the mask. *)
Lemma abs_masked k n : 0 < k -> - 2 ^ k < n < 2 ^ k ->
  (let a := Z.shiftr n k in ((Z.lxor n a - a) + 2 ^ k) mod 2 ^ (k + 1) - 2 ^ k) = Z.abs n.
Proof.
  intros Hk Hn. cbv zeta. rewrite Z.shiftr_div_pow2 by lia.
  assert (H2 : 2 ^ (k + 1) = 2 * 2 ^ k) by (rewrite Z.pow_add_r by lia; lia). rewrite H2.
  destruct (Z.neg_nonneg_cases n) as [H|H].
  - assert (n / 2 ^ k = -1) as -> by (symmetry; apply (Z.div_unique _ _ _ (n + 2 ^ k)); lia).
    rewrite Z.lxor_m1_r. unfold Z.lnot. rewrite Z.mod_small by lia. lia.
  - rewrite Z.div_small by lia. rewrite Z.lxor_0_r. rewrite Z.mod_small by lia. lia.
Qed.

Lemma abs32_ok n : - 2 ^ 31 < n < 2 ^ 31 -> Z.land (abs32 n) 0x7FFFFFFF = Z.abs n.
Proof.
  intros Hn. unfold abs32, i32. pose proof (abs_masked 31 n ltac:(lia) Hn) as E. cbv zeta in *.
  change (31 + 1) with 32 in E. rewrite E. change 0x7FFFFFFF with (Z.ones 31). rewrite Z.land_ones by lia.
  apply Z.mod_small. lia.
Qed.

Lemma abs64_ok n : - 2 ^ 63 < n < 2 ^ 63 -> Z.land (abs64 n) 0x7FFFFFFFFFFFFFFF = Z.abs n.
Proof.
  intros Hn. unfold abs64, i64. pose proof (abs_masked 63 n ltac:(lia) Hn) as E. cbv zeta in *.
  change (63 + 1) with 64 in E. rewrite E. change 0x7FFFFFFFFFFFFFFF with (Z.ones 63). rewrite Z.land_ones by lia.
  apply Z.mod_small. lia.
Qed.

Lemma numeral_of n ds : digits ds -> ds <> [] -> dvalue ds = Z.abs n ->
  (Z.abs n <> 0 -> exists d r, ds = d :: r /\ d <> 48) -> (Z.abs n = 0 -> ds = [48]) ->
  numeral n (if n <? 0 then 45 :: ds else ds).
Proof.
  intros Hd Hne Hv Hnz Hz. destruct (Z.eq_dec n 0) as [->|Hn].
  - rewrite Hz by reflexivity. constructor.
  - destruct Hnz as (d & r & -> & Hd0); [lia|]. destruct (Z.ltb_spec n 0).
    + replace n with (- dvalue (d :: r)) by lia. now constructor.
    + replace n with (dvalue (d :: r)) by lia. now constructor.
Qed.

Theorem integer_to_string_ok n : - 2 ^ 31 < n < 2 ^ 31 -> exists t, numeral n t /\ (length t <= 17)%nat /\
  forall b i max, (i + Nat.min (Z.to_nat max) (length t) + 1 <= length b)%nat ->
    integer_to_string n b i max =
      Ret (splice b i (firstn (Z.to_nat max) t ++ [0]), Z.of_nat (Nat.min (Z.to_nat max) (length t))).
Proof.
  intros Hn. unfold integer_to_string. rewrite abs32_ok by auto.
  assert (HB : Z.abs n < 10 ^ 16) by (assert (2 ^ 31 < 10 ^ 16) by reflexivity; lia).
  destruct (digit_loop_ok 16 17 (Z.abs n) []) as (ds & E & Hd & Hne & Hv & Hnz & Hz);
    [change (Z.of_nat (17 - 1)) with 16; lia|cbn [length]; lia|lia|lia|constructor|].
  rewrite app_nil_r in E. exists (if n <? 0 then 45 :: ds else ds). split; [now apply numeral_of|].
  assert (HL : (length ds <= 16)%nat).
  {
    destruct (Z.eq_dec (Z.abs n) 0) as [E0|E0]; [rewrite (Hz E0); simpl; lia|].
    destruct (Hnz E0) as (d & r & -> & Hd0). simpl in Hv. inversion Hd as [|? ? Hdd Hr]; subst. unfold digit in Hdd.
    assert (Hr0 : 0 <= dvalue r) by now apply dvalue_nonneg.
    destruct (Nat.leb_spec (length r) 15) as [HL|HL]; [simpl; lia|].
    assert (10 ^ 16 <= 10 ^ Z.of_nat (length r)) by (apply Z.pow_le_mono_r; lia). nia. }
  split; [destruct (n <? 0); simpl; lia|]. intros b i max Hb. rewrite E. cbn [bind].
  rewrite emit_ok; rewrite Nat.add_0_r, ?Nat.sub_0_r; [reflexivity|exact Hb].
Qed.

Theorem integer64_to_string_ok n : - 2 ^ 63 < n < 2 ^ 63 -> exists t, numeral n t /\ (length t <= 33)%nat /\
  forall b i max, (i + Nat.min (Z.to_nat max) (length t) + 1 <= length b)%nat ->
    integer64_to_string n b i max =
      Ret (splice b i (firstn (Z.to_nat max) t ++ [0]), Z.of_nat (Nat.min (Z.to_nat max) (length t))).
Proof.
  intros Hn. unfold integer64_to_string. rewrite abs64_ok by auto.
  assert (HB : Z.abs n < 10 ^ 32) by (assert (2 ^ 63 < 10 ^ 32) by reflexivity; lia).
  destruct (digit_loop_ok 32 33 (Z.abs n) []) as (ds & E & Hd & Hne & Hv & Hnz & Hz);
    [change (Z.of_nat (33 - 1)) with 32; lia|cbn [length]; lia|lia|lia|constructor|].
  rewrite app_nil_r in E. exists (if n <? 0 then 45 :: ds else ds). split; [now apply numeral_of|].
  assert (HL : (length ds <= 32)%nat).
  {
    destruct (Z.eq_dec (Z.abs n) 0) as [E0|E0]; [rewrite (Hz E0); simpl; lia|].
    destruct (Hnz E0) as (d & r & -> & Hd0). simpl in Hv. inversion Hd as [|? ? Hdd Hr]; subst. unfold digit in Hdd.
    assert (Hr0 : 0 <= dvalue r) by now apply dvalue_nonneg.
    destruct (Nat.leb_spec (length r) 31) as [HL|HL]; [simpl; lia|].
    assert (10 ^ 32 <= 10 ^ Z.of_nat (length r)) by (apply Z.pow_le_mono_r; lia). nia. }
  split; [destruct (n <? 0); simpl; lia|]. intros b i max Hb. rewrite E. cbn [bind].
  rewrite emit_ok; rewrite Nat.add_0_r, ?Nat.sub_0_r; [reflexivity|exact Hb].
Qed.

(** Numerals are unique and contain no NUL. *)
Lemma numeral_nul_free n t : numeral n t -> nul_free t.
Proof.
  intros H. destruct H as [|d ds H _|d ds H _]; [repeat constructor; lia| |constructor; [lia|]];
    (eapply Forall_impl; [|exact H]); unfold digit; simpl; intros; lia.
Qed.

(** ** Numerals are unique *)

Lemma dvalue_snoc a x : dvalue (a ++ [x]) = 10 * dvalue a + (x - 48).
Proof. rewrite dvalue_app. unfold dvalue at 2. simpl. lia. Qed.

Lemma digits_snoc a x : digits (a ++ [x]) -> digits a /\ 48 <= x <= 57.
Proof. intros H. apply Forall_app in H as [Ha Hx]. inversion Hx; subst. split; auto. Qed.

Lemma dvalue_pos d ds : digits (d :: ds) -> d <> 48 -> 0 < dvalue (d :: ds).
Proof.
  intros H Hd. inversion H as [|? ? H1 H2]; subst. change (d :: ds) with ([d] ++ ds). rewrite dvalue_app.
  unfold dvalue at 1. simpl. pose proof (dvalue_nonneg ds H2). unfold digit in H1.
  assert (0 < 10 ^ Z.of_nat (length ds)) by lia. nia.
Qed.

Definition leading (l : list Z) : Prop := match l with [] => True | d :: _ => d <> 48 end.

Lemma dvalue_inj l : forall l', digits l -> digits l' -> leading l -> leading l' -> dvalue l = dvalue l' -> l = l'.
Proof.
  induction l as [|x a IH] using rev_ind; intros l' H H' Hl Hl' E.
  - destruct l' as [|d ds]; [reflexivity|]. pose proof (dvalue_pos d ds H' Hl'). change (dvalue []) with 0 in E. lia.
  - destruct l' as [|y b _] using rev_ind.
    + destruct (a ++ [x]) as [|d ds] eqn:Ea; [reflexivity|]. pose proof (dvalue_pos d ds H Hl). change (dvalue []) with 0 in E. lia.
    + rewrite !dvalue_snoc in E. apply digits_snoc in H as [Ha Hx]. apply digits_snoc in H' as [Hb Hy].
      assert (x = y /\ dvalue a = dvalue b) as [-> E'] by lia. f_equal. apply IH; auto.
      * destruct a; simpl in *; auto.
      * destruct b; simpl in *; auto.
Qed.

Lemma numeral_unique n t t' : numeral n t -> numeral n t' -> t = t'.
Proof.
  assert (G : forall m u, numeral m u -> m = 0 /\ u = [48] \/ exists d ds, digits (d :: ds) /\ d <> 48 /\
    0 < dvalue (d :: ds) /\ (m = dvalue (d :: ds) /\ u = d :: ds \/ m = - dvalue (d :: ds) /\ u = 45 :: d :: ds)).
  { intros m u [|d ds Hd Hz|d ds Hd Hz]; [auto| |]; pose proof (dvalue_pos d ds Hd Hz); right; exists d, ds; repeat (split; [assumption|]); auto. }
  intros H H'. apply G in H, H'.
  destruct H as [[-> ->]|(d & ds & Hd & Hz & Hp & [[-> ->]|[-> ->]])];
  destruct H' as [[E ->]|(d' & ds' & Hd' & Hz' & Hp' & [[E ->]|[E ->]])]; try lia; auto.
  - now apply dvalue_inj.
  - f_equal. apply dvalue_inj; auto. lia.
Qed.

(** ** String<len> *)

Lemma cstr_nul p : In 0 p -> exists r, p = cstr p ++ 0 :: r /\ nul_free (cstr p).
Proof.
  induction p as [|c p IH]; simpl; [tauto|]. intros H. destruct (Z.eqb_spec c 0) as [->|Hc].
  - exists p. split; [reflexivity|constructor].
  - destruct H as [H|H]; [congruence|]. destruct (IH H) as (r & E & Hn). exists r. simpl. rewrite <- E. split; [reflexivity|].
    constructor; auto.
Qed.

Lemma holds_nul b s : holds b s -> In 0 b /\ cstr b = s.
Proof.
  intros [Hs [r ->]]. split; [apply in_or_app; simpl; auto|]. induction Hs as [|c s Hc Hs IH]; simpl; [reflexivity|].
  destruct (Z.eqb_spec c 0); [congruence|]. now f_equal.
Qed.

Lemma copy_text_max_at p b k mx : In 0 p -> (k + Nat.min (Z.to_nat mx) (length (cstr p)) + 1 <= length b)%nat ->
  copy_text_max p b k mx = Ret (splice b k (firstn (Z.to_nat mx) (cstr p) ++ [0])).
Proof.
  intros Ht Hk. destruct (cstr_nul p Ht) as (r & Ep & Hn).
  rewrite Ep at 1. apply copy_text_max_ok; auto.
Qed.

Lemma get_text_length_holds b s : holds b s -> get_text_length b = Ret (length s).
Proof. intros [Hs [r ->]]. now apply get_text_length_ok. Qed.

Lemma firstn_nul_free k s : nul_free s -> nul_free (firstn k s).
Proof. intros H. revert k. induction H; intros [|k]; simpl; constructor; auto. apply IHForall. Qed.

Lemma holds_splice0 b t : nul_free t -> holds (splice b 0 (t ++ [0])) t.
Proof. intros Ht. split; [auto|]. unfold splice. simpl. exists (skipn (length (t ++ [0])) b). rewrite <- app_assoc. reflexivity. Qed.

Lemma holds_splice b s t : holds b s -> nul_free t -> holds (splice b (length s) (t ++ [0])) (s ++ t).
Proof.
  intros [Hs [r ->]] Ht. split; [apply Forall_app; auto|]. unfold splice.
  rewrite firstn_app, Nat.sub_diag, firstn_all, firstn_O, app_nil_r.
  eexists. rewrite <- !app_assoc. reflexivity.
Qed.

Lemma holds_length b s : holds b s -> (length s < length b)%nat.
Proof. intros [_ [r ->]]. rewrite app_length. simpl. lia. Qed.

Lemma cut_app len (s t : list Z) : (length s <= len)%nat -> firstn len (s ++ t) = s ++ firstn (len - length s) t.
Proof. intros H. rewrite firstn_app, firstn_all2 by lia. reflexivity. Qed.

Theorem fix_step_ok len o b s : length b = S len -> operand_ok o -> (initialises o \/ holds b s) ->
  exists b' s', fix_step len o b = Ret b' /\ length b' = S len /\ meaning o s s' /\ holds b' (firstn len s').
Proof.
  intros HL Ho Hi.
  destruct o as [p|p n|n|n|p|k|n|n|p n]; cbn [fix_step initialises operand_ok] in *.
  - destruct (cstr_nul p Ho) as (r & Ep & Hn). do 2 eexists. split; [|split; [|split; [constructor|]]].
    + unfold fix_assign. apply copy_text_max_at; [auto|lia].
    + rewrite splice_length; [auto|]. rewrite app_length, firstn_length. simpl. lia.
    + rewrite Nat2Z.id. apply holds_splice0. now apply firstn_nul_free.
  - destruct (cstr_nul p Ho) as (r & Ep & Hn). do 2 eexists. split; [|split; [|split; [constructor|]]].
    + unfold fix_set. apply copy_text_max_at; [auto|lia].
    + rewrite splice_length; [auto|]. rewrite app_length, firstn_length. simpl. lia.
    + rewrite firstn_firstn. replace (Z.to_nat (Z.min n (Z.of_nat len))) with (Nat.min len (Z.to_nat n)) by lia.
      apply holds_splice0. now apply firstn_nul_free.
  - destruct (integer_to_string_ok n Ho) as (t & Ht & Hlt & E). do 2 eexists. split; [|split; [|split; [constructor; exact Ht|]]].
    + unfold fix_assign_int. rewrite E by lia. reflexivity.
    + rewrite splice_length; [auto|]. rewrite app_length, firstn_length. simpl. lia.
    + rewrite Nat2Z.id. apply holds_splice0. apply firstn_nul_free. eapply numeral_nul_free; eauto.
  - destruct (integer64_to_string_ok n Ho) as (t & Ht & Hlt & E). do 2 eexists. split; [|split; [|split; [constructor; exact Ht|]]].
    + unfold fix_assign_int64. rewrite E by lia. reflexivity.
    + rewrite splice_length; [auto|]. rewrite app_length, firstn_length. simpl. lia.
    + rewrite Nat2Z.id. apply holds_splice0. apply firstn_nul_free. eapply numeral_nul_free; eauto.
  - destruct Hi as [[]|Hh]. pose proof (holds_length _ _ Hh) as Hsl. destruct (cstr_nul p Ho) as (r & Ep & Hn).
    pose proof Hh as [Hs [rb Eb]].
    do 2 eexists. split; [|split; [|split; [constructor|]]].
    + unfold fix_append. rewrite (get_text_length_holds b s Hh). cbn [bind]. apply copy_text_max_at; [auto|lia].
    + rewrite splice_length; [auto|]. rewrite app_length, firstn_length. simpl. lia.
    + rewrite cut_app by lia. replace (Z.to_nat (Z.of_nat len - Z.of_nat (length s))) with (len - length s)%nat by lia.
      apply holds_splice; [auto|]. now apply firstn_nul_free.
  - destruct Hi as [[]|Hh]. pose proof (holds_length _ _ Hh) as Hsl. pose proof Hh as [Hs [rb Eb]].
    unfold fix_append_char. rewrite (get_text_length_holds b s Hh). cbn [bind].
    destruct (Z.ltb_spec (Z.of_nat (length s)) (Z.of_nat len)) as [Hl|Hl].
    + do 2 eexists. split; [|split; [|split; [constructor|]]].
      * rewrite wr_splice by lia. cbn [bind]. rewrite wr_splice by (rewrite splice_length; simpl; lia).
        rewrite splice_splice by (simpl; lia). reflexivity.
      * rewrite splice_length; [auto|]. simpl. lia.
      * rewrite firstn_all2 by (rewrite app_length; simpl; lia). apply (holds_splice b s [k]); [auto|repeat constructor; auto].
    + do 2 eexists. split; [reflexivity|]. split; [auto|]. split; [constructor|].
      rewrite cut_app by lia. replace (len - length s)%nat with 0%nat by lia. rewrite firstn_O, app_nil_r. exact Hh.
  - destruct Hi as [[]|Hh]. pose proof (holds_length _ _ Hh) as Hsl. pose proof Hh as [Hs [rb Eb]].
    destruct (integer_to_string_ok n Ho) as (t & Ht & Hlt & E). do 2 eexists. split; [|split; [|split; [constructor; exact Ht|]]].
    + unfold fix_append_int. rewrite (get_text_length_holds b s Hh). cbn [bind]. rewrite E by lia. reflexivity.
    + rewrite splice_length; [auto|]. rewrite app_length, firstn_length. simpl. lia.
    + rewrite cut_app by lia. replace (Z.to_nat (Z.of_nat len - Z.of_nat (length s))) with (len - length s)%nat by lia.
      apply holds_splice; [auto|]. apply firstn_nul_free. eapply numeral_nul_free; eauto.
  - destruct Hi as [[]|Hh]. pose proof (holds_length _ _ Hh) as Hsl. pose proof Hh as [Hs [rb Eb]].
    destruct (integer64_to_string_ok n Ho) as (t & Ht & Hlt & E). do 2 eexists. split; [|split; [|split; [constructor; exact Ht|]]].
    + unfold fix_append_int64. rewrite (get_text_length_holds b s Hh). cbn [bind]. rewrite E by lia. reflexivity.
    + rewrite splice_length; [auto|]. rewrite app_length, firstn_length. simpl. lia.
    + rewrite cut_app by lia. replace (Z.to_nat (Z.of_nat len - Z.of_nat (length s))) with (len - length s)%nat by lia.
      apply holds_splice; [auto|]. apply firstn_nul_free. eapply numeral_nul_free; eauto.
  - destruct Hi as [[]|Hh]. pose proof (holds_length _ _ Hh) as Hsl. destruct (cstr_nul p Ho) as (r & Ep & Hn).
    pose proof Hh as [Hs [rb Eb]].
    do 2 eexists. split; [|split; [|split; [constructor|]]].
    + unfold fix_append_string. rewrite (get_text_length_holds b s Hh). cbn [bind]. apply copy_text_max_at; [auto|lia].
    + rewrite splice_length; [auto|]. rewrite app_length, firstn_length. simpl. lia.
    + rewrite cut_app by lia. rewrite firstn_firstn.
      replace (Z.to_nat (Z.min (Z.of_nat len - Z.of_nat (length s)) n)) with (Nat.min (len - length s) (Z.to_nat n)) by lia.
      apply holds_splice; [auto|]. now apply firstn_nul_free.
Qed.

Theorem fix_run_ok len ops : forall b s, length b = S len -> Forall operand_ok ops -> holds b s ->
  exists b' s', fix_run len ops b = Ret b' /\ length b' = S len /\ cut_run len ops s s' /\ holds b' s'.
Proof.
  induction ops as [|o ops IH]; intros b s HL HF Hh.
  - exists b, s. repeat split; auto; try constructor; apply Hh.
  - inversion HF; subst. destruct (fix_step_ok len o b s HL H1 (or_intror Hh)) as (b1 & s1 & E1 & HL1 & Hm & Hh1).
    destruct (IH b1 (firstn len s1) HL1 H2 Hh1) as (b2 & s2 & E2 & HL2 & Hr & Hh2).
    exists b2, s2. cbn [fix_run]. rewrite E1. cbn [bind]. repeat split; auto; try apply Hh2. econstructor; eauto.
Qed.
