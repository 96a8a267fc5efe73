(** * Proofs about CompareNumberedTextLessThan and Hash *)

From Verif Require Import Base TextModel StringModel ToolsModel SpecNum SpecText SpecMap SpecTools.
From Verif Require Import StrtodProofs FormatProofs StringProofs ToolsProofs.

Definition no_digit_first (s : list Z) : Prop := forall c s', s = c :: s' -> ~ digit c.

Lemma u32_digit c : is_byte c -> (u32 (c - 48) <? 10) = true <-> digit c.
Proof.
  unfold is_byte, digit. intros H. destruct (Z.le_gt_cases 48 c).
  - rewrite u32_small by lia. rewrite Z.ltb_lt. lia.
  - rewrite u32_neg by lia. rewrite Z.ltb_lt. lia.
Qed.

Lemma u32_digit_val c : digit c -> u32 (c - 48) = c - 48.
Proof. unfold digit. intros H. apply u32_small. lia. Qed.

Lemma u32_digit_no c : is_byte c -> ~ digit c -> (u32 (c - 48) <? 10) = false.
Proof. intros H N. apply not_true_is_false. rewrite u32_digit by trivial. trivial. Qed.

Lemma digit_split s : exists ds s', s = ds ++ s' /\ Forall digit ds /\ no_digit_first s'.
Proof.
  induction s as [|c s (ds & s' & -> & H & N)].
  - exists [], []. repeat split; trivial. intros c s' E. discriminate.
  - destruct (Z.leb_spec 48 c), (Z.leb_spec c 57).
    2-4: exists [], (c :: ds ++ s'); repeat split; trivial; intros d t E; injection E as <- _; unfold digit; lia.
    exists (c :: ds), s'. repeat split; trivial. constructor; trivial. unfold digit. lia.
Qed.

Lemma split_unique ds : forall es s s', Forall digit ds -> Forall digit es -> no_digit_first s -> no_digit_first s' ->
  ds ++ s = es ++ s' -> ds = es /\ s = s'.
Proof.
  induction ds as [|d ds IH]; intros [|e es] s s' D E N N' H; simpl in H.
  - auto.
  - inversion_clear E. destruct (N e (es ++ s') H). trivial.
  - inversion_clear D. destruct (N' d (ds ++ s) (eq_sym H)). trivial.
  - injection H as -> H. inversion_clear D. inversion_clear E. destruct (IH es s s') as [-> ->]; auto.
Qed.

Lemma u32_idem x y : u32 (u32 x + y) = u32 (x + y).
Proof. unfold u32. apply Zplus_mod_idemp_l. Qed.

Lemma u32_mul x y z : u32 (u32 x * y + z) = u32 (x * y + z).
Proof. unfold u32. rewrite Zplus_mod, Zmult_mod_idemp_l, <- Zplus_mod. reflexivity. Qed.

Lemma read_digits_ok ds : forall s r num cnt, Forall digit ds -> bytes s -> no_digit_first s ->
  read_digits (ds ++ s ++ 0 :: r) (u32 num) cnt =
  Ret (u32 (num * 10 ^ Z.of_nat (length ds) + dvalue ds), cnt + Z.of_nat (length ds), s ++ 0 :: r).
Proof.
  induction ds as [|d ds IH]; intros s r num cnt D B N.
  - cbn [app length dvalue].
    replace (num * 10 ^ Z.of_nat 0 + 0) with num by (change (10 ^ Z.of_nat 0) with 1; lia). rewrite Z.add_0_r.
    destruct s as [|c s]; cbn [app read_digits].
    + reflexivity.
    + inversion_clear B. pose proof (u32_digit_no c H (N c s eq_refl)).
      destruct (Z.leb_spec 10 (u32 (c - 48))); [reflexivity|]. destruct (Z.ltb_spec (u32 (c - 48)) 10); [discriminate|lia].
  - inversion_clear D. cbn [app read_digits]. rewrite (u32_digit_val d H).
    destruct (Z.leb_spec 10 (d - 48)); [unfold digit in H; lia|].
    rewrite u32_idem. replace (u32 (u32 num * 10 + (d - 48))) with (u32 (num * 10 + (d - 48))) by (symmetry; apply u32_mul).
    rewrite IH by trivial. cbn [length dvalue]. rewrite Nat2Z.inj_succ, Z.pow_succ_r by lia.
    f_equal. f_equal; [f_equal; [f_equal; lia|lia]].
Qed.

(** ** Safety for all texts *)

Lemma bytes_app a b : bytes (a ++ b) -> bytes a /\ bytes b.
Proof. apply Forall_app. Qed.

Lemma digits_cut x p s : is_byte x -> digit x -> holds p (x :: s) -> bytes s ->
  exists num cnt p' s', read_digits (tl p) (u32 (x - 48)) 1 = Ret (num, cnt, p') /\ holds p' s' /\ bytes s' /\ (length s' <= length s)%nat.
Proof.
  intros Bx Dx (N & r & ->) B. cbn [app tl]. destruct (digit_split s) as (ds & s' & -> & D & ND).
  apply bytes_app in B. destruct B as [_ B]. rewrite <- app_assoc. rewrite (read_digits_ok ds s' r (x - 48) 1 D B ND).
  do 4 eexists. split; [reflexivity|]. split; [|split; [exact B|rewrite app_length; lia]].
  split; [|eexists; reflexivity]. inversion_clear N. apply Forall_app in H0. tauto.
Qed.

Section Numbered.
Variable f : Z -> Z.
Hypothesis f0 : f 0 = 0.
Hypothesis fpos : keeps_zero f.
Hypothesis fdigit : forall c, digit c -> f c = c.
Hypothesis fother : forall c, is_byte c -> ~ digit c -> ~ digit (f c).

Lemma numbered_safe fuel : forall a b p q, bytes a -> bytes b -> holds p a -> holds q b -> (length a < fuel)%nat ->
  exists r, numbered_loop f fuel p q = Ret r.
Proof.
  induction fuel as [|fuel IH]; intros a b p q Ba Bb P Q L; [lia|].
  destruct a as [|x a].
  - destruct (holds_nil _ P) as (r & ->). destruct b as [|y b].
    + destruct (holds_nil _ Q) as (r' & ->). cbn. rewrite f0. simpl. eauto.
    + destruct (holds_cons _ _ _ Q) as (q' & -> & N & Q'). cbn [numbered_loop]. change (u32 (0 - 48) <? 10) with false.
      cbn [andb]. rewrite f0, orb_true_r. eauto.
  - destruct (holds_cons _ _ _ P) as (p' & -> & N & P'). inversion_clear Ba as [|? ? Bx Ba'].
    destruct b as [|y b].
    + destruct (holds_nil _ Q) as (r' & ->). cbn [numbered_loop]. change (u32 (0 - 48) <? 10) with false.
      rewrite andb_false_r, f0. pose proof (fpos x Bx N). destruct (Z.eqb_spec (f x) 0); [lia|]. simpl. eauto.
    + destruct (holds_cons _ _ _ Q) as (q' & -> & N' & Q'). inversion_clear Bb as [|? ? By Bb']. cbn [numbered_loop].
      destruct ((u32 (x - 48) <? 10) && (u32 (y - 48) <? 10)) eqn:E.
      * apply andb_prop in E. destruct E as [Ex Ey]. apply u32_digit in Ex, Ey; trivial.
        destruct (digits_cut x (x :: p') a Bx Ex P Ba') as (xn & xc & p2 & a2 & E1 & P2 & Ba2 & La).
        destruct (digits_cut y (y :: q') b By Ey Q Bb') as (yn & yc & q2 & b2 & E2 & Q2 & Bb2 & Lb).
        cbn [tl] in E1, E2. rewrite E1. cbn [bind]. rewrite E2. cbn [bind].
        destruct (negb (xn =? yn)); [eauto|]. destruct (xc <? yc); [eauto|].
        apply (IH a2 b2); trivial. simpl in L. lia.
      * destruct (negb (f x =? f y) || (f x =? 0)); [eauto|]. apply (IH a b); trivial. simpl in L. lia.
Qed.

(** ** The order of sort keys *)

Lemma sort_key_char c s k : ~ digit c -> sort_key f (c :: s) k -> exists k', k = (f c, 0) :: k' /\ sort_key f s k'.
Proof.
  intros N H. inversion H as [|? ? k' ? ?|ds s' k' NE D ND K E]; subst; [eauto|].
  destruct ds as [|d ds]; [contradiction|]. injection E as -> _. inversion_clear D. contradiction.
Qed.

Lemma sort_key_group ds s k : ds <> [] -> Forall digit ds -> no_digit_first s -> sort_key f (ds ++ s) k ->
  exists k', k = (48, dvalue ds) :: k' /\ sort_key f s k'.
Proof.
  intros NE D ND H. inversion H as [E|c s' k' N K E|es s' k' NE' D' ND' K E]; subst.
  - symmetry in E. apply app_eq_nil in E. tauto.
  - destruct ds as [|d ds]; [contradiction|]. injection E as -> _. inversion_clear D. contradiction.
  - destruct (split_unique es ds s' s) as [-> ->]; trivial. eauto.
Qed.

Lemma sort_key_nil k : sort_key f [] k -> k = [].
Proof.
  intros H. inversion H as [|c s' k' N K E|es s' k' NE' D' ND' K E]; subst; trivial.
  apply app_eq_nil in E. destruct E as [-> ->]. contradiction.
Qed.

Lemma key_lt_cons x a b : key_lt (x :: a) (x :: b) <-> key_lt a b.
Proof. split; intros H; [inversion H; subst; try lia; trivial|constructor 4; trivial]. Qed.

Lemma key_lt_char x y m n a b : x <> y -> key_lt ((x, m) :: a) ((y, n) :: b) <-> x < y.
Proof. intros N. split; intros H; [inversion H; subst; try contradiction; trivial|constructor; trivial]. Qed.

Lemma key_lt_num x m n a b : m <> n -> key_lt ((x, m) :: a) ((x, n) :: b) <-> m < n.
Proof. intros N. split; intros H; [inversion H; subst; lia||(try contradiction; trivial)|constructor 3; trivial]. Qed.

Lemma canonical ds es : Forall digit ds -> Forall digit es -> ds <> [] -> es <> [] ->
  (ds = [48] \/ hd 48 ds <> 48) -> (es = [48] \/ hd 48 es <> 48) -> dvalue ds = dvalue es -> ds = es.
Proof.
  intros D E Nd Ne Cd Ce H. destruct ds as [|d ds]; [contradiction|]. destruct es as [|e es]; [contradiction|].
  destruct Cd as [Cd|Cd], Ce as [Ce|Ce].
  - congruence.
  - rewrite Cd in H. simpl in Ce. pose proof (dvalue_pos e es E Ce). change (dvalue [48]) with 0 in H. lia.
  - rewrite Ce in H. simpl in Cd. pose proof (dvalue_pos d ds D Cd). change (dvalue [48]) with 0 in H. lia.
  - apply dvalue_inj; trivial.
Qed.

Lemma fdigit_pair x y : is_byte y -> digit x -> ~ digit y -> f x <> f y /\ (f x <? f y) = (48 <? f y) /\ (f y <? f x) = (f y <? 48).
Proof.
  intros B D N. rewrite (fdigit x D). pose proof (fother y B N). unfold digit in *. repeat split; lia.
Qed.

Lemma numbered_ok fuel : forall a b ka kb p q, bytes a -> bytes b -> plain_numbers a -> plain_numbers b ->
  sort_key f a ka -> sort_key f b kb -> holds p a -> holds q b -> (length a < fuel)%nat ->
  exists r, numbered_loop f fuel p q = Ret r /\ (r = true <-> key_lt ka kb).
Proof.
  induction fuel as [|fuel IH]; intros a b ka kb p q Ba Bb PNa PNb Ka Kb P Q L; [lia|].
  destruct a as [|x a].
  - apply sort_key_nil in Ka. subst ka. destruct (holds_nil _ P) as (r & ->). destruct b as [|y b].
    + apply sort_key_nil in Kb. subst kb. destruct (holds_nil _ Q) as (r' & ->). cbn. rewrite f0. simpl.
      exists false. split; trivial. split; [discriminate|intros H; inversion H].
    + destruct (holds_cons _ _ _ Q) as (q' & -> & N & Q'). cbn [numbered_loop]. change (u32 (0 - 48) <? 10) with false.
      cbn [andb]. rewrite f0, orb_true_r. eexists. split; [reflexivity|]. inversion_clear Bb.
      pose proof (fpos y H N). assert (exists k0 k1, kb = k0 :: k1) as (k0 & k1 & ->) by (inversion Kb; subst; eauto).
      split; intros; [constructor|lia].
  - destruct (holds_cons _ _ _ P) as (p' & -> & N & P').
    destruct b as [|y b].
    + inversion Ba as [|? ? Bx Ba']; subst.
      apply sort_key_nil in Kb. subst kb. destruct (holds_nil _ Q) as (r' & ->). cbn [numbered_loop].
      change (u32 (0 - 48) <? 10) with false.
      rewrite andb_false_r, f0. pose proof (fpos x Bx N). destruct (Z.eqb_spec (f x) 0); [lia|]. cbn [negb orb].
      eexists. split; [reflexivity|]. split; [lia|intros H1; inversion H1].
    + destruct (holds_cons _ _ _ Q) as (q' & -> & N' & Q').
      assert (Bx : is_byte x) by (inversion Ba; trivial). assert (By : is_byte y) by (inversion Bb; trivial).
      assert (Ba' : bytes a) by (inversion Ba; trivial). assert (Bb' : bytes b) by (inversion Bb; trivial).
      pose proof (fpos x Bx N) as Px. pose proof (fpos y By N') as Py.
      inversion PNa as [|? ? Nx PNa' E1|ds s Nds Dds NDs Cds Lds PNs E1]; subst;
        inversion PNb as [|? ? Ny PNb' E2|es t Nes Des NDt Ces Les PNt E2]; subst.
      * destruct (sort_key_char _ _ _ Nx Ka) as (ka' & -> & Ka'). destruct (sort_key_char _ _ _ Ny Kb) as (kb' & -> & Kb').
        cbn [numbered_loop]. rewrite (u32_digit_no x Bx Nx). cbn [andb].
        destruct (Z.eqb_spec (f x) (f y)) as [E|E]; cbn [negb orb].
        -- destruct (Z.eqb_spec (f x) 0); [lia|]. destruct (IH a b ka' kb' p' q') as (r & -> & Hr); trivial; [simpl in L; lia|].
           exists r. split; trivial. rewrite E, key_lt_cons. exact Hr.
        -- eexists. split; [reflexivity|]. rewrite key_lt_char by trivial. apply Z.ltb_lt.
      * destruct (sort_key_char _ _ _ Nx Ka) as (ka' & -> & Ka').
        rewrite <- E2 in Kb. destruct (sort_key_group es t kb Nes Des NDt Kb) as (kb' & -> & Kb').
        destruct es as [|e es]; [contradiction|]. injection E2 as -> E2. inversion Des; subst.
        cbn [numbered_loop]. rewrite (u32_digit_no x Bx Nx). cbn [andb].
        destruct (fdigit_pair y x Bx ltac:(trivial) Nx) as (H3 & H4 & H5).
        destruct (Z.eqb_spec (f x) (f y)) as [E|E]; [congruence|]. cbn [negb orb]. eexists. split; [reflexivity|].
        rewrite key_lt_char; [rewrite H5; apply Z.ltb_lt|]. pose proof (fother x Bx Nx). unfold digit in *. lia.
      * destruct (sort_key_char _ _ _ Ny Kb) as (kb' & -> & Kb').
        rewrite <- E1 in Ka. destruct (sort_key_group ds s ka Nds Dds NDs Ka) as (ka' & -> & Ka').
        destruct ds as [|d ds]; [contradiction|]. injection E1 as -> E1. inversion Dds; subst.
        cbn [numbered_loop]. rewrite (u32_digit_no y By Ny), andb_false_r.
        destruct (fdigit_pair x y By ltac:(trivial) Ny) as (H3 & H4 & H5).
        destruct (Z.eqb_spec (f x) (f y)) as [E|E]; [congruence|]. cbn [negb orb]. eexists. split; [reflexivity|].
        rewrite key_lt_char; [rewrite H4; apply Z.ltb_lt|]. pose proof (fother y By Ny). unfold digit in *. lia.
      * rewrite <- E1 in Ka. destruct (sort_key_group ds s ka Nds Dds NDs Ka) as (ka' & -> & Ka').
        rewrite <- E2 in Kb. destruct (sort_key_group es t kb Nes Des NDt Kb) as (kb' & -> & Kb').
        pose proof (dvalue_nonneg _ Dds) as NNd. pose proof (dvalue_nonneg _ Des) as NNe.
        pose proof (canonical ds es Dds Des Nds Nes Cds Ces) as Can.
        assert (L1 : (length s <= length a)%nat).
        { apply (f_equal (@length Z)) in E1. rewrite app_length in E1. simpl in E1. destruct ds; [contradiction|simpl in E1; lia]. }
        destruct ds as [|d ds]; [contradiction|]. injection E1 as -> E1. inversion Dds as [|? ? Dx Dds']; subst.
        destruct es as [|e es]; [contradiction|]. injection E2 as -> E2. inversion Des as [|? ? Dy Des']; subst.
        cbn [numbered_loop]. rewrite (proj2 (u32_digit x Bx) Dx), (proj2 (u32_digit y By) Dy). cbn [andb].
        apply bytes_app in Ba', Bb'. destruct Ba' as [_ Bs], Bb' as [_ Bt].
        destruct P' as (NP & r & ->). destruct Q' as (NQ & r' & ->). rewrite <- !app_assoc.
        rewrite (read_digits_ok ds s r (x - 48) 1 Dds' Bs NDs). cbn [bind].
        rewrite (read_digits_ok es t r' (y - 48) 1 Des' Bt NDt). cbn [bind].
        cbn [dvalue] in *. rewrite !u32_small by lia.
        apply Forall_app in NP, NQ.
        destruct (Z.eqb_spec ((x - 48) * 10 ^ Z.of_nat (length ds) + dvalue ds) ((y - 48) * 10 ^ Z.of_nat (length es) + dvalue es)) as [E|E];
          cbn [negb].
        -- specialize (Can E). injection Can as -> ->. rewrite Z.ltb_irrefl.
           destruct (IH s t ka' kb' (s ++ 0 :: r) (t ++ 0 :: r')) as (z & -> & Hz); trivial.
           { split; [tauto|eexists; reflexivity]. }
           { split; [tauto|eexists; reflexivity]. }
           { simpl in L. lia. }
           exists z. split; trivial. rewrite key_lt_cons. exact Hz.
        -- eexists. split; [reflexivity|]. rewrite key_lt_num by trivial. apply Z.ltb_lt.
Qed.

(** Every text without superfluous zeros has a sort key; equal keys are equal texts up to [f]. *)
Lemma plain_key a : plain_numbers a -> exists k, sort_key f a k.
Proof.
  induction 1 as [|c s N P (k & K)|ds s NE D ND C L P (k & K)]; [exists []; constructor| |].
  - exists ((f c, 0) :: k). constructor; trivial.
  - exists ((48, dvalue ds) :: k). constructor; trivial.
Qed.

Lemma key_inj a : plain_numbers a -> forall b k, bytes a -> bytes b -> plain_numbers b -> sort_key f a k -> sort_key f b k -> map f a = map f b.
Proof.
  assert (Nil : forall b, sort_key f b [] -> b = []).
  { intros b H. inversion H. reflexivity. }
  induction 1 as [|c s N P IH|ds s NE D ND C L P IH]; intros b k Ba Bb Pb Ka Kb.
  - apply sort_key_nil in Ka. subst k. apply Nil in Kb. subst. reflexivity.
  - inversion Ba as [|? ? Bc Bs]; subst. destruct (sort_key_char _ _ _ N Ka) as (k' & -> & K').
    inversion Pb as [|d t Nd Pt E|es t Nes Des NDt Ces Les PNt E]; subst.
    + apply sort_key_nil in Kb. discriminate.
    + destruct (sort_key_char _ _ _ Nd Kb) as (k'' & E & K''). inversion E; subst. inversion Bb; subst.
      simpl. rewrite H0. f_equal. eapply IH; eauto.
    + destruct (sort_key_group _ _ _ Nes Des NDt Kb) as (k'' & E & K''). inversion E; subst.
      destruct (fother c Bc N). rewrite H0. unfold digit. lia.
  - apply bytes_app in Ba. destruct Ba as [_ Bs]. destruct (sort_key_group _ _ _ NE D ND Ka) as (k' & -> & K').
    inversion Pb as [|d t Nd Pt E|es t Nes Des NDt Ces Les PNt E]; subst.
    + apply sort_key_nil in Kb. discriminate.
    + destruct (sort_key_char _ _ _ Nd Kb) as (k'' & E & K''). inversion E; subst. inversion Bb as [|? ? Bd Bt]; subst.
      destruct (fother d Bd Nd). rewrite <- H0. unfold digit. lia.
    + destruct (sort_key_group _ _ _ Nes Des NDt Kb) as (k'' & E & K''). inversion E; subst.
      rewrite (canonical ds es D Des NE Nes C Ces H0), !map_app. f_equal. apply bytes_app in Bb. eapply IH; eauto. tauto.
Qed.

Lemma key_inj_conv a b : bytes a -> bytes b -> map f a = map f b -> forall ka, sort_key f a ka -> sort_key f b ka.
Proof.
  intros Ba Bb E ka Ka. revert b Bb E.
  assert (Dig : forall c d, is_byte c -> is_byte d -> f c = f d -> digit c -> c = d).
  { intros c d Bc Bd E D. destruct (Z_le_dec 48 d), (Z_le_dec d 57).
    1: { rewrite (fdigit c D), (fdigit d) in E by (unfold digit; lia). trivial. }
    all: destruct (fother d Bd); [unfold digit; lia|]; rewrite <- E, (fdigit c D); trivial. }
  induction Ka as [|c s k N K IH|ds s k NE D ND K IH]; intros b Bb E.
  - destruct b; [constructor|discriminate].
  - destruct b as [|d b]; [discriminate|]. simpl in E. injection E as E1 E2. inversion_clear Ba. inversion_clear Bb.
    rewrite E1. constructor; [|apply IH; trivial]. intros Dd. apply N. rewrite <- (Dig d c); auto.
  - apply bytes_app in Ba. destruct Ba as [Bds Bs].
    assert (exists t, b = ds ++ t /\ map f s = map f t) as (t & -> & E').
    { clear IH K ND NE. revert b Bb E. induction D as [|x ds Dx D IHD]; intros b Bb E; [exists b; auto|].
      destruct b as [|y b]; [discriminate|]. simpl in E. injection E as E1 E2. inversion_clear Bb. inversion_clear Bds.
      destruct (IHD ltac:(trivial) b) as (t & -> & E'); trivial. exists t. split; trivial. simpl. f_equal. symmetry. apply Dig; auto. }
    apply bytes_app in Bb. destruct Bb as [_ Bt]. constructor; trivial; [|apply IH; trivial].
    intros c s' ->. destruct s as [|d s]; [discriminate|]. simpl in E'. injection E' as E1 E2. intros Dc.
    inversion_clear Bs. inversion_clear Bt. apply (ND d s eq_refl). rewrite <- (Dig c d); auto.
Qed.

End Numbered.

Lemma key_irrefl a : ~ key_lt a a.
Proof. induction a as [|x a IH]; intros H; inversion H; subst; try lia; auto. Qed.

Lemma key_trans a : forall b c, key_lt a b -> key_lt b c -> key_lt a c.
Proof.
  induction a as [|[x m] a IH]; intros b c H1 H2; inversion H1; subst; inversion H2; subst;
    try (constructor; fail); try (constructor 2; lia); try (constructor 3; lia).
  constructor 4. eauto.
Qed.

Lemma key_total a : forall b, key_lt a b \/ a = b \/ key_lt b a.
Proof.
  induction a as [|[x m] a IH]; intros [|[y n] b]; auto.
  - left. constructor.
  - right. right. constructor.
  - destruct (Z.lt_trichotomy x y) as [L|[->|L]]; [left; constructor 2; trivial| |right; right; constructor 2; trivial].
    destruct (Z.lt_trichotomy m n) as [L|[->|L]]; [left; constructor 3; trivial| |right; right; constructor 3; trivial].
    destruct (IH b) as [H|[->|H]]; [left; constructor 4; trivial|auto|right; right; constructor 4; trivial].
Qed.

Lemma upper_digit c : digit c -> fold_upper c = c.
Proof. unfold digit. intros H. rewrite fold_upper_ok by (unfold is_byte; lia). unfold upper. destruct (Z.leb_spec 97 c); simpl; lia. Qed.
Lemma upper_other c : is_byte c -> ~ digit c -> ~ digit (fold_upper c).
Proof.
  unfold digit, is_byte. intros H N. rewrite fold_upper_ok by (unfold is_byte; lia). unfold upper.
  destruct (Z.leb_spec 97 c), (Z.leb_spec c 122); simpl; lia.
Qed.

(** ** Hash *)

Definition hash_step (h c : Z) : Z := u32 (u32 (Z.lxor h c * 0x6B84DF47) + 1).

Lemma u32_range x : 0 <= u32 x < 4294967296.
Proof. unfold u32. apply Z.mod_pos_bound. lia. Qed.

Lemma lxor_range a b : 0 <= a < 4294967296 -> 0 <= b < 4294967296 -> 0 <= Z.lxor a b < 4294967296.
Proof.
  intros A B. assert (0 <= Z.lxor a b) as L by (apply Z.lxor_nonneg; lia). split; trivial.
  destruct (Z.eq_dec (Z.lxor a b) 0) as [->|N]; [lia|].
  change 4294967296 with (2 ^ 32). apply Z.log2_lt_pow2; [lia|].
  pose proof (Z.log2_lxor a b ltac:(lia) ltac:(lia)).
  assert (forall x, 0 <= x < 4294967296 -> Z.log2 x < 32) as G.
  { intros x X. destruct (Z.eq_dec x 0) as [->|N']; [simpl; lia|]. apply Z.log2_lt_pow2; simpl; lia. }
  pose proof (G a A). pose proof (G b B). lia.
Qed.

Lemma mul_odd_inj x y : 0 <= x < 4294967296 -> 0 <= y < 4294967296 ->
  u32 (u32 (x * 0x6B84DF47) + 1) = u32 (u32 (y * 0x6B84DF47) + 1) -> x = y.
Proof.
  intros X Y E. rewrite !u32_idem in E. unfold u32 in E.
  assert (G : forall z, 0 <= z < 4294967296 -> ((z * 0x6B84DF47 + 1) mod 4294967296 - 1) * 309926519 mod 4294967296 = z).
  { intros z Hz. rewrite Z.mul_sub_distr_r, Zminus_mod, Zmult_mod_idemp_l, <- Zminus_mod.
    replace ((z * 0x6B84DF47 + 1) * 309926519 - 1 * 309926519) with (z + (z * 130167966) * 4294967296) by lia.
    rewrite Z_mod_plus_full. apply Z.mod_small. trivial. }
  rewrite <- (G x X), <- (G y Y), E. reflexivity.
Qed.

Lemma hash_step_range h c : 0 <= hash_step h c < 4294967296.
Proof. apply u32_range. Qed.

Lemma hash_step_inj_h h h' c : 0 <= h < 4294967296 -> 0 <= h' < 4294967296 -> is_byte c -> hash_step h c = hash_step h' c -> h = h'.
Proof.
  unfold is_byte. intros H H' C E. apply mul_odd_inj in E; try (apply lxor_range; lia).
  apply (f_equal (fun x => Z.lxor x c)) in E. rewrite !Z.lxor_assoc, Z.lxor_nilpotent, !Z.lxor_0_r in E. trivial.
Qed.

Lemma hash_step_inj_c h c c' : 0 <= h < 4294967296 -> is_byte c -> is_byte c' -> hash_step h c = hash_step h c' -> c = c'.
Proof.
  unfold is_byte. intros H C C' E. apply mul_odd_inj in E; try (apply lxor_range; lia).
  apply (f_equal (Z.lxor h)) in E. rewrite <- !Z.lxor_assoc, Z.lxor_nilpotent, !Z.lxor_0_l in E. trivial.
Qed.

Lemma hash_fold s : forall p h, holds p s -> hash_text p h = Ret (fold_left hash_step s h).
Proof.
  induction s as [|c s IH]; intros p h H.
  - destruct (holds_nil _ H) as (r & ->). reflexivity.
  - destruct (holds_cons _ _ _ H) as (p' & -> & N & H'). simpl. destruct (Z.eqb_spec c 0); [contradiction|]. apply IH. trivial.
Qed.

Lemma fold_range s h : 0 <= h < 4294967296 -> 0 <= fold_left hash_step s h < 4294967296.
Proof. revert h. induction s as [|c s IH]; intros h H; simpl; trivial. apply IH. apply hash_step_range. Qed.

Lemma fold_inj s : forall h h', bytes s -> 0 <= h < 4294967296 -> 0 <= h' < 4294967296 ->
  fold_left hash_step s h = fold_left hash_step s h' -> h = h'.
Proof.
  induction s as [|c s IH]; intros h h' B H H' E; simpl in E; trivial. inversion_clear B.
  apply IH in E; trivial; try apply hash_step_range. apply hash_step_inj_h in E; trivial.
Qed.
