(** * The strtod model converts the longest decimal prefix. *)

From Verif Require Import Base NumModel SpecNum.

#[local] Arguments Z.eqb : simpl nomatch.

Lemma is_digit_spec c : reflect (digit c) (is_digit c).
Proof. unfold is_digit, digit. destruct ((48 <=? c) && (c <=? 57)) eqn:E; constructor; lia. Qed.

Lemma fold_dvalue s : forall a, fold_left (fun a c => 10 * a + (c - 48)) s a = a * 10 ^ Z.of_nat (length s) + dvalue s.
Proof.
  induction s as [|c s IH]; intros a; simpl fold_left; simpl dvalue.
  - simpl. change (Z.of_nat 0) with 0. rewrite Z.pow_0_r. lia.
  - rewrite IH. simpl length. rewrite Nat2Z.inj_succ, Z.pow_succ_r by lia. ring.
Qed.

Lemma digits_val_dvalue s : digits_val s = dvalue s.
Proof. unfold digits_val. rewrite fold_dvalue. lia. Qed.

Lemma dvalue_nonneg s : digits s -> 0 <= dvalue s.
Proof.
  induction 1 as [|c s Hc Hs IH]; simpl; [lia|]. unfold digit in Hc.
  assert (0 <= 10 ^ Z.of_nat (length s)) by (apply Z.pow_nonneg; lia). nia.
Qed.

(** No digit at the front. *)
Definition no_digit_head (s : list Z) : Prop := forall c r, s = c :: r -> ~ digit c.

Lemma span_spec s : forall d r, span_digits s = (d, r) -> s = d ++ r /\ digits d /\ no_digit_head r.
Proof.
  induction s as [|c s IH]; intros d r H; simpl in H.
  - injection H as <- <-. repeat split; [constructor|]. intros c r E; discriminate.
  - destruct (is_digit_spec c) as [Hc|Hc].
    + destruct (span_digits s) as [d1 r1] eqn:E. injection H as <- <-.
      destruct (IH d1 r1 eq_refl) as (-> & H2 & H3). repeat split; auto. constructor; auto.
    + injection H as <- <-. repeat split; [constructor|]. intros c' r E. injection E as <- <-. auto.
Qed.

(** A digit prefix is a prefix of the maximal one. *)
Lemma digits_prefix d : forall r d' r', d ++ r = d' ++ r' -> digits d -> no_digit_head r -> digits d' ->
  exists d'', d = d' ++ d'' /\ r' = d'' ++ r.
Proof.
  induction d as [|c d IH]; intros r d' r' E Hd Hr Hd'.
  - destruct d' as [|c' d']; [exists []; auto|]. simpl in E. subst r. inversion Hd'; subst.
    exfalso. eapply Hr; [reflexivity|auto].
  - destruct d' as [|c' d']; [exists (c :: d); auto|]. simpl in E. injection E as <- E.
    inversion Hd; inversion Hd'; subst. destruct (IH _ _ _ E) as (d'' & -> & ->); auto.
    exists d''. auto.
Qed.

(** ** Exponent *)

Lemma take_sign_spec s neg r : take_sign s = (neg, r) ->
  exists sg, s = sg ++ r /\ sign_text sg neg /\ (sg = [] -> forall c q, s = c :: q -> c <> 43 /\ c <> 45).
Proof.
  destruct s as [|c s]; simpl; intros H.
  - injection H as <- <-. exists []. repeat split; try constructor; discriminate.
  - destruct (Z.eqb_spec c 45).
    + injection H as <- <-. exists [45]. subst. repeat split; try constructor; discriminate.
    + destruct (Z.eqb_spec c 43).
      * injection H as <- <-. exists [43]. subst. repeat split; try constructor; discriminate.
      * injection H as <- <-. exists []. split; [auto|]. split; [constructor|]. intros _ c' q E. injection E as <- <-. auto.
Qed.

Definition no_sign_head (s : list Z) : Prop := forall c q, s = c :: q -> c <> 43 /\ c <> 45.

(** The sign split is determined when something that is no sign follows. *)
Lemma sign_unique sg neg r sg' neg' r' : sg ++ r = sg' ++ r' -> sign_text sg neg -> sign_text sg' neg' ->
  (sg = [] -> no_sign_head r) -> (sg' = [] -> no_sign_head r') -> sg = sg' /\ neg = neg' /\ r = r'.
Proof.
  intros E H1 H2 N1 N2. destruct H1, H2; simpl in E; try discriminate;
    try (injection E as E; auto; fail); auto; exfalso.
  - destruct (N1 eq_refl 43 r' E); congruence.
  - destruct (N1 eq_refl 45 r' E); congruence.
  - destruct (N2 eq_refl 43 r (eq_sym E)); congruence.
  - destruct (N2 eq_refl 45 r (eq_sym E)); congruence.
Qed.

Lemma digits_no_sign ds r : digits ds -> ds <> [] -> no_sign_head (ds ++ r).
Proof.
  intros Hd Hne c q E. destruct ds as [|x ds]; [congruence|]. injection E as <- <-.
  inversion Hd; subst. unfold digit in *. lia.
Qed.

Lemma take_exponent_spec s ex r : take_exponent s = (ex, r) ->
  exists t, s = t ++ r /\ exp_text t ex /\
    forall t' r' ex', s = t' ++ r' -> exp_text t' ex' -> (length t' <= length t)%nat.
Proof.
  intros H. unfold take_exponent in H. destruct s as [|c s1].
  - injection H as <- <-. exists []. repeat split; [constructor|].
    intros t' r' ex' E _. destruct t'; [simpl; lia|discriminate].
  - destruct ((c =? 101) || (c =? 69)) eqn:Ec.
    + destruct (take_sign s1) as [neg s2] eqn:E1. destruct (span_digits s2) as [ds s3] eqn:E2.
      apply take_sign_spec in E1. destruct E1 as (sg & -> & Hsg & Hn).
      apply span_spec in E2. destruct E2 as (-> & Hd & Hr).
      assert (Hmax : forall t' r' ex', c :: sg ++ ds ++ s3 = t' ++ r' -> exp_text t' ex' ->
                t' = [] \/ (length t' <= 1 + length sg + length ds)%nat /\ ds <> []).
      { intros t' r' ex' E Ht. inversion Ht as [|e sg' neg' ds' He Hsg' Hd' Hne]; subst; [auto|]. right.
        simpl in E. injection E as <- E.
        rewrite <- app_assoc in E.
        destruct (sign_unique sg neg (ds ++ s3) sg' neg' (ds' ++ r')) as (-> & <- & E'); auto.
        { intros ->. intros c' q' Eq. apply (Hn eq_refl c' q'). exact Eq. }
        { intros _. apply digits_no_sign; auto. }
        destruct (digits_prefix ds s3 ds' r') as (d'' & -> & _); auto.
        simpl. rewrite !app_length. split; [lia|]. destruct ds'; [congruence|discriminate]. }
      destruct ds as [|x ds].
      * injection H as <- <-. exists []. repeat split; [constructor|].
        intros t' r' ex' E Ht. destruct (Hmax t' r' ex' E Ht) as [->|[_ F]]; [simpl; lia|congruence].
      * injection H as <- <-. exists (c :: sg ++ x :: ds). rewrite digits_val_dvalue.
        split; [simpl; now rewrite <- app_assoc|]. split.
        { constructor; auto; [lia|discriminate]. }
        intros t' r' ex' E Ht. destruct (Hmax t' r' ex' E Ht) as [->|[F _]]; [simpl; lia|].
        simpl in *. rewrite app_length. simpl. lia.
    + injection H as <- <-. exists []. repeat split; [constructor|].
      intros t' r' ex' E Ht. inversion Ht; subst; [simpl; lia|]. exfalso. simpl in E. injection E as -> _. lia.
Qed.

Lemma exp_text_head t x c q r : exp_text t x -> t ++ r = c :: q -> t = [] \/ c = 101 \/ c = 69.
Proof. intros H E. destruct H; [auto|]. right. simpl in E. injection E as <- _. tauto. Qed.

Lemma exp_text_head' t x c q : exp_text t x -> t = c :: q -> c = 101 \/ c = 69.
Proof. intros H E. destruct H; [discriminate|]. injection E as <- _. tauto. Qed.

(** ** strtod *)

Ltac len := simpl; rewrite ?app_length; simpl; rewrite ?app_length; simpl; lia.

(** Decimal prefixes after the sign. *)
Lemma mantissa_max ip s2 fr fp s3 ex s4 :
  digits ip -> no_digit_head s2 ->
  s2 = fr ++ s3 -> frac_text fr fp -> ip ++ fp <> [] ->
  (fr = [] -> forall q, s2 = 46 :: q -> ip = [] /\ no_digit_head q) -> no_digit_head s3 \/ fr = [] ->
  s3 = ex ++ s4 ->
  (forall t' r' x', s3 = t' ++ r' -> exp_text t' x' -> (length t' <= length ex)%nat) ->
  forall ip' fr' fp' ex' x' r',
    ip ++ s2 = (ip' ++ fr' ++ ex') ++ r' -> digits ip' -> frac_text fr' fp' -> ip' ++ fp' <> [] -> exp_text ex' x' ->
    (length (ip' ++ fr' ++ ex') <= length (ip ++ fr ++ ex))%nat.
Proof.
  intros Hip Hs2 E2 Hfr Hne Hdot Hs3 E3 Hmax ip' fr' fp' ex' x' r' E Hip' Hfr' Hne' Hex'.
  rewrite <- !app_assoc in E.
  destruct (digits_prefix ip s2 ip' (fr' ++ ex' ++ r')) as (d & Ed & Er); auto.
  destruct d as [|c d].
  - rewrite app_nil_r in Ed. subst ip'. simpl in Er. symmetry in Er.
    destruct Hfr' as [|ds' Hds'].
    + simpl in Er. destruct Hfr as [|ds Hds].
      * simpl in E2. subst s2. apply Hmax with (x' := x') in Er; [|auto].
        len.
      * destruct (exp_text_head ex' x' 46 (ds ++ s3) r' Hex') as [->|[?|?]]; try discriminate.
        { rewrite <- Er, E2. reflexivity. }
        len.
    + simpl in Er. destruct Hfr as [|ds Hds].
      * destruct (Hdot eq_refl _ Er) as [-> Hq]. exfalso.
        destruct ds' as [|y ds']; [simpl in Hne'; congruence|].
        inversion Hds'; subst. eapply Hq; [reflexivity|auto].
      * rewrite E2 in Er. simpl in Er. injection Er as Er.
        destruct Hs3 as [Hs3|]; [|discriminate].
        destruct (digits_prefix ds s3 ds' (ex' ++ r')) as (d2 & Ed2 & Er2); auto.
        destruct d2 as [|c d2].
        -- rewrite app_nil_r in Ed2. subst ds'. symmetry in Er2. simpl in Er2. apply Hmax with (x' := x') in Er2; [|auto].
           len.
        -- destruct (exp_text_head ex' x' c (d2 ++ s3) r' Hex') as [->|Hc]; [auto| |].
           ++ subst ds. len.
           ++ exfalso. rewrite Ed2 in Hds. apply Forall_app in Hds. destruct Hds as [_ Hds].
              inversion Hds; subst. unfold digit in *. lia.
  - assert (Hc : digit c). { rewrite Ed in Hip. apply Forall_app in Hip. destruct Hip as [_ Hd]. inversion Hd; auto. }
    unfold digit in Hc.
    destruct Hfr' as [|ds' Hds']; [|simpl in Er; injection Er as E0 _; lia].
    simpl in Er. destruct (exp_text_head ex' x' c (d ++ s2) r' Hex') as [->|Hc']; [auto| |lia].
    subst ip. len.
Qed.

Lemma decimal_no_sign sg neg ip fr fp ex x r :
  sign_text sg neg -> digits ip -> frac_text fr fp -> ip ++ fp <> [] -> exp_text ex x ->
  no_sign_head ((ip ++ fr ++ ex) ++ r).
Proof.
  intros _ Hip Hfr Hne _ c q E. destruct ip as [|y ip].
  - destruct Hfr; [simpl in Hne; congruence|]. simpl in E. injection E as <- _. lia.
  - simpl in E. injection E as <- _. inversion Hip; subst. unfold digit in *. lia.
Qed.

(** The frac split computed by the model. *)
Lemma frac_split ip s2 fp s3 : digits ip -> no_digit_head s2 ->
  (match s2 with
   | c :: s' => if c =? 46 then
                  let '(fp, s'') := span_digits s' in
                  match ip, fp with
                  | [], [] => ([], s2)
                  | _, _ => (fp, s'')
                  end
                else ([], s2)
   | [] => ([], [])
   end) = (fp, s3) ->
  exists fr, s2 = fr ++ s3 /\ frac_text fr fp /\
    (fr = [] -> forall q, s2 = 46 :: q -> ip = [] /\ no_digit_head q) /\ (no_digit_head s3 \/ fr = []).
Proof.
  intros Hip Hs2 H. destruct s2 as [|c s'].
  - injection H as <- <-. exists []. split; [auto|]. split; [constructor|]. split; [discriminate|auto].
  - destruct (Z.eqb_spec c 46) as [->|Hc].
    + destruct (span_digits s') as [fp1 s''] eqn:E. apply span_spec in E. destruct E as (-> & Hd & Hr).
      destruct ip as [|y ip]; [destruct fp1 as [|z fp1]|].
      * injection H as <- <-. exists []. split; [auto|]. split; [constructor|].
        split; [|auto]. intros _ q Eq. injection Eq as <-. auto.
      * injection H as <- <-. exists (46 :: z :: fp1). split; [auto|]. split; [constructor; auto|].
        split; [discriminate|auto].
      * injection H as <- <-. exists (46 :: fp1). split; [auto|]. split; [constructor; auto|].
        split; [discriminate|auto].
    + injection H as <- <-. exists []. split; [auto|]. split; [constructor|].
      split; [|auto]. intros _ q Eq. congruence.
Qed.

Lemma strtod_sound s v rest : strtod s = Some (v, rest) ->
  exists pre n m e, s = pre ++ rest /\ decimal pre n m e /\ v = dec_to_double n m e /\
    forall pre' suf' n' m' e', s = pre' ++ suf' -> decimal pre' n' m' e' -> (length pre' <= length pre)%nat.
Proof.
  unfold strtod. intros H.
  destruct (take_sign s) as [neg s1] eqn:E1. apply take_sign_spec in E1. destruct E1 as (sg & -> & Hsg & Hn).
  destruct (span_digits s1) as [ip s2] eqn:E2. apply span_spec in E2. destruct E2 as (-> & Hip & Hs2).
  match type of H with (let '(fp, s3) := ?X in _) = _ => destruct X as [fp s3] eqn:E3 end.
  apply frac_split in E3; auto. destruct E3 as (fr & E3 & Hfr & Hdot & Hs3).
  destruct (take_exponent s3) as [ex s4] eqn:E4. apply take_exponent_spec in E4.
  destruct E4 as (tx & -> & Hex & Hmax).
  assert (Hne : ip ++ fp <> []). { destruct ip, fp; discriminate. }
  assert (H' : Some (dec_to_double neg (digits_val (ip ++ fp)) (ex - Z.of_nat (length fp)), s4) = Some (v, rest)).
  { destruct ip, fp; auto; simpl in Hne; congruence. }
  clear H. injection H' as <- <-.
  exists (sg ++ ip ++ fr ++ tx), neg, (dvalue (ip ++ fp)), (ex - Z.of_nat (length fp)).
  split; [rewrite E3, <- !app_assoc; reflexivity|]. split; [constructor; auto|].
  split; [now rewrite digits_val_dvalue|].
  intros pre' suf' n' m' e' E Hdec. inversion Hdec as [sg' neg' ip' fr' fp' ex' x' Hsg' Hip' Hfr' Hne' Hex' Ep En Em Ee].
  subst pre'. rewrite <- app_assoc in E.
  destruct (sign_unique sg neg (ip ++ s2) sg' n' ((ip' ++ fr' ++ ex') ++ suf')) as (<- & _ & E'); auto.
  { intros ->. intros c q Eq. apply (Hn eq_refl c q). exact Eq. }
  { intros _. eapply decimal_no_sign; eauto. }
  assert (length (ip' ++ fr' ++ ex') <= length (ip ++ fr ++ tx))%nat.
  { eapply (mantissa_max ip s2 fr fp (tx ++ s4) tx s4); eauto. }
  rewrite !(app_length sg). lia.
Qed.

Lemma strtod_none s : strtod s = None ->
  forall pre suf n m e, s = pre ++ suf -> ~ decimal pre n m e.
Proof.
  unfold strtod. intros H pre suf n m e E Hdec.
  inversion Hdec as [sg' neg' ip' fr' fp' ex' x' Hsg' Hip' Hfr' Hne' Hex' Ep En Em Ee]. subst.
  destruct (take_sign ((sg' ++ ip' ++ fr' ++ ex') ++ suf)) as [neg s1] eqn:E1. apply take_sign_spec in E1.
  destruct E1 as (sg & E1 & Hsg & Hn).
  rewrite <- app_assoc in E1, Hn.
  destruct (sign_unique sg' n ((ip' ++ fr' ++ ex') ++ suf) sg neg s1) as (-> & _ & E'); auto.
  { intros _. eapply decimal_no_sign; eauto. }
  { intros ->. intros c q Eq. apply (Hn eq_refl c q). rewrite E1. exact Eq. }
  destruct (span_digits s1) as [ip s2] eqn:E2. apply span_spec in E2. destruct E2 as (-> & Hip & Hs2).
  match type of H with (let '(fp, s3) := ?X in _) = _ => destruct X as [fp s3] eqn:E3 end.
  apply frac_split in E3; auto. destruct E3 as (fr & E3 & Hfr & Hdot & Hs3).
  assert (Hz : ip = [] /\ fp = []).
  { destruct ip, fp; auto; destruct (take_exponent s3); discriminate. }
  destruct Hz as [-> ->]. simpl in E'. symmetry in E'. rewrite <- !app_assoc in E'.
  destruct ip' as [|y ip'].
  - destruct Hfr' as [|ds' Hds']; [simpl in Hne'; congruence|].
    simpl in E'. destruct ds' as [|y ds']; [simpl in Hne'; congruence|].
    inversion Hds' as [|? ? Hy Hds2]; subst. inversion Hfr as [E5 E6|ds Hds E5 E6].
    + destruct (Hdot (eq_sym E5) _ E') as [_ Hq]. eapply Hq; [reflexivity|auto].
    + rewrite <- E5 in E'. simpl in E'. injection E' as E'.
      rewrite E6 in E'. destruct Hs3 as [Hs3|]; [|congruence]. eapply Hs3; [exact E'|auto].
  - inversion Hip'; subst. eapply Hs2; [exact E'|auto].
Qed.

(** ** A literal has one reading *)

Lemma exp_head_ok ex x : exp_text ex x -> no_digit_head ex.
Proof. intros H c q E. apply (exp_text_head' _ _ _ _ H) in E. unfold digit. lia. Qed.

Lemma frac_exp_head fr fp ex x : frac_text fr fp -> exp_text ex x -> no_digit_head (fr ++ ex).
Proof.
  intros Hf Hx. destruct Hf as [|ds Hds]; [simpl; eapply exp_head_ok; eauto|].
  intros c q E. simpl in E. injection E as <- _. unfold digit. lia.
Qed.

Lemma digits_split_unique d r d' r' : d ++ r = d' ++ r' -> digits d -> no_digit_head r -> digits d' -> no_digit_head r' ->
  d = d' /\ r = r'.
Proof.
  intros E Hd Hr Hd' Hr'. destruct (digits_prefix d r d' r' E Hd Hr Hd') as (x & -> & ->).
  destruct x as [|c x]; [rewrite app_nil_r; auto|].
  exfalso. apply Forall_app in Hd. destruct Hd as [_ Hd]. inversion Hd; subst. eapply Hr'; [reflexivity|auto].
Qed.

Lemma exp_unique t x x' : exp_text t x -> exp_text t x' -> x = x'.
Proof.
  intros H H'. destruct H as [|e sg neg ds He Hsg Hd Hne]; inversion H' as [|e' sg' neg' ds' He' Hsg' Hd' Hne' Et]; subst; auto.
  destruct (sign_unique sg' neg' ds' sg neg ds) as (-> & -> & ->); auto.
  - intros _. rewrite <- (app_nil_r ds'). apply digits_no_sign; auto.
  - intros _. rewrite <- (app_nil_r ds). apply digits_no_sign; auto.
Qed.

Lemma decimal_unique t n m e n' m' e' : decimal t n m e -> decimal t n' m' e' -> n = n' /\ m = m' /\ e = e'.
Proof.
  intros H H'.
  destruct H as [sg neg ip fr fp ex x Hsg Hip Hfr Hne Hex].
  inversion H' as [sg' neg' ip' fr' fp' ex' x' Hsg' Hip' Hfr' Hne' Hex' Et]. subst.
  destruct (sign_unique sg' n' (ip' ++ fr' ++ ex') sg neg (ip ++ fr ++ ex)) as (-> & -> & E); auto.
  - intros _. rewrite <- (app_nil_r (ip' ++ _)). eapply decimal_no_sign; eauto.
  - intros _. rewrite <- (app_nil_r (ip ++ _)). eapply decimal_no_sign; eauto.
  - destruct (digits_split_unique ip' (fr' ++ ex') ip (fr ++ ex)) as [-> E2]; auto;
      try (eapply frac_exp_head; eauto).
    assert (Hx : fp' = fp /\ ex' = ex).
    { destruct Hfr as [|ds Hds], Hfr' as [|ds' Hds']; simpl in E2.
      - auto.
      - exfalso. symmetry in E2. apply (exp_text_head' _ _ _ _ Hex) in E2. lia.
      - exfalso. apply (exp_text_head' _ _ _ _ Hex') in E2. lia.
      - injection E2 as E2. destruct (digits_split_unique ds' ex' ds ex) as [-> ->]; auto; eapply exp_head_ok; eauto. }
    destruct Hx as [-> ->]. repeat split. f_equal. eapply exp_unique; eauto.
Qed.

Lemma decimal_nonneg t n m e : decimal t n m e -> 0 <= m.
Proof.
  intros H. destruct H as [sg neg ip fr fp ex x Hsg Hip Hfr Hne Hex]. apply dvalue_nonneg.
  apply Forall_app. split; [auto|]. destruct Hfr; [constructor|auto].
Qed.
