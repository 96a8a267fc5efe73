(** * Proofs about the portable number reader. *)

From Verif Require Import Base TextModel NumModel ParserModel SpecNum SpecPortable PortableModel
  StrtodProofs RoundProofs LexProofs SpecGrammar.

(** ** Characters *)

Lemma digit_x c : is_byte c -> (u32 (c - 48) <? 10) = is_digit c.
Proof.
  unfold is_byte, u32, is_digit. intros H.
  destruct (Z.le_gt_cases 48 c) as [L|L].
  - rewrite Z.mod_small by lia. lia.
  - replace ((c - 48) mod 4294967296) with (c - 48 + 4294967296); [lia|].
    rewrite <- (Z.mod_small (c - 48 + 4294967296) 4294967296) by lia.
    rewrite <- Z.add_mod_idemp_r by lia. rewrite Z.mod_same by lia. f_equal. lia.
Qed.

Lemma sep_x c : is_byte c -> (u32 (c - 48) =? 47) = (c =? 95).
Proof.
  unfold is_byte, u32. intros H.
  destruct (Z.le_gt_cases 48 c) as [L|L].
  - rewrite Z.mod_small by lia. lia.
  - replace ((c - 48) mod 4294967296) with (c - 48 + 4294967296); [lia|].
    rewrite <- (Z.mod_small (c - 48 + 4294967296) 4294967296) by lia.
    rewrite <- Z.add_mod_idemp_r by lia. rewrite Z.mod_same by lia. f_equal. lia.
Qed.

Lemma digit_val c : digit c -> u32 (c - 48) = c - 48.
Proof. unfold digit, u32. intros. apply Z.mod_small. lia. Qed.

Lemma digit_yes c : digit c -> is_digit c = true.
Proof. intros H. destruct (is_digit_spec c); tauto. Qed.
Lemma digit_no c : ~ digit c -> is_digit c = false.
Proof. intros H. destruct (is_digit_spec c); tauto. Qed.
Lemma digit_byte c : digit c -> is_byte c.
Proof. unfold digit, is_byte. lia. Qed.

(** ** The common scanner of the three loops: digits passed, whether the last
    character was a digit, and the rest; [None]: a misplaced underscore. *)
Fixpoint scan (p : ptr) (dig : bool) : out (option (list Z * bool * ptr)) :=
  match p with
  | [] => UB
  | c :: p' =>
      if is_digit c then
        let! r := scan p' true in
        Ret (match r with Some (ds, d, q) => Some (c :: ds, d, q) | None => None end)
      else if c =? 95 then if negb dig then Ret None else scan p' false
      else Ret (Some ([], dig, p))
  end.

Definition whole_val (v : double) (ds : list Z) : double :=
  fold_left (fun v c => dadd (dmul v dten) (dint (c - 48))) ds v.
Fixpoint frac_val (v dec : double) (ds : list Z) : double :=
  match ds with
  | [] => v
  | c :: ds' => frac_val (dadd v (ddiv (dint (c - 48)) dec)) (dmul dec dten) ds'
  end.
Definition exp_val (e : Z) (ds : list Z) : Z := fold_left (fun e c => Z.min (e * 10 + (c - 48)) 65535) ds e.
Definition nonempty {A} (l : list A) : bool := match l with [] => false | _ => true end.

Definition flow {A} (r : out (option (list Z * bool * ptr))) (f : list Z -> bool -> ptr -> A) : out (status + A) :=
  match r with
  | Ret (Some (ds, d, q)) => Ret (inr (f ds d q))
  | Ret None => Ret (inl kFloatInvalid)
  | UB => UB
  | OutOfFuel => OutOfFuel
  end.

Lemma whole_scan p : bytes p -> forall v dig whole,
  whole_loop false p v dig whole = flow (scan p dig) (fun ds d q => (whole_val v ds, d, whole || nonempty ds, q)).
Proof.
  induction p as [|c p IH]; intros HB v dig whole; [reflexivity|]. inversion HB as [|? ? Hc HB']; subst.
  simpl. rewrite digit_x, sep_x by auto. destruct (is_digit_spec c) as [D|D].
  - rewrite andb_false_r, IH by auto. rewrite digit_val by auto.
    destruct (scan p true) as [[[[ds d] q]|]| |]; simpl; try reflexivity.
    rewrite orb_true_r. reflexivity.
  - destruct (c =? 95).
    + destruct dig; simpl; [|reflexivity]. rewrite IH by auto. reflexivity.
    + simpl. rewrite orb_false_r. reflexivity.
Qed.

Lemma fraction_scan p : bytes p -> forall v dec dig frac,
  fraction_loop p v dec dig frac = flow (scan p dig) (fun ds d q => (frac_val v dec ds, d, frac || nonempty ds, q)).
Proof.
  induction p as [|c p IH]; intros HB v dec dig frac; [reflexivity|]. inversion HB as [|? ? Hc HB']; subst.
  simpl. rewrite digit_x, sep_x by auto. destruct (is_digit_spec c) as [D|D].
  - rewrite IH by auto. rewrite digit_val by auto.
    destruct (scan p true) as [[[[ds d] q]|]| |]; simpl; try reflexivity.
    rewrite orb_true_r. reflexivity.
  - destruct (c =? 95).
    + destruct dig; simpl; [|reflexivity]. rewrite IH by auto. reflexivity.
    + simpl. rewrite orb_false_r. reflexivity.
Qed.

(** The exponent stays below 65536, so that nothing overflows. *)
Lemma exponent_scan p : bytes p -> forall e dig, 0 <= e <= 65535 ->
  exponent_loop p e dig = flow (scan p dig) (fun ds d q => (exp_val e ds, d, q)).
Proof.
  induction p as [|c p IH]; intros HB e dig He; [reflexivity|]. inversion HB as [|? ? Hc HB']; subst.
  simpl. rewrite digit_x, sep_x by auto. destruct (is_digit_spec c) as [D|D].
  - unfold s32. replace ((-2147483648 <=? e * 10) && (e * 10 <=? 2147483647)) with true by lia.
    cbn [bind]. rewrite digit_val by auto. unfold digit in D.
    assert (E : min32 (to_i32 (u32 (e * 10 + (c - 48)))) 65535 = Z.min (e * 10 + (c - 48)) 65535).
    { unfold u32. rewrite Z.mod_small by lia. unfold to_i32, min32.
      replace (e * 10 + (c - 48) <? 2147483648) with true by lia.
      destruct (e * 10 + (c - 48) <? 65535) eqn:L; lia. }
    rewrite E, IH by (auto; lia).
    destruct (scan p true) as [[[[ds d] q]|]| |]; reflexivity.
  - destruct (c =? 95).
    + destruct dig; simpl; [|reflexivity]. now rewrite IH.
    + reflexivity.
Qed.

Lemma exp_val_range ds : digits ds -> forall e, 0 <= e <= 65535 -> 0 <= exp_val e ds <= 65535.
Proof.
  induction ds as [|c ds IH]; intros HD e He; simpl; [lia|]. inversion HD as [|? ? Hc HD']; subst.
  unfold digit in Hc. apply IH; auto. lia.
Qed.

(** ** What the scanner finds *)

Definition stop (p : ptr) : Prop := exists c r, p = c :: r /\ ~ digit c /\ c <> 95.

Definition found (p : ptr) (ds : list Z) (d : bool) (q : ptr) : Prop :=
  exists t, p = t ++ q /\ stop q /\
    (t = [] /\ ds = [] /\ d = false \/ groups t ds /\ d = true \/
     exists t', t = t' ++ [95] /\ groups t' ds /\ d = false).

Lemma groups_head c c' t ds : digit c' -> groups (c :: t) (c :: ds) -> groups (c' :: t) (c' :: ds).
Proof.
  intros H G. inversion G; subst; [apply g_one; assumption|apply g_digit; assumption|apply g_sep; assumption].
Qed.

Lemma groups_digits t ds : groups t ds -> digits ds /\ ds <> [].
Proof. induction 1; split; try discriminate; constructor; auto; try constructor; tauto. Qed.

Lemma groups_shape t ds : groups t ds -> exists c t' ds', t = c :: t' /\ ds = c :: ds' /\ digit c.
Proof. destruct 1; eauto 6. Qed.

Lemma scan_spec p : terminated p -> forall dig, exists r, scan p dig = Ret r /\
  forall ds d q, r = Some (ds, d, q) ->
    if dig then found (48 :: p) (48 :: ds) d q else found p ds d q.
Proof.
  induction p as [|c p IH]; intros HT dig; [now apply terminated_nonnil in HT|].
  simpl. destruct (is_digit_spec c) as [D|D].
  - destruct (IH (terminated_tail c p ltac:(unfold digit in D; lia) HT) true) as (r & -> & H). simpl.
    eexists. split; [reflexivity|]. intros ds d q E. destruct r as [[[ds0 d0] q0]|]; [|discriminate].
    injection E as <- <- <-. destruct (H _ _ _ eq_refl) as (t & E & S & C).
    assert (D48 : digit 48) by (unfold digit; lia).
    destruct C as [(-> & E2 & _)|[[G ->]|(t' & -> & G & ->)]]; [discriminate| |].
    + destruct (groups_shape _ _ G) as (c0 & t1 & ds1 & -> & E1 & Dc). injection E1 as <- <-.
      injection E as ->.
      assert (G' : groups (c :: t1) (c :: ds0)) by (eapply groups_head; eauto).
      destruct dig.
      * exists (48 :: c :: t1). split; [reflexivity|]. split; [auto|]. right. left. split; [|auto]. apply g_digit; auto.
      * exists (c :: t1). split; [reflexivity|]. split; [auto|]. right. left. auto.
    + destruct (groups_shape _ _ G) as (c0 & t1 & ds1 & -> & E1 & Dc). injection E1 as <- <-.
      injection E as ->.
      assert (G' : groups (c :: t1) (c :: ds0)) by (eapply groups_head; eauto).
      destruct dig.
      * exists ((48 :: c :: t1) ++ [95]). split; [reflexivity|]. split; [auto|]. right. right.
        exists (48 :: c :: t1). split; [auto|]. split; [|auto]. apply g_digit; auto.
      * exists ((c :: t1) ++ [95]). split; [reflexivity|]. split; [auto|]. right. right. eauto.
  - destruct (Z.eqb_spec c 95) as [->|N].
    + destruct dig; simpl; [|eexists; split; [reflexivity|discriminate]].
      destruct (IH (terminated_tail 95 p ltac:(lia) HT) false) as (r & -> & H).
      eexists. split; [reflexivity|]. intros ds d q ->.
      destruct (H _ _ _ eq_refl) as (t & -> & S & C).
      assert (D48 : digit 48) by (unfold digit; lia).
      destruct C as [(-> & -> & ->)|[[G ->]|(t' & -> & G & ->)]].
      * exists ([48] ++ [95]). split; [reflexivity|]. split; [auto|]. right. right. exists [48].
        split; [auto|]. split; [constructor; auto|auto].
      * exists (48 :: 95 :: t). split; [reflexivity|]. split; [auto|]. right. left. split; [apply g_sep|]; auto.
      * exists ((48 :: 95 :: t') ++ [95]). split; [reflexivity|]. split; [auto|]. right. right.
        exists (48 :: 95 :: t'). split; [auto|]. split; [apply g_sep|]; auto.
    + eexists. split; [reflexivity|]. intros ds d q E. injection E as <- <- <-.
      assert (S : stop (c :: p)) by (exists c, p; auto).
      destruct dig.
      * exists [48]. split; [reflexivity|]. split; [auto|]. right. left. split; [|auto]. constructor. unfold digit. lia.
      * exists []. split; [reflexivity|]. auto.
Qed.

Lemma scan_groups t ds : groups t ds -> forall q dig, stop q -> scan (t ++ q) dig = Ret (Some (ds, true, q)).
Proof.
  induction 1 as [c D|c t ds D G IH|c t ds D G IH]; intros q dig S; simpl; rewrite (digit_yes c D).
  - destruct S as (c' & r & -> & N1 & N2). simpl. rewrite (digit_no c' N1).
    destruct (Z.eqb_spec c' 95); [contradiction|]. reflexivity.
  - rewrite IH by auto. reflexivity.
  - simpl. rewrite IH by auto. reflexivity.
Qed.

Lemma scan_none q dig : stop q -> scan q dig = Ret (Some ([], dig, q)).
Proof.
  intros (c & r & -> & N1 & N2). simpl. rewrite (digit_no c N1).
  destruct (Z.eqb_spec c 95); [contradiction|]. reflexivity.
Qed.

(** ** The integer part after a leading 0 *)

Definition zfound (p : ptr) (ds : list Z) (d : bool) (q : ptr) : Prop :=
  exists t, p = t ++ q /\ stop q /\
    (t = [] /\ ds = [] /\ d = false \/ singles t ds /\ d = true \/
     exists t', t = t' ++ [95] /\ singles t' ds /\ d = false).

(** Two digits in a row after single digits. *)
Definition doubled (p : ptr) : Prop := exists t ds c rest, singles t ds /\ digit c /\ p = t ++ c :: rest.

Lemma singles_shape t ds : singles t ds -> exists c t' ds', t = c :: t' /\ ds = c :: ds' /\ digit c.
Proof. destruct 1; eauto 6. Qed.

Lemma whole_zero p : terminated p -> bytes p -> forall v dig whole, exists r, whole_loop true p v dig whole = Ret r /\
  match r with
  | inl kNumbersCannotHaveLeadingZeros => if dig then doubled (48 :: p) else doubled p
  | inl st => st = kFloatInvalid
  | inr (v', d, w, q) => exists ds, v' = whole_val v ds /\ w = whole || nonempty ds /\
      if dig then zfound (48 :: p) (48 :: ds) d q else zfound p ds d q
  end.
Proof.
  assert (D48 : digit 48) by (unfold digit; lia).
  induction p as [|c p IH]; intros HT HB v dig whole; [now apply terminated_nonnil in HT|].
  inversion HB as [|? ? Hc HB']; subst. simpl. rewrite digit_x, sep_x by auto. destruct (is_digit_spec c) as [D|D].
  - destruct dig; simpl.
    + eexists. split; [reflexivity|]. simpl. exists [48], [48], c, p. split; [constructor; auto|auto].
    + destruct (IH (terminated_tail c p ltac:(unfold digit in D; lia) HT) HB' (dadd (dmul v dten) (dint (u32 (c - 48)))) true true)
        as (r & -> & H).
      eexists. split; [reflexivity|]. destruct r as [st|[[[v' d] w] q]].
      * destruct st; auto. destruct H as (t & ds & c' & rest & G & Dc & E).
        destruct (singles_shape _ _ G) as (c0 & t1 & ds1 & -> & -> & _). injection E as <- ->.
        exists (c :: t1), (c :: ds1), c', rest. split; [|auto]. inversion G; subst; constructor; auto.
      * destruct H as (ds & -> & -> & t & E & S & C). exists (c :: ds). rewrite digit_val by auto.
        split; [reflexivity|]. split; [simpl; now rewrite orb_true_r|].
        destruct C as [(-> & E2 & _)|[[G ->]|(t' & -> & G & ->)]]; [discriminate| |].
        -- destruct (singles_shape _ _ G) as (c0 & t1 & ds1 & -> & E1 & _). injection E1 as <- <-. injection E as ->.
           exists (c :: t1). split; [reflexivity|]. split; [auto|]. right. left. split; [|auto].
           inversion G; subst; constructor; auto.
        -- destruct (singles_shape _ _ G) as (c0 & t1 & ds1 & -> & E1 & _). injection E1 as <- <-. injection E as ->.
           exists ((c :: t1) ++ [95]). split; [reflexivity|]. split; [auto|]. right. right. exists (c :: t1).
           split; [auto|]. split; [|auto]. inversion G; subst; constructor; auto.
  - destruct (Z.eqb_spec c 95) as [->|N].
    + destruct dig; simpl; [|eexists; split; [reflexivity|reflexivity]].
      destruct (IH (terminated_tail 95 p ltac:(lia) HT) HB' v false whole) as (r & -> & H).
      eexists. split; [reflexivity|]. destruct r as [st|[[[v' d] w] q]].
      * destruct st; auto. destruct H as (t & ds & c' & rest & G & Dc & ->).
        exists (48 :: 95 :: t), (48 :: ds), c', rest. split; [constructor; auto|auto].
      * destruct H as (ds & -> & -> & t & -> & S & C). exists ds. split; [auto|]. split; [auto|].
        destruct C as [(-> & -> & ->)|[[G ->]|(t' & -> & G & ->)]].
        -- exists ([48] ++ [95]). split; [reflexivity|]. split; [auto|]. right. right. exists [48].
           split; [auto|]. split; [constructor; auto|auto].
        -- exists (48 :: 95 :: t). split; [reflexivity|]. split; [auto|]. right. left. split; [constructor|]; auto.
        -- exists ((48 :: 95 :: t') ++ [95]). split; [reflexivity|]. split; [auto|]. right. right.
           exists (48 :: 95 :: t'). split; [auto|]. split; [constructor|]; auto.
    + eexists. split; [reflexivity|]. simpl. exists []. split; [auto|]. split; [now rewrite orb_false_r|].
      assert (S : stop (c :: p)) by (exists c, p; auto).
      destruct dig.
      * exists [48]. split; [reflexivity|]. split; [auto|]. right. left. split; [|auto]. constructor. auto.
      * exists []. split; [reflexivity|]. auto.
Qed.

Lemma whole_singles t ds : singles t ds -> forall q v whole, bytes t -> bytes q -> stop q ->
  whole_loop true (t ++ q) v false whole = Ret (inr (whole_val v ds, true, true, q)).
Proof.
  induction 1 as [c D|c t ds D G IH]; intros q v whole HB HQ S; simpl; rewrite digit_x, (digit_yes c D) by (now apply digit_byte);
    simpl; rewrite (digit_val c D).
  - destruct S as (c' & r & -> & N1 & N2). inversion HQ; subst. simpl. rewrite digit_x, sep_x, (digit_no c' N1) by auto.
    destruct (Z.eqb_spec c' 95); [contradiction|]. reflexivity.
  - rewrite IH; auto. inversion HB as [|? ? H1 H2]; subst. now inversion H2.
Qed.

Lemma whole_doubled t ds : singles t ds -> forall c rest v whole, digit c ->
  whole_loop true (t ++ c :: rest) v false whole = Ret (inl kNumbersCannotHaveLeadingZeros).
Proof.
  induction 1 as [c0 D|c0 t ds D G IH]; intros c rest v whole Dc; simpl; rewrite digit_x, (digit_yes c0 D) by (now apply digit_byte); simpl.
  - rewrite digit_x, (digit_yes c Dc) by (now apply digit_byte). reflexivity.
  - now apply IH.
Qed.

(** ** Powers of ten *)

Definition power_of (neg : bool) (e : Z) : double :=
  if neg then if 309 <=? e then S754_zero false else dec_to_double false 1 (- e)
  else if 309 <=? e then S754_infinity false else dec_to_double false 1 e.

Lemma nth_map_seq {A} (f : nat -> A) n i : (i < n)%nat -> nth_error (map f (seq 0 n)) i = Some (f i).
Proof.
  intros H. rewrite nth_error_map.
  rewrite (nth_error_nth' (seq 0 n) 0%nat) by now rewrite seq_length. rewrite seq_nth by auto. reflexivity.
Qed.

Lemma max_zero_ok x : - 2147483648 <= x <= 2147483647 -> max_zero x = Z.max 0 x.
Proof.
  intros H. unfold max_zero. rewrite Z.shiftr_div_pow2 by lia.
  destruct (Z.le_gt_cases 0 x) as [L|L].
  - rewrite Z.div_small by lia. change (Z.lnot 0) with (-1). rewrite Z.land_m1_r. lia.
  - assert (E : x / 2 ^ 31 = -1) by (symmetry; apply (Z.div_unique x (2 ^ 31) (-1) (x + 2 ^ 31)); lia).
    rewrite E. change (Z.lnot (-1)) with 0. rewrite Z.land_0_r. lia.
Qed.

Opaque dec_to_double.

Lemma minus_entry e : 0 <= e <= 65535 -> entry minus_power10 (max_zero (309 - e)) = Ret (power_of true e).
Proof.
  intros H. rewrite max_zero_ok by lia. unfold entry, power_of.
  replace (Z.max 0 (309 - e) <? 0) with false by lia.
  destruct (309 <=? e) eqn:L.
  - replace (Z.max 0 (309 - e)) with 0 by lia. reflexivity.
  - replace (Z.to_nat (Z.max 0 (309 - e))) with (S (Z.to_nat (308 - e))) by lia.
    unfold minus_power10. cbn [nth_error]. rewrite nth_map_seq by lia. do 2 f_equal. lia.
Qed.

Lemma plus_entry e : 0 <= e <= 65535 -> entry plus_power10 (min32 e 309) = Ret (power_of false e).
Proof.
  intros H. unfold entry, power_of, min32.
  destruct (e <? 309) eqn:L.
  - replace (e <? 0) with false by lia. replace (309 <=? e) with false by lia.
    unfold plus_power10. rewrite nth_error_app1 by (rewrite map_length, seq_length; lia).
    rewrite nth_map_seq by lia. do 2 f_equal. lia.
  - replace (309 <=? e) with true by lia. replace (309 <? 0) with false by reflexivity.
    unfold plus_power10. rewrite nth_error_app2 by (rewrite map_length, seq_length; lia).
    rewrite map_length, seq_length. replace (Z.to_nat 309 - 309)%nat with O by lia. reflexivity.
Qed.

Definition scaled (v : double) (ex : option (bool * list Z)) : double :=
  match ex with None => v | Some (neg, ds) => dmul v (power_of neg (exp_val 0 ds)) end.

(** The value of a literal with the given digits. *)
Definition literal_value (ip fp : list Z) (ex : option (bool * list Z)) : double :=
  scaled (frac_val (whole_val (S754_zero false) ip) dten fp) ex.

(** ** The exponent part *)

Definition no_exp (q : ptr) : Prop := exists c r, q = c :: r /\ c <> 101 /\ c <> 69.

Lemma entries (neg : bool) ds v (q : ptr) : digits ds ->
  (if neg then let! i := s32 (309 - exp_val 0 ds) in
               let! f := entry minus_power10 (max_zero i) in Ret (inr (dmul v f, q))
   else let! f := entry plus_power10 (min32 (exp_val 0 ds) 309) in Ret (inr (dmul v f, q)))
  = Ret (@inr status _ (scaled v (Some (neg, ds)), q)).
Proof.
  intros HD. pose proof (exp_val_range ds HD 0 ltac:(lia)) as R. destruct neg.
  - unfold s32. replace (_ && _) with true by lia. cbn [bind]. rewrite minus_entry by auto. reflexivity.
  - rewrite plus_entry by auto. reflexivity.
Qed.

(** The sign of the exponent. *)
Lemma exp_sign (p : ptr) c : terminated p -> rd p 0 = Ret c ->
  exists (sg : ptr) neg (q : ptr), exponent_sign c p = (neg, q) /\
    p = sg ++ q /\ sign_text sg neg /\ terminated q.
Proof.
  intros HT E. destruct p as [|c0 p]; [discriminate|]. injection E as ->. unfold exponent_sign.
  destruct (Z.eqb_spec c 45) as [->|N]; [|destruct (Z.eqb_spec c 43) as [->|N']].
  - exists [45], true, p. repeat split; [constructor|]. eapply terminated_tail; [|eassumption]; lia.
  - exists [43], false, p. repeat split; [constructor|]. eapply terminated_tail; [|eassumption]; lia.
  - exists [], false, (c :: p). repeat split; [constructor|auto].
Qed.

Lemma exponent_part_spec p v : terminated p -> bytes p -> exists r, exponent_part p v = Ret r /\
  match r with
  | inl st => st = kFloatInvalid
  | inr (v', q) => exists x ex, p = x ++ q /\ p_exp x ex /\ v' = scaled v ex /\
      (x = [] -> no_exp q) /\ (x <> [] -> stop q)
  end.
Proof.
  intros HT HB. destruct p as [|c p]; [now apply terminated_nonnil in HT|].
  unfold exponent_part. rewrite rd0. cbn [bind].
  destruct ((c =? 101) || (c =? 69)) eqn:Ec.
  - change (skipn 1 (c :: p)) with p.
    assert (HT' : terminated p) by (eapply terminated_tail; [|eassumption]; lia).
    destruct (terminated_head p HT') as (c1 & r1 & E1).
    assert (R : rd p 0 = Ret c1) by (subst; apply rd0). rewrite R. cbn [bind].
    destruct (exp_sign p c1 HT' R) as (sg & neg & q & -> & Ep & Hsg & HTq).
    assert (HBq : bytes q). { apply (bytes_app sg q). rewrite <- Ep. now inversion HB. }
    rewrite exponent_scan by (auto; lia).
    destruct (scan_spec q HTq false) as (r & -> & H). destruct r as [[[ds d] q']|]; simpl.
    2:{ eexists. split; [reflexivity|]. reflexivity. }
    destruct (H _ _ _ eq_refl) as (t & Eq & S & C).
    destruct d; simpl.
    2:{ eexists. split; [reflexivity|]. reflexivity. }
    destruct C as [(_ & _ & ?)|[[G _]|(t' & _ & _ & ?)]]; try discriminate.
    destruct (groups_digits _ _ G) as [HD _].
    rewrite entries by auto. eexists. split; [reflexivity|].
    exists (c :: sg ++ t), (Some (neg, ds)). split; [rewrite Ep, Eq; simpl; now rewrite <- app_assoc|].
    split; [constructor; auto; lia|]. split; [reflexivity|]. split; [discriminate|auto].
  - eexists. split; [reflexivity|]. exists [], None. repeat split; try constructor; [|congruence].
    intros _. exists c, p. split; [auto|]. lia.
Qed.

Lemma sign_skip (sg : ptr) neg (t : ptr) ds (q : ptr) c : sign_text sg neg -> groups t ds -> rd (sg ++ t ++ q) 0 = Ret c ->
  exponent_sign c (sg ++ t ++ q) = (neg, t ++ q).
Proof.
  intros Hs G E. unfold exponent_sign. destruct Hs; simpl in E; try (injection E as <-; reflexivity).
  destruct (groups_shape _ _ G) as (c0 & t1 & ds1 & -> & -> & D). injection E as <-. unfold digit in D.
  destruct (Z.eqb_spec c0 45); [lia|]. destruct (Z.eqb_spec c0 43); [lia|]. reflexivity.
Qed.

Lemma groups_bytes t ds : groups t ds -> bytes t.
Proof.
  induction 1; repeat (constructor; try (now apply digit_byte)); auto; unfold is_byte; lia.
Qed.

Lemma exponent_part_complete x ex q v : p_exp x ex -> bytes q -> (x = [] -> no_exp q) -> (x <> [] -> stop q) ->
  exponent_part (x ++ q) v = Ret (inr (scaled v ex, q)).
Proof.
  intros H HB H0 H1. destruct H as [|e sg neg t ds He Hs G].
  - destruct (H0 eq_refl) as (c & r & -> & N1 & N2). unfold exponent_part. simpl app. rewrite rd0. cbn [bind].
    destruct (Z.eqb_spec c 101); [contradiction|]. destruct (Z.eqb_spec c 69); [contradiction|]. reflexivity.
  - unfold exponent_part. simpl app. rewrite rd0. cbn [bind].
    replace ((e =? 101) || (e =? 69)) with true by lia. cbn [skipn].
    rewrite <- app_assoc.
    assert (E : exists c, rd (sg ++ t ++ q) 0 = Ret c).
    { destruct (groups_shape _ _ G) as (c0 & t1 & ds1 & -> & _). destruct Hs; eexists; reflexivity. }
    destruct E as [c E]. rewrite E. cbn [bind]. rewrite (sign_skip sg neg t ds q c Hs G E).
    rewrite exponent_scan; [|apply bytes_app; split; [eapply groups_bytes; eauto|auto]|lia].
    rewrite (scan_groups t ds G) by (apply H1; discriminate). simpl.
    destruct (groups_digits _ _ G) as [HD _]. now rewrite entries.
Qed.

(** ** The whole reader *)

Lemma found_suffix p t q : terminated p -> p = t ++ q -> stop q -> terminated q.
Proof. intros HT -> (c & r & -> & _). eapply terminated_suffix; [eassumption|discriminate]. Qed.

Lemma stop_not q : stop q -> forall c r, q = c :: r -> ~ digit c /\ c <> 95.
Proof. intros (c & r & -> & ?) c' r' E. injection E as <- <-. auto. Qed.

(** After the integer part. *)
Definition tail_of (text : ptr) (v : double) (whole : bool) (p : ptr) : out (status * nat * double) :=
  let fail st := Ret (st, O, S754_nan) in
  let! c := rd p 0 in
  let! r :=
    (if c =? 46 then
       let! r := fraction_loop (skipn 1 p) v dten false false in
       match r with
       | inl st => Ret (inl st)
       | inr (v, dig, frac, p) =>
           if (frac : bool) && negb dig then Ret (inl kFloatInvalid) else Ret (inr (v, frac, p))
       end
     else Ret (inr (v, false, p))) in
  match r with
  | inl st => fail st
  | inr (v, frac, p) =>
      if negb (whole || (frac : bool)) then fail kFloatInvalid
      else
        let! r := exponent_part p v in
        match r with
        | inl st => fail st
        | inr (v, p) => Ret (kOk, (length text - length p)%nat, v)
        end
  end.

Definition tail_ends (f x : list Z) (q : ptr) : Prop := exists c r, q = c :: r /\ ends f x c.

Lemma tail_spec text v whole p : terminated p -> bytes p -> stop p -> exists st n d,
  tail_of text v whole p = Ret (st, n, d) /\
  (st = kFloatInvalid \/
   st = kOk /\ exists f fp x ex q, p = f ++ x ++ q /\ p_frac f fp /\ p_exp x ex /\ tail_ends f x q /\
     (whole = true \/ fp <> []) /\ n = (length text - length q)%nat /\ d = scaled (frac_val v dten fp) ex).
Proof.
  intros HT HB HS. destruct HS as (c & p' & -> & N1 & N2). unfold tail_of. rewrite rd0. cbn [bind].
  destruct (Z.eqb_spec c 46) as [->|Nc].
  - change (skipn 1 (46 :: p')) with p'.
    assert (HT' : terminated p') by (eapply terminated_tail; [|eassumption]; lia).
    assert (HB' : bytes p') by now inversion HB.
    rewrite fraction_scan by auto. destruct (scan_spec p' HT' false) as (r & -> & H).
    destruct r as [[[ds d] q]|]; simpl. 2:{ do 3 eexists. split; [reflexivity|auto]. }
    destruct (H _ _ _ eq_refl) as (t & Ep & S & C). pose proof (found_suffix _ _ _ HT' Ep S) as HTq.
    assert (HBq : bytes q). { apply (bytes_app t q). now rewrite <- Ep. }
    assert (Hfr : (t = [] /\ ds = [] \/ groups t ds) \/ nonempty ds && negb d = true).
    { destruct C as [(-> & -> & ->)|[[G ->]|(t' & -> & G & ->)]]; auto.
      right. destruct (groups_digits _ _ G) as [_ Hn]. destruct ds; [congruence|reflexivity]. }
    destruct (nonempty ds && negb d) eqn:En.
    { simpl. do 3 eexists. split; [reflexivity|auto]. }
    destruct Hfr as [Hfr|]; [|discriminate]. simpl.
    destruct (whole || nonempty ds) eqn:Ew; simpl; [|do 3 eexists; split; [reflexivity|auto]].
    destruct (exponent_part_spec q (frac_val v dten ds) HTq HBq) as (r & -> & HE).
    simpl. destruct r as [st|[v' q']].
    { subst. do 3 eexists. split; [reflexivity|auto]. }
    destruct HE as (x & ex & Eq & Hx & -> & X0 & X1).
    do 3 eexists. split; [reflexivity|]. right. split; [auto|].
    exists (46 :: t), ds, x, ex, q'. split; [subst; reflexivity|].
    split. { destruct Hfr as [[-> ->]|G]; constructor; auto. }
    split; [auto|]. split.
    { unfold tail_ends, ends. destruct x as [|x0 x].
      - destruct (X0 eq_refl) as (c & r & E & ? & ?). simpl in Eq. rewrite Eq in *.
        destruct (stop_not _ S c r E). exists c, r. repeat split; auto; discriminate.
      - destruct (X1 ltac:(discriminate)) as (c & r & E & ? & ?). exists c, r. repeat split; auto; discriminate. }
    split; [|auto]. destruct whole; [auto|]. right. intros ->. discriminate.
  - simpl. destruct whole; simpl; [|do 3 eexists; split; [reflexivity|auto]].
    destruct (exponent_part_spec (c :: p') v HT HB) as (r & -> & HE).
    simpl. destruct r as [st|[v' q']].
    { subst. do 3 eexists. split; [reflexivity|auto]. }
    destruct HE as (x & ex & Eq & Hx & -> & X0 & X1).
    do 3 eexists. split; [reflexivity|]. right. split; [auto|].
    exists [], [], x, ex, q'. split; [auto|]. split; [constructor|]. split; [auto|]. split; [|auto].
    unfold tail_ends, ends. destruct x as [|x0 x].
    + destruct (X0 eq_refl) as (c' & r & E & ? & ?). simpl in Eq. subst q'. injection E as <- <-.
      exists c, p'. repeat split; auto.
    + destruct (X1 ltac:(discriminate)) as (c' & r & E & ? & ?). exists c', r. repeat split; auto; discriminate.
Qed.

Lemma portable_unfold c0 p v dig whole q :
  whole_loop (c0 =? 48) (c0 :: p) (S754_zero false) false false = Ret (inr (v, dig, whole, q)) ->
  portable_double_literal (c0 :: p) =
    if whole && negb dig then Ret (kFloatInvalid, O, S754_nan) else tail_of (c0 :: p) v whole q.
Proof. intros E. unfold portable_double_literal, tail_of. rewrite rd0. cbn [bind]. now rewrite E. Qed.

Lemma p_number_len w ip f fp x ex q : p_whole w ip -> p_frac f fp -> ip ++ fp <> [] -> p_exp x ex -> tail_ends f x q ->
  p_number (w ++ f ++ x ++ q) (w ++ f ++ x) ip fp ex /\
  (length (w ++ f ++ x ++ q) - length q)%nat = length (w ++ f ++ x).
Proof.
  intros H1 H2 H3 H4 (c & r & -> & H5). split; [now constructor|]. repeat rewrite app_length. simpl. lia.
Qed.

Lemma portable_spec p : terminated p -> bytes p -> exists st n d,
  portable_double_literal p = Ret (st, n, d) /\
  (st = kOk /\ (exists t ip fp ex, p_number p t ip fp ex /\ n = length t /\ d = literal_value ip fp ex) \/
   st = kNumbersCannotHaveLeadingZeros /\ leading_zero p \/ st = kFloatInvalid).
Proof.
  intros HT HB. destruct p as [|c0 p]; [now apply terminated_nonnil in HT|].
  assert (W : exists r, whole_loop (c0 =? 48) (c0 :: p) (S754_zero false) false false = Ret r /\
    match r with
    | inl kNumbersCannotHaveLeadingZeros => leading_zero (c0 :: p)
    | inl st => st = kFloatInvalid
    | inr (v, d, w, q) => exists t ds, c0 :: p = t ++ q /\ stop q /\ v = whole_val (S754_zero false) ds /\
        w = nonempty ds /\ (w && negb d = true \/ p_whole t ds)
    end).
  { destruct (Z.eqb_spec c0 48) as [->|N].
    - destruct (whole_zero (48 :: p) HT HB (S754_zero false) false false) as (r & E & H). exists r. split; [exact E|].
      destruct r as [st|[[[v d] w] q]].
      + destruct st; auto. destruct H as (t & ds & c & rest & G & D & E').
        destruct (singles_shape _ _ G) as (c1 & t1 & ds1 & -> & -> & _). simpl in E'. injection E' as <- ->.
        exists t1, (48 :: ds1), c, rest. auto.
      + destruct H as (ds & -> & -> & t & E' & S & C). exists t, ds. simpl. repeat split; auto.
        destruct C as [(-> & -> & ->)|[[G ->]|(t' & -> & G & ->)]].
        * right. constructor.
        * right. destruct (singles_shape _ _ G) as (c1 & t1 & ds1 & -> & -> & _). simpl in E'. injection E' as <- ->.
          now constructor.
        * left. destruct (singles_shape _ _ G) as (c1 & t1 & ds1 & -> & -> & _). reflexivity.
    - rewrite whole_scan by auto. destruct (scan_spec (c0 :: p) HT false) as (r & -> & H).
      destruct r as [[[ds d] q]|]; simpl; eexists; (split; [reflexivity|]); simpl; auto.
      destruct (H _ _ _ eq_refl) as (t & E & S & C). exists t, ds. repeat split; auto.
      destruct C as [(-> & -> & ->)|[[G ->]|(t' & -> & G & ->)]].
      + right. constructor.
      + right. destruct (groups_shape _ _ G) as (c1 & t1 & ds1 & -> & -> & _). simpl in E. injection E as <- ->.
        now constructor.
      + left. destruct (groups_digits _ _ G) as [_ Hn]. destruct ds; [congruence|reflexivity]. }
  destruct W as ([st|[[[v d] w] q]] & E & H).
  - unfold portable_double_literal. rewrite rd0. cbn [bind]. rewrite E. cbn [bind].
    do 3 eexists. split; [reflexivity|]. destruct st; auto; discriminate.
  - destruct H as (t & ds & Ep & S & -> & -> & Hw).
    rewrite (portable_unfold _ _ _ _ _ _ E). destruct (nonempty ds && negb d) eqn:En.
    { do 3 eexists. split; [reflexivity|auto]. }
    destruct Hw as [|Hw]; [discriminate|].
    assert (HTq : terminated q) by (eapply found_suffix; eauto).
    assert (HBq : bytes q). { apply (bytes_app t q). now rewrite <- Ep. }
    destruct (tail_spec (c0 :: p) (whole_val (S754_zero false) ds) (nonempty ds) q HTq HBq S)
      as (st & n & dd & -> & [->|(-> & f & fp & x & ex & q' & Eq & Hf & Hx & Ht & Hne & Hn & Hd)]).
    { do 3 eexists. split; [reflexivity|auto]. }
    do 3 eexists. split; [reflexivity|]. left. split; [auto|]. exists (t ++ f ++ x), ds, fp, ex.
    destruct (p_number_len t ds f fp x ex q' Hw Hf) as [P1 P2]; auto.
    { destruct Hne as [Hne|Hne]; intros E0; apply app_eq_nil in E0; destruct E0; subst; [discriminate|congruence]. }
    rewrite Ep, Eq. split; [exact P1|]. split; [|exact Hd].
    rewrite Hn, Ep, Eq. exact P2.
Qed.

Lemma ends_stop f x q : tail_ends f x q -> stop q.
Proof. intros (c & r & -> & H1 & H2 & _). exists c, r. auto. Qed.

Lemma tail_stop f fp x ex q : p_frac f fp -> p_exp x ex -> tail_ends f x q -> stop (f ++ x ++ q).
Proof.
  intros Hf Hx Ht. destruct Hf; simpl; try (eexists; eexists; split; [reflexivity|unfold digit; lia]).
  destruct Hx as [|e sg neg t ds He Hs G]; simpl; [now eapply ends_stop; eauto|].
  eexists; eexists; split; [reflexivity|unfold digit; lia].
Qed.

Lemma exp_stop x ex q f : p_exp x ex -> tail_ends f x q -> stop (x ++ q).
Proof. intros Hx Ht. destruct Hx as [|e sg neg t ds He Hs G]; simpl; [now eapply ends_stop; eauto|].
  eexists; eexists; split; [reflexivity|unfold digit; lia]. Qed.

Lemma tail_complete text v whole f fp x ex q : p_frac f fp -> p_exp x ex -> tail_ends f x q -> bytes (f ++ x ++ q) ->
  whole = true \/ fp <> [] ->
  tail_of text v whole (f ++ x ++ q) = Ret (kOk, (length text - length q)%nat, scaled (frac_val v dten fp) ex).
Proof.
  intros Hf Hx Ht HB Hne.
  assert (HBx : bytes (x ++ q)) by (apply (bytes_app f); auto).
  assert (HBq : bytes q) by (apply (bytes_app x); auto).
  assert (X : forall v', exponent_part (x ++ q) v' = Ret (inr (scaled v' ex, q))).
  { intros v'. apply exponent_part_complete; auto.
    - intros ->. destruct Ht as (c & r & -> & _ & _ & _ & H). exists c, r. split; [auto|]. now apply H.
    - intros _. now apply ends_stop in Ht. }
  assert (F : forall r, whole || nonempty fp = true /\ r = true -> r = true) by tauto.
  assert (WN : whole || nonempty fp = true) by (destruct Hne as [->|H]; [auto|destruct fp; [congruence|apply orb_true_r]]).
  pose proof (exp_stop x ex q f Hx Ht) as SX.
  destruct Hf as [| |t ds G]; unfold tail_of.
  - change ([] ++ x ++ q) with (x ++ q). destruct SX as (c & r & E & N1 & N2).
    assert (Nc : c <> 46).
    { destruct Hx as [|e sg neg t ds He Hs G].
      - destruct Ht as (c' & r' & -> & _ & _ & H & _). simpl in E. injection E as -> ->. now apply H.
      - simpl in E. injection E as <- _. lia. }
    rewrite E at 1. rewrite rd0. cbn [bind]. destruct (Z.eqb_spec c 46); [contradiction|]. cbn [bind].
    simpl in WN. rewrite WN. cbn [negb]. rewrite X. reflexivity.
  - simpl app. rewrite rd0. cbn [bind]. change (46 =? 46) with true. cbv iota. change (skipn 1 (46 :: x ++ q)) with (x ++ q).
    rewrite fraction_scan by auto. rewrite (scan_none (x ++ q)) by auto. cbn [flow bind nonempty orb andb negb].
    simpl in WN. rewrite WN. cbn [negb]. simpl frac_val. rewrite X. reflexivity.
  - simpl app. rewrite rd0. cbn [bind]. change (46 =? 46) with true. cbv iota.
    change (skipn 1 (46 :: t ++ x ++ q)) with (t ++ x ++ q).
    rewrite fraction_scan by (inversion HB; auto). rewrite (scan_groups t ds G) by auto. cbn [flow bind orb].
    rewrite andb_false_r. cbn [bind]. rewrite WN. cbn [negb]. rewrite X. reflexivity.
Qed.

Lemma portable_complete p t ip fp ex : bytes p -> p_number p t ip fp ex ->
  portable_double_literal p = Ret (kOk, length t, literal_value ip fp ex).
Proof.
  intros HB H. destruct H as [w ip f fp x ex c rest Hw Hf Hne Hx He].
  assert (Ht : tail_ends f x (c :: rest)) by (exists c, rest; auto).
  set (q := c :: rest) in *. pose proof (tail_stop f fp x ex q Hf Hx Ht) as HS.
  assert (HBq : bytes (f ++ x ++ q)) by (apply (bytes_app w); auto).
  destruct (p_number_len w ip f fp x ex q Hw Hf Hne Hx Ht) as [_ HL].
  destruct Hw as [|c0 t0 ds G N|t0 ds G].
  - simpl app in *. destruct HS as (c1 & r1 & E1 & N1 & N2).
    assert (E : portable_double_literal (c1 :: r1) = tail_of (c1 :: r1) (S754_zero false) false (c1 :: r1)).
    { erewrite portable_unfold. 2:{ simpl. rewrite digit_x, sep_x by (rewrite E1 in HB; now inversion HB).
        rewrite (digit_no c1 N1). destruct (Z.eqb_spec c1 95); [contradiction|]. reflexivity. }
      reflexivity. }
    rewrite E1 at 1. rewrite E. rewrite <- E1. rewrite (tail_complete _ _ _ f fp x ex q); auto. now rewrite HL.
  - simpl app in *.
    assert (E : portable_double_literal (c0 :: t0 ++ f ++ x ++ q) =
      tail_of (c0 :: t0 ++ f ++ x ++ q) (whole_val (S754_zero false) ds) true (f ++ x ++ q)).
    { erewrite portable_unfold.
      2:{ destruct (Z.eqb_spec c0 48); [contradiction|]. rewrite whole_scan by auto.
          change (c0 :: t0 ++ f ++ x ++ q) with ((c0 :: t0) ++ f ++ x ++ q).
          rewrite (scan_groups _ _ G) by auto. simpl. reflexivity. }
      rewrite andb_false_r. replace (nonempty ds) with true; [reflexivity|].
      destruct (groups_digits _ _ G) as [_ Hn]. now destruct ds. }
    rewrite E. rewrite (tail_complete _ _ _ f fp x ex q); auto. now rewrite HL.
  - simpl app in *.
    assert (E : portable_double_literal (48 :: t0 ++ f ++ x ++ q) =
      tail_of (48 :: t0 ++ f ++ x ++ q) (whole_val (S754_zero false) ds) true (f ++ x ++ q)).
    { erewrite portable_unfold.
      2:{ change (48 =? 48) with true. change (48 :: t0 ++ f ++ x ++ q) with ((48 :: t0) ++ f ++ x ++ q).
          rewrite (whole_singles _ _ G); auto. apply (bytes_app _ (f ++ x ++ q)). exact HB. }
      reflexivity. }
    rewrite E. rewrite (tail_complete _ _ _ f fp x ex q); auto. now rewrite HL.
Qed.

Lemma portable_leading p : leading_zero p -> portable_double_literal p = Ret (kNumbersCannotHaveLeadingZeros, O, S754_nan).
Proof.
  intros (t & ds & c & rest & G & D & ->). unfold portable_double_literal. rewrite rd0. cbn [bind].
  change (48 =? 48) with true. change (48 :: t ++ c :: rest) with ((48 :: t) ++ c :: rest).
  now rewrite (whole_doubled _ _ G).
Qed.
