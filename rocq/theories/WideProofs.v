(** * Proofs about the UTF-16 conversions. *)

From Verif Require Import Base TextModel SpecUtf8 TextProofs LexProofs WideModel SpecWide.

(** ** ReadUnicodeChar on any text *)

Lemma read_invalid p : validate_unicode_char p = Ret 0%nat -> read_unicode_char p = Ret (1%nat, 0xFFFD).
Proof.
  unfold validate_unicode_char, read_unicode_char. intros H.
  repeat (match goal with
   | H : bind (rd ?p ?i) _ = _ |- _ => destruct (rd p i); cbn [bind] in H |- *; try discriminate
   | H : (if ?b then _ else _) = _ |- _ => destruct b eqn:?; try discriminate; auto
   end; auto).
Qed.

Lemma utf8_pos cp : code_point cp -> cp <> 0 -> nul_free (utf8 cp).
Proof. intros H N. pose proof (LexProofs.utf8_pos cp H N) as G. unfold nul_free. eapply Forall_impl; [|exact G]. simpl. intros a Ha. lia. Qed.

Lemma read_any c p : terminated (c :: p) -> bytes (c :: p) -> c <> 0 ->
  (exists cp r, code_point cp /\ cp <> 0 /\ c :: p = utf8 cp ++ r /\ terminated r /\
     read_unicode_char (c :: p) = Ret (length (utf8 cp), cp)) \/
  ((forall cp r, code_point cp -> c :: p <> utf8 cp ++ r) /\ read_unicode_char (c :: p) = Ret (1%nat, 0xFFFD)).
Proof.
  intros HT HB Hc. destruct (validate_safe _ HT HB) as (n & E & _). destruct n as [|n].
  - right. split; [|now apply read_invalid]. intros cp r Hcp Ep. rewrite Ep in E.
    destruct (validate_complete cp r Hcp) as [E' _]. rewrite E in E'.
    pose proof (utf8_length_bounds cp). injection E' as E'. lia.
  - left. destruct (validate_sound _ _ HB E ltac:(discriminate)) as (cp & r & Hcp & Ep & _).
    exists cp, r. assert (N0 : cp <> 0).
    { intros ->. simpl in Ep. injection Ep as -> ->. congruence. }
    split; [auto|]. split; [auto|]. split; [auto|]. split.
    + rewrite Ep in HT. eapply terminated_suffix; [exact HT|]. intros ->. rewrite app_nil_r in *.
      destruct HT as [q Hq]. pose proof (utf8_pos cp Hcp N0) as F. rewrite Hq in F.
      apply Forall_app in F. destruct F as [_ F]. inversion F. congruence.
    + rewrite Ep. now apply validate_complete.
Qed.

Lemma not_pattern_app c s cp t : nul_free (c :: s) -> code_point cp ->
  forall r, c :: s ++ 0 :: t = utf8 cp ++ r -> c <> 0 -> exists r', c :: s = utf8 cp ++ r'.
Proof.
  intros HN Hcp r E Hc.
  assert (N0 : cp <> 0). { intros ->. simpl in E. injection E as E _. congruence. }
  pose proof (utf8_pos cp Hcp N0) as F.
  change (c :: s ++ 0 :: t) with ((c :: s) ++ 0 :: t) in E. clear Hc.
  remember (utf8 cp) as u eqn:Eu. clear Eu Hcp N0. revert u F E. generalize (c :: s) as v. clear. intros v.
  induction v as [|x v IH]; intros u F E.
  - destruct u as [|y u]; [now exists []|]. simpl in E. injection E as <- _. inversion F. congruence.
  - destruct u as [|y u]; [now exists (x :: v)|]. simpl in E. injection E as <- E. inversion F; subst.
    destruct (IH u) as [r' ->]; auto. exists r'. reflexivity.
Qed.

(** Every NUL-free byte string has a decoding, and only one. *)
Lemma utf8_prefix_unique cp cp' r r' : code_point cp -> code_point cp' -> utf8 cp ++ r = utf8 cp' ++ r' -> cp = cp' /\ r = r'.
Proof.
  intros H H' E. destruct (validate_complete cp r H) as [_ E1]. destruct (validate_complete cp' r' H') as [_ E2].
  rewrite E in E1. rewrite E1 in E2. injection E2 as _ <-. split; [auto|]. now apply app_inv_head in E.
Qed.

Lemma decodes_unique s l : decodes s l -> forall l', decodes s l' -> l = l'.
Proof.
  induction 1 as [|cp s l H N D IH|c s l H N D IH]; intros l' D'.
  - inversion D' as [|cp s' l0 H0 N0 D0 E|]; [auto|]. pose proof (utf8_length_bounds cp). destruct (utf8 cp); [simpl in *; lia|discriminate].
  - inversion D' as [E|cp' s' l0 H0 N0 D0 E|c' s' l0 H0 N0 D0 E].
    + pose proof (utf8_length_bounds cp). destruct (utf8 cp); [simpl in *; lia|discriminate].
    + destruct (utf8_prefix_unique cp' cp s' s H0 H E) as [-> ->]. f_equal. auto.
    + exfalso. symmetry in E. symmetry in E. exact (H0 cp s H E).
  - inversion D' as [E|cp' s' l0 H0 N0 D0 E|c' s' l0 H0 N0 D0 E].
    + exfalso. exact (H cp' s' H0 (eq_sym E)).
    + subst. f_equal. auto.
Qed.

Lemma decodes_total n : forall s, (length s <= n)%nat -> bytes s -> nul_free s -> exists l, decodes s l.
Proof.
  induction n as [|n IH]; intros s HL HB HN.
  - destruct s; [exists []; constructor|simpl in HL; lia].
  - destruct s as [|c s]; [exists []; constructor|].
    assert (HT : terminated ((c :: s) ++ [0])) by (exists (c :: s); reflexivity).
    assert (HB' : bytes ((c :: s) ++ [0])) by (apply bytes_app; split; [auto|repeat constructor; lia]).
    assert (Hc : c <> 0) by (inversion HN; auto).
    destruct (read_any c (s ++ [0]) HT HB' Hc) as [(cp & r & Hcp & N0 & E & _)|[H _]].
    + destruct (not_pattern_app c s cp [] HN Hcp r E Hc) as [r' E'].
      assert (Hr : nul_free r' /\ bytes r' /\ (length r' <= n)%nat).
      { rewrite E' in HB, HN. apply bytes_app in HB. apply Forall_app in HN.
        pose proof (utf8_length_bounds cp). apply (f_equal (@length Z)) in E'. rewrite app_length in E'. simpl in *. intuition lia. }
      destruct (IH r') as [l D]; try tauto. exists (cp :: l). rewrite E'. now constructor.
    + destruct (IH s) as [l D].
      * simpl in HL. lia.
      * now inversion HB.
      * now inversion HN.
      * exists (0xFFFD :: l). constructor; auto. intros cp r Hcp E. apply (H cp (r ++ [0]) Hcp).
        change (c :: s ++ [0]) with ((c :: s) ++ [0]). rewrite E. now rewrite <- app_assoc.
Qed.

Lemma decodes_nul_free s l : decodes s l -> nul_free s /\ Forall (fun cp => code_point cp /\ cp <> 0) l.
Proof.
  induction 1 as [|cp s l H N D [IH1 IH2]|c s l H N D [IH1 IH2]].
  - split; constructor.
  - split; [|constructor; auto]. apply Forall_app. split; [now apply utf8_pos|auto].
  - split; [constructor; auto|]. constructor; [unfold code_point; lia|auto].
Qed.

(** One step of reading along a decoding. *)
Lemma read_step s l rest : decodes s l -> bytes (s ++ 0 :: rest) ->
  match l with
  | [] => read_unicode_char (s ++ 0 :: rest) = Ret (1%nat, 0)
  | cp :: l' => exists n s', read_unicode_char (s ++ 0 :: rest) = Ret (n, cp) /\ skipn n (s ++ 0 :: rest) = s' ++ 0 :: rest /\
      decodes s' l' /\ code_point cp /\ cp <> 0 /\ bytes (s' ++ 0 :: rest) /\ (length s' < length s)%nat
  end.
Proof.
  intros D HB. destruct D as [|cp s l H N D|c s l H N D].
  - reflexivity.
  - destruct (validate_complete cp (s ++ 0 :: rest) H) as [_ E]. exists (length (utf8 cp)), s.
    rewrite <- app_assoc in *. rewrite E, skipn_length_app. pose proof (utf8_length_bounds cp).
    apply bytes_app in HB. rewrite app_length. repeat split; try tauto; try (unfold code_point in *; lia).
  - exists 1%nat, s. split; [|split; [reflexivity|split; [auto|]]].
    + destruct (decodes_nul_free _ _ D) as [HN _].
      assert (V : validate_unicode_char ((c :: s) ++ 0 :: rest) = Ret 0%nat).
      { change ((c :: s) ++ 0 :: rest) with ((c :: s) ++ [0] ++ rest) in *.
        assert (HT : terminated ((c :: s) ++ 0 :: rest ++ [0])).
        { exists ((c :: s) ++ 0 :: rest). now rewrite <- app_assoc. }
        destruct (validate_unicode_char ((c :: s) ++ [0] ++ rest)) as [[|n]| |] eqn:E; auto.
        - exfalso. destruct (validate_sound _ _ HB E ltac:(discriminate)) as (cp & r & Hcp & Ep & _).
          destruct (not_pattern_app c s cp rest ltac:(constructor; auto) Hcp r Ep N) as [r' E'].
          exact (H cp r' Hcp E').
        - exfalso. assert (HT2 : terminated ((c :: s) ++ [0])) by (exists (c :: s); reflexivity).
          assert (HB2 : bytes ((c :: s) ++ [0])).
          { rewrite app_assoc in HB. now apply bytes_app in HB. }
          destruct (validate_safe _ HT2 HB2) as (n & E2 & _).
          rewrite app_assoc in E. revert E E2. generalize ((c :: s) ++ [0]). clear. intros q.
          unfold validate_unicode_char, rd.
          destruct q as [|a [|b [|d [|e q]]]]; simpl; intros E E2; try discriminate;
            repeat match goal with H : context [if ?x then _ else _] |- _ => destruct x; try discriminate end.
        - exfalso. clear -E. unfold validate_unicode_char, rd in E.
          repeat match goal with H : context [match ?x with _ => _ end] |- _ => destruct x; simpl in H; try discriminate end. }
      now apply read_invalid.
    + split; [unfold code_point; lia|]. split; [lia|]. split; [now inversion HB|simpl; lia].
Qed.

(** ** UTF-8 to UTF-16 *)

Lemma utf16_length cp : code_point cp -> length (utf16 cp) = if 0x10000 <=? cp then 2%nat else 1%nat.
Proof. intros H. unfold utf16. destruct (Z.ltb_spec cp 0x10000); [replace (0x10000 <=? cp) with false by lia|replace (0x10000 <=? cp) with true by lia]; reflexivity. Qed.

Lemma wide_count_ok l : forall fuel s rest, decodes s l -> bytes (s ++ 0 :: rest) -> (length s < fuel)%nat ->
  wide_text_char_count fuel (s ++ 0 :: rest) = Ret (length (encode16 l)).
Proof.
  induction l as [|cp l IH]; intros fuel s rest D HB HF; (destruct fuel; [lia|]); simpl;
    pose proof (read_step s _ rest D HB) as R.
  - rewrite R. reflexivity.
  - destruct R as (n & s' & R & E & D' & Hcp & N0 & HB' & HL). rewrite R. cbn [bind].
    replace (cp =? 0) with false by lia. rewrite E, IH by (auto; lia). cbn [bind].
    unfold encode16. simpl. rewrite app_length, utf16_length by auto. reflexivity.
Qed.

Lemma utf16_units cp : code_point cp -> 0x10000 <= cp ->
  utf16 cp = [u16 (Z.shiftr (u32 (cp - 0x10000)) 10 + 0xD800); u16 (Z.land (u32 (cp - 0x10000)) 0x03FF + 0xDC00)].
Proof.
  intros H L. unfold code_point in H. unfold utf16. replace (cp <? 0x10000) with false by lia.
  rewrite u32_small by lia. rewrite Z.shiftr_div_pow2 by lia. change 0x03FF with (Z.ones 10). rewrite Z.land_ones by lia.
  change (2 ^ 10) with 1024. unfold u16.
  pose proof (Z.mod_pos_bound (cp - 65536) 1024 ltac:(lia)). pose proof (Z.div_mod (cp - 65536) 1024 ltac:(lia)).
  assert (0 <= (cp - 65536) / 1024 < 1024) by (split; [apply Z.div_pos; lia|apply Z.div_lt_upper_bound; lia]).
  rewrite (Z.mod_small (_ / _ + _) 65536), (Z.mod_small (_ mod _ + _) 65536) by lia. f_equal; [lia|]. f_equal. lia.
Qed.

Lemma wr_mid done x free c : wr (done ++ x :: free) (length done) c = Ret (done ++ c :: free).
Proof. apply wr_app. Qed.

Lemma wr_end done c : wr done (length done) c = UB.
Proof. induction done as [|x done IH]; simpl; [reflexivity|]. now rewrite IH. Qed.

Lemma holding_app s s' free : holding (s ++ s') (s ++ free) = s ++ holding s' free.
Proof.
  unfold holding. rewrite <- app_assoc. f_equal. f_equal. f_equal. rewrite app_length.
  replace (S (length s + length s')) with (length s + S (length s'))%nat by lia.
  rewrite skipn_app. replace (length s + S (length s') - length s)%nat with (S (length s')) by lia.
  rewrite skipn_all2 by lia. reflexivity.
Qed.

(** The exact effect, for every maximum and storage. *)
Lemma string_to_wide_ok l : forall fuel s rest done free max, decodes s l -> bytes (s ++ 0 :: rest) -> (length s < fuel)%nat ->
  string_to_wide fuel (s ++ 0 :: rest) (done ++ free) (length done) max =
  if (length (encode16 (reaching max l)) <? length free)%nat then Ret (done ++ holding (encode16 (reaching max l)) free) else UB.
Proof.
  assert (Z0 : forall done free, wr (done ++ free) (length done) 0 = if (0 <? length free)%nat then Ret (done ++ holding [] free) else UB).
  { intros done free. destruct free as [|x free]; [rewrite app_nil_r; apply wr_end|]. rewrite wr_mid. reflexivity. }
  induction l as [|cp l IH]; intros fuel s rest done free max D HB HF; (destruct fuel; [lia|]); simpl;
    pose proof (read_step s _ rest D HB) as R.
  - rewrite R. cbn [bind]. change (0 =? 0) with true. cbv iota. rewrite Z0. destruct (0 <? max); reflexivity.
  - destruct R as (n & s' & R & E & D' & Hcp & N0 & HB' & HL). rewrite R. cbn [bind].
    destruct (0 <? max) eqn:Emax; [|rewrite Z0; reflexivity].
    replace (cp =? 0) with false by lia. unfold encode16. simpl. rewrite E. fold (encode16 (reaching (max - Z.of_nat (length (utf16 cp))) l)).
    rewrite app_length, utf16_length by auto. pose proof Hcp as Hcp'. unfold code_point in Hcp.
    destruct (Z.ltb_spec cp 0x10000) as [L|L].
    + replace (0x10000 <=? cp) with false by lia. unfold u16. rewrite Z.mod_small by lia.
      assert (U : utf16 cp = [cp]) by (unfold utf16; replace (cp <? 0x10000) with true by lia; reflexivity). rewrite U.
      destruct free as [|x free]; [rewrite app_nil_r, wr_end; reflexivity|]. rewrite wr_mid. cbn [bind].
      replace (done ++ cp :: free) with ((done ++ [cp]) ++ free) by now rewrite <- app_assoc.
      replace (S (length done)) with (length (done ++ [cp])) by (rewrite app_length; simpl; lia).
      rewrite IH by (auto; lia). simpl Z.of_nat. change (Z.of_nat 1) with 1.
      set (r := encode16 _). simpl length. replace (1 + length r <? S (length free))%nat with (length r <? length free)%nat by reflexivity.
      destruct (length r <? length free)%nat; [|reflexivity]. rewrite <- app_assoc. reflexivity.
    + replace (0x10000 <=? cp) with true by lia. rewrite (utf16_units cp Hcp' L).
      set (h := u16 (Z.shiftr _ _ + _)). set (o := u16 (Z.land _ _ + _)).
      destruct free as [|x [|y free]].
      * rewrite app_nil_r, wr_end. reflexivity.
      * rewrite wr_mid. cbn [bind]. replace (S (length done)) with (length (done ++ [h])) by (rewrite app_length; simpl; lia).
        rewrite wr_end. simpl. reflexivity.
      * rewrite wr_mid. cbn [bind]. replace (S (length done)) with (length (done ++ [h])) by (rewrite app_length; simpl; lia).
        replace (done ++ h :: y :: free) with ((done ++ [h]) ++ y :: free) by now rewrite <- app_assoc.
        rewrite wr_mid. cbn [bind].
        replace ((done ++ [h]) ++ o :: free) with ((done ++ [h; o]) ++ free) by (rewrite <- !app_assoc; reflexivity).
        replace (S (length (done ++ [h]))) with (length (done ++ [h; o])) by (rewrite !app_length; simpl; lia).
        rewrite IH by (auto; lia). change (Z.of_nat 2) with 2.
        set (r := encode16 _). simpl length. replace (2 + length r <? S (S (length free)))%nat with (length r <? length free)%nat by reflexivity.
        destruct (length r <? length free)%nat; [|reflexivity]. rewrite <- app_assoc. reflexivity.
Qed.

(** ** UTF-16 to UTF-8 *)

Definition units (w : list Z) : Prop := Forall (fun u => 0 <= u < 65536) w.

Lemma utf8_count cp : code_point cp -> get_unicode_char_byte_count cp = length (utf8 cp).
Proof. intros H. unfold code_point in H. destruct (utf8_length cp); [auto|lia]. Qed.

Lemma pair_code_ok h o : high h -> low o -> code_point (pair_code h o) /\ 0x10000 <= pair_code h o /\
  Z.lor (Z.shiftl (u32 (h - 0xD800)) 10) (u32 (o - 0xDC00)) + 0x10000 = pair_code h o.
Proof.
  unfold high, low, pair_code, code_point. intros H L. split; [lia|]. split; [lia|].
  rewrite !u32_small by lia. rewrite Z.shiftl_mul_pow2 by lia. rewrite lor_add by (change (2 ^ 10) with 1024; lia).
  change (2 ^ 10) with 1024. lia.
Qed.

Lemma wdecodes_unique w l : wdecodes w l -> forall l', wdecodes w l' -> l = l'.
Proof.
  induction 1 as [|u w l N R D IH|h o w l H L D IH|u w l L D IH|u w l H X D IH]; intros l' D'.
  - now inversion D'.
  - inversion D'; subst; try (exfalso; unfold surrogate, high, low in *; lia). f_equal. auto.
  - inversion D' as [|u' w' l0 N R D0|h' o' w' l0 H0 L0 D0|u' w' l0 L0 D0|u' w' l0 H0 X0 D0]; subst;
      try (exfalso; unfold surrogate, high, low in *; lia).
    + f_equal. auto.
    + exfalso. exact (X0 o w eq_refl L).
  - inversion D'; subst; try (exfalso; unfold surrogate, high, low in *; lia). auto.
  - inversion D' as [|u' w' l0 N R D0|h' o' w' l0 H0 L0 D0|u' w' l0 L0 D0|u' w' l0 H0 X0 D0]; subst;
      try (exfalso; unfold surrogate, high, low in *; lia).
    + exfalso. exact (X _ _ eq_refl L0).
    + auto.
Qed.

Lemma wdecodes_total n : forall w, (length w <= n)%nat -> units w -> nul_free w -> exists l, wdecodes w l.
Proof.
  induction n as [|n IH]; intros w HL HU HN.
  - destruct w; [exists []; constructor|simpl in HL; lia].
  - destruct w as [|u w]; [exists []; constructor|]. simpl in HL.
    inversion HU as [|? ? Hu HU']; subst. inversion HN as [|? ? Hn HN']; subst.
    destruct (IH w ltac:(lia) HU' HN') as [l D].
    destruct (Z.lt_ge_cases u 0xD800); [exists (u :: l); constructor; auto; unfold surrogate; lia|].
    destruct (Z.lt_ge_cases 0xDFFF u); [exists (u :: l); constructor; auto; unfold surrogate; lia|].
    destruct (Z.lt_ge_cases u 0xDC00) as [Hh|Hh].
    + destruct w as [|o w]; [exists l; apply w_high; auto; [unfold high; lia|discriminate]|].
      destruct (Z.lt_ge_cases o 0xDC00).
      { exists l. apply w_high; auto; [unfold high; lia|]. intros ? ? [= <- <-]. unfold low. lia. }
      destruct (Z.lt_ge_cases 0xDFFF o).
      { exists l. apply w_high; auto; [unfold high; lia|]. intros ? ? [= <- <-]. unfold low. lia. }
      inversion HU'; subst. inversion HN'; subst. simpl in HL.
      destruct (IH w ltac:(lia)) as [l' D']; auto. exists (pair_code u o :: l'). constructor; auto; unfold high, low; lia.
    + exists l. apply w_low; auto. unfold low. lia.
Qed.

Lemma wdecodes_scalars w l : wdecodes w l -> Forall (fun cp => scalar cp /\ cp <> 0) l.
Proof.
  induction 1 as [|u w l N R D IH|h o w l H L D IH|u w l L D IH|u w l H X D IH]; auto; constructor; auto.
  - unfold scalar, code_point. split; [split; [lia|auto]|lia].
  - destruct (pair_code_ok h o H L) as (C & G & _). unfold scalar. split; [split; [auto|]|lia].
    unfold surrogate. lia.
Qed.

Lemma plain_unit u : ~ surrogate u -> 0 < u < 65536 -> (u32 (u - 0xD800) <? 0x0800) = false.
Proof. intros N R. rewrite u32_lt by lia. unfold surrogate in N. lia. Qed.
Lemma high_unit u : high u -> (u32 (u - 0xD800) <? 0x0800) = true /\ (0x0400 <=? u32 (u - 0xD800)) = false.
Proof. unfold high. intros H. rewrite u32_small by lia. lia. Qed.
Lemma low_unit u : low u -> (u32 (u - 0xD800) <? 0x0800) = true /\ (0x0400 <=? u32 (u - 0xD800)) = true.
Proof. unfold low. intros H. rewrite u32_small by lia. lia. Qed.
Lemma low_second u : 0 <= u < 65536 -> (u32 (u - 0xDC00) <? 0x0400) = true <-> low u.
Proof. unfold low. intros H. rewrite u32_lt by lia. lia. Qed.

Lemma string_length_ok w l : wdecodes w l -> forall rest, units (w ++ 0 :: rest) ->
  unicode_string_length (w ++ 0 :: rest) = Ret (length (encode8 l)).
Proof.
  induction 1 as [|u w l N R D IH|h o w l H L D IH|u w l L D IH|u w l H X D IH]; intros rest HU; cbn [app unicode_string_length].
  - reflexivity.
  - replace (u =? 0) with false by lia. rewrite plain_unit by auto. inversion HU; subst. rewrite IH by auto. cbn [bind].
    unfold encode8. simpl. rewrite app_length, utf8_count; [reflexivity|unfold code_point; lia].
  - replace (h =? 0) with false by (unfold high in H; lia). destruct (high_unit h H) as [-> ->].
    assert (HU' : units (w ++ 0 :: rest)) by (inversion HU as [|? ? ? Q]; inversion Q; auto).
    replace (u32 (o - 0xDC00) <? 0x0400) with true by (symmetry; apply low_second; [unfold low in L; lia|auto]).
    destruct (pair_code_ok h o H L) as (C & _ & ->). rewrite IH by auto. cbn [bind].
    unfold encode8. simpl. rewrite app_length, utf8_count by auto. reflexivity.
  - replace (u =? 0) with false by (unfold low in L; lia). destruct (low_unit u L) as [-> ->]. apply IH. now inversion HU.
  - replace (u =? 0) with false by (unfold high in H; lia). destruct (high_unit u H) as [-> ->].
    assert (HU' : units (w ++ 0 :: rest)) by now inversion HU. rewrite <- (IH rest HU').
    destruct w as [|o w]; cbn [app].
    + reflexivity.
    + destruct (u32 (o - 0xDC00) <? 0x0400) eqn:E; [|reflexivity]. exfalso.
      apply low_second in E; [|now inversion HU']. exact (X o w eq_refl E).
Qed.

Lemma write_chars done s free : wrs (done ++ free) (length done) s =
  if (length s <=? length free)%nat then Ret (done ++ s ++ skipn (length s) free) else UB.
Proof.
  revert done free. induction s as [|c s IH]; intros done free; simpl; [reflexivity|].
  destruct free as [|x free]; simpl.
  - rewrite app_nil_r, wr_end. reflexivity.
  - rewrite wr_mid. cbn [bind]. replace (done ++ c :: free) with ((done ++ [c]) ++ free) by now rewrite <- app_assoc.
    replace (S (length done)) with (length (done ++ [c])) by (rewrite app_length; simpl; lia). rewrite IH.
    destruct (length s <=? length free)%nat; [|reflexivity]. now rewrite <- app_assoc.
Qed.

Lemma wide_to_string_ok w l : wdecodes w l -> forall rest done free max, units (w ++ 0 :: rest) ->
  wide_to_string (w ++ 0 :: rest) (done ++ free) (length done) max =
  if (length (encode8 (fitting max l)) <? length free)%nat then Ret (done ++ holding (encode8 (fitting max l)) free) else UB.
Proof.
  assert (Z0 : forall done free, wr (done ++ free) (length done) 0 = if (0 <? length free)%nat then Ret (done ++ holding [] free) else UB).
  { intros done free. destruct free as [|x free]; [rewrite app_nil_r; apply wr_end|]. rewrite wr_mid. reflexivity. }
  assert (ST : forall cp w l, code_point cp ->
    (forall rest done free max, units (w ++ 0 :: rest) ->
      wide_to_string (w ++ 0 :: rest) (done ++ free) (length done) max =
      if (length (encode8 (fitting max l)) <? length free)%nat then Ret (done ++ holding (encode8 (fitting max l)) free) else UB) ->
    forall rest done free max, units (w ++ 0 :: rest) ->
    (if max <? Z.of_nat (get_unicode_char_byte_count cp) then wr (done ++ free) (length done) 0
     else let! dst := wrs (done ++ free) (length done) (write_unicode_char cp) in
       wide_to_string (w ++ 0 :: rest) dst (length done + length (write_unicode_char cp)) (max - Z.of_nat (get_unicode_char_byte_count cp))) =
    if (length (encode8 (fitting max (cp :: l))) <? length free)%nat then Ret (done ++ holding (encode8 (fitting max (cp :: l))) free) else UB).
  { intros cp w' l' C IH rest done free max HU. rewrite utf8_count, write_utf8 by auto. cbn [fitting].
    destruct (Z.ltb_spec max (Z.of_nat (length (utf8 cp)))) as [M|M].
    { replace (Z.of_nat (length (utf8 cp)) <=? max) with false by lia. apply Z0. }
    replace (Z.of_nat (length (utf8 cp)) <=? max) with true by lia.
    unfold encode8. cbn [map concat]. fold (encode8 (fitting (max - Z.of_nat (length (utf8 cp))) l')).
    set (s := utf8 cp) in *. rewrite write_chars. set (r := fitting _ _). rewrite app_length.
    destruct (Nat.leb_spec (length s) (length free)) as [Q|Q]; cbn [bind].
    - rewrite app_assoc. replace (length done + length s)%nat with (length (done ++ s)) by apply app_length.
      rewrite IH by auto. fold r. rewrite skipn_length.
      replace (length s + length (encode8 r) <? length free)%nat with (length (encode8 r) <? length free - length s)%nat by lia.
      destruct (length (encode8 r) <? length free - length s)%nat; [|reflexivity]. rewrite <- app_assoc. f_equal. f_equal.
      unfold holding. rewrite <- app_assoc. f_equal. f_equal. f_equal. rewrite app_length.
      rewrite <- (firstn_skipn (length s) free) at 2. rewrite skipn_app, firstn_length.
      rewrite (skipn_all2 (firstn (length s) free)) by (rewrite firstn_length; lia). cbn [app]. f_equal. lia.
    - replace (length s + length (encode8 r) <? length free)%nat with false by lia. reflexivity. }
  induction 1 as [|u w l N R D IH|h o w l H L D IH|u w l L D IH|u w l H X D IH]; intros rest done free max HU; cbn [app wide_to_string].
  - apply Z0.
  - replace (u =? 0) with false by lia. rewrite plain_unit by auto. apply ST; [unfold code_point; lia|exact IH|now inversion HU].
  - replace (h =? 0) with false by (unfold high in H; lia). destruct (high_unit h H) as [-> ->].
    replace (u32 (o - 0xDC00) <? 0x0400) with true by (symmetry; apply low_second; [unfold low in L; lia|auto]).
    destruct (pair_code_ok h o H L) as (C & _ & ->). apply ST; [auto|exact IH|]. inversion HU as [|? ? ? Q]; inversion Q; auto.
  - replace (u =? 0) with false by (unfold low in L; lia). destruct (low_unit u L) as [-> ->]. apply IH. now inversion HU.
  - replace (u =? 0) with false by (unfold high in H; lia). destruct (high_unit u H) as [-> ->].
    assert (HU' : units (w ++ 0 :: rest)) by now inversion HU. rewrite <- (IH rest done free max HU').
    destruct w as [|o w]; cbn [app].
    + reflexivity.
    + destruct (u32 (o - 0xDC00) <? 0x0400) eqn:E; [|reflexivity]. exfalso.
      apply low_second in E; [|now inversion HU']. exact (X o w eq_refl E).
Qed.

(** ** Valid text *)

Lemma valid_decodes s : valid_utf8 s -> nul_free s -> exists l, decodes s l /\ s = encode8 l /\ Forall (fun cp => scalar cp /\ cp <> 0) l.
Proof.
  induction 1 as [|cp s S V IH]; intros HN.
  - exists []. repeat split; constructor.
  - apply Forall_app in HN. destruct HN as [HN1 HN2]. destruct (IH HN2) as (l & D & E & F).
    assert (N0 : cp <> 0) by (intros ->; inversion HN1; congruence).
    exists (cp :: l). split; [constructor; auto; apply S|]. split; [unfold encode8 in *; simpl; now rewrite <- E|constructor; auto].
Qed.

Lemma encode16_wdecodes l : Forall (fun cp => scalar cp /\ cp <> 0) l -> wdecodes (encode16 l) l.
Proof.
  induction 1 as [|cp l [[C NS] N0] F IH]; [constructor|]. unfold encode16. simpl. fold (encode16 l).
  unfold code_point in C. unfold utf16. destruct (Z.ltb_spec cp 0x10000); cbn [app].
  - constructor; auto. lia.
  - pose proof (Z.mod_pos_bound (cp - 65536) 1024 ltac:(lia)). pose proof (Z.div_mod (cp - 65536) 1024 ltac:(lia)).
    assert (0 <= (cp - 65536) / 1024 < 1024) by (split; [apply Z.div_pos; lia|apply Z.div_lt_upper_bound; lia]).
    replace (cp :: l) with (pair_code (0xD800 + (cp - 0x10000) / 1024) (0xDC00 + (cp - 0x10000) mod 1024) :: l).
    + constructor; auto; unfold high, low; lia.
    + f_equal. unfold pair_code. lia.
Qed.

Lemma wdecodes_units w l : wdecodes w l -> units w /\ nul_free w.
Proof.
  unfold units, nul_free.
  induction 1 as [|u w l N R D [IH1 IH2]|h o w l H L D [IH1 IH2]|u w l L D [IH1 IH2]|u w l H X D [IH1 IH2]];
    unfold high, low in *; (split; repeat constructor; auto; lia).
Qed.

Lemma fitting_all l : forall max, Z.of_nat (length (encode8 l)) <= max -> fitting max l = l.
Proof.
  induction l as [|cp l IH]; intros max H; simpl; [auto|]. unfold encode8 in H. simpl in H. rewrite app_length in H.
  fold (encode8 l) in H. replace (Z.of_nat (length (utf8 cp)) <=? max) with true by lia. rewrite IH by lia. reflexivity.
Qed.

Lemma fitting_bound l : forall max, 0 <= max -> Z.of_nat (length (encode8 (fitting max l))) <= max.
Proof.
  induction l as [|cp l IH]; intros max H; simpl; [lia|].
  destruct (Z.leb_spec (Z.of_nat (length (utf8 cp))) max); [|simpl; lia].
  unfold encode8. simpl. fold (encode8 (fitting (max - Z.of_nat (length (utf8 cp))) l)). rewrite app_length.
  specialize (IH (max - Z.of_nat (length (utf8 cp))) ltac:(lia)). lia.
Qed.

Lemma reaching_all l : forall max, Forall code_point l -> Z.of_nat (length (encode16 l)) <= max -> reaching max l = l.
Proof.
  induction l as [|cp l IH]; intros max F H; simpl; [auto|]. unfold encode16 in H. simpl in H. rewrite app_length in H.
  fold (encode16 l) in H. inversion F; subst. assert (1 <= length (utf16 cp))%nat by (unfold utf16; destruct (cp <? 65536); simpl; lia).
  replace (0 <? max) with true by lia. rewrite IH by (auto; lia). reflexivity.
Qed.

Lemma reaching_bound l : forall max, Forall code_point l -> 0 <= max -> Z.of_nat (length (encode16 (reaching max l))) <= max + 1.
Proof.
  induction l as [|cp l IH]; intros max F H; simpl; [lia|]. inversion F; subst.
  destruct (Z.ltb_spec 0 max); [|simpl; lia]. unfold encode16. simpl. rewrite app_length.
  fold (encode16 (reaching (max - Z.of_nat (length (utf16 cp))) l)).
  assert (U : (1 <= length (utf16 cp) <= 2)%nat) by (unfold utf16; destruct (cp <? 65536); simpl; lia).
  destruct (Z.leb_spec (Z.of_nat (length (utf16 cp))) max).
  - specialize (IH (max - Z.of_nat (length (utf16 cp))) ltac:(auto) ltac:(lia)). lia.
  - assert (R : forall k l, k <= 0 -> reaching k l = []) by (intros k [|? ?] ?; simpl; [auto|]; replace (0 <? k) with false by lia; auto).
    rewrite R by lia. simpl. lia.
Qed.

(** ** Character counts *)

Lemma step_utf8 cp rest : code_point cp -> exists c r, utf8 cp ++ rest = c :: r /\ char_step c = length (utf8 cp) /\ (c = 0 -> cp = 0).
Proof.
  intros H. unfold code_point in H. unfold utf8.
  destruct (Z.ltb_spec cp 0x80); [|destruct (Z.ltb_spec cp 0x800); [|destruct (Z.ltb_spec cp 0x10000)]];
    eexists; eexists; (split; [reflexivity|]); unfold char_step; cbn [length].
  - split; [|auto]. replace (cp <? 192) with true by lia. reflexivity.
  - assert (2 <= cp / 64 < 32) by (split; [apply Z.div_le_lower_bound; lia|apply Z.div_lt_upper_bound; lia]).
    split; [|lia]. replace (192 + cp / 64 <? 192) with false by lia. replace (248 <=? 192 + cp / 64) with false by lia.
    replace (192 + cp / 64 <? 224) with true by lia. reflexivity.
  - assert (0 <= cp / 4096 < 16) by (split; [apply Z.div_pos; lia|apply Z.div_lt_upper_bound; lia]).
    split; [|lia]. replace (224 + cp / 4096 <? 192) with false by lia. replace (248 <=? 224 + cp / 4096) with false by lia.
    replace (224 + cp / 4096 <? 224) with false by lia. replace (224 + cp / 4096 <? 240) with true by lia. reflexivity.
  - assert (0 <= cp / 262144 < 8) by (split; [apply Z.div_pos; lia|apply Z.div_lt_upper_bound; lia]).
    split; [|lia]. replace (240 + cp / 262144 <? 192) with false by lia. replace (248 <=? 240 + cp / 262144) with false by lia.
    replace (240 + cp / 262144 <? 224) with false by lia. replace (240 + cp / 262144 <? 240) with false by lia. reflexivity.
Qed.

Lemma char_count_ok l : forall fuel rest, Forall (fun cp => scalar cp /\ cp <> 0) l -> (length l < fuel)%nat ->
  unicode_char_count fuel (encode8 l ++ 0 :: rest) = Ret (length l).
Proof.
  induction l as [|cp l IH]; intros fuel rest F HF; (destruct fuel; [lia|]).
  - reflexivity.
  - inversion F as [|? ? [[C _] N0] F']; subst. unfold encode8. cbn [map concat]. fold (encode8 l). rewrite <- app_assoc.
    destruct (step_utf8 cp (encode8 l ++ 0 :: rest) C) as (c & r & E & St & N). cbn [unicode_char_count].
    rewrite E. unfold rd. cbn [nth_error bind]. replace (c =? 0) with false by lia. rewrite <- E, St, skipn_length_app.
    simpl in HF. rewrite IH by (auto; lia). reflexivity.
Qed.

Lemma char_count_max_ok l : forall fuel rest max, Forall (fun cp => scalar cp /\ cp <> 0) l -> (length l < fuel)%nat ->
  exists k, unicode_char_count_max fuel (encode8 l ++ 0 :: rest) max = Ret k /\ (k <= length l)%nat /\
    (forall i, (i < k)%nat -> Z.of_nat (length (encode8 (firstn i l))) < max) /\
    ((k < length l)%nat -> max <= Z.of_nat (length (encode8 (firstn k l)))).
Proof.
  induction l as [|cp l IH]; intros fuel rest max F HF; (destruct fuel; [lia|]).
  - exists 0%nat. cbn [unicode_char_count_max]. simpl. split; [destruct (0 <? max); reflexivity|]. repeat split; lia.
  - inversion F as [|? ? [[C _] N0] F']; subst. cbn [unicode_char_count_max].
    destruct (Z.ltb_spec 0 max) as [M|M].
    2:{ exists 0%nat. simpl. repeat split; intros; lia. }
    assert (EE : encode8 (cp :: l) ++ 0 :: rest = utf8 cp ++ encode8 l ++ 0 :: rest) by (unfold encode8; simpl; now rewrite <- app_assoc).
    rewrite EE. clear EE.
    destruct (step_utf8 cp (encode8 l ++ 0 :: rest) C) as (c & r & E & St & N).
    rewrite E. unfold rd. cbn [nth_error bind]. replace (c =? 0) with false by lia. rewrite <- E, St, skipn_length_app.
    simpl in HF. destruct (IH fuel rest (max - Z.of_nat (length (utf8 cp))) F' ltac:(lia)) as (k & -> & L & A & B).
    exists (S k). cbn [bind]. split; [reflexivity|]. split; [simpl; lia|].
    assert (X : forall i, length (encode8 (firstn (S i) (cp :: l))) = (length (utf8 cp) + length (encode8 (firstn i l)))%nat).
    { intros i. unfold encode8. simpl. now rewrite app_length. }
    split.
    + intros [|i] Hi; [simpl; lia|]. rewrite X. specialize (A i ltac:(lia)). lia.
    + intros Hk. rewrite X. simpl in Hk. specialize (B ltac:(lia)). lia.
Qed.

Lemma byte_count_ok n : forall l rest, Forall (fun cp => scalar cp /\ cp <> 0) l ->
  unicode_string_byte_count n (encode8 l ++ 0 :: rest) = Ret (length (encode8 (firstn n l))).
Proof.
  induction n as [|n IH]; intros l rest F; [reflexivity|]. destruct l as [|cp l]; [reflexivity|].
  inversion F as [|? ? [[C _] N0] F']; subst. unfold encode8. cbn [map concat firstn]. fold (encode8 l). rewrite <- app_assoc.
  destruct (step_utf8 cp (encode8 l ++ 0 :: rest) C) as (c & r & E & St & N). cbn [unicode_string_byte_count].
  rewrite E. unfold rd. cbn [nth_error bind]. replace (c =? 0) with false by lia. rewrite <- E, St, skipn_length_app.
  rewrite IH by auto. cbn [bind]. now rewrite app_length.
Qed.

(** Bytes of a code point: no continuation byte first, only continuation bytes after. *)
Lemma utf8_shape cp : code_point cp -> exists c t, utf8 cp = c :: t /\ (0 <= c < 0x80 \/ 0xC0 <= c < 256) /\ Forall (fun b => 0x80 <= b < 0xC0) t.
Proof.
  intros H. pose proof (utf8_bytes cp H) as B. unfold code_point in H. unfold utf8 in *.
  destruct (Z.ltb_spec cp 0x80); [|destruct (Z.ltb_spec cp 0x800); [|destruct (Z.ltb_spec cp 0x10000)]];
    eexists; eexists; (split; [reflexivity|split]);
    try (repeat constructor; match goal with |- context [?x mod 64] => pose proof (Z.mod_pos_bound x 64 ltac:(lia)); lia end);
    inversion B as [|? ? Hb ?]; unfold is_byte in Hb; [left; lia| | |]; right.
  - pose proof (Z.div_pos cp 64). lia.
  - pose proof (Z.div_pos cp 4096). lia.
  - pose proof (Z.div_pos cp 262144). lia.
Qed.

Lemma previous_conts t : forall c before max, Forall (fun b => 0x80 <= b < 0xC0) t -> (0 <= c < 0x80 \/ 0xC0 <= c < 256) ->
  previous_char_byte_count (t ++ c :: before) max = Ret (Nat.min max (S (length t))).
Proof.
  induction t as [|b t IH]; intros c before max F C; (destruct max as [|max]; [reflexivity|]); cbn [app previous_char_byte_count length].
  - replace (0x40 <=? u32 (c - 0x80)) with true; [rewrite Nat.min_comm; reflexivity|].
    pose proof (u32_lt (c - 0x80) 0x40 ltac:(lia) ltac:(lia)) as U. lia.
  - inversion F; subst. replace (0x40 <=? u32 (b - 0x80)) with false by (rewrite u32_small by lia; lia).
    rewrite IH by auto. reflexivity.
Qed.

Lemma previous_ok cp before max : code_point cp ->
  previous_char_byte_count (rev (utf8 cp) ++ before) max = Ret (Nat.min max (length (utf8 cp))).
Proof.
  intros H. destruct (utf8_shape cp H) as (c & t & E & C & F). rewrite E. simpl. rewrite <- app_assoc. cbn [app].
  rewrite previous_conts; [now rewrite rev_length| |auto]. now apply Forall_rev.
Qed.
