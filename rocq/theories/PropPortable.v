(** * Properties of the portable number reader: C42, C54, C55. *)

From Verif Require Import Base TextModel NumModel ParserModel SpecNum SpecGrammar SpecPortable PortableModel
  StrtodProofs RoundProofs LexProofs PortableProofs PortableValue Str.

Ltac all_bytes := unfold bytes, is_byte; repeat constructor; vm_compute; congruence.

(** ** C42: the reader is safe. On every terminated array it returns: it reads no
    byte behind the terminator, uses both tables within their 310 entries and
    overflows no int32 (each of these would be [UB]); the literal it reports lies
    before the first NUL. *)

Lemma groups_nul t ds : groups t ds -> nul_free t.
Proof. induction 1; repeat constructor; auto; unfold digit in *; lia. Qed.
Lemma singles_nul t ds : singles t ds -> nul_free t.
Proof. induction 1; repeat constructor; auto; unfold digit in *; lia. Qed.

Lemma p_number_nul p t ip fp ex : p_number p t ip fp ex -> nul_free t /\ exists c r, p = t ++ c :: r.
Proof.
  intros [w ip' f fp' x ex' c rest Hw Hf _ Hx _]. split.
  - unfold nul_free. rewrite !Forall_app. repeat split.
    + destruct Hw; [constructor|eapply groups_nul; eauto|eapply singles_nul; eauto].
    + destruct Hf as [| |t' ds G]; repeat constructor; try lia. eapply groups_nul; eauto.
    + destruct Hx as [|e sg neg t' ds He Hs G]; [constructor|]. constructor; [lia|]. apply Forall_app. split.
      * destruct Hs; repeat constructor; lia.
      * eapply groups_nul; eauto.
  - exists c, rest. now rewrite <- !app_assoc.
Qed.

Theorem C42_portable_total (p : list Z) : bytes p -> terminated p ->
  exists st n d, portable_double_literal p = Ret (st, n, d) /\
    (st = kOk -> exists t c rest, p = t ++ c :: rest /\ n = length t /\ nul_free t).
Proof.
  intros HB HT. destruct (portable_spec p HT HB) as (st & n & d & E & H). exists st, n, d. split; [exact E|].
  intros ->. destruct H as [(_ & t & ip & fp & ex & P & -> & _)|[[? _]|?]]; try discriminate.
  destruct (p_number_nul _ _ _ _ _ P) as (H1 & c & r & H2). exists t, c, r. auto.
Qed.
Print Assumptions C42_portable_total.

(** NumberValue::Parse with this reader: the sign and the blanks around included. *)
Theorem C42_number_parse_total (p : list Z) : bytes p -> terminated p ->
  exists st d q, portable_number_parse p = Ret (st, d, q) /\ terminated q.
Proof.
  intros HB HT. unfold portable_number_parse.
  destruct (parse_sign_spec p HT) as (sg & neg & w & p1 & E & Ep & _ & _ & _ & _ & HT1 & _). rewrite E. cbn [bind].
  assert (HB1 : bytes p1). { rewrite Ep in HB. rewrite !bytes_app in HB. tauto. }
  destruct (portable_spec p1 HT1 HB1) as (st & n & d & E1 & H). rewrite E1. cbn [bind].
  destruct H as [(-> & t & ip & fp & ex & P & -> & _)|H].
  - simpl. destruct (p_number_nul _ _ _ _ _ P) as (H1 & c & r & H2). rewrite H2, skipn_length_app.
    assert (HTr : terminated (c :: r)) by (rewrite H2 in HT1; eapply terminated_suffix; [exact HT1|discriminate]).
    destruct (skip_ws_spec (c :: r) HTr) as (w' & q & -> & _ & _ & _ & HTq). eexists _, _, q. split; [reflexivity|auto].
  - assert (N : status_eqb st kOk = false) by (destruct H as [[-> _]| ->]; reflexivity). rewrite N.
    eexists _, _, p1. split; [reflexivity|auto].
Qed.
Print Assumptions C42_number_parse_total.

(** Instances: an exponent of many digits (it saturates), and a literal cut off by
    the terminator. *)
Example C42_instance : portable_double_literal (buf "1e-999999999999999999999999") = Ret (kOk, 27%nat, S754_zero false) /\
  portable_double_literal (buf "12.5e+") = Ret (kFloatInvalid, 0%nat, S754_nan).
Proof. split; vm_compute; reflexivity. Qed.

(** ** C54: the language of the reader, exactly. *)
Theorem C54_portable_language (p : list Z) : bytes p -> terminated p ->
  (forall n d, portable_double_literal p = Ret (kOk, n, d) <->
     exists t ip fp ex, p_number p t ip fp ex /\ n = length t /\ d = literal_value ip fp ex) /\
  ((exists n d, portable_double_literal p = Ret (kNumbersCannotHaveLeadingZeros, n, d)) <-> leading_zero p) /\
  ((exists n d, portable_double_literal p = Ret (kFloatInvalid, n, d)) <->
     ~ leading_zero p /\ ~ exists t ip fp ex, p_number p t ip fp ex).
Proof.
  intros HB HT. destruct (portable_spec p HT HB) as (st & n & d & E & H).
  split; [|split].
  - intros n' d'. split.
    + intros E'. rewrite E in E'. injection E' as -> -> ->.
      destruct H as [(_ & H)|[[? _]|?]]; try discriminate. exact H.
    + intros (t & ip & fp & ex & P & -> & ->). now apply portable_complete.
  - split.
    + intros (n' & d' & E'). rewrite E in E'. injection E' as -> -> ->.
      destruct H as [[? _]|[[_ H]|?]]; try discriminate. exact H.
    + intros L. rewrite portable_leading by auto. eauto.
  - split.
    + intros (n' & d' & E'). split.
      * intros L. rewrite portable_leading in E' by auto. discriminate.
      * intros (t & ip & fp & ex & P). rewrite (portable_complete p t ip fp ex HB P) in E'. discriminate.
    + intros [H1 H2]. exists n, d. rewrite E. destruct H as [(_ & t & ip & fp & ex & P & _)|[[_ L]| ->]]; [|contradiction|reflexivity].
      exfalso. apply H2. eauto 6.
Qed.
Print Assumptions C54_portable_language.

(** Every RFC 8259 number (without its sign, which NumberValue::Parse takes) that is
    followed by a byte that cannot continue it is such a literal, read to its end. *)
Lemma digits_groups ds : digits ds -> ds <> [] -> groups ds ds.
Proof.
  induction ds as [|c ds IH]; [congruence|]. intros H _. inversion H; subst.
  destruct ds; [now constructor|]. apply g_digit; auto. apply IH; [auto|discriminate].
Qed.

Theorem C54_rfc_accepted (t : list Z) (m e : Z) (c : Z) (rest : list Z) : rfc_number t false m e ->
  bytes (t ++ c :: rest) -> ~ In c (`"0123456789_.eE") ->
  exists d, portable_double_literal (t ++ c :: rest) = Ret (kOk, length t, d).
Proof.
  intros H HB Hc. inversion H as [sg neg ip fr fp ex x Hsg Hip Hlead Hfr Hne Hex E1 E2 E3 E4]. subst.
  destruct Hsg as [[-> _]|[_ ?]]; [|discriminate]. simpl app in *.
  assert (Hc' : ~ digit c /\ c <> 95 /\ c <> 46 /\ c <> 101 /\ c <> 69).
  { unfold digit. simpl in Hc. lia. }
  assert (Nip : ip <> []) by (destruct Hlead as [->|(? & ? & -> & _)]; discriminate).
  assert (P : exists x', p_number (ip ++ fr ++ ex ++ c :: rest) (ip ++ fr ++ ex) ip fp x').
  { assert (X : exists x', p_exp ex x').
    { destruct Hex as [|e0 sg neg' ds He Hs Hd Hn]; [exists None; constructor|]. exists (Some (neg', ds)).
      constructor; auto. now apply digits_groups. }
    destruct X as [x' X]. exists x'. constructor; auto.
    - destruct Hlead as [->|(c1 & r1 & -> & Nc)].
      + apply pw_zero. apply s_one. unfold digit. lia.
      + apply pw_plain; auto. apply digits_groups; [auto|discriminate].
    - destruct Hfr as [|ds Hds]; [constructor|]. apply pf_some. apply digits_groups; auto. apply Hne. discriminate.
    - intros E. apply app_eq_nil in E. tauto.
    - unfold ends. tauto. }
  destruct P as [x' P]. exists (literal_value ip fp x').
  replace ((ip ++ fr ++ ex) ++ c :: rest) with (ip ++ fr ++ ex ++ c :: rest) in * by now rewrite <- !app_assoc.
  now apply portable_complete.
Qed.
Print Assumptions C54_rfc_accepted.

(** Instances: literals with underscores, and one with a leading zero. *)
Example C54_instance :
  p_number (buf "1_0.5e2]") (`"1_0.5e2") (`"10") (`"5") (Some (false, `"2")) /\
  portable_double_literal (buf "1_0.5e2]") = Ret (kOk, 7%nat, dint 1050) /\
  leading_zero (buf "0_12") /\ portable_double_literal (buf "0_12") = Ret (kNumbersCannotHaveLeadingZeros, 0%nat, S754_nan).
Proof.
  assert (D : forall c, 48 <= c <= 57 -> digit c) by auto.
  split; [|split; [vm_compute; reflexivity|split; [|vm_compute; reflexivity]]].
  - apply (p_number_intro (`"1_0") (`"10") (`".5") (`"5") (`"e2") (Some (false, `"2")) 93 [0]).
    + apply (pw_plain 49 [95; 48] [49; 48]); [|lia]. apply g_sep; [apply D; vm_compute; split; congruence|]. constructor. apply D; vm_compute; split; congruence.
    + apply (pf_some [53] [53]). constructor. apply D; vm_compute; split; congruence.
    + discriminate.
    + apply (pe_some 101 [] false [50] [50]); [auto|constructor|]. constructor. apply D; vm_compute; split; congruence.
    + unfold ends, digit. simpl. repeat split; try lia; discriminate.
  - exists [95; 49], [48; 49], 50, [0]. split; [|split; [apply D; vm_compute; split; congruence|reflexivity]].
    apply s_sep; [apply D; vm_compute; split; congruence|]. constructor. apply D; vm_compute; split; congruence.
Qed.

Lemma rfc_no_underscore t neg m e : rfc_number t neg m e -> ~ In 95 t.
Proof.
  intros [sg neg' ip fr fp ex x Hsg Hip Hlead Hfr Hne Hex] I.
  assert (ND : forall ds, digits ds -> ~ In 95 ds).
  { intros ds Hd Hin. apply (proj1 (Forall_forall _ _) Hd) in Hin. unfold digit in Hin. lia. }
  repeat rewrite in_app_iff in I. destruct I as [I|[I|[I|I]]].
  - destruct Hsg as [[-> _]|[-> _]]; simpl in I; lia.
  - now apply ND in I.
  - destruct Hfr as [|ds Hd]; [contradiction|]. destruct I as [I|I]; [lia|]. now apply ND in I.
  - destruct Hex as [|e0 sg0 neg0 ds He Hs Hd Hn]; [contradiction|].
    destruct I as [I|I]; [lia|]. apply in_app_iff in I. destruct I as [I|I]; [|now apply ND in I].
    destruct Hs; simpl in I; lia.
Qed.

(** ** C55: numbers have the value of their literal. False: with an exponent of 309
    or more a zero becomes NaN, fractions and negative exponents are not correctly
    rounded, and literals outside JSON are read. *)
Theorem C55_refuted :
  (exists t, rfc_number t false 0 309 /\ portable_double_literal (t ++ [0]) = Ret (kOk, length t, S754_nan)) /\
  (exists t d, rfc_number t false 15 (-2) /\ portable_double_literal (t ++ [0]) = Ret (kOk, length t, d) /\ ~ rounds false 15 (-2) d) /\
  (exists t d, rfc_number t false 3 (-1) /\ portable_double_literal (t ++ [0]) = Ret (kOk, length t, d) /\ ~ rounds false 3 (-1) d) /\
  (exists t d, (forall neg m e, ~ rfc_number t neg m e) /\ portable_double_literal (t ++ [0]) = Ret (kOk, length t, d)).
Proof.
  assert (D : forall c, 48 <= c <= 57 -> digit c) by auto.
  split; [|split; [|split]].
  - exists (`"0e309"). split; [|vm_compute; reflexivity].
    apply (rfc_number_intro [] false [48] [] [] (`"e309") 309); auto.
    + constructor; [apply D; vm_compute; split; congruence|constructor].
    + constructor.
    + apply (ex_some 101 [] false (`"309")); [auto|constructor| |discriminate].
      repeat (constructor; [apply D; vm_compute; split; congruence|]). constructor.
  - exists (`"0.15"). eexists. split; [|split; [vm_compute; reflexivity|]].
    + apply (rfc_number_intro [] false [48] (`".15") (`"15") [] 0); auto.
      * constructor; [apply D; vm_compute; split; congruence|constructor].
      * constructor. repeat (constructor; [apply D; vm_compute; split; congruence|]). constructor.
      * discriminate.
      * constructor.
    + intros R. apply rounds_dec in R; [|lia]. vm_compute in R. discriminate.
  - exists (`"3e-1"). eexists. split; [|split; [vm_compute; reflexivity|]].
    + apply (rfc_number_intro [] false [51] [] [] (`"e-1") (-1)); auto.
      * constructor; [apply D; vm_compute; split; congruence|constructor].
      * right. exists 51, []. split; [auto|lia].
      * constructor.
      * apply (ex_some 101 [45] true (`"1")); [auto|constructor| |discriminate]. constructor; [apply D; vm_compute; split; congruence|constructor].
    + intros R. apply rounds_dec in R; [|lia]. vm_compute in R. discriminate.
  - exists (`"1_0"). eexists. split; [|vm_compute; reflexivity].
    intros neg m e H. apply rfc_no_underscore in H. apply H. vm_compute. auto.
Qed.
Print Assumptions C55_refuted.

(** What holds: an integer literal up to 2^53, with an exponent from 0 to 22 or
    none, is read as the nearest double. Missing: literals with a fraction, a
    negative or a larger exponent. *)
Theorem C55_integers_partial (p t ip : list Z) (ex : option (bool * list Z)) (x : Z) :
  bytes p -> p_number p t ip [] ex -> digits ip -> dvalue ip <= 2 ^ 53 ->
  (ex = None /\ x = 0 \/ exists ds, ex = Some (false, ds) /\ digits ds /\ x = dvalue ds /\ x <= 22) ->
  exists d, portable_double_literal p = Ret (kOk, length t, d) /\ rounds false (dvalue ip) x d.
Proof.
  intros HB P HI Hb He. pose proof (dvalue_nonneg ip HI). exists (literal_value ip [] ex).
  split; [now apply portable_complete|]. apply rounds_dec; [lia|].
  destruct He as [[-> ->]|(ds & -> & HD & -> & Hx)]; [now apply integer_plain|now apply integer_exponent].
Qed.
Print Assumptions C55_integers_partial.

(** Where NaN comes from. The digits of a literal are all digits: *)
Lemma p_number_digits p t ip fp ex : p_number p t ip fp ex ->
  digits ip /\ digits fp /\ forall neg ds, ex = Some (neg, ds) -> digits ds.
Proof.
  intros [w ip' f fp' x ex' c rest Hw Hf _ Hx _].
  assert (SD : forall t ds, singles t ds -> digits ds) by (induction 1; constructor; auto; constructor).
  split; [|split].
  - destruct Hw; [constructor|eapply groups_digits; eauto|eapply SD; eauto].
  - destruct Hf as [| |t' ds G]; try constructor. eapply groups_digits; eauto.
  - intros neg ds ->. inversion Hx; subst. eapply groups_digits; eauto.
Qed.

(** Without an exponent, or with one below 309, the value read is a number. *)
Theorem C55_no_nan (p t ip fp : list Z) (ex : option (bool * list Z)) (n : nat) (d : double) :
  bytes p -> p_number p t ip fp ex -> portable_double_literal p = Ret (kOk, n, d) ->
  (forall neg ds, ex = Some (neg, ds) -> dvalue ds < 309) -> d <> S754_nan.
Proof.
  intros HB P E Hx. rewrite (portable_complete p t ip fp ex HB P) in E. injection E as _ <-.
  destruct (p_number_digits _ _ _ _ _ P) as (H1 & H2 & H3). rewrite (literal_nan ip fp ex H1 H2 H3).
  intros (neg & ds & -> & L & _). specialize (Hx neg ds eq_refl). lia.
Qed.
Print Assumptions C55_no_nan.

(** Every zero with an exponent from 309 up is read as NaN, with a negative
    exponent as 0. *)
Theorem C55_zero (p t ip fp : list Z) (neg : bool) (ds : list Z) :
  bytes p -> p_number p t ip fp (Some (neg, ds)) -> Forall (fun c => c = 48) (ip ++ fp) -> 309 <= dvalue ds ->
  portable_double_literal p = Ret (kOk, length t, if neg then S754_zero false else S754_nan).
Proof.
  intros HB P Z0 L. rewrite (portable_complete p t ip fp _ HB P). do 2 f_equal.
  destruct (p_number_digits _ _ _ _ _ P) as (H1 & H2 & H3). specialize (H3 neg ds eq_refl).
  unfold literal_value, scaled. rewrite zeros_mantissa by auto. rewrite exp_val_min by auto.
  unfold power_of. replace (309 <=? Z.min (dvalue ds) 65535) with true by lia. now destruct neg.
Qed.
Print Assumptions C55_zero.

Example C55_instance :
  p_number (buf "9007199254740992e22") (`"9007199254740992e22") (`"9007199254740992") [] (Some (false, `"22")) /\
  dvalue (`"9007199254740992") <= 2 ^ 53 /\
  portable_double_literal (buf "9007199254740992e22") = Ret (kOk, 19%nat, S754_finite false 4768371582031250 74) /\
  portable_double_literal (buf "0.000e400") = Ret (kOk, 9%nat, S754_nan).
Proof.
  assert (D : forall c, 48 <= c <= 57 -> digit c) by auto.
  split; [|split; [vm_compute; congruence|split; vm_compute; reflexivity]].
  apply (p_number_intro (`"9007199254740992") (`"9007199254740992") [] [] (`"e22") (Some (false, `"22")) 0 []).
  - apply (pw_plain 57 (`"007199254740992")); [|lia]. apply (digits_groups (`"9007199254740992")); [|discriminate].
    repeat (constructor; [apply D; vm_compute; split; congruence|]). constructor.
  - constructor.
  - discriminate.
  - apply (pe_some 101 [] false (`"22") (`"22")); [auto|constructor|]. apply digits_groups; [|discriminate].
    repeat (constructor; [apply D; vm_compute; split; congruence|]). constructor.
  - unfold ends, digit. simpl. repeat split; try lia; discriminate.
Qed.
