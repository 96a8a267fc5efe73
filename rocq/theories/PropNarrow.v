(** * Properties of writing without system conversions: C87 (numbers), C88 (documents). *)

From Verif Require Import Base TextModel NumModel MapModel ParserModel WriterModel PortableModel BuildModel FloatTextModel NarrowModel SpecUtf8 SpecNum SpecMap SpecGrammar SpecMeaning
  SpecRfc SpecText SpecWrite SpecPortable SpecBuild SpecFloatText SpecNarrow TextProofs MapProofs StrtodProofs RoundProofs LexProofs ParserProofs RootProofs RfcProofs FormatProofs WriterProofs
  PortableProofs PortableValue PropPortable BuildProofs BuildPort PropBuild FloatTextProofs FloatNumber FloatResult PropFloatText NarrowProofs NarrowWrite PropWrite Str.

#[local] Arguments Z.pow : simpl never.
#[local] Arguments Z.eqb : simpl nomatch.

Definition has_sign (d : spec_float) (neg : bool) : Prop := SpecNum.sign_of d = Some neg.

Lemma dsign_spec d : is_finite d -> has_sign d (dsign d).
Proof. destruct d; simpl; try contradiction; reflexivity. Qed.

(** ** The text *)

Lemma holds_put b t : holds b t -> put_text b = t.
Proof.
  intros (N & r & ->). unfold put_text. induction N as [|c t C _ IH]; [reflexivity|]. cbn [app cstr].
  destruct (Z.eqb_spec c 0); [lia|]. now rewrite IH.
Qed.

Lemma narrow_ok scale junk d : length junk = 16%nat -> d_moderate d ->
  exists t n ds, narrow_text false scale junk d = Ret t /\ point_text (dsign d) n ds t /\ no_trailing_zero ds /\ short_decimal n ds d /\
    (forall a, dyadic a 4 d -> (n * 10 ^ Z.of_nat (length ds) + dvalue ds) * 16 = a * 10 ^ Z.of_nat (length ds)).
Proof.
  intros L Mo. destruct (narrow_moderate d Mo) as (Fm & Nb & Fs & Fx).
  destruct (C80_fixed_string 15 scale _ junk ltac:(lia) L Fm) as (b & t & E & _ & H & n & ds & P & W & Z).
  unfold narrow_text. rewrite E. cbn [bind]. rewrite (holds_put b t H). exists t, n, ds. rewrite Fs in P.
  split; [reflexivity|]. split; [exact P|]. split; [exact Z|]. split.
  - destruct W as [Wl Wd]. split; [exact Wl|]. unfold decimal7. set (N := _ * 10 ^ (7 - _)) in *. unfold nearby in Nb.
    set (u := f_units _) in *. set (M := magnitude d) in *. change (2 ^ 1074) with (2 ^ 149 * 2 ^ (1074 - 149)) at 1 2.
    change (1074 - 149) with 925 in *.
    assert (P149 : 0 < 2 ^ 149) by (apply Z.pow_pos_nonneg; lia). assert (P925 : 0 < 2 ^ 925) by (apply Z.pow_pos_nonneg; lia).
    set (X := 2 ^ 149) in *. set (Y := 2 ^ 925) in *. clearbody X Y N u M.
    assert (A1 : Z.abs (N * (X * Y) - u * 10 ^ 7 * Y) <= 102 * (X * Y)).
    { replace (N * (X * Y) - u * 10 ^ 7 * Y) with ((N * X - u * 10 ^ 7) * Y) by ring. rewrite Z.abs_mul, (Z.abs_eq Y) by lia. nia. }
    assert (A2 : Z.abs (u * 10 ^ 7 * Y - M * 10 ^ 7) * 2 ^ 24 <= M * 10 ^ 7).
    { replace (u * 10 ^ 7 * Y - M * 10 ^ 7) with ((u * Y - M) * 10 ^ 7) by ring. rewrite Z.abs_mul, (Z.abs_eq (10 ^ 7)) by lia. lia. }
    lia.
  - intros a Ha. specialize (Fx a Ha).
    destruct (C81_exact_partial scale _ junk 15 a Fm ltac:(lia) ltac:(lia) Fx) as (b' & t' & n' & ds' & E' & (_ & _ & H' & _) & P' & _ & _ & V').
    unfold fix_assign_float in E. rewrite E' in E. cbn [bind] in E. injection E as ->.
    rewrite <- (holds_put b t H), (holds_put b t' H') in P. rewrite Fs in P'. destruct (point_unique _ _ _ _ _ _ _ P P') as (_ & <- & <-). exact V'.
Qed.

(** ** What the readers make of it *)

Lemma point_number neg n ds t : point_text neg n ds t ->
  exists w, digits w /\ (w = [48] \/ exists c r, w = c :: r /\ c <> 48) /\ dvalue w = n /\ t = sign_of neg ++ w ++ (46 :: ds) ++ [] /\
    rfc_number t neg (dvalue (w ++ ds)) (0 - Z.of_nat (length ds)).
Proof.
  intros (Hn & Ne & D & w & W & ->). destruct (numeral_rfc n w Hn W) as (Dw & Lw & Vw). exists w.
  split; [exact Dw|]. split; [exact Lw|]. split; [exact Vw|]. rewrite app_nil_r. split; [reflexivity|].
  replace (sign_of neg ++ w ++ 46 :: ds) with (sign_of neg ++ w ++ (46 :: ds) ++ []) by now rewrite app_nil_r.
  apply rfc_number_intro; auto.
  - destruct neg; [right|left]; auto.
  - now constructor.
  - constructor.
Qed.

Lemma point_plain neg n ds t : point_text neg n ds t -> ~ zero_exp t.
Proof.
  intros (Hn & Ne & D & w & W & ->) (sg & e & r & Hsg & He & E). destruct (numeral_rfc n w Hn W) as (Dw & _ & _).
  assert (I : In e (sign_of neg ++ w ++ 46 :: ds)) by (rewrite E; apply in_or_app; right; simpl; auto).
  apply in_app_or in I. destruct I as [I|I]; [destruct neg; simpl in I; lia|]. apply in_app_or in I. destruct I as [I|[I|I]]; [|lia|].
  - apply (proj1 (Forall_forall _ _) Dw) in I. unfold digit in I. lia.
  - apply (proj1 (Forall_forall _ _) D) in I. unfold digit in I. lia.
Qed.

Lemma point_system neg n ds t d : point_text neg n ds t -> rounds neg (n * 10 ^ Z.of_nat (length ds) + dvalue ds) (0 - Z.of_nat (length ds)) d -> lib_num t d.
Proof.
  intros P R. apply core_num_lib. split; [|exact (point_plain _ _ _ _ P)]. destruct (point_number _ _ _ _ P) as (w & _ & _ & <- & _ & N).
  exists neg. do 2 eexists. split; [exact N|]. rewrite dvalue_app. exact R.
Qed.

Lemma point_portable neg n ds t : point_text neg n ds t -> exists w, digits w /\ dvalue w = n /\
  p_num t (if neg then dneg (literal_value w ds None) else literal_value w ds None).
Proof.
  intros P. pose proof P as (_ & Ne & D & _). destruct (point_number _ _ _ _ P) as (w & Dw & Lw & Vw & -> & _). exists w. split; [exact Dw|]. split; [exact Vw|].
  exists neg, w, ds, None. split; [|reflexivity].
  apply (p_token_intro (sign_of neg) neg [] w w (46 :: ds) ds [] None).
  - destruct neg; constructor.
  - constructor.
  - auto.
  - destruct Lw as [->|(c1 & r1 & -> & Nc)].
    + apply pw_zero. apply s_one. unfold digit. lia.
    + apply pw_plain; auto. apply digits_groups; [auto|discriminate].
  - apply pf_some. now apply digits_groups.
  - destruct w; [destruct Lw as [?|(? & ? & ? & _)]; discriminate|discriminate].
  - constructor.
Qed.

(** A number that is a double rounds to itself. *)
Lemma rounds_self m e d neg : valid_double d -> is_finite d -> has_sign d neg -> dec_A m e = dec_B e * magnitude d -> rounds neg m e d.
Proof.
  intros V F S E. pose proof (dec_B_pos e) as HB. split; [exact V|]. split; [exact S|]. rewrite E. split.
  - intros HO. exfalso. apply Z.mul_le_mono_pos_l in HO; [|exact HB]. rewrite threshold_units in HO.
    destruct d as [s|s| |s x k]; simpl magnitude in HO; try contradiction.
    apply valid_finite in V.
    assert (Zpos x * 2 ^ (k + 1074) <= Zpos x * 2 ^ (971 + 1074)) by (apply Z.mul_le_mono_nonneg_l; [lia|]; apply Z.pow_le_mono_r; lia).
    assert (2 ^ (971 + 1074) = 2 * 2 ^ (970 + 1074)) as H1 by (rewrite <- Z.pow_succ_r by lia; f_equal; lia).
    assert (0 < 2 ^ (970 + 1074)) by (apply Z.pow_pos_nonneg; lia). set (T := 2 ^ (970 + 1074)) in *. rewrite H1 in H.
    assert (Zpos x * (2 * T) <= (2 ^ 53 - 1) * (2 * T)) by (apply Z.mul_le_mono_nonneg_r; lia). nia.
  - intros _. split; [exact F|]. intros g _ _. rewrite Z.sub_diag. simpl Z.abs. split; [lia|]. intros E0 Hne. exfalso. apply Hne. symmetry in E0. apply Z.abs_0_iff in E0. nia.
Qed.

Lemma dec_point_A M l : dec_A M (0 - Z.of_nat l) = M * 2 ^ 1074 /\ dec_B (0 - Z.of_nat l) = 10 ^ Z.of_nat l.
Proof.
  unfold dec_A, dec_B. replace (Z.max 0 (0 - Z.of_nat l)) with 0 by lia. replace (Z.max 0 (- (0 - Z.of_nat l))) with (Z.of_nat l) by lia.
  change (10 ^ 0) with 1. split; [ring|reflexivity].
Qed.

Lemma dyadic_up a b c d : 0 <= b -> 0 <= c -> dyadic a b d -> dyadic (a * 2 ^ c) (b + c) d.
Proof. unfold dyadic. intros Hb Hc H. rewrite Z.pow_add_r by lia. rewrite Z.mul_assoc, H. ring. Qed.

Lemma narrow_system_exact scale junk d a : length junk = 16%nat -> d_moderate d -> dyadic a 4 d ->
  exists t, narrow_text false scale junk d = Ret t /\ lib_num t d.
Proof.
  intros L Mo Ha. destruct (narrow_ok scale junk d L Mo) as (t & n & ds & E & P & _ & _ & X). exists t. split; [exact E|].
  specialize (X a Ha). destruct Mo as (V & F & _). apply (point_system _ _ _ _ _ P). apply rounds_self; auto; [now apply dsign_spec|].
  destruct (dec_point_A (n * 10 ^ Z.of_nat (length ds) + dvalue ds) (length ds)) as [-> ->]. unfold dyadic in Ha.
  set (Q := n * 10 ^ Z.of_nat (length ds) + dvalue ds) in *. set (T := 10 ^ Z.of_nat (length ds)) in *. change (2 ^ 4) with 16 in Ha. nia.
Qed.

(** ** Halves *)

Lemma half_digits n ds a : digits ds -> no_trailing_zero ds -> (n * 10 ^ Z.of_nat (length ds) + dvalue ds) * 2 = a * 10 ^ Z.of_nat (length ds) ->
  ds = [48] /\ a = 2 * n \/ ds = [53] /\ a = 2 * n + 1.
Proof.
  intros D Nz E. pose proof (dvalue_nonneg ds D) as D0. pose proof (dvalue_lt ds D) as D1.
  assert (T0 : 0 < 10 ^ Z.of_nat (length ds)) by (apply Z.pow_pos_nonneg; lia). set (T := 10 ^ Z.of_nat (length ds)) in *.
  assert (C : a - 2 * n = 0 \/ a - 2 * n = 1) by nia.
  destruct Nz as [->|(ds' & c & -> & Nc)].
  - left. split; [reflexivity|]. simpl in *. nia.
  - rewrite dvalue_app in *. cbn [length dvalue] in *. unfold T in *. rewrite app_length in *. cbn [length] in *.
    apply Forall_app in D. destruct D as [D' Dc]. inversion Dc as [|? ? Hc _]; subst. unfold digit in Hc.
    change (10 ^ Z.of_nat 0) with 1 in *. change (10 ^ Z.of_nat 1) with 10 in *.
    replace (Z.of_nat (length ds' + 1)) with (Z.succ (Z.of_nat (length ds'))) in * by lia. rewrite Z.pow_succ_r in * by lia.
    destruct C as [C|C].
    + exfalso. assert (dvalue ds' * 10 + (c - 48) = 0) by nia. pose proof (dvalue_nonneg ds' D'). lia.
    + assert (H : (dvalue ds' * 10 + (c - 48)) * 2 = 10 * 10 ^ Z.of_nat (length ds')) by nia.
      destruct ds' as [|x ds'].
      * simpl in H. change (10 ^ Z.of_nat 0) with 1 in H. right. split; [|lia]. simpl. f_equal. lia.
      * exfalso. cbn [length] in H. rewrite Nat2Z.inj_succ, Z.pow_succ_r in H by lia. lia.
Qed.

Lemma narrow_half scale junk d a : length junk = 16%nat -> d_moderate d -> dyadic a 1 d ->
  exists t, narrow_text false scale junk d = Ret t /\ lib_num t d /\ p_num t d.
Proof.
  intros L Mo Ha. pose proof (dyadic_up a 1 3 d ltac:(lia) ltac:(lia) Ha) as Ha4. change (1 + 3) with 4 in Ha4.
  destruct (narrow_system_exact scale junk d _ L Mo Ha4) as (t & E & Ls). exists t. split; [exact E|]. split; [exact Ls|].
  destruct (narrow_ok scale junk d L Mo) as (t' & n & ds & E' & P & Z & _ & X). rewrite E in E'. injection E' as <-.
  specialize (X _ Ha4). destruct (point_portable _ _ _ _ P) as (w & Dw & Vw & Pn). pose proof P as (Hn & _ & Dd & _).
  assert (H2 : (n * 10 ^ Z.of_nat (length ds) + dvalue ds) * 2 = a * 10 ^ Z.of_nat (length ds)) by (change (2 ^ 3) with 8 in X; lia).
  destruct Mo as (V & F & Lo & Hi). unfold dyadic in Ha. change (2 ^ 1) with 2 in Ha.
  destruct d as [s|s| |s m e]; try contradiction.
  assert (Vp : valid_double (S754_finite false m e)) by (apply valid_finite; now apply valid_finite in V).
  set (M := magnitude (S754_finite s m e)) in *. assert (EM : magnitude (S754_finite false m e) = M) by reflexivity.
  assert (Hb : n < 100000).
  { assert (P1 : 0 < 2 ^ 1066) by (apply Z.pow_pos_nonneg; lia). change (1074 - 8) with 1066 in Hi. change (2 ^ 1074) with (2 ^ 8 * 2 ^ 1066) in Ha.
    set (T := 2 ^ 1066) in *. destruct (half_digits n ds a Dd Z H2) as [[_ A]|[_ A]]; nia. }
  assert (K : literal_value w ds None = S754_finite false m e).
  { unfold literal_value, scaled. rewrite whole_exact by (auto; lia). rewrite Vw.
    destruct (half_digits n ds a Dd Z H2) as [[-> A]|[-> A]]; cbn [frac_val].
    - change (ddiv (dint (48 - 48)) dten) with (S754_zero false).
      assert (Hn0 : 0 < n). { destruct (Z.eq_dec n 0) as [->|]; [|lia]. exfalso. subst a. simpl in Ha. assert (0 < M); [|lia]. eapply Z.lt_le_trans; [|exact Lo]. reflexivity. }
      destruct (int_exact n ltac:(lia)) as (x & k & Ex & Vx & Mx). rewrite Ex. cbn [dadd].
      rewrite <- Ex. apply (rounds_exact (n * 2 ^ 1074) 1); [lia| |exact Vp|rewrite EM; lia].
      eapply rounds_AB_cross; [apply dec_B_pos|lia| |apply dec_rounds_AB; lia]. unfold dec_A, dec_B. change (10 ^ Z.max 0 0) with 1. change (10 ^ Z.max 0 (- 0)) with 1. ring.
    - change (ddiv (dint (53 - 48)) dten) with (S754_finite false 4503599627370496 (-53)).
      destruct (Z.eq_dec n 0) as [->|Nn].
      + change (dint 0) with (S754_zero false). cbn [dadd].
        assert (rounds_AB false (2 ^ 1073) 1 (S754_finite false 4503599627370496 (-53))) as R.
        { eapply rounds_AB_cross; [| | |apply (dec_rounds_AB 5 (-1)); lia]; [apply dec_B_pos|lia|]. vm_compute. reflexivity. }
        apply (rounds_exact _ 1 _ _ _ ltac:(lia) R Vp). rewrite EM. subst a. change (2 ^ 1074) with (2 * 2 ^ 1073) in Ha. lia.
      + destruct (int_exact n ltac:(lia)) as (x & k & Ex & Vx & Mx). rewrite Ex.
        assert (Vh : valid_double (S754_finite false 4503599627370496 (-53))) by reflexivity.
        pose proof (dadd_rounds x k _ _ Vx Vh) as R. apply (rounds_exact _ 1 _ _ _ ltac:(lia) R Vp). rewrite EM, Mx.
        change (magnitude (S754_finite false 4503599627370496 (-53))) with (2 ^ 1073). subst a. change (2 ^ 1074) with (2 * 2 ^ 1073) in Ha |- *. lia. }
  rewrite K in Pn. cbn [dsign] in Pn. destruct s; exact Pn.
Qed.

(** ** C87: numbers *)

Ltac cells junk L := do 16 (destruct junk as [|? junk]; [discriminate L|]); destruct junk; [|discriminate L]; clear L.

Lemma narrow_zero strict scale junk s : length junk = 16%nat -> narrow_text strict scale junk (S754_zero s) = Ret `"0.0".
Proof. intros L. cells junk L. destruct s; reflexivity. Qed.

(** Numbers are lost: 2^128 is written INF, which neither build reads; 2^-130 and -0
    are written 0.0; 0.5 and 0.5 + 2^-40 are written alike; by the rules before C++20
    writing 512 is undefined. *)
Theorem C87_refuted (scale : Z -> Z * Z) (junk : list Z) : length junk = 16%nat ->
  let write strict d := narrow_sd_write strict scale junk 0 32 (Some (VNumber d)) in
  let read system t := build_parse (reader system) None (t ++ [0]) in
  (exists d out, finite_number d /\ (forall strict, write strict d = Ret (kOk, out)) /\
     forall system, exists st l c o k, read system (text out) = Ret (PR st l c, o, k) /\ st <> kOk) /\
  (exists d out, finite_number d /\ magnitude d <> 0 /\ (forall strict, write strict d = Ret (kOk, out)) /\
     forall system, read system (text out) = Ret (PR kOk 0 0, Some (VNumber (S754_zero false)), 1%nat)) /\
  (exists out, (forall strict, write strict (S754_zero true) = Ret (kOk, out)) /\
     forall system, read system (text out) = Ret (PR kOk 0 0, Some (VNumber (S754_zero false)), 1%nat)) /\
  (exists d d' out, d_moderate d /\ d_moderate d' /\ d <> d' /\ forall strict, write strict d = Ret (kOk, out) /\ write strict d' = Ret (kOk, out)) /\
  (exists d, d_moderate d /\ dyadic 512 0 d /\ write true d = UB).
Proof.
  intros L. cells junk L. cbv zeta. split; [|split; [|split; [|split]]].
  - exists (S754_finite false (2 ^ 52) 76). eexists. split; [split; [reflexivity|exact I]|]. split; [intros []; reflexivity|].
    intros []; do 5 eexists; (split; [vm_compute; reflexivity|discriminate]).
  - exists (S754_finite false (2 ^ 52) (-182)). eexists. split; [split; [reflexivity|exact I]|]. split; [vm_compute; discriminate|]. split; [intros []; reflexivity|].
    intros []; vm_compute; reflexivity.
  - eexists. split; [intros []; reflexivity|]. intros []; vm_compute; reflexivity.
  - exists (S754_finite false (2 ^ 52) (-53)), (S754_finite false (2 ^ 52 + 2 ^ 13) (-53)). eexists.
    split; [split; [reflexivity|split; [exact I|split; vm_compute; [discriminate|reflexivity]]]|].
    split; [split; [reflexivity|split; [exact I|split; vm_compute; [discriminate|reflexivity]]]|].
    split; [discriminate|]. intros []; split; vm_compute; reflexivity.
  - exists (S754_finite false (2 ^ 52) (-43)). split; [split; [reflexivity|split; [exact I|split; vm_compute; [discriminate|reflexivity]]]|]. split; [reflexivity|]. reflexivity.
Qed.
Print Assumptions C87_refuted.

(** With the shift as in C++20, every number is written that the results of Log and Exp
    scale to between 2^-31 and 2^24 (see C93), as at most 15 characters. *)
Lemma float_of_double_range d : 0 <= float_of_double d < 2 ^ 32.
Proof.
  assert (F : forall m e, 0 < m -> 0 <= float_magnitude m e <= 0x7F800000).
  { intros m e Hm. unfold float_magnitude. set (k := Z.max (-149) _). split; [|apply Z.le_min_l]. apply Z.min_glb; [lia|].
    assert (0 <= div_half_even (m * 2 ^ Z.max 0 (e - k)) (2 ^ Z.max 0 (k - e))); [|lia].
    apply half_even_le; [apply pow2_pos; lia|]. assert (0 < 2 ^ Z.max 0 (e - k)) by (apply pow2_pos; lia). nia. }
  destruct d as [s|s| |s m e]; unfold float_of_double; try (destruct s; lia); [lia|]. specialize (F (Zpos m) e ltac:(lia)). destruct s; lia.
Qed.

Lemma narrow_returns scale junk d : scales scale (float_of_double d) -> length junk = 16%nat -> exists t, narrow_text false scale junk d = Ret t /\ (length t <= 15)%nat /\ nul_free t.
Proof.
  intros Sc L. destruct (C78_partial false scale (float_of_double d) junk 15 Sc (float_of_double_range d)) as (b & r & t & E & (S1 & _ & S3 & _) & _); [rewrite L; lia|discriminate|].
  exists t. unfold narrow_text, fix_assign_float. change (Z.of_nat 15) with 15. rewrite E. cbn [bind]. rewrite (holds_put b t S3). split; [reflexivity|].
  change (Z.to_nat 15) with 15%nat in S1. split; [lia|]. apply S3.
Qed.

Theorem C87_total (scale : Z -> Z * Z) (junk : list Z) (v : value) (j : jv) (n : nat) (c : Z) : length junk = 16%nat ->
  SpecWrite.tokens (fun _ => True) (fun d => scales scale (float_of_double d)) j -> represents v j -> wf_value v ->
  exists out number, narrow_sd_write false scale junk n c (Some v) = Ret (kOk, out) /\
    text out = indented number (repeat c n) [] (normal j) /\ forall d, scales scale (float_of_double d) -> (length (number d) <= 15)%nat /\ nul_free (number d).
Proof.
  intros L Ht Hr Hw.
  set (number := fun d => match narrow_text false scale junk d with Ret t => t | _ => [] end).
  assert (HN : forall d, scales scale (float_of_double d) -> narrow_text false scale junk d = Ret (number d)).
  { intros d Sc. destruct (narrow_returns scale junk d Sc L) as (t & E & _). unfold number. now rewrite E. }
  destruct (narrow_layout false scale junk n c number (fun d => scales scale (float_of_double d)) HN _ j v Ht Hr Hw []) as (out & E & C).
  exists out, number. unfold narrow_sd_write. rewrite E. cbn [bind]. split; [reflexivity|]. split; [exact C|].
  intros d Sc. destruct (narrow_returns scale junk d Sc L) as (t & Et & H). unfold number. rewrite Et. exact H.
Qed.
Print Assumptions C87_total.

(** From 1e-4 up to 1e5 (with the shift as in C++20) the text is a decimal number with
    the right sign, at most seven digits behind the point and no superfluous zero, near
    the number. *)
Theorem C87_text_partial (scale : Z -> Z * Z) (junk : list Z) (d : spec_float) (n : nat) (c : Z) (arr : list Z) : length junk = 16%nat -> d_moderate d ->
  exists t neg w ds, narrow_write false scale junk n c (VNumber d) arr = Ret (kOk, [t], arr) /\
    has_sign d neg /\ point_text neg w ds t /\ no_trailing_zero ds /\ short_decimal w ds d /\ exists m e, rfc_number t neg m e.
Proof.
  intros L Mo. destruct (narrow_ok scale junk d L Mo) as (t & w & ds & E & P & Z & S & _). exists t, (dsign d), w, ds.
  split; [cbn [narrow_write]; rewrite E; reflexivity|]. destruct Mo as (_ & F & _). split; [now apply dsign_spec|]. split; [exact P|]. split; [exact Z|].
  split; [exact S|]. destruct (point_number _ _ _ _ P) as (w' & _ & _ & _ & _ & N). eauto.
Qed.
Print Assumptions C87_text_partial.

(** ** Reading *)

Section Bytes.
Variables (num : list Z -> spec_float -> Prop).
Hypothesis num_bytes : forall t d, num t d -> bytes t.

Lemma ws_bytes w : ws w -> bytes w.
Proof. intros H. eapply Forall_impl; [|exact H]. unfold wsc, is_byte. intros; lia. Qed.

Lemma grammar_bytes :
  (forall t j, gval lib_str num t j -> bytes t) /\ (forall t l, gelems lib_str num t l -> bytes t) /\ (forall t ms, gmembers lib_str num t ms -> bytes t).
Proof.
  apply (grammar_mind lib_str num (fun t _ => bytes t) (fun t _ => bytes t) (fun t _ => bytes t)); intros;
    repeat match goal with
           | H : ws _ |- _ => apply ws_bytes in H
           | H : lib_str _ _ |- _ => apply lib_str_bytes in H; destruct H as [H _]
           | H : num _ _ |- _ => apply num_bytes in H
           end; unfold bytes in *; repeat ((apply Forall_app; split) || apply Forall_cons || apply Forall_nil); auto; unfold is_byte; lia.
Qed.

Lemma doc_bytes t j : gdoc lib_str num t j -> bytes (t ++ [0]).
Proof.
  intros [w1 t' w2 v H1 H2 H3]. apply ws_bytes in H1, H3. apply (proj1 grammar_bytes) in H2. unfold bytes in *.
  repeat (apply Forall_app; split); auto. constructor; [unfold is_byte; lia|constructor].
Qed.
End Bytes.

Lemma point_bytes neg n ds t : point_text neg n ds t -> bytes t /\ (3 <= length t)%nat.
Proof.
  intros P. pose proof P as (_ & Ne & D & _). destruct (point_number _ _ _ _ P) as (w & Dw & Lw & _ & -> & _).
  assert (B : forall l, digits l -> bytes l) by (intros l H; eapply Forall_impl; [|exact H]; unfold digit, is_byte; intros; lia).
  split.
  - rewrite app_nil_r. apply Forall_app. split; [destruct neg; repeat constructor; unfold is_byte; lia|]. apply Forall_app. split; [now apply B|].
    constructor; [unfold is_byte; lia|now apply B].
  - rewrite app_nil_r, !app_length. cbn [length]. destruct ds; [contradiction|]. destruct w; [destruct Lw as [?|(? & ? & ? & _)]; discriminate|]. cbn [length]. lia.
Qed.

(** A build reads a number token of its language. *)
Lemma read_token system root t d : PropBuild.tokens system t d -> bytes t -> (2 <= length t)%nat ->
  build_parse (reader system) root (t ++ [0]) = Ret (PR kOk 0 0, Some (VNumber d), 1%nat).
Proof.
  intros T B L. assert (G : gdoc lib_str (PropBuild.tokens system) t (JNum d)).
  { pose proof (gdoc_intro lib_str (PropBuild.tokens system) [] t [] (JNum d)) as G. rewrite app_nil_r in G. apply G; [constructor|now constructor|constructor]. }
  destruct (reader_accepts system root t (JNum d) [] G) as (v & E & (R & _)); [cbn [length]; lia|now exists []|apply Forall_app; split; [exact B|repeat constructor; lia]|].
  inversion R; subst. exact E.
Qed.

Lemma big_threshold : 10 ^ 13 * 2 ^ 1074 <= 10 ^ 7 * overflow_threshold.
Proof. vm_compute. discriminate. Qed.

Lemma small_distance X Y M : 0 < X -> M < (100000 * 2 ^ 8 - 1) * X -> Z.abs (Y - M * 10 ^ 7) * 2 ^ 24 <= 102 * (2 ^ 8 * X) * 2 ^ 24 + M * 10 ^ 7 -> Y < 10 ^ 13 * (2 ^ 8 * X).
Proof. lia. Qed.

Lemma below_threshold Q T U M : 0 < U -> T * U = 10 ^ 7 -> M < (100000 * 2 ^ 8 - 1) * 2 ^ (1074 - 8) ->
  Z.abs (Q * U * 2 ^ 1074 - M * 10 ^ 7) * 2 ^ 24 <= 102 * 2 ^ 1074 * 2 ^ 24 + M * 10 ^ 7 -> Q * 2 ^ 1074 < T * overflow_threshold.
Proof.
  intros HU ET Hi S. apply (Z.mul_lt_mono_pos_r U); [exact HU|]. replace (T * overflow_threshold * U) with (T * U * overflow_threshold) by ring. rewrite ET.
  eapply Z.lt_le_trans; [|exact big_threshold]. replace (Q * 2 ^ 1074 * U) with (Q * U * 2 ^ 1074) by ring.
  assert (E : 2 ^ 1074 = 2 ^ 8 * 2 ^ (1074 - 8)) by (rewrite <- Z.pow_add_r by lia; reflexivity).
  assert (P : 0 < 2 ^ (1074 - 8)) by (apply Z.pow_pos_nonneg; lia).
  set (X := 2 ^ (1074 - 8)) in *. clearbody X. rewrite E in *. exact (small_distance X _ M P Hi S).
Qed.

Lemma twice_as_far Q T U M M' X b : 0 < T -> 0 < U -> T * U = 10 ^ 7 -> Z.abs (Q * X - T * M') <= Z.abs (Q * X - T * M) ->
  Z.abs (Q * U * X - M * 10 ^ 7) * 2 ^ 24 <= b -> Z.abs (M' - M) * 10 ^ 7 * 2 ^ 24 <= 2 * b.
Proof.
  intros HT HU ET N S.
  assert (X1 : Z.abs (M' - M) * T <= 2 * Z.abs (Q * X - T * M)).
  { rewrite <- (Z.abs_eq T) at 1 by lia. rewrite <- Z.abs_mul. replace ((M' - M) * T) with ((Q * X - T * M) - (Q * X - T * M')) by ring. lia. }
  assert (X2 : Z.abs (M' - M) * 10 ^ 7 <= 2 * Z.abs (Q * U * X - M * 10 ^ 7)).
  { rewrite <- ET. replace (Q * U * X - M * (T * U)) with ((Q * X - T * M) * U) by ring. rewrite Z.abs_mul, (Z.abs_eq U) by lia.
    rewrite Z.mul_assoc. set (A := Z.abs (Q * X - T * M)) in *. set (B := Z.abs (M' - M) * T) in *. clearbody A B. nia. }
  lia.
Qed.

(** With system conversions the text is then read as a number at most twice as far away. *)
Theorem C87_read_partial (scale : Z -> Z * Z) (junk : list Z) (d : spec_float) (root : option value) : length junk = 16%nat -> d_moderate d ->
  exists out d', narrow_sd_write false scale junk 0 32 (Some (VNumber d)) = Ret (kOk, out) /\
    build_parse number_parse root (text out ++ [0]) = Ret (PR kOk 0 0, Some (VNumber d'), 1%nat) /\
    Z.abs (magnitude d' - magnitude d) * 10 ^ 7 * 2 ^ 24 <= 2 * (102 * 2 ^ 1074 * 2 ^ 24 + magnitude d * 10 ^ 7) /\
    (forall neg, has_sign d neg -> has_sign d' neg).
Proof.
  intros L Mo. destruct (narrow_ok scale junk d L Mo) as (t & w & ds & E & P & Z & (Sl & S) & _).
  set (Q := w * 10 ^ Z.of_nat (length ds) + dvalue ds). pose proof P as (Hw & _ & Dd & _).
  assert (Q0 : 0 <= Q) by (unfold Q; pose proof (dvalue_nonneg ds Dd); pose proof (Z.pow_nonneg 10 (Z.of_nat (length ds)) ltac:(lia)); nia).
  pose proof (dec_to_double_ok (dsign d) Q (0 - Z.of_nat (length ds)) Q0) as R. set (d' := dec_to_double _ _ _) in R.
  exists [t], d'. split; [unfold narrow_sd_write; cbn [narrow_write]; rewrite E; reflexivity|].
  destruct (point_bytes _ _ _ _ P) as (B & Lt). split.
  - unfold text. cbn [concat]. rewrite app_nil_r. change number_parse with (reader true). apply read_token; [|exact B|lia].
    apply (point_system _ _ _ _ _ P). exact R.
  - destruct R as (V' & Sg & _ & N). destruct Mo as (V & F & _ & Hi). split.
    2:{ intros neg Hn. pose proof (dsign_spec d F) as Hs. unfold has_sign in *. congruence. }
    destruct (dec_point_A Q (length ds)) as [EA EB]. rewrite EA, EB in N.
    assert (ET : 10 ^ Z.of_nat (length ds) * 10 ^ (7 - Z.of_nat (length ds)) = 10 ^ 7) by (rewrite <- Z.pow_add_r by lia; f_equal; lia).
    assert (T0 : 0 < 10 ^ Z.of_nat (length ds)) by (apply Z.pow_pos_nonneg; lia).
    assert (U0 : 0 < 10 ^ (7 - Z.of_nat (length ds))) by (apply Z.pow_pos_nonneg; lia).
    unfold decimal7 in S. fold Q in S. set (T := 10 ^ Z.of_nat (length ds)) in *. set (U := 10 ^ (7 - Z.of_nat (length ds))) in *.
    set (M := magnitude d) in *.
    assert (HO : Q * 2 ^ 1074 < T * overflow_threshold) by (apply (below_threshold Q T U M); auto).
    destruct (N HO) as (F' & Nr). destruct (Nr d V F) as [Nr1 _]. fold M in Nr1. apply (twice_as_far Q T U M (magnitude d') (2 ^ 1074) (102 * 2 ^ 1074 * 2 ^ 24 + M * 10 ^ 7)); auto.
Qed.
Print Assumptions C87_read_partial.

(** Multiples of 1/16 are read back exactly with system conversions, those of 1/2 by
    both builds. *)
Theorem C87_exact_partial (scale : Z -> Z * Z) (junk : list Z) (d : spec_float) (a : Z) (root : option value) : length junk = 16%nat -> d_moderate d -> dyadic a 4 d ->
  exists out, narrow_sd_write false scale junk 0 32 (Some (VNumber d)) = Ret (kOk, out) /\
    build_parse number_parse root (text out ++ [0]) = Ret (PR kOk 0 0, Some (VNumber d), 1%nat) /\
    ((exists h, dyadic h 1 d) -> build_parse portable_number_parse root (text out ++ [0]) = Ret (PR kOk 0 0, Some (VNumber d), 1%nat)).
Proof.
  intros L Mo Ha. destruct (narrow_system_exact scale junk d a L Mo Ha) as (t & E & S). exists [t].
  destruct (narrow_ok scale junk d L Mo) as (t' & w & ds & E' & P & _). rewrite E in E'. injection E' as <-. destruct (point_bytes _ _ _ _ P) as (B & Lt).
  split; [unfold narrow_sd_write; cbn [narrow_write]; rewrite E; reflexivity|]. unfold text. cbn [concat]. rewrite app_nil_r. split.
  - change number_parse with (reader true). apply read_token; [exact S|exact B|lia].
  - intros (h & Hh). destruct (narrow_half scale junk d h L Mo Hh) as (t' & E' & _ & Pn). rewrite E in E'. injection E' as <-.
    change portable_number_parse with (reader false). apply read_token; [exact Pn|exact B|lia].
Qed.
Print Assumptions C87_exact_partial.

Example C87_instance : (* -1234.5 *)
  d_moderate (S754_finite true 5429388417957888 (-42)) /\ dyadic 2469 1 (S754_finite true 5429388417957888 (-42)) /\
  narrow_text false (fun _ => (0, 0)) (repeat 7 16) (S754_finite true 5429388417957888 (-42)) = Ret `"-1234.5".
Proof. split; [split; [reflexivity|split; [exact I|split; vm_compute; [discriminate|reflexivity]]]|]. split; reflexivity. Qed.

(** ** C88: documents *)

(** The numbers covered. *)
Definition short_number (d : spec_float) : Prop := d = S754_zero false \/ d_moderate d.
Definition half_number (d : spec_float) : Prop := d = S754_zero false \/ d_moderate d /\ exists a, dyadic a 1 d.

Lemma zero_point : point_text false 0 [48] `"0.0".
Proof. split; [lia|]. split; [discriminate|]. split; [repeat constructor; lia|]. exists [48]. split; [constructor|reflexivity]. Qed.

Lemma zero_tokens : lib_num `"0.0" (S754_zero false) /\ p_num `"0.0" (S754_zero false).
Proof.
  split.
  - apply (point_system _ _ _ _ _ zero_point). apply rounds_self; [reflexivity|exact I|reflexivity|]. reflexivity.
  - destruct (point_portable _ _ _ _ zero_point) as (w & Dw & Vw & P). cbv iota in P.
    assert (E : literal_value w [48] None = S754_zero false); [|now rewrite E in P].
    unfold literal_value, scaled. rewrite whole_exact by (auto; lia). rewrite Vw. reflexivity.
Qed.

Definition number_of (scale : Z -> Z * Z) (junk : list Z) (d : spec_float) : list Z :=
  match narrow_text false scale junk d with Ret t => t | _ => [] end.

Lemma short_text scale junk d : length junk = 16%nat -> short_number d ->
  narrow_text false scale junk d = Ret (number_of scale junk d) /\ exists neg n ds, point_text neg n ds (number_of scale junk d).
Proof.
  intros L [->|Mo]; unfold number_of.
  - rewrite narrow_zero by auto. split; [reflexivity|]. do 3 eexists. exact zero_point.
  - destruct (narrow_ok scale junk d L Mo) as (t & n & ds & E & P & _). rewrite E. eauto 6.
Qed.

Lemma half_text scale junk d : length junk = 16%nat -> half_number d ->
  lib_num (number_of scale junk d) d /\ p_num (number_of scale junk d) d.
Proof.
  intros L [->|(Mo & a & Ha)]; unfold number_of.
  - rewrite narrow_zero by auto. exact zero_tokens.
  - destruct (narrow_half scale junk d a L Mo Ha) as (t & E & S & P). rewrite E. auto.
Qed.

Lemma narrow_document scale junk v j n c (N : spec_float -> Prop) : length junk = 16%nat -> (forall d, N d -> short_number d) ->
  represents v j -> wf_value v -> SpecWrite.tokens lib_plain N j ->
  exists out, narrow_sd_write false scale junk n c (Some v) = Ret (kOk, out) /\
    text out = indented (number_of scale junk) (repeat c n) [] (normal j) /\ (2 <= length (text out))%nat.
Proof.
  intros L HN Hr Hw Ht.
  destruct (narrow_layout false scale junk n c (number_of scale junk) N (fun d H => proj1 (short_text scale junk d L (HN d H))) lib_plain j v Ht Hr Hw []) as (out & E & C).
  exists out. unfold narrow_sd_write. rewrite E. cbn [bind]. split; [reflexivity|]. split; [exact C|]. unfold text. rewrite C.
  destruct j as [s|d|[]| |l|ms]; cbn [normal indented]; try (cbn [app length]; rewrite ?app_length; cbn [length]; lia). inversion Ht; subst.
  destruct (short_text scale junk d L (HN d ltac:(auto))) as (_ & neg & k & ds & P). destruct (point_bytes _ _ _ _ P). lia.
Qed.

Lemma layout_doc (num : list Z -> spec_float -> Prop) (number : spec_float -> list Z) (N : spec_float -> Prop) unit j : (forall d, N d -> num (number d) d) ->
  ws unit -> SpecWrite.tokens lib_plain N j -> gdoc lib_str num (indented number unit [] (normal j)) (normal j).
Proof.
  intros HN Hu Ht. pose proof (gdoc_intro lib_str num [] (indented number unit [] (normal j)) [] (normal j) (Forall_nil _)) as Hd.
  rewrite app_nil_r in Hd. apply Hd; [|constructor]. apply (layout_gval lib_plain N); auto; [| |constructor].
  - intros s (cps & HF & ->). apply plain_body. exact HF.
  - now apply tokens_normal.
Qed.

(** A document that was read is written as a text that neither build reads, or one with another value. *)
Theorem C88_refuted (scale : Z -> Z * Z) (junk : list Z) : length junk = 16%nat ->
  let read system t := build_parse (reader system) None (t ++ [0]) in
  (exists t v out k, rfc_doc t (JArr [JNum v]) /\ read false t = Ret (PR kOk 0 0, Some (VArray [VNumber v]), k) /\
     narrow_sd_write false scale junk 0 32 (Some (VArray [VNumber v])) = Ret (kOk, out) /\
     forall system, exists st l c o k, read system (text out) = Ret (PR st l c, o, k) /\ st <> kOk) /\
  (exists t v out w k, read false t = Ret (PR kOk 0 0, Some (VNumber v), k) /\
     narrow_sd_write false scale junk 0 32 (Some (VNumber v)) = Ret (kOk, out) /\
     read false (text out) = Ret (PR kOk 0 0, Some (VNumber w), k) /\ magnitude w <> magnitude v).
Proof.
  intros L. cells junk L. cbv zeta. split.
  - exists `"[1e39]". eexists. eexists. eexists. split; [|split; [vm_compute; reflexivity|split; [reflexivity|]]].
    + pose proof (gdoc_intro rfc_str rfc_num [] `"[1e39]" []) as G. rewrite app_nil_r in G. apply G; [constructor| |constructor].
      change `"[1e39]" with (91 :: `"1e39" ++ [93]). constructor. pose proof (ge_one rfc_str rfc_num [] `"1e39" []) as G1. rewrite app_nil_r in G1. apply G1; [constructor| |constructor].
      constructor. exists false, 1, 39. split.
      * assert (D : forall x, digit x -> digits [x]) by (intros x Hx; constructor; [exact Hx|constructor]).
        pose proof (rfc_number_intro [] false [49] [] [] `"e39" 39) as N. apply N.
        -- left. auto.
        -- apply D. unfold digit. lia.
        -- right. exists 49, []. split; [reflexivity|lia].
        -- apply fr_none.
        -- intros H. now elim H.
        -- apply (ex_some 101 [] false [51; 57]); [auto|apply sg_none| |discriminate]. constructor; [unfold digit; lia|]. apply D. unfold digit. lia.
      * apply (dec_to_double_ok false 1 39). lia.
    + intros []; do 5 eexists; (split; [vm_compute; reflexivity|discriminate]).
  - exists `"0.50000000001". do 4 eexists. split; [vm_compute; reflexivity|]. split; [reflexivity|]. split; [vm_compute; reflexivity|]. vm_compute. discriminate.
Qed.
Print Assumptions C88_refuted.

(** With strings that need no escapes and numbers from 1e-4 up to 1e5 or 0, what is
    written is read by both builds, and only the numbers change. *)
Theorem C88_shape_partial (scale : Z -> Z * Z) (junk : list Z) (v : value) (j : jv) (n : nat) (c : Z) : length junk = 16%nat ->
  represents v j -> wf_value v -> SpecWrite.tokens lib_plain short_number j -> ws (repeat c n) ->
  exists out, narrow_sd_write false scale junk n c (Some v) = Ret (kOk, out) /\
    forall system root, exists v' j', build_parse (reader system) root (text out ++ [0]) = Ret (PR kOk 0 0, Some v', nesting j') /\
      represents v' j' /\ alike (normal j) j'.
Proof.
  intros L Hr Hw Ht Hc. destruct (narrow_document scale junk v j n c short_number L (fun d H => H) Hr Hw Ht) as (out & E & C & L2).
  exists out. split; [exact E|]. intros system root.
  set (num := fun t (_ : spec_float) => exists neg k ds, point_text neg k ds t).
  pose proof (layout_doc num (number_of scale junk) short_number (repeat c n) j (fun d H => proj2 (short_text scale junk d L H)) Hc Ht) as G. rewrite <- C in G.
  assert (B : bytes (text out ++ [0])) by (eapply doc_bytes; [|exact G]; intros t d (neg & k & ds & P); apply (point_bytes _ _ _ _ P)).
  destruct (replace_doc lib_str num (PropBuild.tokens system)) with (t := text out) (j := normal j) as (j' & G' & A); [|exact G|].
  - intros t d (neg & k & ds & P). destruct system.
    + eexists. apply (point_system _ _ _ _ _ P). apply dec_to_double_ok. pose proof P as (Hk & _ & Dd & _).
      pose proof (dvalue_nonneg ds Dd); pose proof (Z.pow_nonneg 10 (Z.of_nat (length ds)) ltac:(lia)); nia.
    + destruct (point_portable _ _ _ _ P) as (w & _ & _ & Pn). eexists. exact Pn.
  - destruct (reader_accepts system root (text out) j' [] G') as (v' & E' & (R' & _)); [lia|now exists []|exact B|]. eauto 6.
Qed.
Print Assumptions C88_shape_partial.

(** With multiples of 1/2 the value read is the one written. *)
Theorem C88_same_partial (scale : Z -> Z * Z) (junk : list Z) (v : value) (j : jv) (n : nat) (c : Z) : length junk = 16%nat ->
  represents v j -> wf_value v -> SpecWrite.tokens lib_plain half_number j -> ws (repeat c n) ->
  exists out, narrow_sd_write false scale junk n c (Some v) = Ret (kOk, out) /\
    forall system root, exists v', build_parse (reader system) root (text out ++ [0]) = Ret (PR kOk 0 0, Some v', nesting (normal j)) /\
      represents v (normal j) /\ represents v' (normal j) /\ wf_value v'.
Proof.
  intros L Hr Hw Ht Hc.
  assert (HN : forall d, half_number d -> short_number d) by (intros d [?|[? _]]; [left|right]; auto).
  destruct (narrow_document scale junk v j n c half_number L HN Hr Hw Ht) as (out & E & C & L2).
  exists out. split; [exact E|]. intros system root.
  set (num := fun t d => PropBuild.tokens system t d /\ bytes t).
  assert (Hnum : forall d, half_number d -> num (number_of scale junk d) d).
  { intros d H. destruct (half_text scale junk d L H) as (H1 & H2). split; [destruct system; assumption|].
    destruct (short_text scale junk d L (HN d H)) as (_ & neg & k & ds & P). apply (point_bytes _ _ _ _ P). }
  pose proof (layout_doc num (number_of scale junk) half_number (repeat c n) j Hnum Hc Ht) as G. rewrite <- C in G.
  assert (B : bytes (text out ++ [0])) by (eapply doc_bytes; [|exact G]; intros t d H; apply H).
  assert (G' : gdoc lib_str (PropBuild.tokens system) (text out) (normal j)) by (eapply refine_doc; [|exact G]; intros t d H; apply H).
  destruct (reader_accepts system root (text out) (normal j) [] G') as (v' & E' & (R' & W' & _)); [lia|now exists []|exact B|].
  exists v'. split; [exact E'|]. split; [now apply represents_normal|]. auto.
Qed.
Print Assumptions C88_same_partial.

Example C88_instance : let d := S754_finite true 5429388417957888 (-42) in
  SpecWrite.tokens lib_plain half_number (JObj [(`"x", JArr [JNum d; JNum (S754_zero false)])]) /\
  exists out, narrow_sd_write false (fun _ => (0, 0)) (repeat 7 16) 1 9
    (Some (VObject (Node Leaf `"x" (VArray [VNumber d; VNumber (S754_zero false)]) 0 Leaf) [`"x"])) = Ret (kOk, out) /\
    text out = `"{
	""x"" : [
		-1234.5,
		0.0
	]
}".
Proof.
  split.
  - apply tk_obj. constructor; [|constructor]. split; cbn [fst snd].
    + exists [120]. split; [|reflexivity]. constructor; [|constructor]. unfold lib_raw, code_point. lia.
    + apply tk_arr. constructor; [|constructor; [|constructor]]; apply tk_num.
      * right. split; [apply C87_instance|]. exists 2469. apply C87_instance.
      * left. reflexivity.
  - eexists. split; [vm_compute; reflexivity|reflexivity].
Qed.
