(** * Properties of writing without system conversions, for every magnitude: C93. *)

From Verif Require Import Base TextModel NumModel MapModel ParserModel WriterModel PortableModel BuildModel FloatTextModel MathModel NarrowModel SpecUtf8 SpecNum SpecMap SpecGrammar SpecMeaning
  SpecRfc SpecText SpecWrite SpecPortable SpecBuild SpecFloatText SpecMath SpecNarrow SpecReach TextProofs MapProofs StrtodProofs RoundProofs LexProofs ParserProofs RootProofs RfcProofs FormatProofs WriterProofs
  PortableProofs PortableValue PropPortable BuildProofs BuildPort PropBuild FloatTextProofs FloatNumber FloatResult PropFloatText MathRound MathScale PropScale NarrowProofs NarrowReach NarrowWrite PropNarrow PropWrite Str.

#[local] Arguments Z.pow : simpl never.
#[local] Arguments Z.eqb : simpl nomatch.

(** ** Texts *)

Lemma stored_text strict scale junk d b t r : float_to_string strict scale (float_of_double d) junk 15 = Ret (b, r) -> holds b t -> narrow_text strict scale junk d = Ret t.
Proof. intros E H. unfold narrow_text, fix_assign_float. change (Z.of_nat 15) with 15. rewrite E. cbn [bind]. now rewrite (holds_put b t H). Qed.

Lemma narrow_tiny strict scale junk d : length junk = 16%nat -> d_tiny d -> narrow_text strict scale junk d = Ret `"0.0".
Proof.
  intros L H. pose proof (tiny_float d H) as K. destruct (i32_fields (float_of_double d) (float_of_double_range d)) as (Fe & _ & _).
  destruct (fixed_ok 15 junk [48; 46; 48]) as (b & E & (_ & _ & S & _)); [lia|simpl; lia|repeat (constructor; [lia|]); constructor|].
  apply (stored_text _ _ _ _ b _ 3); [|exact S]. unfold float_to_string. cbn [Z.ltb]. cbv zeta. rewrite Fe, K. cbn [Z.eqb Z.leb].
  change (15 <? 1) with false. change (3 <=? 15) with true. cbv iota. cbn [app] in E. rewrite E. reflexivity.
Qed.

Lemma narrow_huge strict scale junk d : length junk = 16%nat -> d_huge d -> narrow_text strict scale junk d = Ret (SpecFloatText.sign_of (dsign d) ++ `"INF").
Proof.
  intros L H. destruct (huge_float d H) as (K & Km & Ks & R). destruct (i32_fields (float_of_double d) R) as (Fe & Fm & Fs).
  destruct (fixed_ok 15 junk (SpecFloatText.sign_of (dsign d) ++ [73; 78; 70])) as (b & E & (_ & _ & S & _));
    [lia|destruct (dsign d); simpl; lia|destruct (dsign d); cbn [SpecFloatText.sign_of app]; repeat (constructor; [lia|]); constructor|].
  apply (stored_text _ _ _ _ b _ (3 + (if dsign d then 1 else 0))); [|exact S]. unfold float_to_string. change (15 <? 1) with false. change (4 <=? 15) with true. cbv iota zeta.
  rewrite Fe, K, Fm, Km, Fs, Ks. cbn [Z.eqb Pos.eqb]. destruct (dsign d); cbn [SpecFloatText.sign_of app] in E; rewrite E; reflexivity.
Qed.

Lemma narrow_undefined v strict junk d : length junk = 16%nat -> d_unwritable d -> narrow_text strict (real_scale v) junk d = UB.
Proof.
  intros L H. destruct (unwritable_float d H) as [N U]. unfold narrow_text, fix_assign_float. rewrite (C92_refuted v strict _ junk (Z.of_nat 15) N U); [reflexivity| |lia].
  intros ->. discriminate L.
Qed.

Lemma short_near n ds d bits : within n ds (f_units bits) 102 -> nearby d bits -> short_decimal n ds d.
Proof.
  intros [Wl Wd] Nb. split; [exact Wl|]. unfold decimal7. set (N := _ * 10 ^ (7 - _)) in *. unfold nearby in Nb.
  set (u := f_units _) in *. set (M := magnitude d) in *. change (2 ^ 1074) with (2 ^ 149 * 2 ^ (1074 - 149)) at 1 2. change (1074 - 149) with 925 in *.
  assert (P149 : 0 < 2 ^ 149) by (apply Z.pow_pos_nonneg; lia). assert (P925 : 0 < 2 ^ 925) by (apply Z.pow_pos_nonneg; lia).
  set (X := 2 ^ 149) in *. set (Y := 2 ^ 925) in *. clearbody X Y N u M.
  assert (A1 : Z.abs (N * (X * Y) - u * 10 ^ 7 * Y) <= 102 * (X * Y)).
  { replace (N * (X * Y) - u * 10 ^ 7 * Y) with ((N * X - u * 10 ^ 7) * Y) by ring. rewrite Z.abs_mul, (Z.abs_eq Y) by lia. nia. }
  assert (A2 : Z.abs (u * 10 ^ 7 * Y - M * 10 ^ 7) * 2 ^ 24 <= M * 10 ^ 7).
  { replace (u * 10 ^ 7 * Y - M * 10 ^ 7) with ((u * Y - M) * 10 ^ 7) by ring. rewrite Z.abs_mul, (Z.abs_eq (10 ^ 7)) by lia. lia. }
  lia.
Qed.

Lemma narrow_fixed scale junk d : length junk = 16%nat -> d_fixed d -> exists t n ds, narrow_text false scale junk d = Ret t /\ (length t <= 15)%nat /\
  point_text (dsign d) n ds t /\ no_trailing_zero ds /\ short_decimal n ds d.
Proof.
  intros L H. destruct (fixed_float d H) as (Fm & Nb & Fs).
  destruct (C80_fixed_string 15 scale _ junk ltac:(lia) L Fm) as (b & t & E & Lb & Hb & n & ds & P & W & Z).
  unfold narrow_text. rewrite E. cbn [bind]. rewrite (holds_put b t Hb). exists t, n, ds. rewrite Fs in P. split; [reflexivity|]. split.
  - destruct Hb as (_ & r & ->). rewrite app_length in Lb. cbn [length] in Lb. lia.
  - split; [exact P|]. split; [exact Z|]. eapply short_near; eauto.
Qed.

Lemma close_near m e u d bits : close m e u -> f_units bits = u -> nearby d bits -> d_close m e d.
Proof.
  unfold close, d_close, nearby. intros C -> Nb. change (1074 - 149) with 925 in Nb. change (2 ^ 1074) with (2 ^ 149 * 2 ^ 925).
  set (M := magnitude d) in *. assert (P925 : 0 < 2 ^ 925) by (apply Z.pow_pos_nonneg; lia).
  pose proof (Z.pow_pos_nonneg 10 (Z.max 0 (- e)) ltac:(lia) ltac:(lia)) as PB. set (B := 10 ^ Z.max 0 (- e)) in *. set (A := m * 10 ^ Z.max 0 e) in *.
  set (X := 2 ^ 149) in *. set (Y := 2 ^ 925) in *. clearbody X Y A B M.
  assert (A1 : Z.abs (A * (X * Y) - u * B * Y) * 50000 <= u * B * Y).
  { replace (A * (X * Y) - u * B * Y) with ((A * X - u * B) * Y) by ring. rewrite Z.abs_mul, (Z.abs_eq Y) by lia. nia. }
  assert (A2 : Z.abs (u * B * Y - M * B) * 2 ^ 24 <= M * B).
  { replace (u * B * Y - M * B) with ((u * Y - M) * B) by ring. rewrite Z.abs_mul, (Z.abs_eq B) by lia. nia. }
  lia.
Qed.

Lemma narrow_scaled v strict junk d : length junk = 16%nat -> d_scaled d -> exists t n ds p ex, narrow_text strict (real_scale v) junk d = Ret t /\ (length t <= 15)%nat /\
  (exists q, point_text (dsign d) n ds q /\ t = q ++ ex) /\ no_trailing_zero ds /\ exp_text ex p /\ -37 <= p <= 38 /\
  rfc_number t (dsign d) (n * 10 ^ Z.of_nat (length ds) + dvalue ds) (p - Z.of_nat (length ds)) /\
  d_close (n * 10 ^ Z.of_nat (length ds) + dvalue ds) (p - Z.of_nat (length ds)) d.
Proof.
  intros L H. destruct (scaled_float d H) as (N & Nm & Ls & Nb & Fs).
  destruct (C92_accurate v strict _ junk 15 N Nm Ls ltac:(lia) ltac:(lia)) as (b & r & t & n & ds & p & ex & E & (_ & _ & S & _) & Lt & P & Z & L7 & X & Hp & Hn & R & C).
  rewrite Fs in P, R. exists t, n, ds, p, ex. split; [exact (stored_text _ _ _ _ _ _ _ E S)|]. repeat split; try assumption; try lia. eapply close_near; eauto.
Qed.

Lemma point_plain_ex neg n ds q ex : point_text neg n ds q -> ~ zero_exp (q ++ ex).
Proof.
  intros (Hn & Ne & D & w & W & ->) (sg & e & r & Hsg & He & E). destruct (numeral_rfc n w Hn W) as (Dw & Zw & _).
  assert (Hc : forall c x, w = c :: x -> 48 <= c <= 57) by (intros c x ->; inversion Dw; subst; auto).
  assert (E' : w ++ 46 :: ds ++ ex = 48 :: e :: r).
  { rewrite <- !app_assoc in E. cbn [app] in E. destruct neg, Hsg as [->| ->]; cbn [SpecFloatText.sign_of app] in E.
    - discriminate E.
    - now injection E.
    - exact E.
    - destruct Zw as [->|(c & x & -> & _)]; [discriminate E|]. cbn [app] in E. injection E as E _. specialize (Hc _ _ eq_refl). lia. }
  destruct Zw as [->|(c & x & -> & Nc)]; cbn [app] in E'; injection E'; intros; lia.
Qed.

Lemma rfc_bytes t neg m e : rfc_number t neg m e -> bytes t.
Proof.
  assert (B : forall l, digits l -> bytes l) by (intros l H; eapply Forall_impl; [|exact H]; unfold digit, is_byte; intros; lia).
  intros [sg neg' ip fr fp ex x S D _ F _ X]. apply Forall_app. split; [destruct S as [[-> _]|[-> _]]; repeat constructor; lia|].
  apply Forall_app. split; [now apply B|]. apply Forall_app. split.
  - inversion F; subst; [constructor|]. constructor; [unfold is_byte; lia|now apply B].
  - inversion X as [|e' sg' neg'' ds He Hs Hd]; subst; [constructor|]. constructor; [unfold is_byte; lia|]. apply Forall_app. split; [|now apply B].
    inversion Hs; subst; repeat constructor; lia.
Qed.

(** The doubles that are written as a number. *)
Definition d_written (strict : bool) (d : spec_float) : Prop := d_tiny d \/ d_scaled d \/ strict = false /\ d_fixed d.

Lemma narrow_plain v strict junk d : length junk = 16%nat -> d_written strict d ->
  exists t, narrow_text strict (real_scale v) junk d = Ret t /\ (3 <= length t <= 15)%nat /\ bytes t /\ plain_number t d.
Proof.
  intros L [H|[H|[-> H]]].
  - exists `"0.0". split; [now apply narrow_tiny|]. split; [simpl; lia|]. destruct (point_number _ _ _ _ zero_point) as (w & _ & _ & _ & _ & R).
    split; [exact (rfc_bytes _ _ _ _ R)|]. split; [eauto|]. exact (point_plain _ _ _ _ zero_point).
  - destruct (narrow_scaled v strict junk d L H) as (t & n & ds & p & ex & E & Lt & (q & P & ->) & _ & _ & _ & R & _). exists (q ++ ex). split; [exact E|].
    split; [destruct (point_bytes _ _ _ _ P); rewrite app_length in *; lia|]. split; [exact (rfc_bytes _ _ _ _ R)|]. split; [eauto|]. eapply point_plain_ex; eauto.
  - destruct (narrow_fixed (real_scale v) junk d L H) as (t & n & ds & E & Lt & P & _). exists t. split; [exact E|]. destruct (point_bytes _ _ _ _ P) as [B L3].
    split; [lia|]. split; [exact B|]. destruct (point_number _ _ _ _ P) as (w & _ & _ & _ & _ & R). split; [eauto|]. eapply point_plain; eauto.
Qed.

(** ** C93 *)

(** Full statement: built without system conversions, Write writes every finite number
    as an RFC 8259 number near it. False: a valid document holds a number which both
    builds read and whose writing is undefined; 1e39 is written INF. *)
Theorem C93_refuted (v : simd) (junk : list Z) : length junk = 16%nat ->
  let write strict d := narrow_sd_write strict (real_scale v) junk 0 32 (Some (VNumber d)) in
  let read system t := build_parse (reader system) None (t ++ [0]) in
  (forall system, exists d, d_unwritable d /\ read system (`"2e-38") = Ret (PR kOk 0 0, Some (VNumber d), 1%nat) /\ forall strict, write strict d = UB) /\
  (forall system, exists d, d_huge d /\ read system (`"1e39") = Ret (PR kOk 0 0, Some (VNumber d), 1%nat) /\ forall strict, write strict d = Ret (kOk, [`"INF"])).
Proof.
  intros L. cbv zeta. split.
  - assert (G : forall system, exists d, build_parse (reader system) None (`"2e-38" ++ [0]) = Ret (PR kOk 0 0, Some (VNumber d), 1%nat) /\ d_unwritable d).
    { intros []; eexists; (split; [vm_compute; reflexivity|]); (split; [split; [reflexivity|exact I]|]); vm_compute; split; discriminate. }
    intros system. destruct (G system) as (d & E & H). exists d. split; [exact H|]. split; [exact E|]. intros strict.
    unfold narrow_sd_write. cbn [narrow_write]. rewrite narrow_undefined by assumption. reflexivity.
  - assert (G : forall system, exists d, build_parse (reader system) None (`"1e39" ++ [0]) = Ret (PR kOk 0 0, Some (VNumber d), 1%nat) /\ dsign d = false /\ d_huge d).
    { intros []; eexists; (split; [vm_compute; reflexivity|]); (split; [reflexivity|]); (split; [split; [reflexivity|exact I]|]); vm_compute; discriminate. }
    intros system. destruct (G system) as (d & E & S & H). exists d. split; [exact H|]. split; [exact E|]. intros strict.
    unfold narrow_sd_write. cbn [narrow_write]. rewrite narrow_huge, S by assumption. reflexivity.
Qed.
Print Assumptions C93_refuted.

(** Exactly what is written, for every finite number (with an exponent by any rules for
    shifts, without by those of C++20): *)
Theorem C93_written (v : simd) (strict : bool) (junk : list Z) (d : spec_float) : length junk = 16%nat -> d_finite d ->
  let write := narrow_sd_write strict (real_scale v) junk 0 32 (Some (VNumber d)) in
  d_tiny d /\ write = Ret (kOk, [`"0.0"]) \/
  d_unwritable d /\ write = UB \/
  d_scaled d /\ (exists t neg m e, write = Ret (kOk, [t]) /\ (length t <= 15)%nat /\ has_sign d neg /\ rfc_number t neg m e /\ d_close m e d) \/
  d_fixed d /\ (strict = false -> exists t neg w ds, write = Ret (kOk, [t]) /\ (length t <= 15)%nat /\ has_sign d neg /\ point_text neg w ds t /\ no_trailing_zero ds /\ short_decimal w ds d) \/
  d_huge d /\ (exists neg, has_sign d neg /\ write = Ret (kOk, [SpecFloatText.sign_of neg ++ `"INF"])).
Proof.
  intros L F write. unfold write, narrow_sd_write. cbn [narrow_write]. pose proof F as [V Fi]. pose proof (dsign_spec d Fi) as Hs.
  destruct (classes d F) as [H|[H|[H|[H|H]]]].
  - left. split; [exact H|]. rewrite narrow_tiny by assumption. reflexivity.
  - right. left. split; [exact H|]. rewrite narrow_undefined by assumption. reflexivity.
  - do 2 right. left. split; [exact H|]. destruct (narrow_scaled v strict junk d L H) as (t & n & ds & p & ex & E & Lt & _ & _ & _ & _ & R & C). rewrite E. cbn [bind].
    exists t. do 3 eexists. split; [reflexivity|]. split; [exact Lt|]. split; [exact Hs|]. split; [exact R|exact C].
  - do 3 right. left. split; [exact H|]. intros ->. destruct (narrow_fixed (real_scale v) junk d L H) as (t & n & ds & E & Lt & P & Z & S). rewrite E. cbn [bind].
    exists t, (dsign d), n, ds. repeat (split; [reflexivity || assumption|]). exact S.
  - do 4 right. split; [exact H|]. exists (dsign d). split; [exact Hs|]. rewrite narrow_huge by assumption. reflexivity.
Qed.
Print Assumptions C93_written.

(** With system conversions a text with an exponent is read as a number that differs by
    at most 1/24500 from the one written. *)
Lemma reach_threshold : 2 * ((2 ^ 25 - 1) * 2 ^ (1074 + 103)) <= overflow_threshold.
Proof. vm_compute. discriminate. Qed.

Theorem C93_read_partial (v : simd) (strict : bool) (junk : list Z) (d : spec_float) (root : option value) : length junk = 16%nat -> d_scaled d ->
  exists out d', narrow_sd_write strict (real_scale v) junk 0 32 (Some (VNumber d)) = Ret (kOk, out) /\
    build_parse number_parse root (text out ++ [0]) = Ret (PR kOk 0 0, Some (VNumber d'), 1%nat) /\
    Z.abs (magnitude d' - magnitude d) * 24500 <= magnitude d /\ (forall neg, has_sign d neg -> has_sign d' neg).
Proof.
  intros L H. destruct (narrow_scaled v strict junk d L H) as (t & n & ds & p & ex & E & Lt & (q & P & Et) & _ & _ & _ & R & C).
  set (m := n * 10 ^ Z.of_nat (length ds) + dvalue ds) in *. set (e := p - Z.of_nat (length ds)) in *. pose proof P as (Hn & _ & Dd & _).
  assert (M0 : 0 <= m) by (unfold m; pose proof (dvalue_nonneg ds Dd); pose proof (Z.pow_nonneg 10 (Z.of_nat (length ds)) ltac:(lia)); nia).
  pose proof (dec_to_double_ok (dsign d) m e M0) as Ro. set (d' := dec_to_double _ _ _) in Ro.
  exists [t], d'. split; [unfold narrow_sd_write; cbn [narrow_write]; rewrite E; reflexivity|]. split.
  - unfold text. cbn [concat]. rewrite app_nil_r. change number_parse with (reader true). apply read_token; [|exact (rfc_bytes _ _ _ _ R)|].
    + apply core_num_lib. split; [exists (dsign d), m, e; auto|]. rewrite Et. eapply point_plain_ex; eauto.
    + rewrite Et, app_length. destruct (point_bytes _ _ _ _ P). lia.
  - destruct H as ((V & F) & H). destruct Ro as (V' & Sg & _ & N). split.
    2:{ intros neg Hs. pose proof (dsign_spec d F) as Hd. unfold has_sign in *. congruence. }
    pose proof (dec_B_pos e) as PB. unfold d_close in C.
    assert (EA : dec_A m e = m * 10 ^ Z.max 0 e * 2 ^ 1074) by (unfold dec_A; ring). rewrite <- EA in C. change (10 ^ Z.max 0 (- e)) with (dec_B e) in C.
    set (A := dec_A m e) in *. set (B := dec_B e) in *. set (M := magnitude d) in *. set (M' := magnitude d') in *.
    assert (Hi : M < (2 ^ 25 - 1) * 2 ^ (1074 + 103)).
    { destruct H as [[_ H]|[_ H]]; [|exact H]. eapply Z.le_lt_trans; [exact H|]. vm_compute. reflexivity. }
    pose proof (magnitude_nonneg d V) as Mn. fold M in Mn.
    assert (HO : A < B * overflow_threshold).
    { pose proof reach_threshold as T. set (K := (2 ^ 25 - 1) * 2 ^ (1074 + 103)) in *. set (O := overflow_threshold) in *. clearbody K O A B M M'. clear - C PB Hi T Mn.
      assert (A <= 2 * (M * B)) by lia. nia. }
    destruct (N HO) as (F' & Nr). destruct (Nr d V F) as [Nr1 _]. fold M in Nr1. clearbody A B M M'. clear - Nr1 C PB.
    assert (X : Z.abs (M' - M) * B <= 2 * Z.abs (A - B * M)).
    { rewrite <- (Z.abs_eq B) at 1 by lia. rewrite <- Z.abs_mul. replace ((M' - M) * B) with ((A - B * M) - (A - B * M')) by ring. lia. }
    replace (M * B) with (B * M) in C by ring. nia.
Qed.
Print Assumptions C93_read_partial.

(** Documents with strings that need no escapes and numbers that are written as numbers
    are read by both builds, and only the numbers change. *)
Theorem C93_shape_partial (v : simd) (strict : bool) (junk : list Z) (x : value) (j : jv) (n : nat) (c : Z) : length junk = 16%nat ->
  represents x j -> wf_value x -> SpecWrite.tokens lib_plain (d_written strict) j -> ws (repeat c n) ->
  exists out, narrow_sd_write strict (real_scale v) junk n c (Some x) = Ret (kOk, out) /\
    forall system root, exists x' j', build_parse (reader system) root (text out ++ [0]) = Ret (PR kOk 0 0, Some x', nesting j') /\
      represents x' j' /\ alike (normal j) j'.
Proof.
  intros L Hr Hw Ht Hc. set (number := fun d => match narrow_text strict (real_scale v) junk d with Ret t => t | _ => [] end).
  assert (HN : forall d, d_written strict d -> narrow_text strict (real_scale v) junk d = Ret (number d) /\ (3 <= length (number d))%nat /\ (bytes (number d) /\ plain_number (number d) d)).
  { intros d H. destruct (narrow_plain v strict junk d L H) as (t & E & L3 & R). unfold number. rewrite E. split; [reflexivity|]. split; [lia|exact R]. }
  destruct (narrow_layout strict (real_scale v) junk n c number (d_written strict) (fun d H => proj1 (HN d H)) lib_plain j x Ht Hr Hw []) as (out & E & C).
  exists out. unfold narrow_sd_write. rewrite E. cbn [bind]. split; [reflexivity|]. change (concat out) with (text out) in C. intros system root.
  assert (L2 : (2 <= length (text out))%nat).
  { rewrite C. destruct j as [s|d|[]| |l|ms]; cbn [normal indented]; try (cbn [app length]; rewrite ?app_length; cbn [length]; lia). inversion Ht; subst.
    destruct (HN d ltac:(assumption)) as (_ & L3 & _). lia. }
  set (num := fun t (d : spec_float) => bytes t /\ plain_number t d).
  pose proof (layout_doc num number (d_written strict) (repeat c n) j (fun d H => proj2 (proj2 (HN d H))) Hc Ht) as G. rewrite <- C in G.
  assert (B : bytes (text out ++ [0])) by (eapply doc_bytes; [|exact G]; intros t d H; apply H).
  destruct (replace_doc lib_str num (PropBuild.tokens system)) with (t := text out) (j := normal j) as (j' & G' & A); [|exact G|].
  - intros t d [_ H]. destruct (plain_system t d H) as (d1 & S & H1). destruct system; [exists d1; exact S|]. exact (plain_portable t d1 (conj S H1)).
  - destruct (reader_accepts system root (text out) j' [] G') as (x' & E' & (R' & _)); [lia|now exists []|exact B|]. eauto 6.
Qed.
Print Assumptions C93_shape_partial.

Example C93_e1 : (* 1e10, -3e-20, 2^-130 *)
  let a := S754_finite false 5242880000000000 (-19) in let b := S754_finite true 4984604984193435 (-117) in let z := S754_finite false (2 ^ 52) (-182) in
  d_scaled a /\ d_scaled b /\ d_tiny z /\
  SpecWrite.tokens lib_plain (d_written true) (JArr [JNum a; JNum b; JNum z]) /\
  exists out, narrow_sd_write true (real_scale Sse2) (repeat 7 16) 1 9 (Some (VArray [VNumber a; VNumber b; VNumber z])) = Ret (kOk, out) /\
    text out = `"[
	0.99999e10,
	-3.0e-20,
	0.0
]".
Proof.
  cbv zeta.
  assert (A : d_scaled (S754_finite false 5242880000000000 (-19))) by (split; [split; [reflexivity|exact I]|]; right; vm_compute; split; [discriminate|reflexivity]).
  assert (B : d_scaled (S754_finite true 4984604984193435 (-117))) by (split; [split; [reflexivity|exact I]|]; left; vm_compute; split; [reflexivity|discriminate]).
  assert (Z : d_tiny (S754_finite false (2 ^ 52) (-182))) by (split; [split; [reflexivity|exact I]|]; vm_compute; reflexivity).
  split; [exact A|]. split; [exact B|]. split; [exact Z|]. split.
  - apply tk_arr. unfold d_written. repeat (constructor; [apply tk_num; auto|]). constructor.
  - eexists. split; [vm_compute; reflexivity|reflexivity].
Qed.
