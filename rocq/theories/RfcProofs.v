(** * RFC 8259 tokens and documents against the supported language. *)

From Verif Require Import Base TextModel NumModel MapModel ParserModel SpecUtf8 SpecNum SpecMap SpecGrammar SpecMeaning SpecRfc
  TextProofs MapProofs StrtodProofs RoundProofs LexProofs ParserProofs RootProofs.

(** Changing the token languages. *)
Lemma grammar_mono (str str' : list Z -> list Z -> Prop) (num num' : list Z -> spec_float -> Prop) :
  (forall t s, str t s -> str' t s) -> (forall t d, num t d -> num' t d) ->
  (forall t j, gval str num t j -> gval str' num' t j) /\
  (forall t l, gelems str num t l -> gelems str' num' t l) /\
  (forall t l, gmembers str num t l -> gmembers str' num' t l).
Proof.
  intros Hs Hn.
  apply (grammar_mind str num (fun t j => gval str' num' t j) (fun t l => gelems str' num' t l) (fun t l => gmembers str' num' t l));
    intros; constructor; auto.
Qed.

Lemma gdoc_mono (str str' : list Z -> list Z -> Prop) (num num' : list Z -> spec_float -> Prop) :
  (forall t s, str t s -> str' t s) -> (forall t d, num t d -> num' t d) ->
  forall t j, gdoc str num t j -> gdoc str' num' t j.
Proof. intros Hs Hn t j H. destruct H. constructor; auto. eapply grammar_mono; eauto. Qed.

(** ** Strings *)

Lemma utf16_small cp : cp < 0x10000 -> utf16 cp = [cp].
Proof. intros H. unfold utf16. destruct (Z.ltb_spec cp 0x10000); [reflexivity|lia]. Qed.

Lemma utf8_small cp : cp < 128 -> utf8 cp = [cp].
Proof. intros H. unfold utf8. destruct (Z.ltb_spec cp 0x80); [reflexivity|lia]. Qed.

Lemma core_str_rfc t s : core_str t s -> rfc_str t s.
Proof.
  intros H. induction H as [|cp t s Hr _ (cps & H1 & H2 & ->)|c x t s He _ (cps & H1 & H2 & ->)|h cp t s Hh Hc _ (cps & H1 & H2 & ->)].
  - exists []. repeat constructor.
  - exists (cp :: cps). split; [constructor; auto; apply Hr|]. split; [|reflexivity]. simpl. constructor; auto. apply Hr.
  - pose proof (short_escape_pos c x He) as Hx.
    exists (x :: cps). split.
    + constructor; auto. unfold scalar, code_point, surrogate. lia.
    + split; [|simpl; rewrite utf8_small by lia; reflexivity]. simpl. rewrite utf16_small by lia. now apply ru_esc.
  - pose proof (hex4_range h cp Hh) as (Hx & _). destruct Hc as [Hc1 Hc2].
    exists (cp :: cps). split.
    + constructor; auto. unfold scalar, code_point. split; [lia|auto].
    + split; [|reflexivity]. simpl. rewrite utf16_small by lia. now apply ru_hex.
Qed.

Lemma string_body_mono (raw raw' u u' : Z -> Prop) t s : (forall c, raw c -> raw' c) -> (forall c, u c -> u' c) ->
  string_body raw u t s -> string_body raw' u' t s.
Proof. intros H1 H2 H. induction H; constructor; auto. Qed.

Lemma core_str_lib t s : core_str t s -> lib_str t s.
Proof.
  apply string_body_mono.
  - intros c [[[H1 H2] H3] H4]. unfold lib_raw. tauto.
  - intros c [H1 _]. exact H1.
Qed.

(** ** Numbers *)

Lemma digits_float ds : digits ds -> Forall float_char ds.
Proof. apply Forall_impl. intros c Hc. now left. Qed.

Lemma exp_float ex x : exp_text ex x -> Forall float_char ex.
Proof.
  intros H. destruct H as [|e sg neg ds He Hsg Hd Hne]; [constructor|].
  constructor; [unfold float_char; lia|]. apply Forall_app. split; [|now apply digits_float].
  destruct Hsg; repeat constructor; unfold float_char; lia.
Qed.

Lemma frac_float fr fp : frac_text fr fp -> Forall float_char fr.
Proof. intros H. destruct H; constructor; [unfold float_char; lia|now apply digits_float]. Qed.

Lemma rfc_number_lib t neg m e : rfc_number t neg m e -> ~ zero_exp t ->
  exists d, lib_num t d /\ rounds neg m e d.
Proof.
  intros H Hz. destruct H as [sg neg ip fr fp ex x Hsg Hip Hlead Hfr Hne Hex].
  assert (Hdec : decimal ([] ++ ip ++ fr ++ ex) false (dvalue (ip ++ fp)) (x - Z.of_nat (length fp))).
  { apply decimal_intro; auto; [constructor|]. intros E. apply app_eq_nil in E. destruct E as [-> _].
    destruct Hlead as [E|(c & r & E & _)]; discriminate. }
  simpl app in Hdec.
  set (m := dvalue (ip ++ fp)) in *. set (e := x - Z.of_nat (length fp)) in *.
  assert (Hm : 0 <= m) by (eapply decimal_nonneg; eauto).
  exists (dec_to_double neg m e). split; [|now apply dec_to_double_ok].
  replace (sg ++ ip ++ fr ++ ex) with (sg ++ [] ++ (ip ++ fr ++ ex)) by reflexivity.
  apply (lib_num_intro sg neg [] (ip ++ fr ++ ex) (ip ++ fr ++ ex) [] false m e).
  - destruct Hsg as [[-> ->]|[-> ->]]; constructor.
  - constructor.
  - reflexivity.
  - rewrite !Forall_app. split; [|split]; eauto using digits_float, exp_float, frac_float.
  - intros _ c r E. destruct ip as [|c0 ip0]; [destruct Hlead as [E1|(? & ? & E1 & _)]; discriminate|].
    simpl in E. injection E as -> _. inversion Hip as [|? ? Hc _]; subst. unfold digit in Hc. lia.
  - intros c r E. destruct Hlead as [->|(c0 & r0 & -> & Hc0)].
    2:{ simpl in E. injection E as -> _. congruence. }
    simpl in E. injection E as E. destruct Hfr as [|ds Hds].
    + simpl in E. destruct Hex as [|e0 sg0 neg0 ds He Hs Hd Hn]; [discriminate|]. exfalso. apply Hz.
      exists sg, e0, (sg0 ++ ds). split; [destruct Hsg as [[-> _]|[-> _]]; auto|]. split; [auto|reflexivity].
    + simpl in E. congruence.
  - now rewrite app_nil_r.
  - exact Hdec.
  - intros pre' suf' n' m' e' E _. rewrite E, app_length. lia.
  - rewrite xorb_false_r. now apply dec_to_double_ok.
Qed.

Lemma core_num_lib t d : core_num t d -> lib_num t d.
Proof.
  intros [(neg & m & e & H1 & H2) H3]. destruct (rfc_number_lib t neg m e H1 H3) as (d' & H4 & H5).
  assert (0 <= m).
  { destruct H1 as [sg neg ip fr fp ex x Hsg Hip Hlead Hfr Hne Hex].
    eapply (decimal_nonneg (ip ++ fr ++ ex) false). apply (decimal_intro []); eauto; [constructor|].
    intros E. apply app_eq_nil in E. destruct E as [-> _].
    destruct Hlead as [E|(c & r & E & _)]; discriminate. }
  apply rounds_dec in H2; auto. apply rounds_dec in H5; auto. congruence.
Qed.

Lemma core_doc_lib t j : core_doc t j -> lib_doc t j.
Proof. apply gdoc_mono; [apply core_str_lib|apply core_num_lib]. Qed.

Lemma core_doc_rfc t j : core_doc t j -> rfc_doc t j.
Proof. apply gdoc_mono; [apply core_str_rfc|]. intros t0 d [H _]. exact H. Qed.


(** ** UTF-8 *)

Lemma utf8_cancel cp t cp' t' : code_point cp -> code_point cp' -> utf8 cp ++ t = utf8 cp' ++ t' -> cp = cp' /\ t = t'.
Proof.
  intros H H' E. destruct (validate_complete cp t H) as [_ R]. destruct (validate_complete cp' t' H') as [_ R'].
  rewrite E in R. rewrite R in R'. injection R' as E1 ->. split; [reflexivity|].
  now apply app_inv_head in E.
Qed.

Lemma utf8_text_cons (P : Z -> Prop) cp t : (forall c, P c -> code_point c) -> code_point cp ->
  utf8_text P (utf8 cp ++ t) -> P cp /\ utf8_text P t.
Proof.
  intros HP Hcp H. inversion H as [E|cp' s Hc Hs E].
  - destruct (utf8_length_bounds cp) as [HL _]. destruct (utf8 cp); [simpl in HL; lia|discriminate].
  - apply utf8_cancel in E; auto. destruct E as [-> ->]. auto.
Qed.

Lemma scalar_cp c : scalar c -> code_point c.
Proof. intros [H _]. exact H. Qed.

Lemma utf8_text_ascii c t : 0 <= c < 128 -> valid_utf8 (c :: t) -> valid_utf8 t.
Proof.
  intros Hc H. assert (E : c :: t = utf8 c ++ t) by (rewrite utf8_small by lia; reflexivity).
  rewrite E in H. apply utf8_text_cons in H; [apply H|apply scalar_cp|unfold code_point; lia].
Qed.

Lemma utf8_text_asciis a t : Forall (fun c => 0 <= c < 128) a -> valid_utf8 (a ++ t) -> valid_utf8 t.
Proof. induction 1 as [|c a Hc Ha IH]; simpl; intros H; [auto|]. apply utf8_text_ascii in H; auto. Qed.

Lemma hex_ascii h cp : hex4 h cp -> Forall (fun c => 0 <= c < 128) h.
Proof.
  intros H. destruct H as [x y z w a b0 c d H1 H2 H3 H4].
  assert (HH : forall x a, hex_digit x = Some a -> 0 <= x < 128).
  { clear. intros x a. unfold hex_digit. destruct ((48 <=? x) && (x <=? 57)) eqn:E1; [lia|].
    destruct ((65 <=? x) && (x <=? 70)) eqn:E2; [lia|]. destruct ((97 <=? x) && (x <=? 102)) eqn:E3; [lia|discriminate]. }
  repeat constructor; eauto; eapply HH; eauto.
Qed.

(** A string of the library that is valid UTF-8 is RFC syntax. *)
Lemma lib_str_syntax t s : lib_str t s -> valid_utf8 (t ++ [34]) -> exists u, rfc_units t u.
Proof.
  intros H. induction H as [|cp t s Hr _ IH|c x t s He _ IH|h cp t s Hh Hc _ IH]; intros HV.
  - exists []. constructor.
  - rewrite <- app_assoc in HV. destruct Hr as (H1 & H2 & H3 & H4 & H5).
    apply utf8_text_cons in HV; [|apply scalar_cp|auto]. destruct HV as [HV1 HV2].
    destruct (IH HV2) as (u & Hu). exists (utf16 cp ++ u). constructor; auto. unfold rfc_raw. auto.
  - pose proof (short_escape_pos _ _ He). simpl in HV. apply utf8_text_ascii in HV; [|lia]. apply utf8_text_ascii in HV; [|lia].
    destruct (IH HV) as (u & Hu). exists (x :: u). now constructor.
  - simpl in HV. apply utf8_text_ascii in HV; [|lia]. apply utf8_text_ascii in HV; [|lia]. rewrite <- app_assoc in HV.
    apply utf8_text_asciis in HV; [|eapply hex_ascii; eauto]. destruct (IH HV) as (u & Hu). exists (cp :: u). now constructor.
Qed.

(** ** Surrogate escapes *)

Lemma string_valid t s : string_body (fun cp => scalar cp) (fun cu => ~ surrogate cu) t s -> valid_utf8 s.
Proof.
  intros H. induction H as [|cp t s Hr _ IH|c x t s He _ IH|h cp t s Hh Hc _ IH].
  - constructor.
  - now constructor.
  - pose proof (short_escape_pos _ _ He). change (x :: s) with ([x] ++ s). rewrite <- (utf8_small x) by lia.
    constructor; auto. unfold scalar, code_point, surrogate. lia.
  - pose proof (hex4_range _ _ Hh). constructor; auto. unfold scalar, code_point. split; [lia|auto].
Qed.

(** ** Refutations *)

Lemma rfc_number_decimal t neg m e : rfc_number t neg m e -> decimal t neg m e.
Proof.
  intros H. destruct H as [sg neg ip fr fp ex x Hsg Hip Hlead Hfr Hne Hex]. constructor; auto.
  - destruct Hsg as [[-> ->]|[-> ->]]; constructor.
  - intros E. apply app_eq_nil in E. destruct E as [-> _]. destruct Hlead as [E|(c & r & E & _)]; discriminate.
Qed.

Lemma rfc_number_strtod t neg m e : rfc_number t neg m e -> exists d, strtod t = Some (d, []).
Proof.
  intros H. apply rfc_number_decimal in H. eexists.
  apply (strtod_complete t t [] neg m e); auto; [now rewrite app_nil_r|].
  intros pre' suf' n' m' e' E _. rewrite E, app_length. lia.
Qed.

Lemma rfc_number_head t neg m e : rfc_number t neg m e -> exists c r, t = c :: r /\ (digit c \/ c = 45).
Proof.
  intros H. destruct H as [sg neg ip fr fp ex x Hsg Hip Hlead Hfr Hne Hex].
  destruct Hsg as [[-> ->]|[-> ->]]; [|do 2 eexists; split; [reflexivity|auto]].
  destruct ip as [|c r]; [destruct Hlead as [E|(c & r & E & _)]; discriminate|].
  inversion Hip; subst. do 2 eexists; split; [reflexivity|auto].
Qed.

Lemma rfc_number_float t neg m e : rfc_number t neg m e -> Forall float_char t.
Proof.
  intros H. destruct H as [sg neg ip fr fp ex x Hsg Hip Hlead Hfr Hne Hex].
  rewrite !Forall_app. split; [|split; [|split]]; eauto using digits_float, exp_float, frac_float.
  destruct Hsg as [[-> ->]|[-> ->]]; repeat constructor; unfold float_char; lia.
Qed.

Lemma digits_last a ds : digits ds -> ds <> [] -> exists r c, a ++ ds = r ++ [c] /\ digit c.
Proof.
  intros H Hne. destruct (@exists_last _ ds Hne) as (r & c & ->). exists (a ++ r), c. split; [now rewrite app_assoc|].
  apply Forall_app in H. destruct H as [_ H]. now inversion H.
Qed.

Lemma rfc_number_last t neg m e : rfc_number t neg m e -> exists r c, t = r ++ [c] /\ digit c.
Proof.
  intros H. destruct H as [sg neg ip fr fp ex x Hsg Hip Hlead Hfr Hne Hex].
  destruct Hex as [|e0 sg0 neg0 ds He Hs Hd Hn].
  - rewrite app_nil_r. destruct Hfr as [|fp Hfp].
    + rewrite app_nil_r. apply digits_last; auto. destruct Hlead as [->|(c & r & -> & _)]; discriminate.
    + replace (sg ++ ip ++ 46 :: fp) with ((sg ++ ip ++ [46]) ++ fp) by (rewrite <- !app_assoc; reflexivity).
      apply digits_last; auto. apply Hne. discriminate.
  - replace (sg ++ ip ++ fr ++ e0 :: sg0 ++ ds) with ((sg ++ ip ++ fr ++ [e0] ++ sg0) ++ ds)
      by (rewrite <- !app_assoc; reflexivity).
    apply digits_last; auto.
Qed.

(** A document that starts like a number and ends in no white space. *)
Lemma number_doc (str : list Z -> list Z -> Prop) num c r j : gdoc str num (c :: r) j -> float_char c ->
  (exists a x, c :: r = a ++ [x] /\ ~ wsc x) -> exists d, num (c :: r) d.
Proof.
  intros H Hc (a & x & Ea & Hx). inversion H as [w1 t w2 v H1 H2 H3 E1 E2]; subst v.
  assert (w1 = []) as ->.
  { destruct H1 as [|y w1 Hy _]; [reflexivity|]. simpl in E1. injection E1 as -> _. apply float_not_ws in Hc. tauto. }
  assert (w2 = []) as ->.
  { destruct w2 as [|y w2]; [reflexivity|exfalso]. destruct (@exists_last _ (y :: w2)) as (l & z & El); [discriminate|].
    rewrite El in *. simpl in E1. rewrite Ea, app_assoc in E1. apply app_inj_tail in E1. destruct E1 as [_ ->].
    apply Forall_app in H3. destruct H3 as [_ H3]. inversion H3; tauto. }
  rewrite app_nil_r in E1. simpl in E1.
  destruct H2; try (simpl in E1; injection E1; intros; subst; exfalso; unfold float_char, digit in Hc; lia).
  subst. simpl. rewrite app_nil_r. eauto.
Qed.
