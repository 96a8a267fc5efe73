(** * Properties C04, C05, C07: the supported language against RFC 8259. *)

From Verif Require Import Base TextModel NumModel MapModel ParserModel SpecUtf8 SpecNum SpecMap SpecGrammar
  SpecMeaning SpecTokens SpecRfc TextProofs MapProofs StrtodProofs RoundProofs LexProofs ParserProofs RootProofs
  UniqueProofs TokenProofs RfcProofs Str.

(** Parse accepts the text [t] with meaning [j], from any state. *)
Definition accepts (t : list Z) (j : jv) : Prop :=
  forall root, exists v, sd_parse root (t ++ [0]) = Ret (PR kOk 0 0, Some v) /\ represents v j.

(** ** C04. The claim is: forall t j, rfc_doc t j -> accepts t j. It is false; one
    witness per kind of failure. *)

Ltac no_accept := intros H; destruct (H None) as (v & E & _); vm_compute in E; discriminate.

Lemma rfc_string_doc t s : rfc_str t s -> rfc_doc (34 :: t ++ [34]) (JStr s).
Proof.
  intros H. pose proof (gdoc_intro rfc_str rfc_num [] (34 :: t ++ [34]) [] _ (Forall_nil _) (g_str _ _ t s H) (Forall_nil _)) as Hd.
  now rewrite app_nil_r in Hd.
Qed.

Lemma rfc_num_doc t d : rfc_num t d -> rfc_doc t (JNum d).
Proof.
  intros H. pose proof (gdoc_intro rfc_str rfc_num [] t [] _ (Forall_nil _) (g_num _ _ t d H) (Forall_nil _)) as Hd.
  simpl in Hd. now rewrite app_nil_r in Hd.
Qed.

Lemma one_digit_num c : digit c -> rfc_num [c] (dec_to_double false (c - 48) 0).
Proof.
  intros H. exists false, (c - 48), 0. split.
  - replace (c - 48) with (dvalue ([c] ++ [])) by (simpl; lia).
    apply (rfc_number_intro [] false [c] [] [] [] 0); [auto|repeat constructor; apply H| |constructor|congruence|constructor].
    destruct (Z.eq_dec c 48) as [->|]; [auto|right; eauto].
  - apply dec_to_double_ok. unfold digit in H. lia.
Qed.

Theorem C04_rfc_accepted_refuted :
  (* a document of one byte: 7 *)
  (exists t j, rfc_doc t j /\ length t = 1%nat /\ ~ accepts t j) /\
  (* a number with exponent on 0: 0e1 *)
  (exists t d, rfc_doc t (JNum d) /\ zero_exp t /\ ~ accepts t (JNum d)) /\
  (* a raw DEL in a string *)
  (exists t s, rfc_str t s /\ In 127 t /\ ~ accepts (34 :: t ++ [34]) (JStr s)) /\
  (* an escaped NUL *)
  (exists t s, rfc_str t s /\ In 0 s /\ ~ accepts (34 :: t ++ [34]) (JStr s)) /\
  (* an escaped surrogate pair (accepted, but with another meaning) *)
  (exists t s, rfc_str t s /\ s = `"😀" /\ ~ accepts (34 :: t ++ [34]) (JStr s)).
Proof.
  split; [|split; [|split; [|split]]].
  - exists `"7". eexists. split; [apply rfc_num_doc, (one_digit_num 55); unfold digit; lia|]. split; [reflexivity|]. no_accept.
  - exists `"0e1", (dec_to_double false 0 1). split; [|split].
    + apply rfc_num_doc. exists false, 0, 1. split; [|apply dec_to_double_ok; lia].
      apply (rfc_number_intro [] false [48] [] [] [101; 49] 1); [auto|repeat constructor; unfold digit; lia|auto|constructor|congruence|].
      change 1 with (if false then - dvalue [49] else dvalue [49]).
      apply (ex_some 101 [] false [49]); auto; [constructor|repeat constructor; unfold digit; lia|discriminate].
    + exists [], 101, [49]. auto.
    + no_accept.
  - exists [127], [127]. split; [|split; [simpl; auto|no_accept]].
    exists [127]. split; [constructor; [unfold scalar, code_point, surrogate; lia|constructor]|]. split; [|reflexivity].
    apply (ru_raw 127 [] []); [|constructor]. unfold rfc_raw, scalar, code_point, surrogate. lia.
  - exists `"\u0000", [0]. split; [|split; [simpl; auto|no_accept]].
    exists [0]. split; [constructor; [unfold scalar, code_point, surrogate; lia|constructor]|]. split; [|reflexivity].
    apply (ru_hex [48; 48; 48; 48] 0 [] []); [|constructor]. apply (hex4_intro 48 48 48 48 0 0 0 0); reflexivity.
  - exists `"\ud83d\ude00", `"😀". split; [|split; [reflexivity|]].
    + exists [0x1F600]. split; [constructor; [unfold scalar, code_point, surrogate; lia|constructor]|]. split; [|reflexivity].
      apply (ru_hex `"d83d" 0xD83D `"\ude00" [0xDE00]); [apply (hex4_intro 100 56 51 100 13 8 3 13); reflexivity|].
      apply (ru_hex `"de00" 0xDE00 [] []); [apply (hex4_intro 100 101 48 48 13 14 0 0); reflexivity|constructor].
    + intros H. destruct (H None) as (v & E & Hr). inversion Hr; subst. vm_compute in E. discriminate.
Qed.
Print Assumptions C04_rfc_accepted_refuted.

(** What holds instead: with the five exclusions above (texts of at least two
    bytes, no raw DEL, no escaped NUL or surrogate, no exponent directly on 0),
    every RFC 8259 document is accepted with its RFC meaning. Missing for the
    full claim: exactly those five. *)
Theorem C04_rfc_accepted_partial (t : list Z) (j : jv) : core_doc t j -> (2 <= length t)%nat ->
  rfc_doc t j /\ accepts t j.
Proof.
  intros H HL. split; [now apply core_doc_rfc|]. intros root.
  destruct (root_complete root t j [] (core_doc_lib t j H) HL) as (v & E & [Hr _]); [now exists []|]. eauto.
Qed.
Print Assumptions C04_rfc_accepted_partial.

(** Instance: an array with a string and a number. *)
Example C04_instance : core_doc `"[""é"", 7 ]" (JArr [JStr `"é"; JNum (dec_to_double false 7 0)]).
Proof.
  pose proof (Forall_nil wsc) as N. assert (W : ws [32]) by repeat constructor.
  apply (gdoc_intro _ _ [] `"[""é"", 7 ]" []); [auto| |auto].
  apply (g_arr _ _ `"""é"", 7 "). apply (ge_cons _ _ [] `"""é""" [] _ `" 7 "); auto.
  - apply (g_str _ _ `"é" `"é"). apply (sb_raw _ _ 0xE9 [] []); [|constructor].
    unfold core_raw, rfc_raw, scalar, code_point, surrogate. lia.
  - apply (ge_one _ _ [32] `"7" [32]); auto. apply g_num. split; [apply (one_digit_num 55); unfold digit; lia|].
    intros (sg & e & r & [->| ->] & _ & E); discriminate.
Qed.

(** ** C05. The claim is: if Parse returns kOk, the characters before the
    terminating NUL form an RFC 8259 text. It is false. *)

Lemma rfc_text_number c r : rfc_text (c :: r) -> float_char c ->
  (exists a x, c :: r = a ++ [x] /\ ~ wsc x) -> exists neg m e, rfc_number (c :: r) neg m e.
Proof. intros (j & H) Hc Hl. destruct (number_doc _ _ c r j H Hc Hl) as (_ & Hn). exact Hn. Qed.

Lemma rfc_units_nul_free t u : rfc_units t u -> nul_free t.
Proof.
  intros H. induction H as [|cp t s Hr _ IH|c x t s He _ IH|h cp t s Hh _ IH].
  - constructor.
  - apply Forall_app. split; [|auto]. destruct Hr as ([H1 _] & H2 & _). apply utf8_pos in H1; [|lia].
    eapply Forall_impl; [|exact H1]. simpl. lia.
  - apply short_escape_pos in He. repeat (apply Forall_cons; [lia|]). auto.
  - apply hex4_range in Hh. repeat (apply Forall_cons; [lia|]). apply Forall_app. split; [apply Hh|auto].
Qed.

Lemma rfc_text_nul_free t : rfc_text t -> nul_free t.
Proof.
  intros (j & H). destruct H as [w1 t w2 v H1 H2 H3]. apply ws_nul_free in H1, H3.
  assert (HG : nul_free t).
  { revert H2. set (S0 := fun t (_ : list Z) => exists u, rfc_units t u).
    set (N0 := fun t (_ : spec_float) => exists neg m e, rfc_number t neg m e).
    assert (HS : forall t s, S0 t s -> nul_free t) by (intros ? ? [u Hu]; eapply rfc_units_nul_free; eauto).
    assert (HN : forall t d, N0 t d -> nul_free t).
    { intros ? ? (a & b0 & c & Hn). apply rfc_number_float in Hn. eapply Forall_impl; [|exact Hn].
      unfold float_char, digit. intros; lia. }
    intros H2. revert t v H2.
    assert (HH : (forall t j, gval S0 N0 t j -> nul_free t) /\ (forall t l, gelems S0 N0 t l -> nul_free t) /\
                 (forall t l, gmembers S0 N0 t l -> nul_free t)); [|apply HH].
    apply (grammar_mind S0 N0 (fun t _ => nul_free t) (fun t _ => nul_free t) (fun t _ => nul_free t)); intros;
      try (match goal with H : S0 _ _ |- _ => apply HS in H end);
      try (match goal with H : N0 _ _ |- _ => apply HN in H end);
      repeat (match goal with H : ws _ |- _ => apply ws_nul_free in H end); nf. }
  nf.
Qed.

Definition accepted (buf : list Z) : Prop := exists v, sd_parse None buf = Ret (PR kOk 0 0, Some v).

Ltac yes := eexists; vm_compute; reflexivity.
Ltac bad_number_text a x :=
  let H := fresh "H" in intros H;
    match type of H with rfc_text ?t => let t' := eval vm_compute in t in change t with t' in H end;
    apply rfc_text_number in H; [|unfold float_char, digit; lia|exists a, x; split; [reflexivity|unfold wsc; lia]];
    destruct H as (neg & m & e & H).

Theorem C05_only_rfc_refuted :
  (accepted (buf "1-2") /\ ~ rfc_text `"1-2") /\
  (accepted (buf "+1") /\ ~ rfc_text `"+1") /\
  (accepted (buf ".5") /\ ~ rfc_text `".5") /\
  (accepted (buf "1.") /\ ~ rfc_text `"1.") /\
  (accepted (buf "- 1") /\ ~ rfc_text `"- 1") /\
  (accepted (buf "--1") /\ ~ rfc_text `"--1") /\
  (accepted (buf "1e+5.e") /\ ~ rfc_text `"1e+5.e") /\
  (* bytes after an embedded NUL are ignored *)
  (accepted (`"[]" ++ [0] ++ buf "junk") /\ ~ rfc_text (`"[]" ++ [0] ++ `"junk")) /\
  (* a raw surrogate, which is not UTF-8 *)
  (accepted ([34; 0xED; 0xA0; 0x80; 34; 0]) /\ ~ rfc_text [34; 0xED; 0xA0; 0x80; 34]).
Proof.
  repeat match goal with |- _ /\ _ => split end; try yes.
  - bad_number_text [49; 45] 50. apply rfc_number_strtod in H. destruct H as (d & H). vm_compute in H. discriminate.
  - bad_number_text [43] 49. apply rfc_number_head in H. destruct H as (c & r & E & Hc). injection E as <- <-. unfold digit in Hc. lia.
  - bad_number_text [46] 53. apply rfc_number_head in H. destruct H as (c & r & E & Hc). injection E as <- <-. unfold digit in Hc. lia.
  - bad_number_text [49] 46. apply rfc_number_last in H. destruct H as (r & c & E & Hc).
    change (r ++ [c]) with (r ++ [c]) in E. apply (app_inj_tail [49] r 46 c) in E. destruct E as [_ <-]. unfold digit in Hc. lia.
  - bad_number_text [45; 32] 49. apply rfc_number_float in H. inversion H as [|? ? _ H2]; subst. inversion H2 as [|? ? H3 _]; subst.
    unfold float_char, digit in H3. lia.
  - bad_number_text [45; 45] 49. apply rfc_number_strtod in H. destruct H as (d & H). vm_compute in H. discriminate.
  - bad_number_text `"1e+5." 101. apply rfc_number_strtod in H. destruct H as (d & H). vm_compute in H. discriminate.
  - intros H. apply rfc_text_nul_free in H. simpl in H. inversion H as [|? ? _ H1]; subst. inversion H1 as [|? ? _ H2]; subst.
    inversion H2 as [|? ? H3 _]; subst. congruence.
  - intros (j & H). inversion H as [w1 t w2 v H1 H2 H3 E1 E2]; subst v.
    destruct w1 as [|x w1]; [|simpl in E1; injection E1; intros; subst; inversion H1; unfold wsc in *; lia].
    simpl in E1. destruct H2 as [t s Hs|t d Hn| | | | | | |]; try discriminate.
    + simpl in E1. injection E1 as E1. destruct Hs as (u & Hu).
      destruct Hu as [|cp t u Hr Hu|c x t u He Hu|h cu t u Hh Hu]; try discriminate.
      repeat rewrite <- app_assoc in E1.
      assert (Hs : surrogate 0xD800 /\ code_point 0xD800) by (unfold surrogate, code_point; lia).
      apply (utf8_cancel cp _ 0xD800 [34]) in E1; [|apply Hr|apply Hs].
      destruct E1 as [-> _]. destruct Hr as [[_ Hr] _]. apply Hr. apply Hs.
    + destruct Hn as (a & b0 & c & Hn). apply rfc_number_head in Hn. destruct Hn as (x & r & -> & Hx).
      simpl in E1. injection E1 as -> _. unfold digit in Hx. lia.
Qed.
Print Assumptions C05_only_rfc_refuted.

(** What holds instead: if the tokens of an accepted text are valid UTF-8 and its
    number tokens are RFC numbers, the text before the first NUL is an RFC
    document. Missing for the full claim: exactly these two conditions on the
    tokens, and that the array has no NUL before the terminating one. *)
Lemma tokens_rfc :
  let S0 := fun t (_ : list Z) => exists u, rfc_units t u in
  let N0 := fun t (_ : spec_float) => exists neg m e, rfc_number t neg m e in
  let ok := fun tks : list (list Z) => (forall tk, In tk tks -> valid_utf8 tk) /\
              (forall tk d, In tk tks -> lib_num tk d -> exists neg m e, rfc_number tk neg m e) in
  (forall ts j, tval lib_str lib_num ts j -> ok ts -> tval S0 N0 ts j) /\
  (forall ts l, telems lib_str lib_num ts l -> ok ts -> telems S0 N0 ts l) /\
  (forall ts l, tmembers lib_str lib_num ts l -> ok ts -> tmembers S0 N0 ts l).
Proof.
  intros S0 N0 ok.
  assert (HS : forall t s ts, lib_str t s -> ok ts -> In (34 :: t ++ [34]) ts -> S0 t s).
  { intros t s ts H [H1 _] Hin. apply H1 in Hin. apply utf8_text_ascii in Hin; [|lia]. eapply lib_str_syntax; eauto. }
  assert (Hsub : forall a b0, ok (a ++ b0) -> ok a /\ ok b0).
  { intros a b0 [H1 H2]. split; split; intros; [eapply H1|eapply H2|eapply H1|eapply H2]; eauto; apply in_or_app; auto. }
  assert (Hcons : forall a b0, ok (a :: b0) -> ok b0) by (intros a b0 H; apply (Hsub [a] b0) in H; apply H).
  apply (tokens_mind lib_str lib_num (fun ts j => ok ts -> tval S0 N0 ts j) (fun ts l => ok ts -> telems S0 N0 ts l)
           (fun ts l => ok ts -> tmembers S0 N0 ts l)).
  - intros t s H Hok. constructor. eapply HS; eauto. simpl; auto.
  - intros t d H [_ Hok]. constructor. apply (Hok t d); simpl; auto.
  - constructor.
  - constructor.
  - constructor.
  - constructor.
  - intros ts l _ IH Hok. constructor. apply IH. apply Hcons in Hok. apply Hsub in Hok. apply Hok.
  - constructor.
  - intros ts l _ IH Hok. constructor. apply IH. apply Hcons in Hok. apply Hsub in Hok. apply Hok.
  - intros ts v _ IH Hok. constructor. auto.
  - intros ts v ts' l _ IH _ IH' Hok. apply Hsub in Hok. destruct Hok as [Ha Hb]. apply Hcons in Hb. constructor; auto.
  - intros n nm ts v Hn _ IH Hok. constructor; [eapply HS; eauto; simpl; auto|]. apply IH. apply Hcons in Hok. now apply Hcons in Hok.
  - intros n nm ts v ts' l Hn _ IH _ IH' Hok.
    assert (Hs : S0 n nm) by (eapply HS; eauto; simpl; auto).
    apply Hcons in Hok. apply Hcons in Hok. apply Hsub in Hok. destruct Hok as [Ha Hb]. apply Hcons in Hb. constructor; auto.
Qed.

Theorem C05_only_rfc_partial (root : option value) (buf : list Z) (l c : Z) (held : option value) :
  bytes buf -> sd_parse root buf = Ret (PR kOk l c, held) ->
  exists t rest tks j, buf = t ++ 0 :: rest /\ layout tks t /\ lib_tokens tks j /\
    ((forall tk, In tk tks -> valid_utf8 tk) ->
     (forall tk d, In tk tks -> lib_num tk d -> exists neg m e, rfc_number tk neg m e) ->
     rfc_text t).
Proof.
  intros HB H. destruct (root_sound root buf held l c HB H) as (t & rest & j & v & H1 & _ & _ & H2 & _).
  pose proof (proj1 (doc_tokens lib_str lib_num t j) H2) as (tks & Ht & Hl).
  exists t, rest, tks, j. repeat split; auto. intros Hu Hn. exists j.
  apply (proj2 (doc_tokens _ _ t j)). exists tks. split; [|auto]. apply tokens_rfc; auto.
Qed.
Print Assumptions C05_only_rfc_partial.

(** Instance: a document with a string and a number whose tokens satisfy both
    conditions; Parse accepts it. *)
Example C05_instance : accepted (buf "[""é"", 7 ]") /\ valid_utf8 `"""é""" /\ exists neg m e, rfc_number `"7" neg m e.
Proof.
  split; [yes|]. split.
  - apply (ut_cons _ 34 `"é"""); [unfold scalar, code_point, surrogate; lia|].
    apply (ut_cons _ 0xE9 [34]); [unfold scalar, code_point, surrogate; lia|].
    apply (ut_cons _ 34 []); [unfold scalar, code_point, surrogate; lia|constructor].
  - destruct (one_digit_num 55 ltac:(unfold digit; lia)) as (a & b0 & c & H & _). eauto.
Qed.

(** ** C07. The claim is that a pair of surrogate escapes decodes to the UTF-8
    encoding of the character it denotes. It fails for every pair: the result
    is the six byte encoding of the two halves, which is not UTF-8. *)
Lemma utf8_surrogate_invalid cp s : surrogate cp -> ~ valid_utf8 (utf8 cp ++ s).
Proof.
  intros Hs H. apply utf8_text_cons in H; [|apply scalar_cp|unfold surrogate, code_point in *; lia].
  destruct H as [[_ H] _]. tauto.
Qed.

Theorem C07_surrogate_pairs_refuted (root : option value) (h1 h2 : list Z) (hi lo : Z) :
  hex4 h1 hi -> hex4 h2 lo -> 0xD800 <= hi <= 0xDBFF -> 0xDC00 <= lo <= 0xDFFF ->
  let cp := 0x10000 + (hi - 0xD800) * 1024 + (lo - 0xDC00) in
  let body := 92 :: 117 :: h1 ++ 92 :: 117 :: h2 in
  rfc_str body (utf8 cp) /\
  sd_parse root (34 :: body ++ [34; 0]) = Ret (PR kOk 0 0, Some (VString (utf8 hi ++ utf8 lo))) /\
  utf8 hi ++ utf8 lo <> utf8 cp /\ length (utf8 hi ++ utf8 lo) = 6%nat /\ ~ valid_utf8 (utf8 hi ++ utf8 lo).
Proof.
  intros H1 H2 Hhi Hlo cp body.
  assert (Hcp : scalar cp) by (unfold scalar, code_point, surrogate, cp; lia).
  assert (Hbad : ~ valid_utf8 (utf8 hi ++ utf8 lo)) by (apply utf8_surrogate_invalid; unfold surrogate; lia).
  split; [|split; [|split; [|split]]]; auto.
  - exists [cp]. split; [repeat constructor; auto; apply Hcp|]. split; [|simpl; now rewrite app_nil_r].
    simpl. rewrite app_nil_r. unfold utf16. destruct (Z.ltb_spec cp 65536); [unfold cp in *; lia|].
    replace (cp - 65536) with ((lo - 56320) + (hi - 55296) * 1024) by (unfold cp; lia).
    rewrite Z.div_add, Z.mod_add by lia. rewrite Z.div_small, Z.mod_small by lia.
    replace (0xD800 + (0 + (hi - 55296))) with hi by lia. replace (0xDC00 + (lo - 56320)) with lo by lia.
    apply ru_hex; auto. rewrite <- (app_nil_r h2). apply ru_hex; auto. constructor.
  - assert (HS : lib_str body (utf8 hi ++ utf8 lo)).
    { apply sb_hex; auto; [lia|]. rewrite <- (app_nil_r h2), <- (app_nil_r (utf8 lo)). apply sb_hex; auto; [lia|constructor]. }
    destruct (root_complete root (34 :: body ++ [34]) (JStr (utf8 hi ++ utf8 lo)) []) as (v & E & [Hr _]).
    + pose proof (gdoc_intro lib_str lib_num [] (34 :: body ++ [34]) [] (JStr (utf8 hi ++ utf8 lo)) (Forall_nil _) (g_str _ _ _ _ HS) (Forall_nil _)) as Hd.
      rewrite app_nil_r in Hd. exact Hd.
    + simpl. lia.
    + now exists [].
    + inversion Hr; subst. replace (34 :: body ++ [34; 0]) with ((34 :: body ++ [34]) ++ [0]); [exact E|].
      simpl. now rewrite <- !app_assoc.
  - intros E. apply Hbad. rewrite E, <- (app_nil_r (utf8 cp)). constructor; [auto|constructor].
  - rewrite app_length. unfold utf8.
    destruct (Z.ltb_spec hi 128); [lia|]. destruct (Z.ltb_spec hi 2048); [lia|]. destruct (Z.ltb_spec hi 65536); [|lia].
    destruct (Z.ltb_spec lo 128); [lia|]. destruct (Z.ltb_spec lo 2048); [lia|]. destruct (Z.ltb_spec lo 65536); [|lia].
    reflexivity.
Qed.
Print Assumptions C07_surrogate_pairs_refuted.

(** Without surrogates (raw or escaped) the decoded string is valid UTF-8.
    Missing for the full claim: surrogate pairs. *)
Theorem C07_decoded_utf8_partial (t s : list Z) :
  string_body (fun cp => lib_raw cp /\ ~ surrogate cp) (fun cu => cu <> 0 /\ ~ surrogate cu) t s ->
  (forall root, sd_parse root (34 :: t ++ [34; 0]) = Ret (PR kOk 0 0, Some (VString s))) /\ valid_utf8 s.
Proof.
  intros H. split.
  - intros root. assert (HS : lib_str t s) by (eapply string_body_mono; [| |exact H]; simpl; tauto).
    destruct (root_complete root (34 :: t ++ [34]) (JStr s) []) as (v & E & [Hr _]).
    + pose proof (gdoc_intro lib_str lib_num [] (34 :: t ++ [34]) [] (JStr s) (Forall_nil _) (g_str _ _ t s HS) (Forall_nil _)) as Hd.
      rewrite app_nil_r in Hd. exact Hd.
    + simpl. rewrite app_length. simpl. lia.
    + now exists [].
    + inversion Hr; subst. simpl in E. rewrite <- app_assoc in E. exact E.
  - eapply string_valid, string_body_mono; [| |exact H]; simpl; [|tauto].
    intros cp [(H1 & _) H2]. split; auto.
Qed.
Print Assumptions C07_decoded_utf8_partial.

Example C07_instance : sd_parse None (buf """\ud83d\ude00""") =
  Ret (PR kOk 0 0, Some (VString [0xED; 0xA0; 0xBD; 0xED; 0xB8; 0x80])) /\
  string_body (fun cp => lib_raw cp /\ ~ surrogate cp) (fun cu => cu <> 0 /\ ~ surrogate cu) `"\u00e9" `"é".
Proof.
  split; [vm_compute; reflexivity|].
  apply (sb_hex _ _ `"00e9" 0xE9 [] []); [apply (hex4_intro 48 48 101 57 0 0 14 9); reflexivity|unfold surrogate; lia|constructor].
Qed.
