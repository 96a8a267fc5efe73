(** * Properties of the parser in both builds: C84 (stack), C85 (builds without system
    conversions), C86 (agreement of the builds). *)

From Verif Require Import Base TextModel NumModel MapModel ParserModel PortableModel BuildModel SpecUtf8 SpecNum SpecMap SpecGrammar SpecMeaning
  SpecRfc SpecPortable SpecBuild TextProofs MapProofs StrtodProofs RoundProofs LexProofs ParserProofs RootProofs RfcProofs PortableProofs PortableValue PropPortable
  BuildProofs BuildPort Str.

#[local] Arguments Z.eqb : simpl nomatch.

(** The number reader of a build, with or without system conversions. *)
Definition reader (system : bool) : number_parser := if system then number_parse else portable_number_parse.
Definition tokens (system : bool) : list Z -> spec_float -> Prop := if system then lib_num else p_num.

Lemma tokens_head system t d : tokens system t d -> exists c r, t = c :: r /\ float_char c.
Proof. destruct system; [apply lib_num_head|apply p_num_head]. Qed.
Lemma tokens_nul system t d : tokens system t d -> nul_free t.
Proof. destruct system; [apply lib_num_nul_free|apply p_num_nul]. Qed.

Lemma reader_spec system p : terminated p -> bytes p ->
  (exists st d p1, reader system p = Ret (st, d, p1) /\ bad_number st /\ terminated p1 /\ (exists u, p = u ++ p1)) \/
  (exists t d w rest, p = t ++ w ++ rest /\ tokens system t d /\ ws w /\ terminated rest /\ reader system p = Ret (kOk, d, rest)).
Proof. destruct system; [apply std_spec|apply port_spec]. Qed.

Lemma reader_complete system t d w rest : tokens system t d -> bytes (t ++ w ++ rest) -> ws w -> nonws_head rest -> stop_head (w ++ rest) ->
  reader system (t ++ w ++ rest) = Ret (kOk, d, rest).
Proof. destruct system; [apply std_complete|apply port_complete]. Qed.

Lemma reader_other system c r : c = 116 \/ c = 102 \/ c = 110 \/ c = 91 \/ c = 123 -> exists d, reader system (c :: r) = Ret (kFloatInvalid, d, c :: r).
Proof. destruct system; [apply std_other|apply port_other]. Qed.

Lemma reader_total system root buf : bytes buf -> exists r, build_parse (reader system) root buf = Ret r.
Proof. apply (build_total _ _ (tokens_head system) (reader_spec system) (reader_complete system) (reader_other system) (tokens_nul system)). Qed.

Lemma reader_sound system root buf ov l c d : bytes buf -> build_parse (reader system) root buf = Ret (PR kOk l c, ov, d) ->
  exists t rest j v, buf = t ++ 0 :: rest /\ terminated buf /\ (2 <= length t + length rest)%nat /\
    gdoc lib_str (tokens system) t j /\ ov = Some v /\ good v j /\ d = nesting j /\ l = 0 /\ c = 0.
Proof. apply (build_sound _ _ (tokens_head system) (reader_spec system) (reader_complete system) (reader_other system) (tokens_nul system)). Qed.

Lemma reader_accepts system root t j rest : gdoc lib_str (tokens system) t j -> (2 <= length t + length rest)%nat -> terminated (0 :: rest) ->
  bytes (t ++ 0 :: rest) ->
  exists v, build_parse (reader system) root (t ++ 0 :: rest) = Ret (PR kOk 0 0, Some v, nesting j) /\ good v j.
Proof. apply (build_complete _ _ (tokens_head system) (reader_spec system) (reader_complete system) (reader_other system) (tokens_nul system)). Qed.

Lemma reader_depth system root buf r d : bytes buf -> build_parse (reader system) root buf = Ret (r, d) -> (d <= S (openings buf))%nat.
Proof. apply (build_depth _ _ (tokens_head system) (reader_spec system) (reader_complete system) (reader_other system) (tokens_nul system)). Qed.

(** ** C84: Parse recurses once per level of nesting and sets no limit, so every stack
    is too small for some text. [room] is the number of nested activations of
    ParseAnyValue for which there is stack. *)

Lemma nested_grammar str num n : exists j, gval str num (nested n) j /\ nesting j = S n.
Proof.
  induction n as [|n (j & H & E)].
  - exists (JArr []). split; [apply (g_arr0 str num []); constructor|reflexivity].
  - exists (JArr [j]). split.
    + replace (nested (S n)) with (91 :: ([] ++ nested n ++ []) ++ [93]).
      * apply g_arr. apply ge_one; [constructor|exact H|constructor].
      * rewrite app_nil_r. transitivity (91 :: (repeat 91 (S n) ++ repeat 93 (S n)) ++ [93]); [reflexivity|]. rewrite <- app_assoc.
        replace (repeat 93 (S n) ++ [93]) with (repeat 93 (S (S n))); [reflexivity|]. exact (repeat_cons (S n) 93).
    + rewrite nesting_arr. cbn [deepest]. rewrite E. lia.
Qed.

Lemma nested_length n : length (nested n) = (2 * S n)%nat.
Proof. unfold nested. rewrite app_length, !repeat_length. lia. Qed.

Lemma nested_bytes n : bytes (nested n).
Proof. unfold nested, bytes. apply Forall_app. split; apply Forall_forall; intros c H; apply repeat_spec in H; subst; unfold is_byte; lia. Qed.

Theorem C84_refuted (system : bool) (root : option value) (room : nat) :
  exists t j v, rfc_doc t j /\ length t = (2 * S room)%nat /\
    build_parse (reader system) root (t ++ [0]) = Ret (PR kOk 0 0, Some v, S room) /\ represents v j /\
    parse_in (reader system) room root (t ++ [0]) = Ret None.
Proof.
  set (none := fun (_ : list Z) (_ : spec_float) => False). set (nos := fun (_ _ : list Z) => False).
  destruct (nested_grammar nos none room) as (j & H & E).
  assert (HG : forall str num, gdoc str num (nested room) j).
  { intros str num. replace (nested room) with ([] ++ nested room ++ []) by now rewrite app_nil_r.
    constructor; [constructor| |constructor].
    revert H. generalize (nested room) as t. intros t H.
    assert (M : (forall t j, gval nos none t j -> gval str num t j) /\ (forall t l, gelems nos none t l -> gelems str num t l) /\
      (forall t l, gmembers nos none t l -> gmembers str num t l)).
    { apply (grammar_mind nos none (gval str num) (gelems str num) (gmembers str num)); intros; try contradiction; constructor; auto. }
    now apply M. }
  destruct (reader_accepts system root (nested room) j []) as (v & P & [R _]); [apply HG|rewrite nested_length; lia|now exists []| |].
  { apply Forall_app. split; [apply nested_bytes|]. repeat constructor; lia. }
  exists (nested room), j, v. split; [apply HG|]. split; [apply nested_length|]. rewrite E in P. split; [exact P|]. split; [exact R|].
  unfold parse_in. rewrite P. cbn [bind]. replace (S room <=? room)%nat with false by (symmetry; apply Nat.leb_gt; lia). reflexivity.
Qed.
Print Assumptions C84_refuted.

Lemma skip_none p : nonws_head p -> skip_ws p = Ret p.
Proof. intros H. exact (skip_ws_app [] p (Forall_nil _) H). Qed.

(** A refused text does it too, with one byte per level: opening brackets only. *)
Theorem C84_brackets (system : bool) (root : option value) (n : nat) : (2 <= n)%nat ->
  build_parse (reader system) root (repeat 91 n ++ [0]) = Ret (PR kExpectedJsonValue 1 (Z.of_nat n + 1), None, S n) /\
  parse_in (reader system) n root (repeat 91 n ++ [0]) = Ret None.
Proof.
  assert (V : forall k fuel, (2 * k < fuel)%nat -> parse_value (reader system) fuel (repeat 91 k ++ [0]) = Ret ((kExpectedJsonValue, None, [0]), S k)).
  { assert (N0 : exists d, reader system [0] = Ret (kFloatInvalid, d, [0])) by (destruct system; eexists; vm_compute; reflexivity).
    destruct N0 as (d0 & N0).
    induction k as [|k IH]; intros fuel Hf; (destruct fuel; [lia|]).
    - simpl app. cbn [parse_value]. rewrite string_parse_other by lia. cbn [bind]. rewrite status_eqb_neq by discriminate. rewrite status_eqb_refl. simpl negb. cbv iota.
      rewrite N0. reflexivity.
    - simpl app. rewrite (value_bracket _ _ (tokens_head system) (reader_spec system) (reader_complete system) (reader_other system)) by auto. change (91 =? 91) with true. cbv iota.
      destruct fuel; [lia|]. cbn [elements_loop]. cbn [skipn].
      rewrite (skip_none (repeat 91 k ++ [0])); [|destruct k; simpl; apply nonws_cons; unfold wsc; lia]. cbn [bind].
      assert (R : exists c, rd (repeat 91 k ++ [0]) 0 = Ret c /\ c <> 93) by (destruct k; simpl; eexists; (split; [reflexivity|lia])).
      destruct R as (c & -> & Hc). cbn [bind]. destruct (Z.eqb_spec c 93); [lia|].
      rewrite IH by lia. cbn [bind]. rewrite !status_eqb_neq by discriminate. simpl orb. cbv iota. reflexivity. }
  intros Hn.
  assert (B : build_parse (reader system) root (repeat 91 n ++ [0]) = Ret (PR kExpectedJsonValue 1 (Z.of_nat n + 1), None, S n)).
  { rewrite (build_root _ _ (tokens_head system) (reader_spec system) (reader_complete system) (reader_other system) (tokens_nul system)); [|rewrite app_length, repeat_length; simpl; lia|now exists (repeat 91 n)].
    rewrite (skip_none (repeat 91 n ++ [0])); [|destruct n; simpl; apply nonws_cons; unfold wsc; lia]. cbn [bind].
    rewrite V by (unfold parse_fuel; rewrite app_length, repeat_length; lia). cbn [bind].
    rewrite (skip_none [0]); [|apply nonws_cons; unfold wsc; lia]. cbn [bind].
    rewrite status_eqb_neq by discriminate. cbn [bind]. rewrite status_eqb_neq by discriminate. simpl negb. cbv iota.
    assert (F : forall a b : list Z, firstn (length (a ++ b) - length b) (a ++ b) = a).
    { intros a b. rewrite app_length. replace (length a + length b - length b)%nat with (length a) by lia.
      rewrite firstn_app, Nat.sub_diag, firstn_all. simpl. apply app_nil_r. }
    rewrite F.
    assert (W : forall k c, error_walk (rev (repeat 91 k)) 1 c = (1, c + Z.of_nat k)).
    { intros k. assert (Er : rev (repeat 91 k) = repeat 91 k).
      { clear. induction k as [|k IH]; [reflexivity|]. cbn [repeat rev]. rewrite IH. now rewrite <- repeat_cons. }
      rewrite Er. clear. induction k as [|k IH]; intros c; [simpl; f_equal; lia|]. cbn [repeat error_walk].
      change (91 =? 10) with false. cbv iota. change (1 =? 1) with true. cbv iota. rewrite IH. f_equal. lia. }
    rewrite W. cbn [bind]. do 4 f_equal. lia. }
  split; [exact B|]. unfold parse_in. rewrite B. cbn [bind]. replace (S n <=? n)%nat with false by (symmetry; apply Nat.leb_gt; lia). reflexivity.
Qed.
Print Assumptions C84_brackets.

(** What holds: room for one level more than the text has opening brackets is
    enough, and then the result is the one without a limit. *)
Theorem C84_room_partial (system : bool) (root : option value) (buf : list Z) (room : nat) : bytes buf -> (openings buf < room)%nat ->
  exists r d, build_parse (reader system) root buf = Ret (r, d) /\ parse_in (reader system) room root buf = Ret (Some r).
Proof.
  intros HB HR. destruct (reader_total system root buf HB) as ([r d] & E). exists r, d. split; [exact E|].
  pose proof (reader_depth system root buf r d HB E). unfold parse_in. rewrite E. cbn [bind].
  replace (d <=? room)%nat with true by (symmetry; apply Nat.leb_le; lia). reflexivity.
Qed.
Print Assumptions C84_room_partial.

(** With system conversions the unlimited result is that of [sd_parse] (C01-C10). *)
Theorem C84_same_parser (root : option value) (buf : list Z) r d :
  build_parse number_parse root buf = Ret (r, d) -> sd_parse root buf = Ret r.
Proof. intros H. rewrite <- build_erase, H. reflexivity. Qed.
Print Assumptions C84_same_parser.

(** An accepted text overflows the stack exactly when it is nested deeper than there
    is room. *)
Theorem C84_exact_partial (root : option value) (t rest : list Z) (j : jv) (room : nat) :
  lib_doc t j -> (2 <= length t)%nat -> terminated (0 :: rest) -> bytes (t ++ 0 :: rest) ->
  exists v, represents v j /\
    parse_in number_parse room root (t ++ 0 :: rest) = Ret (if (nesting j <=? room)%nat then Some (PR kOk 0 0, Some v) else None).
Proof.
  intros HD HL HT HB. destruct (reader_accepts true root t j rest HD) as (v & P & [R _]); [lia|auto|auto|].
  exists v. split; [exact R|]. unfold parse_in. change number_parse with (reader true). rewrite P. reflexivity.
Qed.
Print Assumptions C84_exact_partial.

(** Instances. *)
Example C84_instance :
  parse_in number_parse 3 None (buf "[[1,{""a"":2}],[]]") = Ret None /\
  (exists v, parse_in number_parse 4 None (buf "[[1,{""a"":2}],[]]") = Ret (Some (PR kOk 0 0, Some v))) /\
  openings (buf "[[1,{""a"":2}],[]]") = 4%nat /\
  nesting (JArr [JArr [JNull; JObj [(`"a", JNull)]]; JArr []]) = 4%nat.
Proof. repeat split; try (vm_compute; reflexivity). eexists. vm_compute. reflexivity. Qed.

(** ** C85: StructuredData::Parse in builds without system conversions. *)

(** Every terminated array gives a result. *)
Theorem C85_total (root : option value) (buf : list Z) : bytes buf ->
  exists st l c ov d, build_parse portable_number_parse root buf = Ret (PR st l c, ov, d).
Proof. intros HB. destruct (reader_total false root buf HB) as ([[[st l c] ov] d] & E). eauto 6. Qed.
Print Assumptions C85_total.

(** What it accepts: the grammar of JSON with the strings of the library and the
    number tokens [p_syntax]. *)
Theorem C85_sound (root : option value) (buf : list Z) (l c : Z) (held : option value) (d : nat) : bytes buf ->
  build_parse portable_number_parse root buf = Ret (PR kOk l c, held, d) ->
  exists t rest j v, buf = t ++ 0 :: rest /\ nul_free t /\ gdoc lib_str p_syntax t j /\ held = Some v /\ represents v j.
Proof.
  intros HB E. destruct (reader_sound false root buf held l c d HB E) as (t & rest & j & v & -> & _ & _ & HG & -> & [R _] & _).
  exists t, rest, j, v. split; [reflexivity|]. split; [exact (build_doc_nul_free _ _ p_num_head port_spec port_complete port_other p_num_nul _ _ HG)|].
  split; [eapply refine_doc; [|exact HG]; apply p_num_syntax|]. auto.
Qed.
Print Assumptions C85_sound.

Theorem C85_complete (root : option value) (t rest : list Z) (j : jv) :
  gdoc lib_str p_syntax t j -> (2 <= length t)%nat -> terminated (0 :: rest) -> bytes (t ++ 0 :: rest) ->
  exists v j' d, build_parse portable_number_parse root (t ++ 0 :: rest) = Ret (PR kOk 0 0, Some v, d) /\ alike j j' /\ represents v j'.
Proof.
  intros HG HL HT HB. destruct (replace_doc lib_str p_syntax p_num p_syntax_num t j HG) as (j' & HG' & A).
  destruct (reader_accepts false root t j' rest HG') as (v & P & [R _]); [lia|auto|auto|]. exists v, j', (nesting j'). auto.
Qed.
Print Assumptions C85_complete.

(** Both together, for texts without NUL. *)
Theorem C85_language (root : option value) (t : list Z) : bytes t -> nul_free t -> (2 <= length t)%nat ->
  (exists held d, build_parse portable_number_parse root (t ++ [0]) = Ret (PR kOk 0 0, held, d)) <-> (exists j, gdoc lib_str p_syntax t j).
Proof.
  intros HB HN HL. assert (HB' : bytes (t ++ [0])) by (apply Forall_app; split; [exact HB|repeat constructor; lia]). split.
  - intros (held & d & E). destruct (C85_sound _ _ _ _ _ _ HB' E) as (t' & rest & j & v & Et & HN' & HG & _).
    destruct (zero_split t [] t' rest HN HN' Et) as [-> _]. eauto.
  - intros (j & HG). destruct (C85_complete root t [] j HG HL) as (v & j' & d & E & _); [now exists []|auto|]. eauto.
Qed.
Print Assumptions C85_language.

(** Instances: underscores, a fraction without digits and one without integer part,
    blanks behind a sign; none of these is JSON. Two underscores in a row are refused. *)
Example C85_instance :
  (exists v, build_parse portable_number_parse None (buf "[1_000,5.,.5,- 2]") = Ret (PR kOk 0 0, Some v, 2%nat) /\
     represents v (JArr [JNum (dint 1000); JNum (dint 5); JNum (dec_to_double false 5 (-1)); JNum (dec_to_double true 2 0)])) /\
  gdoc lib_str p_syntax (`"1_0") (JNum S754_nan) /\
  build_parse portable_number_parse None (buf "1__0") = Ret (PR kExpectedJsonValue 1 1, None, 1%nat).
Proof.
  split; [|split].
  - eexists. split; [vm_compute; reflexivity|]. apply rep_arr.
    repeat (apply Forall2_cons; [match goal with |- represents (VNumber ?d) (JNum ?e) => replace e with d by (vm_compute; reflexivity) end; constructor|]).
    constructor.
  - apply (gdoc_intro lib_str p_syntax [] (`"1_0") [] (JNum S754_nan)); [constructor| |constructor]. constructor.
    exists false, (`"10"), [], None. apply (p_token_intro [] false [] (`"1_0") (`"10") [] [] [] None);
      [constructor|constructor|auto| |constructor|discriminate|constructor].
    apply (pw_plain 49 [95; 48] [49; 48]); [|lia]. apply g_sep; [unfold digit; lia|]. constructor. unfold digit; lia.
  - vm_compute. reflexivity.
Qed.

(** ** C86: both builds accept the same texts and read the same values. False in both
    directions, of RFC 8259 documents too, and where both accept the numbers can differ. *)
Theorem C86_refuted :
  let system b := build_parse number_parse None b in
  let portable b := build_parse portable_number_parse None b in
  (* accepted only without system conversions: 1_0 and the RFC 8259 number 0e1 *)
  (exists b d, system (b ++ [0]) = Ret (PR kExpectedEndOfFile 1 2, Some (VNumber (dint 1)), 1%nat) /\
     portable (b ++ [0]) = Ret (PR kOk 0 0, Some (VNumber d), 1%nat)) /\
  (exists b m e d st l c o k, rfc_number b false m e /\ system (b ++ [0]) = Ret (PR st l c, o, k) /\ st <> kOk /\
     portable (b ++ [0]) = Ret (PR kOk 0 0, Some (VNumber d), 1%nat)) /\
  (* accepted only with them: 1-2 *)
  (exists b d st l c o k, system (b ++ [0]) = Ret (PR kOk 0 0, Some (VNumber d), 1%nat) /\
     portable (b ++ [0]) = Ret (PR st l c, o, k) /\ st <> kOk) /\
  (* a number of RFC 8259 read differently: 0.15 *)
  (exists b d d', rfc_number b false 15 (-2) /\ system (b ++ [0]) = Ret (PR kOk 0 0, Some (VNumber d), 1%nat) /\
     portable (b ++ [0]) = Ret (PR kOk 0 0, Some (VNumber d'), 1%nat) /\ d <> d').
Proof.
  assert (D : forall c, 48 <= c <= 57 -> digit c) by auto.
  split; [|split; [|split]].
  - exists (`"1_0"), (dint 10). split; vm_compute; reflexivity.
  - exists (`"0e1"), 0, 1, (S754_zero false), kNumbersCannotHaveLeadingZeros. do 4 eexists. split.
    + apply (rfc_number_intro [] false [48] [] [] (`"e1") 1); [auto|constructor; [apply D; lia|constructor]|auto|constructor|auto|].
      apply (ex_some 101 [] false [49]); [auto|constructor|constructor; [apply D; lia|constructor]|discriminate].
    + split; [vm_compute; reflexivity|]. split; [discriminate|vm_compute; reflexivity].
  - exists (`"1-2"), (dint 1). do 5 eexists. split; [vm_compute; reflexivity|]. split; [vm_compute; reflexivity|discriminate].
  - exists (`"0.15"). do 2 eexists. split.
    + apply (rfc_number_intro [] false [48] (`".15") (`"15") [] 0); [auto|constructor; [apply D; lia|constructor]|auto| |discriminate|constructor].
      apply (fr_some [49; 53]). constructor; [apply D; lia|]. constructor; [apply D; lia|constructor].
    + split; [vm_compute; reflexivity|]. split; [vm_compute; reflexivity|]. intros E. discriminate E.
Qed.
Print Assumptions C86_refuted.

Lemma plain_system t d : plain_number t d -> exists d', lib_num t d' /\ plain_number t d'.
Proof.
  intros ((neg & m & e & H) & HZ). assert (Hm : 0 <= m).
  { destruct H as [sg neg ip fr fp ex x _ Hip _ Hfr _ _]. apply dvalue_nonneg. apply Forall_app. split; [exact Hip|]. destruct Hfr; [constructor|auto]. }
  exists (dec_to_double neg m e). split; [|split; eauto]. apply core_num_lib. split; [|exact HZ]. exists neg, m, e. split; [exact H|].
  now apply rounds_dec.
Qed.

Lemma rfc_token t neg m e : rfc_number t neg m e -> exists ip fp ex, p_token t neg ip fp ex.
Proof.
  intros H. destruct H as [sg neg ip fr fp ex x Hsg Hip Hlead Hfr Hne Hex].
  assert (X : exists x', p_exp ex x').
  { destruct Hex as [|e0 sg0 neg' ds He Hs Hd Hn]; [exists None; constructor|]. exists (Some (neg', ds)). constructor; auto. now apply digits_groups. }
  destruct X as [x' X]. exists ip, fp, x'. apply (p_token_intro sg neg [] ip ip fr fp ex x'); auto.
  - destruct Hsg as [[-> ->]|[-> ->]]; constructor.
  - constructor.
  - destruct Hlead as [->|(c1 & r1 & -> & Nc)].
    + apply pw_zero. apply s_one. unfold digit. lia.
    + apply pw_plain; auto. apply digits_groups; [auto|discriminate].
  - destruct Hfr as [|ds Hds]; [constructor|]. apply pf_some. apply digits_groups; auto. apply Hne. discriminate.
  - intros E. apply app_eq_nil in E. destruct E as [-> _]. destruct Hlead as [?|(? & ? & ? & _)]; discriminate.
Qed.

Lemma plain_portable t d : lib_num t d /\ plain_number t d -> exists d', p_num t d'.
Proof.
  intros (_ & (neg & m & e & H) & _). destruct (rfc_token t neg m e H) as (ip & fp & ex & P). eexists. exists neg, ip, fp, ex. split; [exact P|reflexivity].
Qed.

(** What holds: with RFC 8259 numbers without a 0 before an exponent (and the strings
    of the library) both accept the text, and the values differ in the numbers only. *)
Theorem C86_shape_partial (root : option value) (t rest : list Z) (j : jv) :
  gdoc lib_str plain_number t j -> (2 <= length t)%nat -> terminated (0 :: rest) -> bytes (t ++ 0 :: rest) ->
  exists v1 v2 j1 j2 d, build_parse number_parse root (t ++ 0 :: rest) = Ret (PR kOk 0 0, Some v1, d) /\
    build_parse portable_number_parse root (t ++ 0 :: rest) = Ret (PR kOk 0 0, Some v2, d) /\
    represents v1 j1 /\ represents v2 j2 /\ alike j1 j2.
Proof.
  intros HG HL HT HB.
  destruct (replace_doc lib_str plain_number (fun t d => lib_num t d /\ plain_number t d) plain_system t j HG) as (j1 & HG1 & _).
  destruct (replace_doc lib_str (fun t d => lib_num t d /\ plain_number t d) p_num plain_portable t j1 HG1) as (j2 & HG2 & A).
  assert (HG1' : gdoc lib_str lib_num t j1) by (eapply refine_doc; [|exact HG1]; simpl; tauto).
  destruct (reader_accepts true root t j1 rest HG1') as (v1 & P1 & [R1 _]); [lia|auto|auto|].
  destruct (reader_accepts false root t j2 rest HG2) as (v2 & P2 & [R2 _]); [lia|auto|auto|].
  exists v1, v2, j1, j2, (nesting j1). split; [exact P1|]. split; [|auto].
  replace (nesting j1) with (nesting j2); [exact P2|].
  clear - A. revert j1 j2 A. fix IH 3. intros j1 j2 A. destruct A as [s|d d'|b| |l l' F|ms ms' F]; try reflexivity.
  - rewrite !nesting_arr. f_equal. induction F as [|x y l l' H F IHF]; [reflexivity|]. cbn [deepest]. rewrite (IH x y H), IHF. reflexivity.
  - rewrite !nesting_obj. f_equal. induction F as [|[k x] [k' y] l l' [_ H] F IHF]; [reflexivity|]. cbn [deepest_member]. cbn [snd] in H. rewrite (IH x y H), IHF. reflexivity.
Qed.
Print Assumptions C86_shape_partial.

(** If the numbers are integers up to 2^53, both give the same result. *)
Lemma whole_system t d : whole_number t d -> lib_num t d.
Proof.
  intros (sg & neg & ds & Hsg & Hd & Hl & _ & -> & R). apply core_num_lib. split.
  - exists neg, (dvalue ds), 0. split; [|exact R].
    pose proof (rfc_number_intro sg neg ds [] [] [] 0 Hsg Hd Hl fr_none (fun H => False_ind _ (H eq_refl)) ex_none) as N.
    rewrite !app_nil_r in N. exact N.
  - intros (sg' & e & r & Hsg' & He & E).
    assert (Hne : forall c : Z, In c (sg ++ ds) -> c <> 101 /\ c <> 69).
    { intros c Hc. apply in_app_or in Hc. destruct Hc as [Hc|Hc].
      - destruct Hsg as [[-> _]|[-> _]]; simpl in Hc; lia.
      - apply (proj1 (Forall_forall _ _) Hd) in Hc. unfold digit in Hc. lia. }
    destruct (Hne e); [|lia]. rewrite E. apply in_or_app. right. simpl. auto.
Qed.

Lemma whole_portable t d : whole_number t d -> p_num t d.
Proof.
  intros (sg & neg & ds & Hsg & Hd & Hl & Hb & -> & R). exists neg, ds, [], None. split.
  - replace (sg ++ ds) with (sg ++ [] ++ ds ++ [] ++ []) by now rewrite !app_nil_r.
    constructor; auto; try constructor.
    + destruct Hsg as [[-> ->]|[-> ->]]; constructor.
    + destruct Hl as [->|(c1 & r1 & -> & Nc)].
      * apply pw_zero. apply s_one. unfold digit. lia.
      * apply pw_plain; auto. apply digits_groups; [auto|discriminate].
    + rewrite app_nil_r. destruct Hl as [->|(? & ? & -> & _)]; discriminate.
  - pose proof (dvalue_nonneg ds Hd) as Hn. apply rounds_dec in R; [|exact Hn]. rewrite integer_plain by auto.
    destruct neg; [|exact R]. rewrite dec_to_double_neg. exact R.
Qed.

Theorem C86_whole_partial (root : option value) (t rest : list Z) (j : jv) :
  gdoc lib_str whole_number t j -> (2 <= length t)%nat -> terminated (0 :: rest) -> bytes (t ++ 0 :: rest) ->
  exists v, represents v j /\
    build_parse number_parse root (t ++ 0 :: rest) = Ret (PR kOk 0 0, Some v, nesting j) /\
    build_parse portable_number_parse root (t ++ 0 :: rest) = Ret (PR kOk 0 0, Some v, nesting j).
Proof.
  intros HG HL HT HB.
  destruct (reader_accepts true root t j rest) as (v1 & P1 & [R1 [_ E1]]); [eapply refine_doc; [|exact HG]; apply whole_system|lia|auto|auto|].
  destruct (reader_accepts false root t j rest) as (v2 & P2 & [R2 [_ E2]]); [eapply refine_doc; [|exact HG]; apply whole_portable|lia|auto|auto|].
  exists v1. split; [exact R1|]. split; [exact P1|]. rewrite E1, <- E2. exact P2.
Qed.
Print Assumptions C86_whole_partial.

(** Instance: a document with numbers of all these kinds. *)
Example C86_instance :
  build_parse number_parse None (buf "{""a"":[-9007199254740992,0,17]}") = build_parse portable_number_parse None (buf "{""a"":[-9007199254740992,0,17]}") /\
  (exists v, build_parse number_parse None (buf "{""a"":[-9007199254740992,0,17]}") = Ret (PR kOk 0 0, Some v, 3%nat)) /\
  whole_number (`"-9007199254740992") (dec_to_double true 9007199254740992 0).
Proof.
  split; [vm_compute; reflexivity|]. split; [eexists; vm_compute; reflexivity|].
  exists [45], true, (`"9007199254740992"). split; [auto|]. split; [repeat constructor; vm_compute; congruence|].
  split; [right; exists 57, (`"007199254740992"); split; [reflexivity|lia]|]. split; [vm_compute; congruence|]. split; [reflexivity|].
  apply rounds_dec; [vm_compute; congruence|]. vm_compute. reflexivity.
Qed.
