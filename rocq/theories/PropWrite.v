(** * Properties of Write: C10-C13, C15. *)

From Verif Require Import Base TextModel NumModel MapModel ParserModel WriterModel SpecUtf8 SpecNum SpecMap SpecGrammar
  SpecMeaning SpecRfc SpecWrite TextProofs MapProofs StrtodProofs RoundProofs LexProofs ParserProofs RootProofs RfcProofs
  FormatProofs WriterProofs Str.

(** The text of a sequence of WriteFile calls. *)
Definition text (calls : list chunk) : list Z := concat calls.

(** What a StructuredData holding [v] writes. *)
Lemma sd_write_layout v j n c : represents v j -> wf_value v ->
  exists out, sd_write (Some v) n c = (kOk, out) /\ text out = indented (snprintf17g 32) (repeat c n) [] (normal j).
Proof.
  intros Hr Hw. destruct (write_layout n c j v Hr Hw []) as (out & E & C). exists out. unfold sd_write. rewrite E. auto.
Qed.

Lemma is_finite_dec d : {is_finite d} + {~ is_finite d}.
Proof. destruct d; simpl; auto. Defined.

(** A document with nesting, a repeated name, numbers that need 17 digits and a
    sign of zero. *)
Definition wdoc : list Z := `"{""b"":[1,0.1,-0.0],""a"":{},""b"":null,""é"":""x/y""}".
Definition wdoc_value : value := match sd_parse None (wdoc ++ [0]) with Ret (_, Some v) => v | _ => VNull end.
Example wdoc_parses : sd_parse None (wdoc ++ [0]) = Ret (PR kOk 0 0, Some wdoc_value).
Proof. vm_compute. reflexivity. Qed.

(** ** C10 *)

(** Every finite double is written as at most 24 bytes (the buffer has 32: nothing
    is cut off), the text is an RFC 8259 number denoting exactly this double,
    and Parse reads it back as the identical double, sign of zero included. *)
Theorem C10_number_round_trip (d : spec_float) : valid_double d -> is_finite d ->
  exists t, (forall n c arr, write n c (VNumber d) arr = (kOk, [t], arr)) /\ t = fmt17g d /\ (length t <= 24)%nat /\ rfc_num t d /\
    (forall root, sd_parse root ([91] ++ t ++ [93; 0]) = Ret (PR kOk 0 0, Some (VArray [VNumber d]))) /\
    ((2 <= length t)%nat -> forall root, sd_parse root (t ++ [0]) = Ret (PR kOk 0 0, Some (VNumber d))).
Proof.
  intros H1 H2. destruct (fmt17g_ok d H1 H2) as [H3 H4].
  pose proof (snprintf_core d (conj H1 H2)) as H5. exists (snprintf17g 32 d).
  split; [reflexivity|]. unfold snprintf17g in *. rewrite firstn_all2 in * by lia.
  split; [reflexivity|]. split; [auto|]. split; [apply H3|]. apply core_num_lib in H3. split.
  - intros root. pose proof (gdoc_intro lib_str lib_num [] ([91] ++ fmt17g d ++ [93]) [] (JArr [JNum d]) (Forall_nil _)) as Hd.
    rewrite app_nil_r in Hd.
    destruct (root_complete root ([91] ++ fmt17g d ++ [93]) (JArr [JNum d]) []) as (v & E & (_ & _ & Ev)).
    + apply Hd; [|constructor]. simpl. apply g_arr.
      pose proof (ge_one lib_str lib_num [] (fmt17g d) [] (JNum d) (Forall_nil _) (g_num _ _ _ _ H3) (Forall_nil _)) as He.
      rewrite app_nil_r in He. exact He.
    + simpl. rewrite app_length. simpl. lia.
    + now exists [].
    + rewrite <- !app_assoc in E. simpl in *. subst v. exact E.
  - intros HL root. destruct (root_complete root (fmt17g d) (JNum d) []) as (v & E & (_ & _ & Ev)); auto.
    + pose proof (gdoc_intro lib_str lib_num [] (fmt17g d) [] (JNum d) (Forall_nil _) (g_num _ _ _ _ H3) (Forall_nil _)) as Hd.
      rewrite app_nil_r in Hd. exact Hd.
    + now exists [].
    + simpl in Ev. subst v. exact E.
Qed.
Print Assumptions C10_number_round_trip.

(** Instances: the smallest denormal, the largest double, -0, 1/3. *)
Example C10_instance :
  fmt17g (S754_finite true 1 (-1074)) = `"-4.9406564584124654e-324" /\
  fmt17g (S754_finite false 9007199254740991 971) = `"1.7976931348623157e+308" /\
  fmt17g (S754_zero true) = `"-0" /\
  fmt17g (S754_finite false 6004799503160661 (-54)) = `"0.33333333333333331" /\
  valid_double (S754_finite true 1 (-1074)) /\ is_finite (S754_finite true 1 (-1074)).
Proof. repeat split. Qed.

(** ** C11 *)

(** Any well-formed tree [v], however its maps are balanced, whose shown value has
    plain strings and names and finite numbers: Write returns kOk and Parse of the
    text accepts it with a tree that shows the same value (the one with first
    values, which [v] shows as well). *)
Theorem C11_write_parse (v : value) (j : jv) (n : nat) (c : Z) :
  represents v j -> wf_value v -> tokens lib_plain finite_number (normal j) -> ws (repeat c n) ->
  exists out, sd_write (Some v) n c = (kOk, out) /\
    ((2 <= length (text out))%nat -> forall root,
      exists v', sd_parse root (text out ++ [0]) = Ret (PR kOk 0 0, Some v') /\ represents v (normal j) /\ represents v' (normal j) /\ wf_value v').
Proof.
  intros Hr Hw Ht Hc. destruct (sd_write_layout v j n c Hr Hw) as (out & E & C). exists out. split; [exact E|]. intros HL root.
  assert (Hd : lib_doc (text out) (normal j)).
  { rewrite C. pose proof (gdoc_intro lib_str lib_num [] (indented (snprintf17g 32) (repeat c n) [] (normal j)) [] (normal j) (Forall_nil _)) as Hd.
    rewrite app_nil_r in Hd. apply Hd; [|constructor].
    apply (layout_gval lib_plain finite_number); auto; [| |constructor].
    - intros s (cps & HF & ->). apply plain_body. exact HF.
    - intros d H. apply core_num_lib. apply snprintf_core. exact H. }
  destruct (root_complete root (text out) (normal j) []) as (v' & E' & (Hr' & Hw' & _)); auto; [now exists []|].
  exists v'. split; [exact E'|]. split; [apply represents_normal; exact Hr|split; [exact Hr'|exact Hw']].
Qed.
Print Assumptions C11_write_parse.

(** A document obtained by Parse is read back as the identical tree (same
    values, same order, same shape of every map). *)
Theorem C11_parse_write_parse (t : list Z) (j : jv) (n : nat) (c : Z) :
  lib_doc t j -> (2 <= length t)%nat -> tokens lib_plain is_finite (normal j) -> ws (repeat c n) ->
  exists v out, (forall root, sd_parse root (t ++ [0]) = Ret (PR kOk 0 0, Some v)) /\ sd_write (Some v) n c = (kOk, out) /\
    ((2 <= length (text out))%nat -> forall root, sd_parse root (text out ++ [0]) = Ret (PR kOk 0 0, Some v)).
Proof.
  intros Hd HL Ht Hc.
  pose proof (lib_doc_tokens _ _ Hd) as Hg.
  assert (Hg' : tokens good_key any_number j) by (eapply tokens_mono; [| |exact Hg]; unfold any_number; auto).
  pose proof (build_good j Hg') as (Hr & Hw & _).
  assert (Hn : tokens lib_plain finite_number (normal j)).
  { eapply tokens_mono; [| |apply (tokens_and _ _ _ _ _ Ht (tokens_normal _ _ _ Hg))]; simpl; [tauto|].
    intros d [? ?]. split; auto. }
  destruct (sd_write_layout (build j) j n c Hr Hw) as (out & E & C). exists (build j), out. split; [|split; [exact E|]].
  - intros root. destruct (root_complete root t j []) as (v & E' & (_ & _ & Ev)); auto; [now exists []|]. now rewrite <- Ev.
  - intros HL' root.
    assert (Hd' : lib_doc (text out) (normal j)).
    { rewrite C. pose proof (gdoc_intro lib_str lib_num [] (indented (snprintf17g 32) (repeat c n) [] (normal j)) [] (normal j) (Forall_nil _)) as Hd'.
      rewrite app_nil_r in Hd'. apply Hd'; [|constructor].
      apply (layout_gval lib_plain finite_number); auto; [| |constructor].
      - intros s (cps & HF & ->). apply plain_body. exact HF.
      - intros d H. apply core_num_lib. apply snprintf_core. exact H. }
    destruct (root_complete root (text out) (normal j) []) as (v & E' & (_ & _ & Ev)); auto; [now exists []|].
    rewrite build_normal in Ev by auto. now rewrite <- Ev.
Qed.
Print Assumptions C11_parse_write_parse.

(** The text written is an RFC 8259 document with that meaning, when the strings
    are in addition free of encoded surrogates. *)
Theorem C11_written_rfc (v : value) (j : jv) (n : nat) (c : Z) :
  represents v j -> wf_value v -> tokens plain finite_number (normal j) -> ws (repeat c n) ->
  exists out, sd_write (Some v) n c = (kOk, out) /\ rfc_doc (text out) (normal j).
Proof.
  intros Hr Hw Ht Hc. destruct (sd_write_layout v j n c Hr Hw) as (out & E & C). exists out. split; [exact E|].
  apply core_doc_rfc. rewrite C.
  pose proof (gdoc_intro core_str core_num [] (indented (snprintf17g 32) (repeat c n) [] (normal j)) [] (normal j) (Forall_nil _)) as Hd.
  rewrite app_nil_r in Hd. apply Hd; [|constructor].
  apply (layout_gval plain finite_number); auto; [| |constructor].
  - intros s (cps & HF & ->). apply plain_body. exact HF.
  - apply snprintf_core.
Qed.
Print Assumptions C11_written_rfc.

(** The text has two bytes unless the root is a number. *)
Theorem C11_two_bytes (v : value) (j : jv) (n : nat) (c : Z) :
  represents v j -> wf_value v -> (forall d, j <> JNum d) ->
  exists out, sd_write (Some v) n c = (kOk, out) /\ (2 <= length (text out))%nat.
Proof.
  intros Hr Hw Hj. destruct (sd_write_layout v j n c Hr Hw) as (out & E & C). exists out. split; [exact E|]. rewrite C.
  destruct j as [s|d|[]| |l|ms]; try (simpl; rewrite ?app_length; simpl; lia). exfalso. apply (Hj d). reflexivity.
Qed.
Print Assumptions C11_two_bytes.

(** Instance: indentation by two spaces; the text, and the round trip. *)
Example C11_instance :
  let out := snd (sd_write (Some wdoc_value) 2 32) in
  text out = `"{
  ""b"" : [
    1,
    0.10000000000000001,
    -0
  ],
  ""a"" : {
  },
  ""b"" : [
    1,
    0.10000000000000001,
    -0
  ],
  ""é"" : ""x/y""
}" /\ sd_parse None (text out ++ [0]) = Ret (PR kOk 0 0, Some wdoc_value).
Proof. split; vm_compute; reflexivity. Qed.

(** ** C12: refuted. Strings are written without escapes: a string with a line
    feed is written as a text that Parse rejects; a string with a backslash is
    written as a text that Parse reads as another string; a string with
    quotation marks can become two elements. *)
Theorem C12_refuted :
  (exists buf v out, sd_parse None buf = Ret (PR kOk 0 0, Some v) /\ sd_write (Some v) 0 32 = (kOk, out) /\
     exists st l c w, sd_parse None (text out ++ [0]) = Ret (PR st l c, w) /\ st <> kOk) /\
  (exists buf s s' out, sd_parse None buf = Ret (PR kOk 0 0, Some (VString s)) /\ sd_write (Some (VString s)) 0 32 = (kOk, out) /\
     sd_parse None (text out ++ [0]) = Ret (PR kOk 0 0, Some (VString s')) /\ s <> s') /\
  (exists buf x y z out, sd_parse None buf = Ret (PR kOk 0 0, Some (VArray [x])) /\ sd_write (Some (VArray [x])) 0 32 = (kOk, out) /\
     sd_parse None (text out ++ [0]) = Ret (PR kOk 0 0, Some (VArray [y; z]))).
Proof.
  split; [|split].
  - exists (buf """a\nb"""), (VString [97; 10; 98]). eexists. split; [vm_compute; reflexivity|]. split; [vm_compute; reflexivity|].
    do 4 eexists. split; [vm_compute; reflexivity|discriminate].
  - exists (buf """\\n"""), [92; 110], [10]. eexists. split; [vm_compute; reflexivity|]. split; [vm_compute; reflexivity|].
    split; [vm_compute; reflexivity|discriminate].
  - exists (buf "[""a\"",\""b""]"), (VString `"a"",""b"), (VString [97]), (VString [98]). eexists.
    split; [vm_compute; reflexivity|]. split; [vm_compute; reflexivity|]. vm_compute. reflexivity.
Qed.
Print Assumptions C12_refuted.

(** Exactly the plain strings survive. *)
Theorem C12_strings_partial (s : list Z) (n : nat) (c : Z) : good_key s -> bytes s ->
  exists out, sd_write (Some (VString s)) n c = (kOk, out) /\
    (sd_parse None (text out ++ [0]) = Ret (PR kOk 0 0, Some (VString s)) <-> lib_plain s).
Proof.
  intros Hs HB. exists [[34]; s; [34]]. split; [unfold sd_write; simpl; unfold put_text; rewrite cstr_id by auto; reflexivity|].
  unfold text. cbn [concat]. rewrite app_nil_r. split.
  - intros H. apply root_sound in H.
    2:{ apply bytes_app. split; [|repeat constructor; lia]. simpl. constructor; [unfold is_byte; lia|]. apply bytes_app. split; [auto|].
        repeat constructor; lia. }
    destruct H as (t & rest & j & v & E & _ & _ & Hd & Ev & (Hr & _) & _). injection Ev as <-.
    assert (Hq : nul_free (34 :: s ++ [34])).
    { constructor; [lia|]. apply Forall_app. split; [|repeat constructor; lia]. eapply Forall_impl; [|exact Hs]. simpl. lia. }
    destruct (zero_split (34 :: s ++ [34]) [] t rest Hq (lib_doc_nul_free _ _ Hd)) as [<- <-].
    { simpl in E |- *. exact E. }
    inversion Hr as [s1 Es1 Es2| | | | |]; subst s1 j. inversion Hd as [w1 x w2 j' Hw1 Hv Hw2 E1 E2]. subst j'.
    inversion Hv as [t0 s0 Hs0 E3 E4| | | | | | | |]. subst s0 x.
    assert (w1 = []) as ->.
    { destruct Hw1 as [|c1 w1 Hc1 _]; [reflexivity|]. simpl in E1. injection E1 as -> _. exfalso. unfold wsc in Hc1. lia. }
    assert (EL : length (34 :: t0 ++ [34]) = length (34 :: s ++ [34]) \/ w2 <> []).
    { destruct w2; [left|right; discriminate]. simpl in E1. rewrite app_nil_r in E1. now rewrite <- E1. }
    destruct EL as [EL|EL].
    + destruct (string_body_self _ _ _ _ Hs0) as [_ HS]. apply HS. simpl in EL. rewrite !app_length in EL. simpl in EL. lia.
    + exfalso. destruct (@exists_last _ w2 EL) as (a & y & ->). apply Forall_app in Hw2. destruct Hw2 as [_ Hw2].
      inversion Hw2 as [|? ? Hy _]; subst. unfold wsc in Hy.
      assert (E5 : (34 :: t0 ++ [34] ++ a) ++ [y] = (34 :: s) ++ [34]).
      { simpl in *. rewrite <- !app_assoc in *. simpl in *. exact E1. }
      apply app_inj_tail in E5. lia.
  - intros (cps & HF & ->).
    destruct (root_complete None (34 :: flat_map utf8 cps ++ [34]) (JStr (flat_map utf8 cps)) []) as (v & E & (_ & _ & Ev)).
    + pose proof (gdoc_intro lib_str lib_num [] (34 :: flat_map utf8 cps ++ [34]) [] (JStr (flat_map utf8 cps)) (Forall_nil _)) as Hd.
      rewrite app_nil_r in Hd. apply Hd; [|constructor]. apply g_str. apply plain_body. exact HF.
    + simpl. rewrite app_length. simpl. lia.
    + now exists [].
    + simpl in Ev. subst v. simpl in E |- *. exact E.
Qed.
Print Assumptions C12_strings_partial.

Example C12_instance : lib_plain `"née/1" /\ ~ lib_plain [97; 10].
Proof.
  split.
  - exists [110; 0xE9; 101; 47; 49]. split; [|reflexivity]. repeat constructor; vm_compute; congruence.
  - intros (cps & HF & E). assert (H : forall cp, lib_raw cp -> ~ In 10 (utf8 cp)).
    { intros cp (H1 & H2 & _) Hin. unfold code_point in H1. unfold utf8 in Hin.
      destruct (cp <? 0x80); [destruct Hin as [|[]]; lia|].
      pose proof (Z.div_pos cp 64). pose proof (Z.div_pos cp 4096). pose proof (Z.div_pos cp 262144).
      pose proof (Z.mod_pos_bound cp 64). pose proof (Z.mod_pos_bound (cp / 64) 64). pose proof (Z.mod_pos_bound (cp / 4096) 64).
      destruct (cp <? 0x800); [destruct Hin as [|[|[]]]; lia|].
      destruct (cp <? 0x10000); [destruct Hin as [|[|[|[]]]]; lia|]. destruct Hin as [|[|[|[|[]]]]]; lia. }
    assert (Hin : In 10 (flat_map utf8 cps)) by (rewrite <- E; simpl; auto).
    apply in_flat_map in Hin. destruct Hin as (cp & H1 & H2). rewrite Forall_forall in HF. exact (H cp (HF cp H1) H2).
Qed.

(** ** C13: refuted. An overflowing literal is parsed to an infinity, which is
    written as inf; and a root number of one digit is written as one byte, which
    Parse refuses. *)
Theorem C13_refuted :
  (exists buf v out, sd_parse None buf = Ret (PR kOk 0 0, Some v) /\ sd_write (Some v) 0 32 = (kOk, out) /\
     text out = `"[
inf
]" /\ exists st l c w, sd_parse None (text out ++ [0]) = Ret (PR st l c, w) /\ st <> kOk) /\
  (exists buf d out, sd_parse None buf = Ret (PR kOk 0 0, Some (VNumber d)) /\ is_finite d /\
     sd_write (Some (VNumber d)) 0 32 = (kOk, out) /\
     exists st l c w, sd_parse None (text out ++ [0]) = Ret (PR st l c, w) /\ st <> kOk).
Proof.
  split.
  - exists (buf "[1e999]"), (VArray [VNumber (S754_infinity false)]). eexists.
    split; [vm_compute; reflexivity|]. split; [vm_compute; reflexivity|]. split; [vm_compute; reflexivity|].
    do 4 eexists. split; [vm_compute; reflexivity|discriminate].
  - exists (buf "7 "), (S754_finite false 7881299347898368 (-50)). eexists.
    split; [vm_compute; reflexivity|]. split; [exact I|]. split; [vm_compute; reflexivity|].
    do 4 eexists. split; [vm_compute; reflexivity|discriminate].
Qed.
Print Assumptions C13_refuted.

(** Exactly the finite numbers are written as numbers that Parse reads back. *)
Theorem C13_numbers_partial (d : spec_float) (c : Z) : valid_double d ->
  exists out, sd_write (Some (VArray [VNumber d])) 0 c = (kOk, out) /\
    (sd_parse None (text out ++ [0]) = Ret (PR kOk 0 0, Some (VArray [VNumber d])) <-> is_finite d).
Proof.
  intros Hv.
  assert (Hr : represents (VArray [VNumber d]) (JArr [JNum d])) by (repeat constructor).
  assert (Hw : wf_value (VArray [VNumber d])) by (repeat constructor).
  destruct (is_finite_dec d) as [Hf|Hf].
  - destruct (C11_write_parse _ _ 0 c Hr Hw) as (out & E & H).
    + simpl. repeat constructor; auto.
    + constructor.
    + exists out. split; [exact E|]. split; [auto|]. intros _.
      destruct (C11_two_bytes _ _ 0 c Hr Hw) as (out' & E' & HL); [discriminate|].
      rewrite E in E'. injection E' as <-.
      destruct (H HL None) as (v' & Ep & _ & Hr' & _). rewrite Ep. simpl in Hr'.
      inversion Hr' as [| | | |vs js HF|]; subst. inversion HF as [|? ? ? ? H1 H2]; subst. inversion H1; subst. inversion H2; subst. reflexivity.
  - destruct d as [b|b| |b m e]; [exfalso; apply Hf; exact I|destruct b| |exfalso; apply Hf; exact I].
    all: eexists; split; [vm_compute; reflexivity|]; split; [|tauto]; intros H; exfalso; vm_compute in H; discriminate.
Qed.
Print Assumptions C13_numbers_partial.

(** For every parsed document with finite numbers and plain strings, Write gives
    an accepted text: C11_parse_write_parse. Instance of C13_numbers_partial: *)
Example C13_instance : valid_double (S754_finite true 1 (-1074)) /\ is_finite (S754_finite true 1 (-1074)) /\
  valid_double (S754_infinity true) /\ ~ is_finite (S754_infinity true).
Proof. repeat split; auto. Qed.

(** ** C15: Write emits the members in the order of their occurrence in the text,
    each with the value of the first member of that name; the whole text is
    exactly the layout of the value with first values. No condition on the
    strings and numbers. *)
Theorem C15_write_layout (t : list Z) (j : jv) (n : nat) (c : Z) : lib_doc t j -> (2 <= length t)%nat ->
  exists v out, (forall root, sd_parse root (t ++ [0]) = Ret (PR kOk 0 0, Some v)) /\ sd_write (Some v) n c = (kOk, out) /\
    text out = indented (snprintf17g 32) (repeat c n) [] (normal j).
Proof.
  intros Hd HL.
  assert (Hg : tokens good_key any_number j) by (eapply tokens_mono; [| |exact (lib_doc_tokens _ _ Hd)]; unfold any_number; auto).
  pose proof (build_good j Hg) as (Hr & Hw & _).
  destruct (sd_write_layout (build j) j n c Hr Hw) as (out & E & C). exists (build j), out. split; [|auto].
  intros root. destruct (root_complete root t j []) as (v & E' & (_ & _ & Ev)); auto; [now exists []|]. now rewrite <- Ev.
Qed.
Print Assumptions C15_write_layout.

(** The same for every well-formed tree. *)
Theorem C15_write_layout_tree (v : value) (j : jv) (n : nat) (c : Z) : represents v j -> wf_value v ->
  exists out, sd_write (Some v) n c = (kOk, out) /\ text out = indented (snprintf17g 32) (repeat c n) [] (normal j).
Proof. apply sd_write_layout. Qed.
Print Assumptions C15_write_layout_tree.

(** In the value with first values the names are those of the object in the same
    order, a repeated name is repeated, and each has its first value. *)
Theorem C15_first_values (ms : list (list Z * jv)) : exists ms',
  normal (JObj ms) = JObj ms' /\ map fst ms' = map fst ms /\
  forall i k x, nth_error ms' i = Some (k, x) -> exists y, assoc k ms = Some y /\ x = normal y.
Proof.
  exists (first_values (map (fun m => (fst m, normal (snd m))) ms)). split; [reflexivity|]. split.
  - unfold first_values. rewrite !map_map. reflexivity.
  - intros i k x H. apply nth_error_In in H. unfold first_values in H. apply in_map_iff in H. destruct H as (y & E & Hy).
    injection E as E1 E2. apply in_map_iff in Hy. destruct Hy as (z & <- & Hz). cbn [fst snd] in *. subst k.
    destruct (assoc_some_in (fst z) ms) as (j0 & Ej); [apply in_map; auto|]. exists j0. split; [auto|].
    rewrite assoc_map, Ej in E2. auto.
Qed.
Print Assumptions C15_first_values.

(** Instance: [wdoc] has the name b twice (see C11_instance for its text). *)
Example C15_instance : normal (JObj [(`"b", JNull); (`"a", JBool true); (`"b", JBool false)]) =
  JObj [(`"b", JNull); (`"a", JBool true); (`"b", JNull)].
Proof. reflexivity. Qed.
