(** * Properties of Parse(array): C01-C03, C06, C08, C09, C14, C43, C44. *)

From Verif Require Import Base TextModel NumModel MapModel ParserModel AccessModel SpecUtf8 SpecNum SpecMap SpecGrammar
  SpecMeaning SpecTokens SpecRfc TextProofs MapProofs StrtodProofs RoundProofs LexProofs ParserProofs RootProofs
  UniqueProofs TokenProofs RfcProofs Str.

(** A document with nesting, escapes, a duplicate name and all kinds of values. *)
Definition sample : list Z :=
  `" { ""a"" : [ 1, -2.5e3 , ""xé\n"" ], ""b"":{}, ""a"":null, ""c"" : true }
".

Definition sample_value : value :=
  match sd_parse None (sample ++ [0]) with Ret (_, Some v) => v | _ => VNull end.

Example sample_parses : sd_parse None (sample ++ [0]) = Ret (PR kOk 0 0, Some sample_value).
Proof. vm_compute. reflexivity. Qed.

Ltac nulfree := unfold nul_free; repeat constructor; discriminate.

Example sample_bytes : bytes (sample ++ [0]).
Proof. unfold bytes, is_byte. repeat constructor; vm_compute; congruence. Qed.

(** ** C01: Parse(array) is total and memory safe: on every terminated array, of
    any length and content, and in every state, it returns. (The outcomes UB and
    OutOfFuel are the out-of-bounds accesses and the endless loops.) *)
Theorem C01_parse_total (root : option value) (buf : list Z) :
  bytes buf -> terminated buf -> exists r, sd_parse root buf = Ret r.
Proof. intros HB _. now apply root_total. Qed.
Print Assumptions C01_parse_total.

(** Unterminated arrays are refused without being read. *)
Theorem C01_unterminated (root : option value) (buf : list Z) :
  bytes buf -> ~ terminated buf -> exists st, sd_parse root buf = Ret (PR st 0 0, root) /\
    (st = kTextBufferContentsInvalid \/ st = kUnterminatedTextBuffer).
Proof.
  intros HB HT. destruct (le_lt_dec 3 (length buf)) as [HL|HL]; [|rewrite sd_short by auto; eauto].
  rewrite sd_open; eauto. intros E. apply HT. apply last_terminated; auto. intros ->. simpl in HL. lia.
Qed.
Print Assumptions C01_unterminated.

(** Instances: a malformed tail after an escape, and a valid document. *)
Example C01_instance : sd_parse None (buf "[""\u12") = Ret (PR kStringIllegalEscape 1 3, None) /\
  sd_parse None (sample ++ [0]) = Ret (PR kOk 0 0, Some sample_value).
Proof. split; vm_compute; reflexivity. Qed.

(** ** C02: soundness. If Parse returns kOk, the text before the first NUL is a
    document of the supported language, and the StructuredData holds a tree that
    shows its meaning. *)
Theorem C02_sound (root : option value) (buf : list Z) (l c : Z) (held : option value) :
  bytes buf -> sd_parse root buf = Ret (PR kOk l c, held) ->
  exists t rest j v, buf = t ++ 0 :: rest /\ nul_free t /\ lib_doc t j /\ held = Some v /\ represents v j.
Proof.
  intros HB H. destruct (root_sound root buf held l c HB H) as (t & rest & j & v & H1 & _ & _ & H2 & H3 & [H4 _] & _).
  exists t, rest, j, v. pose proof (lib_doc_nul_free _ _ H2). auto.
Qed.
Print Assumptions C02_sound.

Example C02_instance : exists j, lib_doc sample j /\ represents sample_value j.
Proof.
  destruct (C02_sound _ _ _ _ _ sample_bytes sample_parses) as (t & rest & j & v & E & Hn & Hd & Ev & Hr).
  injection Ev as <-. exists j. split; [|exact Hr].
  replace sample with t; [exact Hd|].
  assert (Hs : nul_free sample) by nulfree.
  symmetry. exact (proj1 (zero_split sample [] t rest Hs Hn E)).
Qed.

(** ** C03: completeness. Every document of the supported language with at least
    two bytes is accepted, in any state, with exactly its meaning. Text after
    the first NUL is not looked at. *)
Theorem C03_complete (root : option value) (t rest : list Z) (j : jv) :
  lib_doc t j -> (2 <= length t)%nat -> terminated (0 :: rest) ->
  exists v, sd_parse root (t ++ 0 :: rest) = Ret (PR kOk 0 0, Some v) /\ represents v j.
Proof. intros H1 H2 H3. destruct (root_complete root t j rest H1 H2 H3) as (v & E & [Hr _]). eauto. Qed.
Print Assumptions C03_complete.

(** Instance: arrays nested to any depth. *)
Fixpoint nest (n : nat) : list Z := match n with O => [91; 93] | S n => 91 :: nest n ++ [93] end.
Fixpoint nest_meaning (n : nat) : jv := match n with O => JArr [] | S n => JArr [nest_meaning n] end.

Lemma nest_doc n : lib_val (nest n) (nest_meaning n).
Proof.
  induction n as [|n IH]; simpl; [apply (g_arr0 _ _ []); constructor|].
  apply g_arr. pose proof (ge_one _ _ [] (nest n) [] (nest_meaning n) (Forall_nil _) IH (Forall_nil _)) as H.
  simpl in H. now rewrite app_nil_r in H.
Qed.

Example C03_instance n : exists v, sd_parse None (nest n ++ [0]) = Ret (PR kOk 0 0, Some v) /\ represents v (nest_meaning n).
Proof.
  apply C03_complete.
  - pose proof (gdoc_intro _ _ [] _ [] _ (Forall_nil _) (nest_doc n) (Forall_nil _)) as H. simpl in H. now rewrite app_nil_r in H.
  - destruct n; simpl; [lia|]. rewrite app_length. simpl. destruct n; simpl; lia.
  - now exists [].
Qed.

(** ** C06: a string token is accepted iff its body is in the string language of
    the library, and the string obtained is exactly the bytes it denotes; that
    string contains no NUL. *)
Theorem C06_string_tokens (root : option value) (t : list Z) : bytes t -> nul_free t ->
  (forall l c held, sd_parse root (34 :: t ++ [34; 0]) = Ret (PR kOk l c, held) ->
     exists s, lib_str t s /\ held = Some (VString s)) /\
  (forall s, lib_str t s -> sd_parse root (34 :: t ++ [34; 0]) = Ret (PR kOk 0 0, Some (VString s)) /\ nul_free s).
Proof.
  intros HB HN. split.
  - intros l c held H. apply root_sound in H.
    2:{ constructor; [unfold is_byte; lia|]. apply bytes_app. split; [auto|]. repeat constructor; lia. }
    destruct H as (t' & rest & j & v & E & _ & _ & Hd & -> & [Hr _] & _).
    assert (Hq : nul_free (34 :: t ++ [34])) by (constructor; [lia|apply Forall_app; split; [auto|repeat constructor; lia]]).
    destruct (zero_split (34 :: t ++ [34]) [] t' rest Hq (lib_doc_nul_free _ _ Hd)) as [<- <-].
    { simpl. rewrite <- app_assoc. exact E. }
    inversion Hd as [w1 x w2 j' Hw1 Hv Hw2 E1 E2]. subst j'.
    assert (w1 = []) as ->.
    { destruct Hw1 as [|c1 w1 Hc1 _]; [reflexivity|]. simpl in E1. injection E1 as -> _. exfalso. unfold wsc in Hc1. lia. }
    simpl in E1. destruct Hv as [t0 s Hs|t0 d Hs| | | | | | |]; try (simpl in E1; discriminate).
    2:{ destruct (lib_num_head _ _ Hs) as (x & y & -> & Hx). simpl in E1. injection E1 as -> _.
        unfold float_char, digit in Hx. lia. }
    inversion Hr; subst. exists s. split; [|reflexivity].
    simpl in E1. injection E1 as E1. rewrite <- app_assoc in E1. simpl in E1.
    assert (w2 = [] \/ exists a y, w2 = a ++ [y]) as [->|(a & y & ->)].
    { destruct w2 as [|z w2]; [now left|]. right. destruct (@exists_last _ (z :: w2)) as (a & y & ->); [discriminate|eauto]. }
    + apply app_inj_tail in E1. destruct E1 as [-> _]. exact Hs.
    + exfalso. rewrite app_comm_cons, app_assoc in E1. apply app_inj_tail in E1. destruct E1 as [_ E1]. subst y.
      apply Forall_app in Hw2. destruct Hw2 as [_ Hw2]. inversion Hw2. unfold wsc in *. lia.
  - intros s H. split.
    2:{ apply lib_str_good in H. eapply Forall_impl; [|exact H]. simpl. lia. }
    destruct (root_complete root (34 :: t ++ [34]) (JStr s) []) as (v & E & [Hr _]).
    + pose proof (gdoc_intro lib_str lib_num [] (34 :: t ++ [34]) [] (JStr s) (Forall_nil _) (g_str _ _ t s H) (Forall_nil _)) as Hd.
      rewrite app_nil_r in Hd. exact Hd.
    + simpl. rewrite app_length. simpl. lia.
    + now exists [].
    + inversion Hr; subst. simpl in E. rewrite <- app_assoc in E. exact E.
Qed.
Print Assumptions C06_string_tokens.

(** Instance: raw two and four byte characters, short and hexadecimal escapes. *)
Example C06_instance : lib_str `"é😀\t\u00e9\u20AC/\/" (`"é😀" ++ [9] ++ `"é€//").
Proof.
  apply (sb_raw _ _ 0xE9); [unfold lib_raw, code_point; lia|].
  apply (sb_raw _ _ 0x1F600); [unfold lib_raw, code_point; lia|].
  apply (sb_esc _ _ 116 9); [constructor|].
  apply (sb_hex _ _ [48; 48; 101; 57] 0xE9); [apply (hex4_intro 48 48 101 57 0 0 14 9); reflexivity|lia|].
  apply (sb_hex _ _ [50; 48; 65; 67] 0x20AC); [apply (hex4_intro 50 48 65 67 2 0 10 12); reflexivity|lia|].
  apply (sb_raw _ _ 47); [unfold lib_raw, code_point; lia|].
  apply (sb_esc _ _ 47 47); [constructor|]. constructor.
Qed.

(** ** C08: a text is accepted as a number iff it is a number token of the
    library's language between white space, with the value of the token. *)
Theorem C08_number_tokens (root : option value) (t : list Z) : bytes t -> nul_free t -> (2 <= length t)%nat -> forall d,
  (sd_parse root (t ++ [0]) = Ret (PR kOk 0 0, Some (VNumber d)) <->
   exists w1 tok w2, t = w1 ++ tok ++ w2 /\ ws w1 /\ ws w2 /\ lib_num tok d).
Proof.
  intros HB HN HL d. split.
  - intros H. apply root_sound in H.
    2:{ apply bytes_app. split; [auto|]. repeat constructor; lia. }
    destruct H as (t' & rest & j & v & E & _ & _ & Hd & Ev & [Hr _] & _). injection Ev as <-.
    destruct (zero_split t [] t' rest HN (lib_doc_nul_free _ _ Hd) E) as [<- <-].
    inversion Hr; subst. inversion Hd as [w1 x w2 j' Hw1 Hv Hw2 E1 E2]. subst.
    inversion Hv; subst. exists w1, x, w2. auto.
  - intros (w1 & tok & w2 & -> & H1 & H2 & H3).
    destruct (root_complete root (w1 ++ tok ++ w2) (JNum d) []) as (v & E & [Hr _]); auto.
    + constructor; auto. now constructor.
    + now exists [].
    + inversion Hr; subst. exact E.
Qed.
Print Assumptions C08_number_tokens.

(** Every RFC 8259 number is such a token, with its whole text used, unless its
    integer part is 0 directly followed by an exponent. *)
Theorem C08_rfc_numbers (t : list Z) (neg : bool) (m e : Z) : rfc_number t neg m e -> ~ zero_exp t ->
  exists d, lib_num t d /\ rounds neg m e d.
Proof. apply rfc_number_lib. Qed.
Print Assumptions C08_rfc_numbers.

(** Instances: a token outside RFC 8259 whose tail is ignored, and an RFC number. *)
Example C08_instance : sd_parse None (buf " - 12e+5-7 ") = sd_parse None (buf "-1200000") /\
  sd_parse None (buf "-1200000") = Ret (PR kOk 0 0, Some (VNumber (S754_finite true 5153960755200000 (-32)))).
Proof. split; vm_compute; reflexivity. Qed.

(** ** C09: numbers are correctly rounded. For every RFC number, of any length and
    exponent (with the exclusion of C08), the double that Parse stores is the
    nearest one (ties to even, infinity from half way above the largest), with
    the sign of the literal; and there is only one such double. *)
Theorem C09_correctly_rounded (root : option value) (w1 t w2 : list Z) (neg : bool) (m e : Z) :
  rfc_number t neg m e -> ~ zero_exp t -> ws w1 -> ws w2 -> (2 <= length (w1 ++ t ++ w2))%nat ->
  exists d, sd_parse root ((w1 ++ t ++ w2) ++ [0]) = Ret (PR kOk 0 0, Some (VNumber d)) /\
    rounds neg m e d /\ forall d', rounds neg m e d' -> d' = d.
Proof.
  intros H1 H2 H3 H4 HL. destruct (rfc_number_lib t neg m e H1 H2) as (d & H5 & H6). exists d.
  split; [|split; [exact H6|]].
  - destruct (root_complete root (w1 ++ t ++ w2) (JNum d) []) as (v & E & [Hr _]); auto.
    + constructor; auto. now constructor.
    + now exists [].
    + inversion Hr; subst. exact E.
  - intros d' H. assert (0 <= m).
    { destruct H1 as [sg neg ip fr fp ex x Hsg Hip Hlead Hfr Hne Hex].
      eapply (decimal_nonneg (ip ++ fr ++ ex) false). apply (decimal_intro []); eauto; [constructor|].
      intros E. apply app_eq_nil in E. destruct E as [-> _].
      destruct Hlead as [E|(c & r & E & _)]; discriminate. }
    apply rounds_dec in H; auto. apply rounds_dec in H6; auto. congruence.
Qed.
Print Assumptions C09_correctly_rounded.

(** The same for every token of the library's language. *)
Theorem C09_library_tokens (t : list Z) (d : spec_float) : lib_num t d ->
  exists neg m e, rounds neg m e d /\ forall d', rounds neg m e d' -> d' = d.
Proof.
  intros H. destruct H as [sg neg w run pre suf n m e d Hsg Hw Hsw Hrun Hnosign Hz E Hd Hmax Hr].
  exists (xorb neg n), m, e. split; [exact Hr|]. intros d' H'.
  apply decimal_nonneg in Hd. apply rounds_dec in H'; auto. apply rounds_dec in Hr; auto. congruence.
Qed.
Print Assumptions C09_library_tokens.

(** Instance: 2^53 + 1 lies half way and goes to the even neighbour 2^53; the next
    literal is above half way and goes up; a literal beyond the range. *)
Example C09_instance :
  sd_parse None (buf "9007199254740993") = Ret (PR kOk 0 0, Some (VNumber (S754_finite false (2 ^ 52) 1))) /\
  sd_parse None (buf "9007199254740993.00000000000000000001") = Ret (PR kOk 0 0, Some (VNumber (S754_finite false (2 ^ 52 + 1) 1))) /\
  sd_parse None (buf "-1e400") = Ret (PR kOk 0 0, Some (VNumber (S754_infinity true))).
Proof. split; [|split]; vm_compute; reflexivity. Qed.

(** ** C14: lookup after Parse. On any tree that shows an object with members
    [ms], all lookups give the first member of the name; the typed ones give the
    data iff it has the type asked for. *)
Definition same_lookup (m : tree value) (ms : list (list Z * jv)) (k : list Z) : Prop :=
  (find_map_element m k = None <-> assoc k ms = None) /\
  (forall v, find_map_element m k = Some v -> exists j, assoc k ms = Some j /\ represents v j) /\
  (forall s, find_string m k = Some s <-> assoc k ms = Some (JStr s)) /\
  (forall d, find_number m k = Some d <-> assoc k ms = Some (JNum d)) /\
  (forall x, find_bool m k = Some x <-> assoc k ms = Some (JBool x)) /\
  (find_null m k = Some tt <-> assoc k ms = Some JNull) /\
  ((exists l, find_array m k = Some l) <-> exists js, assoc k ms = Some (JArr js)) /\
  (forall l, find_array m k = Some l -> exists js, assoc k ms = Some (JArr js) /\ Forall2 represents l js) /\
  ((exists o, find_object m k = Some o) <-> exists ms', assoc k ms = Some (JObj ms')) /\
  (forall m' o, find_object m k = Some (m', o) -> exists ms', assoc k ms = Some (JObj ms') /\ represents (VObject m' o) (JObj ms')).

Lemma represents_lookup m o ms k : represents (VObject m o) (JObj ms) -> good_key k -> same_lookup m ms k.
Proof.
  intros H Hk. inversion H as [| | | | |? ? ? Ho Hn Hs]; subst.
  assert (HH : (find_map_element m k = None /\ assoc k ms = None) \/
               exists v j, find_map_element m k = Some v /\ assoc k ms = Some j /\ represents v j).
  { destruct (assoc k ms) as [j|] eqn:E.
    - right. destruct (Hs k j Hk E) as (v & Hv & Hr). eauto.
    - left. auto. }
  unfold same_lookup, find_string, find_number, find_bool, find_null, find_array, find_object, find_as.
  destruct HH as [[-> ->]|(v & j & -> & -> & Hr)].
  - repeat split; intros; try congruence; try (match goal with H : exists _, _ |- _ => destruct H end; congruence).
  - inversion Hr; subst; simpl; repeat split; intros; try congruence;
      try (match goal with H : exists _, _ |- _ => destruct H end; congruence);
      try (match goal with H : Some _ = Some _ |- _ => injection H; intros; subst end); eauto.
Qed.

Theorem C14_lookup_first (root : option value) (t rest : list Z) (ms : list (list Z * jv)) :
  lib_doc t (JObj ms) -> terminated (0 :: rest) ->
  exists m order, sd_parse root (t ++ 0 :: rest) = Ret (PR kOk 0 0, Some (VObject m order)) /\
    forall k, good_key k -> same_lookup m ms k.
Proof.
  intros Hd HT. destruct (C03_complete root t rest (JObj ms) Hd) as (v & E & Hr); auto.
  - inversion Hd as [w1 t0 w2 v0 H1 H2 H3]; subst. rewrite !app_length. inversion H2; subst; simpl; rewrite app_length; simpl; lia.
  - inversion Hr; subst. do 2 eexists. split; [exact E|]. intros k Hk. eapply represents_lookup; eauto.
Qed.
Print Assumptions C14_lookup_first.

(** Instance: the duplicate name "a" keeps its first value. *)
Example C14_instance : exists m order, sample_value = VObject m order /\ order = [`"a"; `"b"; `"a"; `"c"] /\
  (exists l, find_array m `"a" = Some l /\ length l = 3%nat) /\ find_null m `"a" = None /\ find_bool m `"c" = Some true /\ find_map_element m `"d" = None.
Proof.
  vm_compute. do 2 eexists. split; [reflexivity|]. split; [reflexivity|]. split; [eexists; split; reflexivity|].
  repeat split; reflexivity.
Qed.

(** ** C43: white space is insignificant. The text of an accepted document is a
    layout of some tokens, and every other layout of these tokens (at least two
    bytes long) is accepted and gives the identical value tree. *)
Theorem C43_white_space (root : option value) (buf : list Z) (l c : Z) (held : option value) :
  bytes buf -> sd_parse root buf = Ret (PR kOk l c, held) ->
  exists t rest tks j v, buf = t ++ 0 :: rest /\ layout tks t /\ lib_tokens tks j /\ held = Some v /\ represents v j /\
    forall root' t', layout tks t' -> (2 <= length t')%nat ->
      sd_parse root' (t' ++ [0]) = Ret (PR kOk 0 0, Some v).
Proof.
  intros HB H. destruct (root_sound root buf held l c HB H) as (t & rest & j & v & E & _ & _ & Hd & Hv & (Hr & _ & Ev) & _).
  pose proof (proj1 (doc_tokens lib_str lib_num t j) Hd) as (tks & Ht & Hl).
  exists t, rest, tks, j, v. repeat split; auto. intros root' t' Hl' HL.
  destruct (root_complete root' t' j []) as (v' & E' & (_ & _ & Ev')); auto; [|now exists []|congruence].
  apply (proj2 (doc_tokens lib_str lib_num t' j)). eauto.
Qed.
Print Assumptions C43_white_space.

(** Instance: the sample without any white space between its tokens, and the
    tokens of a small document laid out in two ways. *)
Example C43_instance :
  sd_parse None (buf "{""a"":[1,-2.5e3,""xé\n""],""b"":{},""a"":null,""c"":true}") = Ret (PR kOk 0 0, Some sample_value) /\
  layout [[91]; `"1"; [44]; `"2"; [93]] `"[1,2]" /\ layout [[91]; `"1"; [44]; `"2"; [93]] `" [ 1 ,2]".
Proof.
  assert (W : ws [32]) by (repeat constructor). pose proof (Forall_nil wsc) as N.
  split; [vm_compute; reflexivity|]. split.
  - exact (lay_cons [] _ _ _ N (lay_cons [] _ _ _ N (lay_cons [] _ _ _ N (lay_cons [] _ _ _ N (lay_cons [] _ _ _ N (lay_nil [] N)))))).
  - exact (lay_cons [32] _ _ _ W (lay_cons [32] _ _ _ W (lay_cons [32] _ _ _ W (lay_cons [] _ _ _ N (lay_cons [] _ _ _ N (lay_nil [] N)))))).
Qed.

(** ** C44: one text, one meaning. *)
Theorem C44_one_meaning (t : list Z) (j j' : jv) : lib_doc t j -> lib_doc t j' -> j = j'.
Proof. apply lib_doc_unique. Qed.
Print Assumptions C44_one_meaning.

Example C44_instance : exists j, lib_doc sample j /\ forall j', lib_doc sample j' -> j' = j.
Proof. destruct C02_instance as (j & Hj & _). exists j. split; [exact Hj|]. intros j' H. eapply C44_one_meaning; eauto. Qed.
