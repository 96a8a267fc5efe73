(** * Properties of the size of what Write writes: C103, C104. *)

From Verif Require Import Base Str NumModel MapModel ParserModel WriterModel SpecUtf8 SpecNum SpecMap SpecGrammar SpecMeaning SpecWrite SpecBuild SpecSize
  MapProofs LexProofs ParserProofs RootProofs RfcProofs WriterProofs PropWrite SizeProofs FileModel FileProofs PropFile.

Lemma doc_of_val t j : lib_val t j -> lib_doc t j.
Proof.
  intros H. pose proof (gdoc_intro lib_str lib_num [] t [] j (Forall_nil _) H (Forall_nil _)) as X. cbn [app] in X. now rewrite app_nil_r in X.
Qed.

Lemma parsed_file root t j : lib_doc t j -> Z.of_nat (length t) <= 65534 -> forall v, sd_parse root (t ++ [0]) = Ret (PR kOk 0 0, Some v) ->
  sd_parse_file root (AFile (Some (Z.of_nat (length t))) t [Some (length t)]) = Ret (PR kOk 0 0, Some v).
Proof. intros _ HL v E. rewrite C49_one_read; auto. Qed.

(** ** C103: Write of a parsed document writes a text whose size is bounded by a
    polynomial in the size of the parsed text.

    It does not. For every [d] there is a text of 15 d + 4 bytes that Parse accepts, and
    Write writes at least 2^d bytes: of two members with the same name both are written
    with the value of the first, at every level. *)
Theorem C103_refuted (d n : nat) (c : Z) : exists t v out,
  length t = (15 * d + 4)%nat /\ (forall root, sd_parse root (t ++ [0]) = Ret (PR kOk 0 0, Some v)) /\
  (Z.of_nat (length t) <= 65534 -> sd_parse_file None (AFile (Some (Z.of_nat (length t))) t [Some (length t)]) = Ret (PR kOk 0 0, Some v)) /\
  sd_write (Some v) n c = (kOk, out) /\ (2 ^ d <= length (text out))%nat.
Proof.
  pose proof (doc_of_val _ _ (twice_val d)) as Hd.
  destruct (C15_write_layout (twice_text d) (twice d) n c Hd) as (v & out & E & W & T); [rewrite twice_length; lia|].
  exists (twice_text d), v, out. split; [apply twice_length|]. split; [exact E|]. split; [|split; [exact W|]].
  - intros HL. apply (parsed_file _ _ _ Hd HL). apply E.
  - rewrite T. apply twice_size.
Qed.
Print Assumptions C103_refuted.

(** What is true: when no object has two members with the same name, the written text
    has at most (indentation * nesting + 26) times as many bytes as the parsed one. *)
Theorem C103_bound_partial (t : list Z) (j : jv) (n : nat) (c : Z) : lib_doc t j -> (2 <= length t)%nat -> distinct j ->
  exists v out, (forall root, sd_parse root (t ++ [0]) = Ret (PR kOk 0 0, Some v)) /\ sd_write (Some v) n c = (kOk, out) /\
    (length (text out) <= (n * nesting j + 26) * length t)%nat.
Proof.
  intros Hd HL Hj. destruct (C15_write_layout t j n c Hd HL) as (v & out & E & W & T). exists v, out. split; [exact E|]. split; [exact W|].
  rewrite T, distinct_normal by exact Hj. destruct Hd as [w1 t w2 v' H1 H2 H3].
  pose proof (proj1 (size_bound (repeat c n)) t v' H2 [] (n * nesting v')%nat) as B. cbn [length] in B. rewrite repeat_length in B.
  specialize (B ltac:(lia)). rewrite !app_length, !Nat.mul_add_distr_l. lia.
Qed.
Print Assumptions C103_bound_partial.

(** The factor cannot do without the nesting: the square of it is reached. *)
Theorem C103_square (d n : nat) (c : Z) : exists t v out,
  length t = (2 * d + 2)%nat /\ lib_doc t (nest d) /\ distinct (nest d) /\ nesting (nest d) = S d /\
  (forall root, sd_parse root (t ++ [0]) = Ret (PR kOk 0 0, Some v)) /\
  sd_write (Some v) n c = (kOk, out) /\ length (text out) = (n * (d * (d + 1)) + 4 * d + 3)%nat.
Proof.
  pose proof (doc_of_val _ _ (nest_val d)) as Hd.
  destruct (C15_write_layout (nest_text d) (nest d) n c Hd) as (v & out & E & W & T); [rewrite nest_length; lia|].
  exists (nest_text d), v, out. split; [apply nest_length|]. split; [exact Hd|]. split; [|split; [|split; [exact E|split; [exact W|]]]].
  - clear. induction d as [|d IH]; [constructor; constructor|]. cbn [nest]. constructor. constructor; [exact IH|constructor].
  - clear. induction d as [|d IH]; [reflexivity|]. cbn [nest]. rewrite nesting_arr. cbn [deepest]. rewrite IH. lia.
  - rewrite T, nest_normal, nest_size, repeat_length. cbn [length]. lia.
Qed.
Print Assumptions C103_square.

Example C103_instance :
  twice_text 2 = `"{""a"":{""a"":null,""a"":null},""a"":null}" /\
  indented (snprintf17g 32) [] [] (normal (twice 1)) = `"{" ++ 10 :: `"""a"" : null," ++ 10 :: `"""a"" : null" ++ 10 :: `"}" /\
  length (indented (snprintf17g 32) [] [] (normal (twice 6))) = 1390%nat /\ length (twice_text 6) = 94%nat /\
  distinct (JObj [(`"a", JArr [JNull]); (`"b", JNull)]).
Proof.
  split; [reflexivity|]. split; [reflexivity|]. split; [vm_compute; reflexivity|]. split; [reflexivity|]. constructor.
  - repeat constructor; cbn; intuition discriminate.
  - repeat constructor.
Qed.

(** ** C104: a document that was parsed from a file and is written to a file can be
    parsed from it.

    It cannot: with the default indentation the 362 bytes of 181 arrays, one in the other,
    are written as 65883 bytes, and Parse refuses files of more than 65534. *)
Theorem C104_refuted : exists t v text,
  sd_parse_file None (AFile (Some (Z.of_nat (length t))) t [Some (length t)]) = Ret (PR kOk 0 0, Some v) /\
  (forall writes st after, ~ In None writes -> sd_write_file (Some v) (ASink [] writes) 2 32 = Ret (st, after) -> st = kOk /\ after = Some text) /\
  (forall root reads, sd_parse_file root (AFile (Some (Z.of_nat (length text))) text reads) = Ret (PR KFileTooLarge 0 0, root)) /\
  length t = 362%nat /\ Z.of_nat (length text) = 65883.
Proof.
  destruct (C103_square 180 2 32) as (t & v & out & Et & Hd & _ & _ & E & W & L). exists t, v, (text out).
  assert (L' : Z.of_nat (length (text out)) = 65883) by (rewrite L; lia).
  split; [|split; [|split; [|split; [exact Et|exact L']]]].
  - apply (parsed_file _ _ _ Hd); [rewrite Et; lia|apply E].
  - intros writes st after HN Ew. destruct (C48_written _ _ _ _ _ _ _ HN Ew) as (out' & W' & ->). rewrite W in W'. injection W' as <- <-.
    split; [reflexivity|]. now rewrite skipn_nil, app_nil_r.
  - intros root reads. apply C34_size_limit. rewrite L'. reflexivity.
Qed.
Print Assumptions C104_refuted.

(** What is true, for finite numbers, strings that need no escapes and white space as
    indentation: when the text has from 2 to 65534 bytes and the file was not longer than
    it, a Write that ends without failing writes returns kOk, and Parse finds the same
    document there, when the first read delivers the whole file. *)
Theorem C104_round_trip_partial (t : list Z) (j : jv) (n : nat) (c : Z) (old : list Z) (writes : list (option nat)) :
  lib_doc t j -> (2 <= length t)%nat -> tokens lib_plain is_finite (normal j) -> ws (repeat c n) -> ~ In None writes ->
  exists v out, (forall root, sd_parse root (t ++ [0]) = Ret (PR kOk 0 0, Some v)) /\ sd_write (Some v) n c = (kOk, out) /\
    ((length old <= length (text out))%nat -> (2 <= length (text out))%nat -> Z.of_nat (length (text out)) <= 65534 ->
     forall st after, sd_write_file (Some v) (ASink old writes) n c = Ret (st, after) ->
     st = kOk /\ exists f, after = Some f /\
       forall root k reads, (length f <= k)%nat -> sd_parse_file root (AFile (Some (Z.of_nat (length f))) f (Some k :: reads)) = Ret (PR kOk 0 0, Some v)).
Proof.
  intros Hd HL Ht Hc HN. destruct (C11_parse_write_parse t j n c Hd HL Ht Hc) as (v & out & E & W & R). exists v, out.
  split; [exact E|]. split; [exact W|]. intros Ho H2 H6 st after Ew.
  destruct (C48_written _ _ _ _ _ _ _ HN Ew) as (out' & W' & ->). rewrite W in W'. injection W' as <- <-. split; [reflexivity|].
  rewrite (skipn_all2 old Ho), app_nil_r. eexists. split; [reflexivity|]. intros root k reads Hk. rewrite C49_one_read by auto. now apply R.
Qed.
Print Assumptions C104_round_trip_partial.

(** The size of the text read is enough to know this, when no object has two members
    with the same name. *)
Theorem C104_small_partial (t : list Z) (j : jv) (n : nat) (c : Z) (writes : list (option nat)) :
  lib_doc t j -> (2 <= length t)%nat -> tokens lib_plain is_finite j -> ws (repeat c n) -> ~ In None writes ->
  distinct j -> (forall d, j <> JNum d) -> Z.of_nat ((n * nesting j + 26) * length t) <= 65534 ->
  exists v, (forall root, sd_parse root (t ++ [0]) = Ret (PR kOk 0 0, Some v)) /\
    forall st after, sd_write_file (Some v) (ASink [] writes) n c = Ret (st, after) ->
     st = kOk /\ exists f, after = Some f /\
       forall root k reads, (length f <= k)%nat -> sd_parse_file root (AFile (Some (Z.of_nat (length f))) f (Some k :: reads)) = Ret (PR kOk 0 0, Some v).
Proof.
  intros Hd HL Ht Hc HN Hj Hnum HB.
  destruct (C104_round_trip_partial t j n c [] writes Hd HL) as (v & out & E & W & R); auto; [now rewrite distinct_normal|].
  destruct (C103_bound_partial t j n c Hd HL Hj) as (v' & out' & E' & W' & B).
  assert (v' = v) by (specialize (E None); specialize (E' None); congruence). subst v'. rewrite W in W'. injection W' as <-.
  exists v. split; [exact E|]. apply R; [cbn [length]; lia| |lia].
  destruct (C15_write_layout t j n c Hd HL) as (v' & out' & E'' & W' & T).
  assert (v' = v) by (specialize (E None); specialize (E'' None); congruence). subst v'. rewrite W in W'. injection W' as <-.
  rewrite T, distinct_normal by exact Hj.
  destruct j as [s|d|[]| |l|ms]; try (simpl; rewrite ?app_length; simpl; lia). exfalso. apply (Hnum d). reflexivity.
Qed.
Print Assumptions C104_small_partial.

Example C104_instance :
  let j := JArr [JStr (`"a"); JNull] in let t := `"[""a"",null]" in
  lib_doc t j /\ tokens lib_plain is_finite j /\ distinct j /\ Z.of_nat ((2 * nesting j + 26) * length t) = 300 /\
  sd_write_file (Some (VArray [VString (`"a"); VNull])) (ASink [] (repeat (Some 30%nat) 20)) 2 32 =
    Ret (kOk, Some (`"[" ++ 10 :: `"  ""a""," ++ 10 :: `"  null" ++ 10 :: `"]")).
Proof.
  cbv zeta. assert (Ha : lib_raw 97) by (unfold lib_raw, code_point; lia).
  split; [|split; [|split; [|split; [reflexivity|vm_compute; reflexivity]]]].
  - apply doc_of_val. apply (g_arr _ _ (`"""a"",null")).
    apply (ge_cons _ _ [] (`"""a""") [] _ (`"null")); [constructor| |constructor|].
    + apply (g_str _ _ (`"a")). change (`"a") with (utf8 97 ++ []). apply sb_raw; [exact Ha|constructor].
    + apply (ge_one _ _ [] (`"null") []); [constructor|apply g_null|constructor].
  - constructor. constructor; [constructor|repeat constructor]. exists [97]. split; [constructor; [exact Ha|constructor]|reflexivity].
  - repeat constructor.
Qed.
