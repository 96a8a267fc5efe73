(** * Properties of error reports and of fixed-capacity strings: C21, C22, C23, C35, C36. *)

From Verif Require Import Base NumModel ParserModel Str StringModel SpecNum SpecText SpecGrammar StringProofs ReportModel SpecReport
  LexProofs RootProofs ReportProofs PropParse.

Ltac dig := unfold digits, digit; vm_compute; repeat constructor; discriminate.

(** ** C21: error positions.

    Full statement: whenever Parse rejects an array, the reported line and column
    are those of a position of the array with a character other than white space
    (the parser skips white space before reporting). *)
Definition reports_position (buf : list Z) (line column : Z) : Prop :=
  exists before c after, buf = before ++ c :: after /\ ~ wsc c /\ line = line_of before /\ column = column_of before.

(** The statement fails: lines are counted from the first token, not from the
    start of the text. *)
Theorem C21_refuted : exists buf st line column v, bytes buf /\
  sd_parse None buf = Ret (PR st line column, v) /\ st <> kOk /\ line <> 0 /\ ~ reports_position buf line column.
Proof.
  exists [10; 10; 64; 0], kExpectedJsonValue, 1, 1, None.
  split; [unfold bytes, is_byte; repeat constructor; lia|]. split; [vm_compute; reflexivity|]. split; [discriminate|]. split; [lia|].
  intros (before & c & after & E & Hc & Hl & Hcol).
  destruct before as [|x [|y [|z [|w before]]]]; injection E as; subst.
  - apply Hc. unfold wsc. tauto.
  - vm_compute in Hl. discriminate.
  - vm_compute in Hl. discriminate.
  - vm_compute in Hl. discriminate.
  - destruct before; discriminate.
Qed.
Print Assumptions C21_refuted.

(** What holds for every rejected array: there is a position with a character
    other than white space, and with [w] the white space before the first token,
    line and column count from the end of [w]. *)
Theorem C21_counted_from_first_token (root : option value) (buf : list Z) st line column v :
  bytes buf -> sd_parse root buf = Ret (PR st line column, v) -> st <> kOk -> (3 <= length buf)%nat -> terminated buf ->
  exists w u c after, buf = w ++ u ++ c :: after /\ ws w /\ ~ wsc c /\
    line = line_of u /\ column = column_of u /\
    (u <> [] -> exists x u', u = x :: u' /\ ~ wsc x).
Proof.
  intros HB E Hst HL HT. destruct (root_spec root buf HB HL HT) as (w & u & text & st' & ov & Eb & Hw & Hn & Hn' & Ht & E' & _).
  rewrite E in E'. destruct Hn' as (c & after & -> & Hc).
  assert (st' <> kOk) as Hst'. { intros ->. unfold report in E'. rewrite ParserProofs.status_eqb_refl in E'. congruence. }
  rewrite report_position in E' by auto. injection E' as -> -> -> _.
  exists w, u, c, after. repeat split; auto. intros Hu. destruct u as [|x u']; [congruence|].
  destruct Hn as (x' & r & E2 & Hx). injection E2 as <- _. eauto.
Qed.
Print Assumptions C21_counted_from_first_token.

(** Hence the full statement holds for arrays that start with the first token. *)
Theorem C21_position_partial (root : option value) (buf : list Z) st line column v :
  bytes buf -> sd_parse root buf = Ret (PR st line column, v) -> st <> kOk -> (3 <= length buf)%nat -> terminated buf ->
  (exists x r, buf = x :: r /\ ~ wsc x) -> reports_position buf line column.
Proof.
  intros HB E Hst HL HT (x & r & Eb & Hx).
  destruct (C21_counted_from_first_token root buf st line column v HB E Hst HL HT) as (w & u & c & after & -> & Hw & Hc & -> & -> & _).
  destruct w as [|y w]; [exists u, c, after; auto|]. injection Eb as <- _. inversion Hw; subst. contradiction.
Qed.
Print Assumptions C21_position_partial.

(** The line is also right when there is no line feed before the first token. *)
Theorem C21_line_partial (root : option value) (buf : list Z) st line column v :
  bytes buf -> sd_parse root buf = Ret (PR st line column, v) -> st <> kOk -> (3 <= length buf)%nat -> terminated buf ->
  exists before c after, buf = before ++ c :: after /\ ~ wsc c /\
    line <= line_of before /\ column <= column_of before /\
    (forall w r, before = w ++ r -> ws w -> line_feeds w = 0 -> (match r with [] => True | x :: _ => ~ wsc x end) -> line = line_of before).
Proof.
  intros HB E Hst HL HT.
  destruct (C21_counted_from_first_token root buf st line column v HB E Hst HL HT) as (w & u & c & after & -> & Hw & Hc & -> & -> & Hu).
  exists (w ++ u), c, after. split; [rewrite <- !app_assoc; reflexivity|]. split; [auto|].
  pose proof (line_feeds_nonneg w) as Hwn. unfold line_of, column_of. rewrite line_feeds_app.
  split; [lia|]. split.
  - rewrite last_line_app. destruct (Z.eq_dec (line_feeds u) 0) as [E0|E0].
    + rewrite !last_line_plain by auto. rewrite !app_length. simpl. lia.
    + rewrite (last_line_acc u (last_line w [])) by auto. lia.
  - intros w' r Ew Hw' H0 Hr. enough (line_feeds w = 0) by lia.
    assert (w = w') as ->; [|auto]. clear - Ew Hw Hw' Hu Hr Hc.
    destruct (ws_unique w (u ++ [c]) w' (r ++ [c])) as [E _]; auto.
    + rewrite !app_assoc. now rewrite Ew.
    + destruct u as [|x u]; [exists c, []; auto|]. destruct Hu as (x' & u' & Ex & Hx); [congruence|]. injection Ex as <- <-.
      exists x, (u ++ [c]); auto.
    + destruct r as [|x r]; [exists c, []; auto|]. exists x, (r ++ [c]); auto.
Qed.
Print Assumptions C21_line_partial.

Example C21_instance : sd_parse None (buf "[1,
  tru]") = Ret (PR kExpectedJsonValue 2 3, None) /\
  reports_position (buf "[1,
  tru]") 2 3.
Proof.
  split; [vm_compute; reflexivity|]. eapply C21_position_partial with (root := None).
  - unfold bytes, is_byte. repeat constructor; vm_compute; congruence.
  - vm_compute. reflexivity.
  - discriminate.
  - vm_compute. lia.
  - eexists (`"[1,
  tru]"). reflexivity.
  - exists 91. eexists. split; [reflexivity|]. unfold wsc. lia.
Qed.

(** ** C22: messages of statuses.

    Full statement: StatusToString is defined on every status and gives its
    description. [g] is the uninitialised storage of the result. *)
Definition says (r : out (list Z)) (t : list Z) : Prop := exists b, r = Ret b /\ holds b t.

Lemma says_unique r t t' : says r t -> says r t' -> t = t'.
Proof.
  intros (b & -> & H) (b' & E & H'). injection E as <-. apply holds_nul in H as [_ <-], H' as [_ <-]. reflexivity.
Qed.

Lemma says_status g s p : length (g 0%nat) = 257%nat -> nth_error status_string (status_number s) = Some p ->
  says (status_to_string g s) (cstr p).
Proof.
  intros Hg E. pose proof (status_message g s Hg) as H. rewrite E in H. destruct H as (b & Eb & _ & Hh & _). exists b. auto.
Qed.

Lemma says_table g s p t : length (g 0%nat) = 257%nat -> nth_error status_string (status_number s) = Some p -> cstr p = t ->
  says (status_to_string g s) t.
Proof. intros Hg E <-. now apply says_status. Qed.

(** One status reads outside the table, and a file that is too large is reported
    as "Invalid JSON text". *)
Theorem C22_refuted : exists s, forall g, status_to_string g s = UB.
Proof. exists kNameNotPresent. intros g. reflexivity. Qed.
Print Assumptions C22_refuted.

Theorem C22_wrong_refuted : exists s, forall g, length (g 0%nat) = 257%nat ->
  exists t, says (status_to_string g s) t /\ t = description kTextBufferContentsInvalid /\ t <> description s.
Proof.
  exists KFileTooLarge. intros g Hg. eexists. split; [eapply says_status; [auto|reflexivity]|].
  split; [reflexivity|discriminate].
Qed.
Print Assumptions C22_wrong_refuted.

(** The table is right for exactly three statuses; for all others but the last it
    gives the description of the next status. *)
Theorem C22_messages_partial g s : length (g 0%nat) = 257%nat ->
  (says (status_to_string g s) (description s) <-> s = kOk \/ s = KFileOpenError \/ s = KFileReadError).
Proof.
  intros Hg. split.
  - intros H. destruct (nth_error status_string (status_number s)) as [p|] eqn:E.
    + pose proof (says_unique _ _ _ H (says_status g s p Hg E)) as Ed.
      destruct s; auto; vm_compute in E; try discriminate; injection E as <-; vm_compute in Ed; discriminate.
    + destruct H as (b & Eb & _). unfold status_to_string in Eb. rewrite E in Eb. discriminate.
  - intros [->|[->| ->]]; (eapply says_table; [auto|reflexivity|reflexivity]).
Qed.
Print Assumptions C22_messages_partial.

Theorem C22_shifted g s s' : length (g 0%nat) = 257%nat -> next_status s s' ->
  s <> kOk -> s <> KFileOpenError -> s <> KFileReadError -> says (status_to_string g s) (description s').
Proof.
  intros Hg (l & r & E) H0 H1 H2.
  assert (G : forall x y l r, all_statuses = l ++ x :: y :: r ->
    nth_error all_statuses (S (length l)) = Some y /\ nth_error all_statuses (length l) = Some x).
  { clear. intros x y l r ->. split.
    - rewrite nth_error_app2 by lia. now replace (S (length l) - length l)%nat with 1%nat by lia.
    - rewrite nth_error_app2 by lia. now rewrite Nat.sub_diag. }
  destruct (G s s' l r E) as [Ey Ex]. clear E. generalize dependent (length l). intros n Ey Ex.
  do 27 (destruct n as [|n]; [simpl in Ex; injection Ex as <-; try congruence; simpl in Ey; try discriminate; injection Ey as <-;
    (eapply says_table; [auto|reflexivity|reflexivity])|]).
  destruct n; discriminate.
Qed.
Print Assumptions C22_shifted.

Example C22_instance : next_status kExpectedColon kExpectedBeginingDoubleQuotes /\
  says (status_to_string (fun _ => repeat 7 257) kExpectedColon) `"Expected begining double quotes".
Proof.
  assert (next_status kExpectedColon kExpectedBeginingDoubleQuotes) as H.
  { exists (firstn 12 all_statuses), (skipn 14 all_statuses). reflexivity. }
  split; [exact H|]. apply (C22_shifted (fun _ => repeat 7 257) kExpectedColon kExpectedBeginingDoubleQuotes); auto; discriminate.
Qed.

(** ** C23: reports contain the whole line and column.

    [g] gives uninitialised storages of the right sizes. *)
Definition storages (g : nat -> list Z) : Prop :=
  length (g 0%nat) = 257%nat /\ forall k, (1 <= k)%nat -> length (g k) = 25%nat.

(** The position part of a report is cut to 24 characters. *)
Theorem C23_cut g s message line column tl tc : storages g -> s <> kException ->
  says (status_to_string g s) message -> line <> 0 -> - 2 ^ 31 < line < 2 ^ 31 -> - 2 ^ 31 < column < 2 ^ 31 ->
  numeral line tl -> numeral column tc ->
  says (parse_result_to_string g (PR s line column)) (message ++ firstn 24 (`". Line: " ++ tl ++ `", column: " ++ tc)).
Proof.
  intros [Hg0 Hg] He Hm Hl Hlr Hcr Htl Htc. destruct Hm as (m & Em & Hm).
  pose proof (status_message g s Hg0) as Hmsg.
  destruct (nth_error status_string (status_number s)) as [p|]; [|rewrite Em in Hmsg; discriminate].
  destruct Hmsg as (m' & Em' & Hlm & Hm' & Hshort). rewrite Em in Em'. injection Em' as <-.
  assert (message = cstr p) as ->. { apply holds_nul in Hm as [_ <-], Hm' as [_ <-]. reflexivity. }
  assert (G : (length (g 1) = 25 /\ length (g 2) = 25 /\ length (g 3) = 25 /\ length (g 4) = 25 /\ length (g 5) = 25 /\
    length (g 6) = 25 /\ length (g 7) = 25)%nat) by (repeat split; apply Hg; lia).
  destruct G as (G1 & G2 & G3 & G4 & G5 & G6 & G7).
  unfold parse_result_to_string. rewrite Em. cbn [bind].
  destruct (Z.eqb_spec line 0); [congruence|]. rewrite ParserProofs.status_eqb_neq by auto. simpl negb. cbv iota. simpl andb. cbv iota.
  destruct (assign_ok 24 (g 1%nat) (buf ". Line: ")) as (a & Ea & La & Ha); [apply Hg; lia|vm_compute; tauto|]. rewrite Ea. cbn [bind].
  destruct (int_ok 24 (g 2%nat) line tl) as (b & Eb & Lb & Hb); auto. rewrite Eb. cbn [bind].
  destruct (plus_ok 24 (g 3%nat) a (cstr (buf ". Line: ")) b tl) as (c & Ec & Lc & Hc); auto. rewrite Ec. cbn [bind].
  destruct (assign_ok 24 (g 4%nat) (buf ", column: ")) as (k & Ek & Lk & Hk); [apply Hg; lia|vm_compute; tauto|]. rewrite Ek. cbn [bind].
  destruct (plus_ok 24 (g 5%nat) c (cstr (buf ". Line: ") ++ tl) k (cstr (buf ", column: "))) as (d & Ed & Ld & Hd); auto.
  rewrite Ed. cbn [bind].
  destruct (int_ok 24 (g 6%nat) column tc) as (e & Ee & Le & Hee); auto. rewrite Ee. cbn [bind].
  destruct (plus_ok 24 (g 7%nat) d ((cstr (buf ". Line: ") ++ tl) ++ cstr (buf ", column: ")) e tc) as (f & Ef & Lf & Hf); auto.
  rewrite Ef. cbn [bind].
  pose proof (holds_nul _ _ Hf) as [Hf0 Ef0].
  destruct (append_ok 256 m (cstr p) f) as (r & Er & Lr & Hr); auto.
  exists r. split; [exact Er|]. rewrite Ef0 in Hr. rewrite firstn_all2 in Hr.
  2:{ rewrite app_length, firstn_length. lia. }
  change (cstr (buf ". Line: ")) with (`". Line: ") in Hr. change (cstr (buf ", column: ")) with (`", column: ") in Hr.
  rewrite <- !app_assoc in Hr. exact Hr.
Qed.
Print Assumptions C23_cut.

(** Full statement: the report is the message followed by ". Line: L, column: C".
    It fails when L and C have more than six digits together. *)
Theorem C23_refuted : exists s line column tl tc, 0 < line < 2 ^ 31 /\ 0 < column < 2 ^ 31 /\ numeral line tl /\ numeral column tc /\
  forall g, storages g -> exists message, says (status_to_string g s) message /\
    ~ says (parse_result_to_string g (PR s line column)) (message ++ `". Line: " ++ tl ++ `", column: " ++ tc).
Proof.
  exists kExpectedColon, 1000, 1000, (`"1000"), (`"1000").
  assert (numeral 1000 (`"1000")) as Hn.
  { apply (num_pos 49 (`"000")); [|discriminate]. dig. }
  split; [lia|]. split; [lia|]. split; [auto|]. split; [auto|]. intros g Hg.
  eexists. assert (Hm : says (status_to_string g kExpectedColon) (cstr (buf "Expected begining double quotes"))).
  { apply says_status; [apply Hg|reflexivity]. }
  split; [exact Hm|]. intros H.
  assert (He : kExpectedColon <> kException) by discriminate.
  pose proof (C23_cut g kExpectedColon _ 1000 1000 _ _ Hg He Hm ltac:(lia) ltac:(lia) ltac:(lia) Hn Hn) as H'.
  pose proof (says_unique _ _ _ H H') as E. vm_compute in E. discriminate.
Qed.
Print Assumptions C23_refuted.

(** It holds exactly when the numbers have at most six digits together. *)
Theorem C23_report_partial g s message line column tl tc : storages g -> s <> kException ->
  says (status_to_string g s) message -> line <> 0 -> - 2 ^ 31 < line < 2 ^ 31 -> - 2 ^ 31 < column < 2 ^ 31 ->
  numeral line tl -> numeral column tc ->
  (says (parse_result_to_string g (PR s line column)) (message ++ `". Line: " ++ tl ++ `", column: " ++ tc) <->
   (length tl + length tc <= 6)%nat).
Proof.
  intros Hg He Hm Hl Hlr Hcr Htl Htc.
  pose proof (C23_cut g s message line column tl tc Hg He Hm Hl Hlr Hcr Htl Htc) as H.
  assert (EL : length (`". Line: " ++ tl ++ `", column: " ++ tc) = (18 + length tl + length tc)%nat).
  { rewrite !app_length. simpl. lia. }
  split.
  - intros H'. pose proof (says_unique _ _ _ H H') as E. apply app_inv_head in E.
    assert (length (firstn 24 (`". Line: " ++ tl ++ `", column: " ++ tc)) = length (`". Line: " ++ tl ++ `", column: " ++ tc)) as E'
      by (f_equal; exact E).
    rewrite firstn_length, EL in E'. lia.
  - intros HL. rewrite firstn_all2 in H by lia. exact H.
Qed.
Print Assumptions C23_report_partial.

(** Without a position, or for exceptions, the report is the message. *)
Theorem C23_no_position g s line column : line = 0 \/ s = kException ->
  parse_result_to_string g (PR s line column) = status_to_string g s.
Proof.
  intros H. unfold parse_result_to_string. destruct (status_to_string g s) as [b| |]; [|reflexivity|reflexivity]. cbn [bind].
  destruct H as [-> | ->]; [reflexivity|]. rewrite ParserProofs.status_eqb_refl. rewrite andb_false_r. reflexivity.
Qed.
Print Assumptions C23_no_position.

Example C23_instance : let g := fun k => match k with O => repeat 1 257 | _ => repeat 2 25 end in
  storages g /\ says (parse_result_to_string g (PR kFloatInvalid 12 345)) `"Expected 'true' or 'false'. Line: 12, column: 345".
Proof.
  split; [split; [reflexivity|intros [|k] H; [lia|reflexivity]]|].
  eexists. split; [vm_compute; reflexivity|]. split; [unfold nul_free; repeat constructor; discriminate|].
  eexists. reflexivity.
Qed.

(** ** C35: integers are printed in decimal.

    Full statement: for every int32 (int64), capacity and storage with room for
    capacity + 1 bytes at the position, the numeral cut to the capacity is written
    there and nothing else is. *)
Definition prints (f : Z -> list Z -> nat -> Z -> out (list Z * Z)) (n : Z) : Prop :=
  exists t, numeral n t /\ forall pre room post cap, length room = S cap ->
    exists rest, f n (pre ++ room ++ post) (length pre) (Z.of_nat cap) =
      Ret (pre ++ (firstn cap t ++ 0 :: rest) ++ post, Z.of_nat (length (firstn cap t))).

Theorem C35_int32_partial n : - 2 ^ 31 < n < 2 ^ 31 -> prints integer_to_string n.
Proof.
  intros Hn. destruct (integer_to_string_ok n Hn) as (t & Ht & Hlt & E). exists t. split; [auto|].
  intros pre room post cap HR.
  assert (Hroom : (length (firstn cap t ++ [0%Z]) <= length room)%nat) by (rewrite app_length, firstn_length; simpl; lia).
  exists (skipn (length (firstn cap t ++ [0])) room).
  rewrite E by (rewrite !app_length; lia). rewrite Nat2Z.id. f_equal. f_equal.
  - unfold splice. rewrite firstn_app, firstn_all, Nat.sub_diag, firstn_O, app_nil_r. f_equal.
    rewrite skipn_app, skipn_all2 by lia. simpl.
    replace (length pre + length (firstn cap t ++ [0%Z]) - length pre)%nat with (length (firstn cap t ++ [0%Z])) by lia.
    rewrite skipn_app. replace (length (firstn cap t ++ [0%Z]) - length room)%nat with 0%nat by lia. simpl.
    rewrite <- !app_assoc. reflexivity.
  - rewrite firstn_length. lia.
Qed.
Print Assumptions C35_int32_partial.

Theorem C35_int64_partial n : - 2 ^ 63 < n < 2 ^ 63 -> prints integer64_to_string n.
Proof.
  intros Hn. destruct (integer64_to_string_ok n Hn) as (t & Ht & Hlt & E). exists t. split; [auto|].
  intros pre room post cap HR.
  assert (Hroom : (length (firstn cap t ++ [0%Z]) <= length room)%nat) by (rewrite app_length, firstn_length; simpl; lia).
  exists (skipn (length (firstn cap t ++ [0])) room).
  rewrite E by (rewrite !app_length; lia). rewrite Nat2Z.id. f_equal. f_equal.
  - unfold splice. rewrite firstn_app, firstn_all, Nat.sub_diag, firstn_O, app_nil_r. f_equal.
    rewrite skipn_app, skipn_all2 by lia. simpl.
    replace (length pre + length (firstn cap t ++ [0%Z]) - length pre)%nat with (length (firstn cap t ++ [0%Z])) by lia.
    rewrite skipn_app. replace (length (firstn cap t ++ [0%Z]) - length room)%nat with 0%nat by lia. simpl.
    rewrite <- !app_assoc. reflexivity.
  - rewrite firstn_length. lia.
Qed.
Print Assumptions C35_int64_partial.

(** The least int32 is printed as "-0" ... *)
Theorem C35_refuted : exists n, - 2 ^ 31 <= n < 2 ^ 31 /\ ~ prints integer_to_string n /\
  fix_assign_int 24 (repeat 1 25) n = Ret (buf "-0" ++ repeat 1 22).
Proof.
  exists (- 2 ^ 31). split; [lia|]. split; [|vm_compute; reflexivity].
  intros (t & Ht & H). specialize (H [] (repeat 1 25) [] 24%nat eq_refl). destruct H as (rest & E).
  vm_compute in E. injection E as E _.
  assert (Hn : numeral (- 2 ^ 31) (`"-2147483648")).
  { apply (num_neg 50 (`"147483648")); [|discriminate]. dig. }
  rewrite (numeral_unique _ _ _ Ht Hn) in E. vm_compute in E. discriminate.
Qed.
Print Assumptions C35_refuted.

(** ... and an unsigned integer from 2^31 on as a negative one. *)
Theorem C35_unsigned_refuted : exists n, 0 <= n < 2 ^ 32 /\
  fix_assign_uint 24 (repeat 1 25) n = Ret (buf "-1" ++ repeat 1 22).
Proof. exists (2 ^ 32 - 1). split; [lia|vm_compute; reflexivity]. Qed.
Print Assumptions C35_unsigned_refuted.

Example C35_instance : exists t, numeral (-2147483647) t /\ t = `"-2147483647" /\
  exists rest, integer_to_string (-2147483647) (repeat 9 8) 2 4 = Ret ([9; 9] ++ (`"-214" ++ 0 :: rest) ++ [9], 4).
Proof.
  exists (`"-2147483647"). split; [apply (num_neg 50 (`"147483647")); [dig|discriminate]|].
  split; [reflexivity|]. exists []. vm_compute. reflexivity.
Qed.

(** ** C36: fixed-capacity strings.

    Full statement: any sequence of operations on a String<len> stays inside the
    len + 1 bytes of storage, leaves a terminated string of at most len
    characters there, and computes the operations cut to len characters. *)
Theorem C36_fixed_strings_partial (len : nat) (o : str_op) (ops : list str_op) (b : list Z) :
  length b = S len -> initialises o -> Forall operand_ok (o :: ops) ->
  exists b' s, fix_run len (o :: ops) b = Ret b' /\ length b' = S len /\ holds b' s /\ (length s <= len)%nat /\
    cut_run len (o :: ops) [] s.
Proof.
  intros HL Hi HF. inversion HF as [|? ? Ho HF' Eo]; subst.
  destruct (fix_step_ok len o b [] HL Ho (or_introl Hi)) as (b1 & s1 & E1 & HL1 & Hm & Hh1).
  destruct (fix_run_ok len ops b1 _ HL1 HF' Hh1) as (b2 & s2 & E2 & HL2 & Hr & Hh2).
  exists b2, s2. split; [cbn [fix_run]; rewrite E1; exact E2|]. split; [auto|]. split; [auto|].
  split; [apply holds_length in Hh2; lia|]. econstructor; eauto.
Qed.
Print Assumptions C36_fixed_strings_partial.

(** The run is determined: at most one contents agrees with the specification. *)
Theorem C36_meaning_unique (len : nat) (ops : list str_op) : forall s s1 s2, cut_run len ops s s1 -> cut_run len ops s s2 -> s1 = s2.
Proof.
  assert (M : forall o s a c, meaning o s a -> meaning o s c -> a = c).
  { intros o s a c H1 H2. destruct H1; inversion H2; subst; auto; try (f_equal; eapply numeral_unique; eauto; fail);
      eapply numeral_unique; eauto. }
  induction ops as [|o ops IH]; intros s s1 s2 H1 H2; inversion H1; inversion H2; subst; [congruence|].
  match goal with A : meaning o s ?x, B : meaning o s ?y |- _ => rewrite (M _ _ _ _ A B) in * end. eapply IH; eauto.
Qed.
Print Assumptions C36_meaning_unique.

(** It fails for operands that share the storage: appending a string to itself
    repeats it until the storage is full ... *)
Theorem C36_refuted : exists len b s, length b = S len /\ holds b s /\
  exists b' s', fix_append_self len b 0 = Ret b' /\ holds b' s' /\ s' <> firstn len (s ++ s).
Proof.
  exists 8%nat, ([97; 98; 0; 0; 0; 0; 0; 0; 0]), [97; 98]. split; [reflexivity|]. split.
  - split; [unfold nul_free; repeat constructor; discriminate|eexists; reflexivity].
  - exists (`"abababab" ++ [0]), (`"abababab"). split; [vm_compute; reflexivity|]. split; [|discriminate].
    split; [unfold nul_free; repeat constructor; discriminate|eexists; reflexivity].
Qed.
Print Assumptions C36_refuted.

(** ... and the constructor from four characters writes five bytes whatever len is. *)
Theorem C36_four_refuted : exists len, (0 < len)%nat /\ forall b c1 c2 c3 c4, length b = S len -> fix_four b c1 c2 c3 c4 = UB.
Proof.
  exists 3%nat. split; [lia|]. intros b c1 c2 c3 c4 HL.
  destruct b as [|? [|? [|? [|? [|? ?]]]]]; try discriminate. reflexivity.
Qed.
Print Assumptions C36_four_refuted.

Example C36_instance : exists b', fix_run 5 [OpAssign (buf "ab"); OpAppendInt (-17); OpAppendChar 99] (repeat 1 6) = Ret b' /\
  holds b' (`"ab-17").
Proof.
  eexists. split; [vm_compute; reflexivity|]. split; [unfold nul_free; repeat constructor; discriminate|eexists; reflexivity].
Qed.
