(** * Proofs about error positions and reports. *)

From Verif Require Import Base ParserModel Str StringModel SpecText StringProofs ReportModel SpecReport LexProofs RootProofs.

#[local] Arguments Z.eqb : simpl nomatch.

(** ** Positions *)

Lemma line_feeds_app s t : line_feeds (s ++ t) = line_feeds s + line_feeds t.
Proof. induction s; simpl; lia. Qed.

Lemma line_feeds_nonneg s : 0 <= line_feeds s.
Proof. induction s; simpl; [lia|]. destruct (_ =? _); lia. Qed.

Lemma last_line_app s : forall t acc, last_line (s ++ t) acc = last_line t (last_line s acc).
Proof. induction s; intros; simpl; auto. Qed.

Lemma last_line_acc t : forall acc, line_feeds t <> 0 -> last_line t acc = last_line t [].
Proof.
  induction t as [|c t IH]; intros acc H; simpl in *; [lia|].
  destruct (c =? 10); [reflexivity|]. rewrite (IH (acc ++ [c])), (IH [c]) by lia. reflexivity.
Qed.

Lemma last_line_plain t : forall acc, line_feeds t = 0 -> last_line t acc = acc ++ t.
Proof.
  induction t as [|c t IH]; intros acc H; simpl in *; [now rewrite app_nil_r|].
  pose proof (line_feeds_nonneg t).
  destruct (c =? 10); [lia|]. rewrite IH by lia. rewrite <- app_assoc. reflexivity.
Qed.

Lemma walk_more r : forall l c, 2 <= l -> error_walk r l c = (l + line_feeds r, c).
Proof.
  induction r as [|x r IH]; intros l c H; simpl; [f_equal; lia|].
  destruct (x =? 10); destruct (Z.eqb_spec l 1); destruct (Z.eqb_spec (l + 1) 1); try lia; rewrite IH by lia; f_equal; lia.
Qed.

Lemma line_feeds_rev s : line_feeds (rev s) = line_feeds s.
Proof. induction s; simpl; [auto|]. rewrite line_feeds_app. simpl. lia. Qed.

Lemma walk_spec u : forall c, error_walk (rev u) 1 c = (line_of u, c + Z.of_nat (length (last_line u []))).
Proof.
  unfold line_of. induction u as [|x u IH] using rev_ind; intros c; [simpl; f_equal; lia|].
  rewrite rev_app_distr, line_feeds_app, last_line_app. simpl.
  destruct (Z.eqb_spec x 10) as [->|Hx].
  - cbn. rewrite walk_more, line_feeds_rev by lia. f_equal; lia.
  - cbn. rewrite IH, app_length. simpl. f_equal; lia.
Qed.

Lemma report_position st u : st <> kOk -> report st u = PR st (line_of u) (column_of u).
Proof.
  intros H. unfold report, column_of. rewrite ParserProofs.status_eqb_neq by auto. rewrite walk_spec. reflexivity.
Qed.

(** ** Messages *)

Lemma status_message g s : length (g 0%nat) = 257%nat ->
  match nth_error status_string (status_number s) with
  | Some p => exists b, status_to_string g s = Ret b /\ length b = 257%nat /\ holds b (cstr p) /\ (length (cstr p) < 100)%nat
  | None => status_to_string g s = UB
  end.
Proof.
  intros HL. unfold status_to_string.
  destruct (nth_error status_string (status_number s)) as [p|] eqn:E; [|reflexivity].
  assert (HF : Forall (fun p => In 0 p /\ (length (cstr p) < 100)%nat) status_string).
  { unfold status_string, buf. repeat (constructor; [split; [apply in_or_app; right; left; reflexivity|vm_compute; lia]|]). constructor. }
  apply nth_error_In in E. rewrite Forall_forall in HF. destruct (HF p E) as [Ht Hl].
  destruct (fix_step_ok 256 (OpAssign p) (g 0%nat) [] HL Ht (or_introl I)) as (b & s' & Eb & Hb & Hm & Hh).
  inversion Hm; subst. rewrite firstn_all2 in Hh by lia. exists b. auto.
Qed.

(** ** Reports *)

Lemma firstn_again n (a c : list Z) : firstn n (firstn n a ++ c) = firstn n (a ++ c).
Proof.
  rewrite !firstn_app, firstn_firstn, Nat.min_id, firstn_length. destruct (le_lt_dec n (length a)).
  - replace (n - Nat.min n (length a))%nat with 0%nat by lia. now replace (n - length a)%nat with 0%nat by lia.
  - now replace (n - Nat.min n (length a))%nat with (n - length a)%nat by lia.
Qed.

Lemma assign_ok len g p : length g = S len -> In 0 p ->
  exists b, fix_assign len g p = Ret b /\ length b = S len /\ holds b (firstn len (cstr p)).
Proof.
  intros HL Hp. destruct (fix_step_ok len (OpAssign p) g [] HL Hp (or_introl I)) as (b & s & E & Hb & Hm & Hh).
  inversion Hm; subst. eauto.
Qed.

Lemma append_ok len b s p : length b = S len -> holds b s -> In 0 p ->
  exists b', fix_append len b p = Ret b' /\ length b' = S len /\ holds b' (firstn len (s ++ cstr p)).
Proof.
  intros HL Hs Hp. destruct (fix_step_ok len (OpAppend p) b s HL Hp (or_intror Hs)) as (b' & s' & E & Hb & Hm & Hh).
  inversion Hm; subst. eauto.
Qed.

Lemma int_ok len g n t : length g = S len -> - 2 ^ 31 < n < 2 ^ 31 -> numeral n t ->
  exists b, fix_assign_int len g n = Ret b /\ length b = S len /\ holds b (firstn len t).
Proof.
  intros HL Hn Ht. destruct (fix_step_ok len (OpInt n) g [] HL Hn (or_introl I)) as (b & s & E & Hb & Hm & Hh).
  inversion Hm; subst. rewrite (numeral_unique n t s) by auto. eauto.
Qed.

Lemma plus_ok len g b s b2 s2 : length g = S len -> length b = S len -> holds b (firstn len s) -> holds b2 (firstn len s2) ->
  exists b', fix_plus len g b b2 = Ret b' /\ length b' = S len /\ holds b' (firstn len (s ++ s2)).
Proof.
  intros Hg Hb Hs H2. unfold fix_plus. destruct (holds_nul _ _ Hs) as [H0 E0]. destruct (holds_nul _ _ H2) as [H02 E02].
  destruct (assign_ok len g b Hg H0) as (t & Et & Htl & Hth). rewrite Et. cbn [bind].
  destruct (append_ok len t _ b2 Htl Hth H02) as (b' & E' & Hl' & Hh'). rewrite E'. exists b'. split; [auto|]. split; [auto|].
  rewrite E0, E02, firstn_again, firstn_again in Hh'.
  replace (firstn len (s ++ s2)) with (firstn len (s ++ firstn len s2)); [exact Hh'|].
  rewrite !firstn_app. f_equal. rewrite firstn_firstn. f_equal. lia.
Qed.
