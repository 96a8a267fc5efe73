(** * From the value parser to StructuredData::Parse. *)

From Verif Require Import Base TextModel NumModel MapModel ParserModel SpecUtf8 SpecNum SpecMap SpecGrammar SpecMeaning
  TextProofs MapProofs StrtodProofs RoundProofs LexProofs ParserProofs.

#[local] Arguments Z.eqb : simpl nomatch.
#[local] Arguments Z.ltb : simpl nomatch.

Lemma last_terminated p : p <> [] -> (last p 0 = 0 <-> terminated p).
Proof.
  intros Hne. split.
  - intros H. exists (removelast p). rewrite (app_removelast_last 0 Hne) at 1. now rewrite H.
  - intros [q ->]. apply last_last.
Qed.

(** What Parse reports on reaching [text] with status [st], [u] being the part
    of the text between the first token and [text]. *)
Definition report (st : status) (u : list Z) : parse_result :=
  if status_eqb st kOk then PR kOk 0 0 else PR st (fst (error_walk (rev u) 1 1)) (snd (error_walk (rev u) 1 1)).

Lemma failed_ok st : failed st -> st <> kOk.
Proof. unfold failed. simpl. intuition congruence. Qed.

Lemma sd_short root buf : (length buf < 3)%nat -> sd_parse root buf = Ret (PR kTextBufferContentsInvalid 0 0, root).
Proof. intros H. unfold sd_parse. destruct (Z.ltb_spec (Z.of_nat (length buf)) 3); [reflexivity|lia]. Qed.

Lemma sd_open root buf : (3 <= length buf)%nat -> last buf 0 <> 0 -> sd_parse root buf = Ret (PR kUnterminatedTextBuffer 0 0, root).
Proof.
  intros H1 H2. unfold sd_parse. destruct (Z.ltb_spec (Z.of_nat (length buf)) 3); [lia|].
  destruct (Z.eqb_spec (last buf 0) 0); [congruence|reflexivity].
Qed.

Lemma sd_root root buf : (3 <= length buf)%nat -> terminated buf ->
  sd_parse root buf =
    (let! start := skip_ws buf in
    let! (st, v, text) := parse_any (parse_fuel start) start in
    let root := match v with Some v => Some v | None => None end in
    let! text := skip_ws text in
    let! st := (if status_eqb st kOk
                then let! c := rd text 0 in
                     Ret (if negb (c =? 0) then kExpectedEndOfFile else kOk)
                else Ret st) in
    if negb (status_eqb st kOk) then
      let between := firstn (length start - length text) start in
      let '(line, column) := error_walk (rev between) 1 1 in
      Ret (PR st line column, root)
    else Ret (PR st 0 0, root)).
Proof.
  intros H1 H2. unfold sd_parse, parse_json_root.
  destruct (Z.ltb_spec (Z.of_nat (length buf)) 3); [lia|].
  destruct (Z.eqb_spec (last buf 0) 0) as [_|E]; [reflexivity|].
  exfalso. apply E. apply last_terminated; auto. intros ->. simpl in H1. lia.
Qed.

(** The whole behaviour of Parse(array) on a terminated array. *)
Definition root_post (root : option value) (buf : list Z) : Prop :=
  exists w u text st ov,
    buf = w ++ u ++ text /\ ws w /\ nonws_head (u ++ text) /\ nonws_head text /\ terminated text /\
    sd_parse root buf = Ret (report st u, ov) /\
    match ov with
    | None => failed st
    | Some v => exists t w2 j, u = t ++ w2 /\ ws w2 /\ lib_val t j /\ good v j /\
                  (st = kOk /\ (exists r, text = 0 :: r) \/
                   st = kExpectedEndOfFile /\ (exists c r, text = c :: r /\ c <> 0))
    end.

Lemma root_spec root buf : bytes buf -> (3 <= length buf)%nat -> terminated buf -> root_post root buf.
Proof.
  intros HB HL HT. pose proof (sd_root root buf HL HT) as ES. unfold root_post.
  destruct (skip_ws_spec buf HT) as (w & p & E & -> & Hw & Hn & Ht). rewrite E in ES. cbn [bind] in ES. clear E.
  apply bytes_app in HB. destruct HB as [_ HB].
  destruct (proj1 (parse_sound (parse_fuel p)) p Ht HB) as (st & ov & p1 & E & Ht1 & (u & Hu) & Hp); [unfold parse_fuel; lia|].
  rewrite E in ES. cbn [bind] in ES. clear E.
  destruct (skip_ws_spec p1 Ht1) as (w1 & text & E & -> & Hw1 & Hn1 & Ht2). rewrite E in ES. cbn [bind] in ES. clear E.
  assert (Efirst : firstn (length p - length text) p = u ++ w1).
  { rewrite Hu, app_assoc, app_length. replace (length (u ++ w1) + length text - length text)%nat with (length (u ++ w1)) by lia.
    rewrite firstn_app, Nat.sub_diag, firstn_all. simpl. now rewrite app_nil_r. }
  rewrite Efirst in ES.
  assert (Hp' : p = (u ++ w1) ++ text) by (rewrite Hu; flat).
  assert (Er : forall st, st <> kOk -> Ret (report st (u ++ w1), match ov with Some v => Some v | None => None end) =
     (let '(line, column) := error_walk (rev (u ++ w1)) 1 1 in Ret (PR st line column, match ov with Some v => Some v | None => None end))).
  { intros s Hs. unfold report. rewrite status_eqb_neq by auto. now destruct (error_walk (rev (u ++ w1)) 1 1). }
  exists w, (u ++ w1), text.
  destruct ov as [v|].
  - destruct Hp as (-> & t & w2 & j & Ep & Hw2 & Hv & Hg).
    assert (Eu : u ++ w1 = t ++ (w2 ++ w1)).
    { assert (p = (t ++ (w2 ++ w1)) ++ text) as E1 by (rewrite Ep; flat).
      rewrite Hp' in E1. apply app_inv_tail in E1. exact E1. }
    destruct (terminated_head text Ht2) as (c & r & ->). rewrite status_eqb_refl, rd0 in ES. cbn [bind] in ES.
    destruct (Z.eqb_spec c 0) as [->|Hc]; simpl negb in ES; cbv iota in ES.
    + exists kOk, (Some v).
      split; [now rewrite <- Hp'|]. split; [auto|]. split; [now rewrite <- Hp'|]. split; [auto|]. split; [auto|].
      split; [rewrite ES; unfold report; now rewrite status_eqb_refl|].
      exists t, (w2 ++ w1), j. split; [auto|]. split; [apply Forall_app; auto|]. eauto 10.
    + exists kExpectedEndOfFile, (Some v).
      split; [now rewrite <- Hp'|]. split; [auto|]. split; [now rewrite <- Hp'|]. split; [auto|]. split; [auto|].
      split; [rewrite ES; symmetry; apply Er; discriminate|].
      exists t, (w2 ++ w1), j. split; [auto|]. split; [apply Forall_app; auto|].
      split; [auto|]. split; [auto|]. right. eauto.
  - rewrite status_eqb_neq in ES by now apply failed_ok. cbn [bind] in ES.
    rewrite status_eqb_neq in ES by now apply failed_ok. simpl negb in ES. cbv iota in ES.
    exists st, None.
    split; [now rewrite <- Hp'|]. split; [auto|]. split; [now rewrite <- Hp'|]. split; [auto|]. split; [auto|].
    split; [|auto]. rewrite ES; symmetry; apply Er. now apply failed_ok.
Qed.

(** Documents contain no NUL. *)
Lemma ws_nul_free w : ws w -> nul_free w.
Proof. intros H. eapply Forall_impl; [|exact H]. unfold wsc. intros; lia. Qed.

Lemma zero_split (a : list Z) r a' r' : nul_free a -> nul_free a' -> a ++ 0 :: r = a' ++ 0 :: r' -> a = a' /\ r = r'.
Proof.
  intros H. revert a'. induction H as [|c a Hc Ha IH]; intros a' H' E.
  - destruct H' as [|x a' Hx _]; simpl in E; injection E; intros; subst; [auto|congruence].
  - destruct H' as [|x a' Hx Ha']; simpl in E; injection E; intros; subst; [congruence|].
    destruct (IH a' Ha') as [-> ->]; auto.
Qed.

Lemma lib_str_nul_free t s : lib_str t s -> nul_free t.
Proof.
  intros H. induction H as [|cp t s Hr _ IH|c x t s He _ IH|h cp t s Hh Hc _ IH].
  - constructor.
  - apply Forall_app. split; [|auto]. destruct Hr as (H1 & H2 & _). apply utf8_pos in H1; [|lia].
    eapply Forall_impl; [|exact H1]. simpl. lia.
  - apply short_escape_pos in He. repeat (apply Forall_cons; [lia|]). auto.
  - apply hex4_range in Hh. repeat (apply Forall_cons; [lia|]). apply Forall_app. split; [apply Hh|auto].
Qed.

Lemma lib_num_nul_free t d : lib_num t d -> nul_free t.
Proof.
  intros H. destruct H as [sg neg w run pre suf n m e d Hsg Hw Hsw Hrun _ _ _ _ _ _].
  unfold nul_free. rewrite !Forall_app. split; [|split].
  - destruct Hsg; repeat constructor; lia.
  - now apply ws_nul_free.
  - eapply Forall_impl; [|exact Hrun]. unfold float_char, digit. intros; lia.
Qed.

Ltac nf := unfold nul_free in *; repeat first [rewrite Forall_app | rewrite Forall_cons_iff]; repeat split; try lia; auto using ws_nul_free, Forall_nil.

Lemma lib_nul_free : (forall t j, lib_val t j -> nul_free t) /\
  (forall t l, gelems lib_str lib_num t l -> nul_free t) /\
  (forall t l, gmembers lib_str lib_num t l -> nul_free t).
Proof.
  unfold lib_val. apply (grammar_mind lib_str lib_num (fun t _ => nul_free t) (fun t _ => nul_free t) (fun t _ => nul_free t)); intros;
    try (match goal with H : lib_str _ _ |- _ => apply lib_str_nul_free in H end);
    try (match goal with H : lib_num _ _ |- _ => apply lib_num_nul_free in H end);
    repeat (match goal with H : ws _ |- _ => apply ws_nul_free in H end); nf.
Qed.

Lemma lib_doc_nul_free t j : lib_doc t j -> nul_free t.
Proof.
  intros H. destruct H as [w1 t w2 v H1 H2 H3]. apply lib_nul_free in H2. apply ws_nul_free in H1, H3. nf.
Qed.

(** Completeness at the root. *)
Lemma root_complete root t j rest : lib_doc t j -> (2 <= length t)%nat -> terminated (0 :: rest) ->
  exists v, sd_parse root (t ++ 0 :: rest) = Ret (PR kOk 0 0, Some v) /\ good v j.
Proof.
  intros Hd HL HT. destruct Hd as [w1 t w2 j H1 H2 H3].
  rewrite sd_root; [|rewrite app_length; simpl; lia|now apply terminated_app].
  replace ((w1 ++ t ++ w2) ++ 0 :: rest) with (w1 ++ t ++ w2 ++ 0 :: rest) by flat.
  rewrite skip_ws_app by (auto; eapply value_head; eauto). cbn [bind].
  destruct (proj1 parse_complete t j H2 (parse_fuel (t ++ w2 ++ 0 :: rest)) w2 (0 :: rest)) as (v & w' & E & Hw' & Hg); auto.
  - unfold parse_fuel. rewrite app_length. lia.
  - apply nonws_cons. unfold wsc. lia.
  - apply nonfloat_follow; auto. unfold float_char, digit. lia.
  - rewrite E. cbn [bind]. rewrite skip_ws_app by (auto; apply nonws_cons; unfold wsc; lia). cbn [bind].
    rewrite status_eqb_refl, rd0. cbn [bind]. change (negb (0 =? 0)) with false. cbv iota. cbn [bind].
    rewrite status_eqb_refl. simpl negb. cbv iota. eauto.
Qed.

(** Soundness at the root. *)
Lemma root_sound root buf ov l c : bytes buf -> sd_parse root buf = Ret (PR kOk l c, ov) ->
  exists t rest j v, buf = t ++ 0 :: rest /\ terminated buf /\ (2 <= length t + length rest)%nat /\
    lib_doc t j /\ ov = Some v /\ good v j /\ l = 0 /\ c = 0.
Proof.
  intros HB H.
  destruct (le_lt_dec 3 (length buf)) as [HL|HL]; [|rewrite sd_short in H by auto; discriminate].
  destruct (Z.eq_dec (last buf 0) 0) as [E0|E0]; [|rewrite sd_open in H by auto; discriminate].
  apply last_terminated in E0; [|intros ->; simpl in HL; lia].
  destruct (root_spec root buf HB HL E0) as (w & u & text & st & ov' & -> & Hw & Hn & Hn' & Ht & E & Hp).
  rewrite E in H. unfold report in H.
  destruct (status_eq_dec st kOk) as [->|Hst].
  2:{ rewrite status_eqb_neq in H by auto. congruence. }
  rewrite status_eqb_refl in H. injection H as <- <- <-.
  destruct ov' as [v|]; [|now apply failed_ok in Hp].
  destruct Hp as (t & w2 & j & -> & Hw2 & Hv & Hg & [(_ & r & ->)|(? & _)]); [|congruence].
  exists (w ++ t ++ w2), r, j, v. split; [flat|]. split; [auto|].
  split. { rewrite !app_length in *. simpl in *. lia. }
  split; [now constructor|]. auto.
Qed.

(** Totality. *)
Lemma root_total root buf : bytes buf -> exists r, sd_parse root buf = Ret r.
Proof.
  intros HB.
  destruct (le_lt_dec 3 (length buf)) as [HL|HL]; [|rewrite sd_short by auto; eauto].
  destruct (Z.eq_dec (last buf 0) 0) as [E0|E0]; [|rewrite sd_open by auto; eauto].
  apply last_terminated in E0; [|intros ->; simpl in HL; lia].
  destruct (root_spec root buf HB HL E0) as (w & u & text & st & ov' & _ & _ & _ & _ & _ & E & _). eauto.
Qed.
