(** * The parser of builds without system conversions: its number tokens. *)

From Verif Require Import Base TextModel NumModel MapModel ParserModel PortableModel BuildModel SpecUtf8 SpecNum SpecMap SpecGrammar SpecMeaning
  SpecPortable SpecBuild TextProofs MapProofs StrtodProofs RoundProofs LexProofs ParserProofs RootProofs PortableProofs PortableValue PropPortable BuildProofs.

#[local] Arguments Z.eqb : simpl nomatch.
#[local] Arguments Z.ltb : simpl nomatch.

(** A token and the number this reader gives it. *)
Definition p_num (t : list Z) (d : spec_float) : Prop :=
  exists neg ip fp ex, p_token t neg ip fp ex /\ d = if (neg : bool) then dneg (literal_value ip fp ex) else literal_value ip fp ex.

Lemma groups_head t ds : groups t ds -> exists c r, t = c :: r /\ digit c.
Proof. destruct 1; eauto. Qed.
Lemma singles_head t ds : singles t ds -> exists c r, t = c :: r /\ digit c.
Proof. destruct 1; eauto. Qed.

(** A literal starts with a digit or the point. *)
Lemma literal_head w ip f fp x : p_whole w ip -> p_frac f fp -> ip ++ fp <> [] ->
  exists c r, w ++ f ++ x = c :: r /\ (digit c \/ c = 46).
Proof.
  intros Hw Hf Hne. destruct Hw as [|c t ds G N|t ds G].
  - destruct Hf as [| |t ds G]; [now elim Hne|now elim Hne|]. simpl. eauto.
  - destruct (groups_head _ _ G) as (c' & r & E & D). injection E as <- <-. simpl. eauto.
  - simpl. exists 48, (t ++ f ++ x). split; [reflexivity|]. left. unfold digit. lia.
Qed.

Lemma p_num_head t d : p_num t d -> exists c r, t = c :: r /\ float_char c.
Proof.
  intros (neg & ip & fp & ex & H & _). destruct H as [sg neg b w ip f fp x ex Hsg _ Hb Hw Hf Hne Hx].
  destruct Hsg; [rewrite Hb by auto| |]; simpl; unfold float_char.
  - destruct (literal_head w ip f fp x Hw Hf Hne) as (c & r & -> & Hc). exists c, r. split; [auto|]. tauto.
  - exists 43. eauto 10.
  - exists 45. eauto 10.
Qed.

Lemma port_spec p : terminated p -> bytes p ->
  (exists st d p1, portable_number_parse p = Ret (st, d, p1) /\ bad_number st /\ terminated p1 /\ (exists u, p = u ++ p1)) \/
  (exists t d w rest, p = t ++ w ++ rest /\ p_num t d /\ ws w /\ terminated rest /\ portable_number_parse p = Ret (kOk, d, rest)).
Proof.
  intros HT HB. unfold portable_number_parse.
  destruct (parse_sign_spec p HT) as (sg & neg & b & p1 & E & -> & Hsg & Hb & Hsb & _ & HT1 & _). rewrite E. cbn [bind].
  assert (HB1 : bytes p1) by (rewrite !bytes_app in HB; tauto).
  destruct (portable_spec p1 HT1 HB1) as (st & n & d & E1 & H). rewrite E1. cbn [bind].
  destruct H as [(-> & t & ip & fp & ex & P & -> & ->)|H].
  - right. rewrite status_eqb_refl. simpl negb. cbv iota.
    destruct P as [w ip f fp x ex c rest Hw Hf Hne Hx He].
    replace (w ++ f ++ x ++ c :: rest) with ((w ++ f ++ x) ++ c :: rest) in * by now rewrite <- !app_assoc.
    rewrite skipn_length_app.
    assert (HTr : terminated (c :: rest)) by (eapply terminated_suffix; [exact HT1|discriminate]).
    destruct (skip_ws_spec (c :: rest) HTr) as (w' & q & -> & Eq & Hw' & _ & HTq). cbn [bind].
    exists (sg ++ b ++ w ++ f ++ x). eexists. exists w', q. split; [rewrite Eq; now rewrite <- !app_assoc|].
    split; [exists neg, ip, fp, ex; split; [now constructor|reflexivity]|]. auto.
  - left. assert (N : status_eqb st kOk = false) by (destruct H as [[-> _]| ->]; reflexivity). rewrite N.
    eexists _, _, p1. split; [reflexivity|]. split; [destruct H as [[-> _]| ->]; unfold bad_number; auto|].
    split; [auto|]. exists (sg ++ b). now rewrite <- app_assoc.
Qed.

Lemma stop_ends f x c : stop c -> ends f x c.
Proof. unfold stop, ends, wsc, digit. intros H. repeat split; intros; lia. Qed.

Lemma port_complete t d w rest : p_num t d -> bytes (t ++ w ++ rest) -> ws w -> nonws_head rest -> stop_head (w ++ rest) ->
  portable_number_parse (t ++ w ++ rest) = Ret (kOk, d, rest).
Proof.
  intros (neg & ip & fp & ex & H & ->) HB Hw Hr (c & q & Eq & Hc). destruct H as [sg neg b wh ip f fp x ex Hsg Hb Hsb Hwh Hf Hne Hx].
  destruct (literal_head wh ip f fp x Hwh Hf Hne) as (c0 & r0 & E0 & Hc0).
  unfold portable_number_parse.
  replace ((sg ++ b ++ wh ++ f ++ x) ++ w ++ rest) with (sg ++ b ++ (wh ++ f ++ x) ++ w ++ rest) in * by now rewrite <- !app_assoc.
  assert (Es : parse_sign (sg ++ b ++ (wh ++ f ++ x) ++ w ++ rest) = Ret (neg, (wh ++ f ++ x) ++ w ++ rest)).
  { assert (Hnw : nonws_head ((wh ++ f ++ x) ++ w ++ rest)).
    { rewrite E0. simpl. apply nonws_cons. unfold wsc, digit in *. lia. }
    destruct Hsg; unfold parse_sign.
    - rewrite Hsb by auto. simpl app. rewrite E0. simpl app. rewrite rd0. cbn [bind].
      destruct (Z.eqb_spec c0 45); [unfold digit in *; lia|]. destruct (Z.eqb_spec c0 43); [unfold digit in *; lia|]. reflexivity.
    - simpl app. rewrite rd0. cbn [bind]. change (43 =? 45) with false. change (43 =? 43) with true. cbv iota. cbn [skipn].
      rewrite skip_ws_app by auto. reflexivity.
    - simpl app. rewrite rd0. cbn [bind]. change (45 =? 45) with true. cbv iota. cbn [skipn].
      rewrite skip_ws_app by auto. reflexivity. }
  rewrite Es. cbn [bind].
  assert (HB1 : bytes ((wh ++ f ++ x) ++ w ++ rest)) by (rewrite (bytes_app sg), (bytes_app b) in HB; tauto).
  rewrite (portable_complete ((wh ++ f ++ x) ++ w ++ rest) (wh ++ f ++ x) ip fp ex HB1).
  2:{ rewrite Eq. replace ((wh ++ f ++ x) ++ c :: q) with (wh ++ f ++ x ++ c :: q) by now rewrite <- !app_assoc.
      constructor; auto. now apply stop_ends. }
  cbn [bind]. rewrite status_eqb_refl. simpl negb. cbv iota. rewrite skipn_length_app, skip_ws_app by auto. reflexivity.
Qed.

Lemma port_other c r : c = 116 \/ c = 102 \/ c = 110 \/ c = 91 \/ c = 123 -> exists d, portable_number_parse (c :: r) = Ret (kFloatInvalid, d, c :: r).
Proof.
  intros H. eexists. unfold portable_number_parse, parse_sign. rewrite rd0. cbn [bind].
  destruct H as [->|[->|[->|[->| ->]]]]; reflexivity.
Qed.

Lemma p_num_nul t d : p_num t d -> nul_free t.
Proof.
  intros (neg & ip & fp & ex & H & _). destruct H as [sg neg b w ip f fp x ex Hsg Hb _ Hw Hf Hne Hx].
  unfold nul_free. rewrite !Forall_app. repeat split.
  - destruct Hsg; repeat constructor; lia.
  - now apply ws_nul_free.
  - destruct Hw; [constructor|eapply groups_nul; eauto|eapply singles_nul; eauto].
  - destruct Hf as [| |t' ds G]; repeat constructor; try lia. eapply groups_nul; eauto.
  - destruct Hx as [|e sg' neg' t' ds He Hs G]; [constructor|]. constructor; [lia|]. apply Forall_app. split.
    + destruct Hs; repeat constructor; lia.
    + eapply groups_nul; eauto.
Qed.

(** ** Number languages in the grammar *)

Section Replace.
Variables (str : list Z -> list Z -> Prop) (num1 num2 : list Z -> spec_float -> Prop).
Hypothesis replace_num : forall t d, num1 t d -> exists d', num2 t d'.

Lemma replace_grammar :
  (forall t j, gval str num1 t j -> exists j', gval str num2 t j' /\ alike j j') /\
  (forall t l, gelems str num1 t l -> exists l', gelems str num2 t l' /\ Forall2 alike l l') /\
  (forall t ms, gmembers str num1 t ms -> exists ms', gmembers str num2 t ms' /\
     Forall2 (fun a b => fst a = fst b /\ alike (snd a) (snd b)) ms ms').
Proof.
  apply (grammar_mind str num1
    (fun t j => exists j', gval str num2 t j' /\ alike j j')
    (fun t l => exists l', gelems str num2 t l' /\ Forall2 alike l l')
    (fun t ms => exists ms', gmembers str num2 t ms' /\ Forall2 (fun a b => fst a = fst b /\ alike (snd a) (snd b)) ms ms')).
  - intros t s H. exists (JStr s). split; constructor; auto.
  - intros t d H. destruct (replace_num t d H) as (d' & H'). exists (JNum d'). split; constructor; auto.
  - exists (JBool true). split; constructor.
  - exists (JBool false). split; constructor.
  - exists JNull. split; constructor.
  - intros w Hw. exists (JArr []). split; [now constructor|]. constructor. constructor.
  - intros t l _ (l' & H & A). exists (JArr l'). split; [now constructor|]. now constructor.
  - intros w Hw. exists (JObj []). split; [now constructor|]. constructor. constructor.
  - intros t l _ (l' & H & A). exists (JObj l'). split; [now constructor|]. now constructor.
  - intros w1 t w2 v H1 _ (j & H & A) H2. exists [j]. split; [now constructor|]. repeat constructor; auto.
  - intros w1 t w2 v t' l H1 _ (j & H & A) H2 _ (l' & H' & A'). exists (j :: l'). split; [now constructor|]. constructor; auto.
  - intros w1 n nm w2 w3 t w4 v H1 Hs H2 H3 _ (j & H & A) H4. exists [(nm, j)]. split; [now constructor|]. repeat constructor; auto.
  - intros w1 n nm w2 w3 t w4 v t' l H1 Hs H2 H3 _ (j & H & A) H4 _ (l' & H' & A'). exists ((nm, j) :: l').
    split; [now constructor|]. constructor; auto.
Qed.

Lemma replace_doc t j : gdoc str num1 t j -> exists j', gdoc str num2 t j' /\ alike j j'.
Proof.
  intros [w1 t' w2 v H1 H2 H3]. destruct (proj1 replace_grammar t' v H2) as (j' & H & A). exists j'. split; [now constructor|auto].
Qed.
End Replace.

Section Refine.
Variables (str : list Z -> list Z -> Prop) (num1 num2 : list Z -> spec_float -> Prop).
Hypothesis refine_num : forall t d, num1 t d -> num2 t d.

Lemma refine_grammar :
  (forall t j, gval str num1 t j -> gval str num2 t j) /\
  (forall t l, gelems str num1 t l -> gelems str num2 t l) /\
  (forall t ms, gmembers str num1 t ms -> gmembers str num2 t ms).
Proof. apply (grammar_mind str num1 (gval str num2) (gelems str num2) (gmembers str num2)); intros; constructor; auto. Qed.

Lemma refine_doc t j : gdoc str num1 t j -> gdoc str num2 t j.
Proof. intros [w1 t' w2 v H1 H2 H3]. constructor; auto. now apply refine_grammar. Qed.
End Refine.

Lemma p_num_syntax t d : p_num t d -> p_syntax t d.
Proof. intros (neg & ip & fp & ex & H & _). exists neg, ip, fp, ex. exact H. Qed.

Lemma p_syntax_num t d : p_syntax t d -> exists d', p_num t d'.
Proof. intros (neg & ip & fp & ex & H). eexists. exists neg, ip, fp, ex. split; [exact H|reflexivity]. Qed.
