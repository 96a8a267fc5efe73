(** * The supported language is unambiguous. *)

From Verif Require Import Base TextModel NumModel MapModel ParserModel SpecUtf8 SpecNum SpecMap SpecGrammar SpecMeaning
  TextProofs MapProofs StrtodProofs RoundProofs LexProofs ParserProofs RootProofs.

Lemma lib_num_last t d : lib_num t d -> exists a c, t = a ++ [c] /\ float_char c.
Proof.
  intros H. destruct H as [sg neg w run pre suf n m e d Hsg Hw Hsw Hrun _ _ E Hd _ _].
  destruct (decimal_nonempty _ _ _ _ Hd) as (c & Hc & _).
  destruct (@exists_last _ run) as (a & x & ->).
  { rewrite E. intros E0. apply app_eq_nil in E0. destruct E0 as [-> _]. destruct Hc. }
  exists (sg ++ w ++ a), x. split; [now rewrite !app_assoc|].
  apply Forall_app in Hrun. destruct Hrun as [_ Hx]. now inversion Hx.
Qed.

Lemma ws_rev w : ws w -> ws (rev w).
Proof. apply Forall_rev. Qed.

Lemma trim_unique t w t' w' : t ++ w = t' ++ w' -> ws w -> ws w' ->
  (exists a c, t = a ++ [c] /\ ~ wsc c) -> (exists a c, t' = a ++ [c] /\ ~ wsc c) -> t = t' /\ w = w'.
Proof.
  intros E Hw Hw' (a & c & -> & Hc) (a' & c' & -> & Hc').
  apply (f_equal (@rev Z)) in E. rewrite !rev_app_distr in E. simpl in E.
  apply ws_unique in E; auto using ws_rev; [|now apply nonws_cons|now apply nonws_cons].
  destruct E as [E1 E2]. injection E2 as -> E2.
  apply (f_equal (@rev Z)) in E1. apply (f_equal (@rev Z)) in E2. rewrite !rev_involutive in *. subst. auto.
Qed.

Lemma lib_num_unique t d w rest t' d' w' rest' : lib_num t d -> lib_num t' d' -> ws w -> ws w' ->
  nonws_head rest -> nonws_head rest' -> nonfloat_head (w ++ rest) -> nonfloat_head (w' ++ rest') ->
  t ++ w ++ rest = t' ++ w' ++ rest' -> t = t' /\ d = d'.
Proof.
  intros H H' Hw Hw' Hr Hr' Hf Hf' E.
  pose proof (number_parse_complete t d w rest H Hw Hr Hf) as P.
  pose proof (number_parse_complete t' d' w' rest' H' Hw' Hr' Hf') as P'.
  rewrite E in P. rewrite P in P'. injection P' as -> ->.
  rewrite !app_assoc in E. apply app_inv_tail in E.
  destruct (lib_num_last _ _ H) as (a & c & Ea & Hc). destruct (lib_num_last _ _ H') as (a' & c' & Ea' & Hc').
  apply trim_unique in E; auto; [split; tauto| |]; do 2 eexists; split; eauto; now apply float_not_ws.
Qed.

Definition uval (t : list Z) (j : jv) : Prop :=
  forall t' j' w rest w' rest', lib_val t' j' -> ws w -> ws w' -> nonws_head rest -> nonws_head rest' ->
    nonfloat_head (w ++ rest) -> nonfloat_head (w' ++ rest') ->
    t ++ w ++ rest = t' ++ w' ++ rest' -> t = t' /\ j = j'.

Definition uelems (t : list Z) (l : list jv) : Prop :=
  forall t' l' rest rest', gelems lib_str lib_num t' l' -> t ++ 93 :: rest = t' ++ 93 :: rest' -> t = t' /\ l = l'.

Definition umembers (t : list Z) (l : list (list Z * jv)) : Prop :=
  forall t' l' rest rest', gmembers lib_str lib_num t' l' -> t ++ 125 :: rest = t' ++ 125 :: rest' -> t = t' /\ l = l'.

Lemma gelems_head t l : gelems lib_str lib_num t l -> exists w c r, t = w ++ c :: r /\ ws w /\ ~ wsc c /\ c <> 93.
Proof.
  intros H; inversion H as [w1 t0 w2 v H1 H2 H3|w1 t0 w2 v t' l' H1 H2 H3 H4]; subst;
    destruct (gval_head _ _ H2) as (c & r & -> & Hc & H93 & _); exists w1, c; eexists; (split; [flat|auto]).
Qed.

Lemma gmembers_head t l : gmembers lib_str lib_num t l -> exists w r, t = w ++ 34 :: r /\ ws w.
Proof. intros H; inversion H; subst; do 2 eexists; (split; [reflexivity|auto]). Qed.

(** A value against a value that starts with another character. *)
Ltac other_head E :=
  match type of E with
  | _ = ?t' ++ _ =>
    match goal with
    | H : lib_num t' _ |- _ =>
        let x := fresh in let y := fresh in let Hx := fresh in
        destruct (lib_num_head _ _ H) as (x & y & -> & Hx); exfalso; simpl in E; injection E; intros; subst;
        unfold float_char, digit in Hx; lia
    end
  end.

Lemma unambiguous :
  (forall t j, lib_val t j -> uval t j) /\
  (forall t l, gelems lib_str lib_num t l -> uelems t l) /\
  (forall t l, gmembers lib_str lib_num t l -> umembers t l).
Proof.
  cut ((forall t j, lib_val t j -> lib_val t j /\ uval t j) /\
  (forall t l, gelems lib_str lib_num t l -> gelems lib_str lib_num t l /\ uelems t l) /\
  (forall t l, gmembers lib_str lib_num t l -> gmembers lib_str lib_num t l /\ umembers t l)).
  { intros (H1 & H2 & H3). split; [|split]; intros; [apply H1|apply H2|apply H3]; auto. }
  unfold lib_val.
  apply (grammar_mind lib_str lib_num
    (fun t j => gval lib_str lib_num t j /\ uval t j)
    (fun t l => gelems lib_str lib_num t l /\ uelems t l)
    (fun t l => gmembers lib_str lib_num t l /\ umembers t l)).
  - intros t s Hs. split; [now constructor|]. intros t' j' w rest w' rest' Hv Hw Hw' Hr Hr' Hf Hf' E.
    destruct Hv; try (simpl in E; discriminate); try other_head E.
    simpl in E. injection E as E. rewrite <- !app_assoc in E. simpl in E.
    destruct (lib_str_unique _ _ _ _ _ _ Hs H E) as (-> & -> & _). auto.
  - intros t d Hd. split; [now constructor|]. intros t' j' w rest w' rest' Hv Hw Hw' Hr Hr' Hf Hf' E.
    destruct Hv; try (symmetry in E; other_head E).
    destruct (lib_num_unique t d w rest _ _ w' rest' Hd H) as [-> ->]; auto.
  - split; [constructor|]. intros t' j' w rest w' rest' Hv Hw Hw' Hr Hr' Hf Hf' E.
    destruct Hv; try (simpl in E; discriminate); try other_head E. auto.
  - split; [constructor|]. intros t' j' w rest w' rest' Hv Hw Hw' Hr Hr' Hf Hf' E.
    destruct Hv; try (simpl in E; discriminate); try other_head E. auto.
  - split; [constructor|]. intros t' j' w rest w' rest' Hv Hw Hw' Hr Hr' Hf Hf' E.
    destruct Hv; try (simpl in E; discriminate); try other_head E. auto.
  - intros w0 Hw0. split; [now constructor|]. intros t' j' w rest w' rest' Hv Hw Hw' Hr Hr' Hf Hf' E.
    destruct Hv; try (simpl in E; discriminate); try other_head E; simpl in E; injection E as E; rewrite <- !app_assoc in E; simpl in E.
    + apply ws_unique in E; auto; try (apply nonws_cons; notws). destruct E as [-> _]. auto.
    + destruct (gelems_head _ _ H) as (w1 & c & r & -> & Hw1 & Hc & H93).
      rewrite <- app_assoc in E. simpl in E.
      apply ws_unique in E; auto; try (apply nonws_cons; auto; notws). destruct E as [_ E]. congruence.
  - intros t l _ [Hg IH]. split; [now constructor|]. intros t' j' w rest w' rest' Hv Hw Hw' Hr Hr' Hf Hf' E.
    destruct Hv; try (simpl in E; discriminate); try other_head E; simpl in E; injection E as E; rewrite <- !app_assoc in E; simpl in E.
    + destruct (gelems_head _ _ Hg) as (w1 & c & r & -> & Hw1 & Hc & H93).
      rewrite <- app_assoc in E. simpl in E.
      apply ws_unique in E; auto; try (apply nonws_cons; auto; notws). destruct E as [_ E]. congruence.
    + destruct (IH _ _ _ _ H E) as [-> ->]. auto.
  - intros w0 Hw0. split; [now constructor|]. intros t' j' w rest w' rest' Hv Hw Hw' Hr Hr' Hf Hf' E.
    destruct Hv; try (simpl in E; discriminate); try other_head E; simpl in E; injection E as E; rewrite <- !app_assoc in E; simpl in E.
    + apply ws_unique in E; auto; try (apply nonws_cons; notws). destruct E as [-> _]. auto.
    + destruct (gmembers_head _ _ H) as (w1 & r & -> & Hw1).
      rewrite <- app_assoc in E. simpl in E.
      apply ws_unique in E; auto; try (apply nonws_cons; auto; notws). destruct E as [_ E]. discriminate.
  - intros t l _ [Hg IH]. split; [now constructor|]. intros t' j' w rest w' rest' Hv Hw Hw' Hr Hr' Hf Hf' E.
    destruct Hv; try (simpl in E; discriminate); try other_head E; simpl in E; injection E as E; rewrite <- !app_assoc in E; simpl in E.
    + destruct (gmembers_head _ _ Hg) as (w1 & r & -> & Hw1).
      rewrite <- app_assoc in E. simpl in E.
      apply ws_unique in E; auto; try (apply nonws_cons; auto; notws). destruct E as [_ E]. discriminate.
    + destruct (IH _ _ _ _ H E) as [-> ->]. auto.
  - intros w1 t w2 v Hw1 _ [Hg IH] Hw2. split; [now constructor|]. intros t' l' rest rest' Hl E.
    inversion Hl as [w1' s w2' v' Hw1' Hg' Hw2'|w1' s w2' v' s' l0 Hw1' Hg' Hw2' Hs']; subst; rewrite <- !app_assoc in E.
    + apply ws_unique in E; auto; try (eapply value_head; eauto). destruct E as [-> E].
      destruct (IH s v' w2 (93 :: rest) w2' (93 :: rest')) as [-> ->]; auto; try (apply nonws_cons; notws); try (apply nonfloat_follow; auto; notfloat).
      apply app_inv_head in E. apply ws_unique in E; auto; try (apply nonws_cons; notws). destruct E as [-> _]. auto.
    + apply ws_unique in E; auto; try (eapply value_head; eauto). destruct E as [-> E]. simpl in E.
      destruct (IH s v' w2 (93 :: rest) w2' (44 :: s' ++ 93 :: rest')) as [-> ->]; auto; try (apply nonws_cons; notws); try (apply nonfloat_follow; auto; notfloat).
      apply app_inv_head in E. apply ws_unique in E; auto; try (apply nonws_cons; notws). destruct E as [_ E]. discriminate.
  - intros w1 t w2 v t2 l Hw1 _ [Hg IH] Hw2 _ [Hg2 IH2]. split; [now constructor|]. intros t' l' rest rest' Hl E.
    inversion Hl as [w1' s w2' v' Hw1' Hg' Hw2'|w1' s w2' v' s' l0 Hw1' Hg' Hw2' Hs']; subst; rewrite <- !app_assoc in E; simpl in E.
    + apply ws_unique in E; auto; try (eapply value_head; eauto). destruct E as [-> E].
      destruct (IH s v' w2 (44 :: t2 ++ 93 :: rest) w2' (93 :: rest')) as [-> ->]; auto; try (apply nonws_cons; notws); try (apply nonfloat_follow; auto; notfloat).
      apply app_inv_head in E. apply ws_unique in E; auto; try (apply nonws_cons; notws). destruct E as [_ E]. discriminate.
    + apply ws_unique in E; auto; try (eapply value_head; eauto). destruct E as [-> E]. simpl in E.
      destruct (IH s v' w2 (44 :: t2 ++ 93 :: rest) w2' (44 :: s' ++ 93 :: rest')) as [-> ->]; auto; try (apply nonws_cons; notws); try (apply nonfloat_follow; auto; notfloat).
      apply app_inv_head in E. apply ws_unique in E; auto; try (apply nonws_cons; notws). destruct E as [-> E]. injection E as E.
      destruct (IH2 _ _ _ _ Hs' E) as [-> ->]. auto.
  - intros w1 n nm w2 w3 t w4 v Hw1 Hs Hw2 Hw3 _ [Hg IH] Hw4. split; [now constructor|]. intros t' l' rest rest' Hl E.
    inversion Hl as [w1' n' nm' w2' w3' s w4' v' Hw1' Hn' Hw2' Hw3' Hg' Hw4'|w1' n' nm' w2' w3' s w4' v' s' l0 Hw1' Hn' Hw2' Hw3' Hg' Hw4' Hs']; subst.
    + replace ((w1 ++ 34 :: n ++ 34 :: w2 ++ 58 :: w3 ++ t ++ w4) ++ 125 :: rest) with (w1 ++ 34 :: n ++ 34 :: w2 ++ 58 :: w3 ++ t ++ w4 ++ 125 :: rest) in E by flat.
      replace ((w1' ++ 34 :: n' ++ 34 :: w2' ++ 58 :: w3' ++ s ++ w4') ++ 125 :: rest') with (w1' ++ 34 :: n' ++ 34 :: w2' ++ 58 :: w3' ++ s ++ w4' ++ 125 :: rest') in E by flat.
      apply ws_unique in E; auto; try (apply nonws_cons; notws). destruct E as [-> E]. injection E as E.
      destruct (lib_str_unique _ _ _ _ _ _ Hs Hn' E) as (-> & -> & E2).
      apply ws_unique in E2; auto; try (apply nonws_cons; notws). destruct E2 as [-> E2]. injection E2 as E2.
      apply ws_unique in E2; auto; try (eapply value_head; eauto). destruct E2 as [-> E2].
      destruct (IH s v' w4 (125 :: rest) w4' (125 :: rest')) as [-> ->]; auto; try (apply nonws_cons; notws); try (apply nonfloat_follow; auto; notfloat).
      apply app_inv_head in E2. apply ws_unique in E2; auto; try (apply nonws_cons; notws). destruct E2 as [-> _]. auto.
    + replace ((w1 ++ 34 :: n ++ 34 :: w2 ++ 58 :: w3 ++ t ++ w4) ++ 125 :: rest) with (w1 ++ 34 :: n ++ 34 :: w2 ++ 58 :: w3 ++ t ++ w4 ++ 125 :: rest) in E by flat.
      replace ((w1' ++ 34 :: n' ++ 34 :: w2' ++ 58 :: w3' ++ s ++ w4' ++ 44 :: s') ++ 125 :: rest') with (w1' ++ 34 :: n' ++ 34 :: w2' ++ 58 :: w3' ++ s ++ w4' ++ 44 :: s' ++ 125 :: rest') in E by flat.
      apply ws_unique in E; auto; try (apply nonws_cons; notws). destruct E as [-> E]. injection E as E.
      destruct (lib_str_unique _ _ _ _ _ _ Hs Hn' E) as (-> & -> & E2).
      apply ws_unique in E2; auto; try (apply nonws_cons; notws). destruct E2 as [-> E2]. injection E2 as E2.
      apply ws_unique in E2; auto; try (eapply value_head; eauto). destruct E2 as [-> E2].
      destruct (IH s v' w4 (125 :: rest) w4' (44 :: s' ++ 125 :: rest')) as [-> ->]; auto; try (apply nonws_cons; notws); try (apply nonfloat_follow; auto; notfloat).
      apply app_inv_head in E2. apply ws_unique in E2; auto; try (apply nonws_cons; notws). destruct E2 as [_ E2]. discriminate.
  - intros w1 n nm w2 w3 t w4 v t2 l Hw1 Hs Hw2 Hw3 _ [Hg IH] Hw4 _ [Hg2 IH2]. split; [now constructor|]. intros t' l' rest rest' Hl E.
    inversion Hl as [w1' n' nm' w2' w3' s w4' v' Hw1' Hn' Hw2' Hw3' Hg' Hw4'|w1' n' nm' w2' w3' s w4' v' s' l0 Hw1' Hn' Hw2' Hw3' Hg' Hw4' Hs']; subst.
    + replace ((w1 ++ 34 :: n ++ 34 :: w2 ++ 58 :: w3 ++ t ++ w4 ++ 44 :: t2) ++ 125 :: rest) with (w1 ++ 34 :: n ++ 34 :: w2 ++ 58 :: w3 ++ t ++ w4 ++ 44 :: t2 ++ 125 :: rest) in E by flat.
      replace ((w1' ++ 34 :: n' ++ 34 :: w2' ++ 58 :: w3' ++ s ++ w4') ++ 125 :: rest') with (w1' ++ 34 :: n' ++ 34 :: w2' ++ 58 :: w3' ++ s ++ w4' ++ 125 :: rest') in E by flat.
      apply ws_unique in E; auto; try (apply nonws_cons; notws). destruct E as [-> E]. injection E as E.
      destruct (lib_str_unique _ _ _ _ _ _ Hs Hn' E) as (-> & -> & E2).
      apply ws_unique in E2; auto; try (apply nonws_cons; notws). destruct E2 as [-> E2]. injection E2 as E2.
      apply ws_unique in E2; auto; try (eapply value_head; eauto). destruct E2 as [-> E2].
      destruct (IH s v' w4 (44 :: t2 ++ 125 :: rest) w4' (125 :: rest')) as [-> ->]; auto; try (apply nonws_cons; notws); try (apply nonfloat_follow; auto; notfloat).
      apply app_inv_head in E2. apply ws_unique in E2; auto; try (apply nonws_cons; notws). destruct E2 as [_ E2]. discriminate.
    + replace ((w1 ++ 34 :: n ++ 34 :: w2 ++ 58 :: w3 ++ t ++ w4 ++ 44 :: t2) ++ 125 :: rest) with (w1 ++ 34 :: n ++ 34 :: w2 ++ 58 :: w3 ++ t ++ w4 ++ 44 :: t2 ++ 125 :: rest) in E by flat.
      replace ((w1' ++ 34 :: n' ++ 34 :: w2' ++ 58 :: w3' ++ s ++ w4' ++ 44 :: s') ++ 125 :: rest') with (w1' ++ 34 :: n' ++ 34 :: w2' ++ 58 :: w3' ++ s ++ w4' ++ 44 :: s' ++ 125 :: rest') in E by flat.
      apply ws_unique in E; auto; try (apply nonws_cons; notws). destruct E as [-> E]. injection E as E.
      destruct (lib_str_unique _ _ _ _ _ _ Hs Hn' E) as (-> & -> & E2).
      apply ws_unique in E2; auto; try (apply nonws_cons; notws). destruct E2 as [-> E2]. injection E2 as E2.
      apply ws_unique in E2; auto; try (eapply value_head; eauto). destruct E2 as [-> E2].
      destruct (IH s v' w4 (44 :: t2 ++ 125 :: rest) w4' (44 :: s' ++ 125 :: rest')) as [-> ->]; auto; try (apply nonws_cons; notws); try (apply nonfloat_follow; auto; notfloat).
      apply app_inv_head in E2. apply ws_unique in E2; auto; try (apply nonws_cons; notws). destruct E2 as [-> E2]. injection E2 as E2.
      destruct (IH2 _ _ _ _ Hs' E2) as [-> ->]. auto.
Qed.

Lemma lib_doc_unique t j j' : lib_doc t j -> lib_doc t j' -> j = j'.
Proof.
  intros H H'. destruct H as [w1 t w2 v H1 H2 H3].
  inversion H' as [w1' t' w2' v' H1' H2' H3' E]; subst.
  assert (E2 : (w1 ++ t ++ w2) ++ [0] = (w1' ++ t' ++ w2') ++ [0]) by congruence.
  rewrite <- !app_assoc in E2.
  apply ws_unique in E2; auto; try (eapply value_head; eauto). destruct E2 as [_ E2].
  destruct (proj1 unambiguous t v H2 t' j' w2 [0] w2' [0]) as [_ Hj]; auto;
    try (apply nonws_cons; notws); apply nonfloat_follow; auto; notfloat.
Qed.
