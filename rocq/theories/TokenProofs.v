(** * Token sequences and the grammar describe the same documents. *)

From Verif Require Import Base SpecUtf8 SpecNum SpecGrammar SpecTokens LexProofs ParserProofs.

Lemma layout_app a b t : layout (a ++ b) t -> exists t1 t2, t = t1 ++ t2 /\ layout a t1 /\ layout b t2.
Proof.
  revert t. induction a as [|tk a IH]; simpl; intros t H.
  - exists [], t. repeat split; auto. constructor. constructor.
  - inversion H as [|w ? ? t' Hw Ht]; subst. destruct (IH _ Ht) as (t1 & t2 & -> & H1 & H2).
    exists (w ++ tk ++ t1), t2. split; [flat|]. split; [now constructor|auto].
Qed.

Lemma layout_join a b t1 t2 : layout a t1 -> layout b t2 -> layout (a ++ b) (t1 ++ t2).
Proof.
  induction 1 as [w Hw|w tk tks t Hw Ht IH]; intros H2; simpl.
  - destruct H2 as [w2 Hw2|w2 tk tks t Hw2 Ht].
    + constructor. apply Forall_app; auto.
    + rewrite app_assoc. constructor; auto. apply Forall_app; auto.
  - replace ((w ++ tk ++ t) ++ t2) with (w ++ tk ++ (t ++ t2)) by flat. constructor; auto.
Qed.

Lemma layout_nil_inv t : layout [] t -> ws t.
Proof. intros H; inversion H; auto. Qed.

Lemma layout_cons_inv tk a t : layout (tk :: a) t -> exists w t', t = w ++ tk ++ t' /\ ws w /\ layout a t'.
Proof. intros H; inversion H; subst; eauto. Qed.

Lemma layout_one tk w1 w2 : ws w1 -> ws w2 -> layout [tk] (w1 ++ tk ++ w2).
Proof. intros; constructor; auto; now constructor. Qed.

(** White space in front of and behind a layout. *)
Lemma layout_ws_l a t w : ws w -> layout a t -> layout a (w ++ t).
Proof. intros Hw H. apply (layout_join [] a w t); auto. now constructor. Qed.
Lemma layout_ws_r a t w : ws w -> layout a t -> layout a (t ++ w).
Proof. intros Hw H. rewrite <- (app_nil_r a). apply layout_join; auto. now constructor. Qed.

Section T.
Variable str : list Z -> list Z -> Prop.
Variable num : list Z -> spec_float -> Prop.

Lemma ws_app w w' : ws w -> ws w' -> ws (w ++ w').
Proof. intros; apply Forall_app; auto. Qed.

Lemma tokens_text :
  (forall ts j, tval str num ts j -> forall t, layout ts t -> gdoc str num t j) /\
  (forall ts l, telems str num ts l -> forall t, layout ts t -> gelems str num t l) /\
  (forall ts l, tmembers str num ts l -> forall t, layout ts t -> gmembers str num t l).
Proof.
  assert (Hone : forall tk j, gval str num tk j -> forall t, layout [tk] t -> gdoc str num t j).
  { intros tk j Hg t H. apply layout_cons_inv in H. destruct H as (w & t' & -> & Hw & H).
    apply layout_nil_inv in H. now constructor. }
  apply (tokens_mind str num (fun ts j => forall t, layout ts t -> gdoc str num t j)
    (fun ts l => forall t, layout ts t -> gelems str num t l) (fun ts l => forall t, layout ts t -> gmembers str num t l)).
  - intros t s Hs. apply Hone. now constructor.
  - intros t s Hs. apply Hone. now constructor.
  - apply Hone. constructor.
  - apply Hone. constructor.
  - apply Hone. constructor.
  - intros t H. apply layout_cons_inv in H. destruct H as (w & t' & -> & Hw & H).
    apply layout_cons_inv in H. destruct H as (w' & t'' & -> & Hw' & H). apply layout_nil_inv in H.
    replace (w ++ [91] ++ w' ++ [93] ++ t'') with (w ++ (91 :: w' ++ [93]) ++ t'') by flat.
    constructor; auto. now constructor.
  - intros ts l _ IH t H. apply layout_cons_inv in H. destruct H as (w & t' & -> & Hw & H).
    apply layout_app in H. destruct H as (t1 & t2 & -> & H1 & H2).
    apply layout_cons_inv in H2. destruct H2 as (w' & t'' & -> & Hw' & H). apply layout_nil_inv in H.
    replace (w ++ [91] ++ t1 ++ w' ++ [93] ++ t'') with (w ++ (91 :: (t1 ++ w') ++ [93]) ++ t'') by flat.
    constructor; auto. constructor. apply IH. now apply layout_ws_r.
  - intros t H. apply layout_cons_inv in H. destruct H as (w & t' & -> & Hw & H).
    apply layout_cons_inv in H. destruct H as (w' & t'' & -> & Hw' & H). apply layout_nil_inv in H.
    replace (w ++ [123] ++ w' ++ [125] ++ t'') with (w ++ (123 :: w' ++ [125]) ++ t'') by flat.
    constructor; auto. now constructor.
  - intros ts l _ IH t H. apply layout_cons_inv in H. destruct H as (w & t' & -> & Hw & H).
    apply layout_app in H. destruct H as (t1 & t2 & -> & H1 & H2).
    apply layout_cons_inv in H2. destruct H2 as (w' & t'' & -> & Hw' & H). apply layout_nil_inv in H.
    replace (w ++ [123] ++ t1 ++ w' ++ [125] ++ t'') with (w ++ (123 :: (t1 ++ w') ++ [125]) ++ t'') by flat.
    constructor; auto. constructor. apply IH. now apply layout_ws_r.
  - intros ts v _ IH t H. apply IH in H. inversion H; subst. now constructor.
  - intros ts v ts' l _ IH _ IH' t H. apply layout_app in H. destruct H as (t1 & t2 & -> & H1 & H2).
    apply layout_cons_inv in H2. destruct H2 as (w' & t'' & -> & Hw' & H).
    apply IH in H1. apply IH' in H. inversion H1 as [w1 t w2 v0 E1 E2 E3]; subst.
    replace ((w1 ++ t ++ w2) ++ w' ++ [44] ++ t'') with (w1 ++ t ++ (w2 ++ w') ++ 44 :: t'') by flat.
    constructor; auto using ws_app.
  - intros n nm ts v Hn _ IH t H. apply layout_cons_inv in H. destruct H as (w & t' & -> & Hw & H).
    apply layout_cons_inv in H. destruct H as (w' & t'' & -> & Hw' & H). apply IH in H. inversion H as [w1 t w2 v0 E1 E2 E3]; subst.
    replace (w ++ (34 :: n ++ [34]) ++ w' ++ [58] ++ w1 ++ t ++ w2) with (w ++ 34 :: n ++ 34 :: w' ++ 58 :: w1 ++ t ++ w2) by flat.
    now constructor.
  - intros n nm ts v ts' l Hn _ IH _ IH' t H. apply layout_cons_inv in H. destruct H as (w & t' & -> & Hw & H).
    apply layout_cons_inv in H. destruct H as (w' & t'' & -> & Hw' & H).
    apply layout_app in H. destruct H as (t1 & t2 & -> & H1 & H2).
    apply layout_cons_inv in H2. destruct H2 as (w3 & t3 & -> & Hw3 & H).
    apply IH in H1. apply IH' in H. inversion H1 as [w1 t w2 v0 E1 E2 E3]; subst.
    replace (w ++ (34 :: n ++ [34]) ++ w' ++ [58] ++ (w1 ++ t ++ w2) ++ w3 ++ [44] ++ t3)
      with (w ++ 34 :: n ++ 34 :: w' ++ 58 :: w1 ++ t ++ (w2 ++ w3) ++ 44 :: t3) by flat.
    constructor; auto using ws_app.
Qed.

Lemma text_tokens :
  (forall t j, gval str num t j -> exists ts, tval str num ts j /\ layout ts t) /\
  (forall t l, gelems str num t l -> exists ts, telems str num ts l /\ layout ts t) /\
  (forall t l, gmembers str num t l -> exists ts, tmembers str num ts l /\ layout ts t).
Proof.
  assert (Hone : forall t, layout [t] t).
  { intros t. pose proof (layout_one t [] [] (Forall_nil _) (Forall_nil _)) as H. simpl in H. now rewrite app_nil_r in H. }
  assert (Hsur : forall a b ts t, layout ts t -> layout ([a] :: ts ++ [[b]]) (a :: t ++ [b])).
  { intros a b ts t H. pose proof (layout_join _ _ _ _ (Hone [a]) (layout_join _ _ _ _ H (Hone [b]))) as HH. exact HH. }
  apply (grammar_mind str num (fun t j => exists ts, tval str num ts j /\ layout ts t)
    (fun t l => exists ts, telems str num ts l /\ layout ts t) (fun t l => exists ts, tmembers str num ts l /\ layout ts t)).
  - intros t s Hs. exists [34 :: t ++ [34]]. split; [now constructor|auto].
  - intros t s Hs. exists [t]. split; [now constructor|auto].
  - eexists. split; [apply tv_true|auto].
  - eexists. split; [apply tv_false|auto].
  - eexists. split; [apply tv_null|auto].
  - intros w Hw. eexists. split; [apply tv_arr0|]. apply (Hsur 91 93 [] w). now constructor.
  - intros t l _ (ts & H1 & H2). exists ([91] :: ts ++ [[93]]). split; [now constructor|auto].
  - intros w Hw. eexists. split; [apply tv_obj0|]. apply (Hsur 123 125 [] w). now constructor.
  - intros t l _ (ts & H1 & H2). exists ([123] :: ts ++ [[125]]). split; [now constructor|auto].
  - intros w1 t w2 v Hw1 _ (ts & H1 & H2) Hw2. exists ts. split; [now constructor|]. apply layout_ws_l; auto. now apply layout_ws_r.
  - intros w1 t w2 v t' l Hw1 _ (ts & H1 & H2) Hw2 _ (ts' & H1' & H2'). exists (ts ++ [44] :: ts'). split; [now constructor|].
    apply layout_ws_l; auto. rewrite app_assoc. apply layout_join; [now apply layout_ws_r|].
    exact (layout_join _ _ _ _ (Hone [44]) H2').
  - intros w1 n nm w2 w3 t w4 v Hw1 Hn Hw2 Hw3 _ (ts & H1 & H2) Hw4.
    exists ((34 :: n ++ [34]) :: [58] :: ts). split; [now constructor|].
    replace (w1 ++ 34 :: n ++ 34 :: w2 ++ 58 :: w3 ++ t ++ w4) with (w1 ++ (34 :: n ++ [34]) ++ w2 ++ [58] ++ w3 ++ t ++ w4) by flat.
    constructor; auto. constructor; auto. apply layout_ws_l; auto. now apply layout_ws_r.
  - intros w1 n nm w2 w3 t w4 v t' l Hw1 Hn Hw2 Hw3 _ (ts & H1 & H2) Hw4 _ (ts' & H1' & H2').
    exists ((34 :: n ++ [34]) :: [58] :: ts ++ [44] :: ts'). split; [now constructor|].
    replace (w1 ++ 34 :: n ++ 34 :: w2 ++ 58 :: w3 ++ t ++ w4 ++ 44 :: t')
      with (w1 ++ (34 :: n ++ [34]) ++ w2 ++ [58] ++ w3 ++ (t ++ w4) ++ ([44] ++ t')) by flat.
    constructor; auto. constructor; auto. apply layout_ws_l; auto. apply layout_join; [now apply layout_ws_r|].
    exact (layout_join _ _ _ _ (Hone [44]) H2').
Qed.

Lemma doc_tokens t j : gdoc str num t j <-> exists ts, tval str num ts j /\ layout ts t.
Proof.
  split.
  - intros H. destruct H as [w1 t w2 v H1 H2 H3]. apply text_tokens in H2. destruct H2 as (ts & Ht & Hl).
    exists ts. split; [auto|]. apply layout_ws_l; auto. now apply layout_ws_r.
  - intros (ts & Ht & Hl). eapply tokens_text; eauto.
Qed.
End T.
