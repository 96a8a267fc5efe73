(** * The pointer heap refines the tree model: RemoveMapElement. *)

From Verif Require Import Base TextModel MapModel SpecMap MapProofs HeapModel HeapProofs HeapOps.

#[local] Arguments Z.eqb : simpl nomatch.
#[local] Arguments Z.ltb : simpl nomatch.

Fixpoint usize (up : list (frame nat)) : nat :=
  match up with
  | [] => 0
  | FL _ _ _ r :: up' => S (size r + usize up')
  | FR l _ _ _ :: up' => S (size l + usize up')
  end.

Lemma size_zip up : forall t : atree, size (zip t up) = (size t + usize up)%nat.
Proof. induction up as [|[] up IH]; intros t; simpl; [lia| |]; rewrite IH; simpl; lia. Qed.
Lemma usize_length up : (length up <= usize up)%nat.
Proof. induction up as [|[] up IH]; simpl; lia. Qed.

(** Where an element is. *)
Lemma locate (t : atree) k a : In (k, a) (elements t) -> forall up, exists l b r up', zip t up = zip (Node l k a b r) up'.
Proof.
  induction t as [|l IHl k0 a0 b0 r IHr]; intros H up; [destruct H|]. simpl in H. rewrite in_app_iff in H. simpl in H.
  destruct H as [H|[H|H]].
  - apply (IHl H (FL k0 a0 b0 r :: up)).
  - injection H as -> ->. exists l, b0, r, up. reflexivity.
  - apply (IHr H (FR l k0 a0 b0 :: up)).
Qed.

Lemma bst_zip_inner (up : list (frame nat)) : forall t, bst (zip t up) -> good_keys (zip t up) -> bst t /\ good_keys t.
Proof.
  induction up as [|[k v b r|l k v b] up IH]; intros t Hb Hg; simpl in *; [auto| |];
    destruct (IH _ Hb Hg) as [B G]; apply bst_node in B; apply good_keys_node in G; tauto.
Qed.

Lemma replace_zip (up : list (frame nat)) k tk tv : good_key k -> forall t, bst (zip t up) -> good_keys (zip t up) ->
  In k (keys t) -> replace_node (zip t up) k tk tv = zip (replace_node t k tk tv) up.
Proof.
  intros Hk. induction up as [|[k2 v b r|l k2 v b] up IH]; intros t Hb Hg Hin; [reflexivity| |]; simpl zip in *;
  destruct (bst_zip_inner up _ Hb Hg) as [B G]; apply bst_node in B; apply good_keys_node in G;
  destruct B as (_ & _ & B1 & B2); destruct G as (_ & G & _);
  (rewrite IH; [|exact Hb|exact Hg|rewrite keys_node, in_app_iff; simpl; tauto]); simpl replace_node.
  - apply B1 in Hin. rewrite (proj2 (text_lt_lex k k2 Hk G) Hin). reflexivity.
  - apply B2 in Hin. destruct (text_lt_cases k k2 Hk G) as [(HL & E)|[(HE & E1 & E2)|(HL & E1 & E2)]].
    + exfalso. apply (lex_irrefl k). eapply lex_trans; eauto.
    + exfalso. subst. eapply lex_irrefl; eauto.
    + rewrite E1, E2. reflexivity.
Qed.

Lemma replace_here (l : atree) k a b r up tk tv : bst (zip (Node l k a b r) up) -> good_keys (zip (Node l k a b r) up) ->
  replace_node (zip (Node l k a b r) up) k tk tv = zip (Node l tk tv b r) up.
Proof.
  intros Hb Hg. destruct (bst_zip_inner up _ Hb Hg) as [B G]. apply good_keys_node in G. destruct G as (_ & G & _).
  rewrite replace_zip; auto; [|rewrite keys_node, in_app_iff; simpl; tauto].
  simpl. destruct (text_lt_cases k k G G) as [(HL & E)|[(HE & E1 & E2)|(HL & E1 & E2)]].
  - exfalso. eapply lex_irrefl; eauto.
  - rewrite E1. reflexivity.
  - exfalso. eapply lex_irrefl; eauto.
Qed.

(** The first half of the removal of an element with two subnodes. *)
Lemma remove_two (L R : atree) k a b up rl rk ra rb rr : L <> Leaf -> R = Node rl rk ra rb rr -> wf_map (zip (Node L k a b R) up) ->
  exists tk ta tb tr tup t1, get_first R (FR L k a b :: up) = (Node Leaf tk ta tb tr, tup) /\
    zip (Node Leaf tk ta tb tr) tup = zip (Node L k a b R) up /\
    remove_up tr tup = Ret t1 /\ In (k, a) (elements t1) /\ bst t1 /\ good_keys t1 /\
    remove_map_element (Node L k a b R, up) = Ret (replace_node t1 k tk ta).
Proof.
  intros HL ER (Ha & Hb & Hg).
  destruct (get_first_spec R (FR L k a b :: up) rl rk ra rb rr ER) as (tk & tv & tb & tr & tup & H1 & H2 & H3 & H4).
  simpl in H2, H3, H4.
  assert (Hc2 : avl (zip (Node Leaf tk tv tb tr) tup)) by (rewrite H2; exact Ha).
  apply avl_zip_ctx in Hc2. destruct Hc2 as [Ht Htc]. simpl in Ht. destruct Ht as (_ & Htr & Etb & Rtb).
  pose proof (height_nonneg tr).
  destruct (remove_up_ok tup tr) as (t1 & K1 & K2 & K3); auto.
  { simpl in Htc. match goal with |- ctx_ok _ ?x => match type of Htc with ctx_ok _ ?y => replace x with y by lia end end. auto. }
  assert (E0 : elements (zip (Node L k a b R) up) = (before up ++ elements L ++ [(k, a)]) ++ (tk, tv) :: (elements tr ++ after tup)).
  { rewrite elements_zip. simpl. rewrite H4, <- !app_assoc. simpl. rewrite <- ?app_assoc. reflexivity. }
  assert (E1 : elements t1 = (before up ++ elements L ++ [(k, a)]) ++ (elements tr ++ after tup)).
  { rewrite K3, H3, <- !app_assoc. reflexivity. }
  unfold bst, good_keys, keys in Hb, Hg. rewrite E0, map_app in Hb, Hg. simpl in Hb, Hg.
  apply increasing_app in Hb. destruct Hb as (I1 & [I2 I2'] & I3).
  apply Forall_app in Hg. destruct Hg as [G1 G2]. apply Forall_inv_tail in G2.
  exists tk, tv, tb, tr, tup, t1. split; [exact H1|]. split; [exact H2|]. split; [exact K1|]. split.
  { rewrite E1, !in_app_iff. simpl. tauto. }
  split. { unfold bst, keys. rewrite E1, map_app. apply increasing_app. split; [exact I1|]. split; [exact I2'|].
    intros; apply I3; auto. now right. }
  split. { unfold good_keys, keys. rewrite E1, map_app. apply Forall_app. auto. }
  destruct L as [|ll lk lv lb lr]; [congruence|]. cbn [remove_map_element]. rewrite H1. unfold remove_branch_node. rewrite K1, ER. reflexivity.
Qed.

Lemma unlink_ok s a x : mem s a = Some x ->
  exists s', h_unlink s a = Ret s' /\ mem s' a = Some (N None None None None (nbal x) (nkey x)) /\
    (forall y, y <> a -> mem s' y = mem s y) /\ root s' = root s.
Proof.
  intros M. unfold h_unlink. fields. hstep. eexists. split; [reflexivity|]. split; [mem_goal|]. split.
  - intros y Hy. assert (a <> y) by congruence. mem_goal.
  - reflexivity.
Qed.

Lemma at_ext s s' mp t up : (forall x, (0 < tcnt x t + ucnt x up)%nat -> mem s' x = mem s x) -> root s' mp = root s mp ->
  at_ s mp t up -> at_ s' mp t up.
Proof.
  intros E Er (H1 & H2 & H3 & H4). split; [congruence|]. split; [|split; [|exact H4]].
  - eapply repr_ext; [|exact H2]. intros x Hx. apply E. lia.
  - eapply repr_up_ext; [|exact H3]. intros x Hx. apply E. lia.
Qed.

(** RemoveMapElement: the map becomes the tree of the tree model and the element
    has no links. *)
Lemma remove_ok s mp l k a b r up n t : at_ s mp (Node l k a b r) up -> wf_map (zip (Node l k a b r) up) ->
  (size (zip (Node l k a b r) up) <= n)%nat -> remove_map_element (Node l k a b r, up) = Ret t ->
  exists s' b', h_remove n s mp a = Ret s' /\ at_ s' mp t [] /\ mem s' a = Some (N None None None None b' k) /\
    frame_ s s' mp (fun x => (tcnt x (Node l k a b r) + ucnt x up)%nat) /\
    (forall x, tcnt x t + one a x = tcnt x (Node l k a b r) + ucnt x up)%nat.
Proof.
  intros H Hwf Hn E. pose proof H as H0. open_at H0. simpl in Hrep. destruct Hrep as (Ma & Hl & Hr).
  rewrite size_zip in Hn. pose proof (usize_length up) as Hlen.
  assert (Ua : (tcnt a l + tcnt a r + ucnt a up = 0)%nat) by (clear - Huniq; uniq Huniq a; lia).
  assert (One : forall sub, (l = Leaf /\ sub = r) \/ (r = Leaf /\ sub = l) -> remove_up sub up = Ret t ->
    exists s' b', bind (h_remove_branch n s mp a (addr sub)) (fun s => h_unlink s a) = Ret s' /\ at_ s' mp t [] /\
      mem s' a = Some (N None None None None b' k) /\
      frame_ s s' mp (fun x => (tcnt x (Node l k a b r) + ucnt x up)%nat) /\
      (forall x, tcnt x t + one a x = tcnt x (Node l k a b r) + ucnt x up)%nat).
  { intros sub Hsub Er.
    destruct (remove_branch_ok s mp l k a b r up sub n t Hsub ltac:(simpl in Hn; lia) H Er) as (s1 & K1 & K2 & [K3 K3'] & K4).
    assert (Cs : forall x, (tcnt x (Node l k a b r) = tcnt x sub + one a x)%nat).
    { intros x. destruct Hsub as [[-> ->]|[-> ->]]; simpl; lia. }
    assert (Ma1 : mem s1 a = Some (N (addr l) (addr r) (sup up) (Some mp) b k)).
    { rewrite K3; [exact Ma|]. specialize (Cs a). simpl in Cs. destruct Hsub as [[-> ->]|[-> ->]]; simpl in *; lia. }
    rewrite K1. cbn [bind]. destruct (unlink_ok s1 a _ Ma1) as (s2 & U1 & U2 & U3 & U4).
    assert (Ct : tcnt a t = 0%nat). { rewrite K4. destruct Hsub as [[-> ->]|[-> ->]]; simpl in *; lia. }
    exists s2, b. split; [exact U1|]. split.
    { apply (at_ext s1); [|now rewrite U4|exact K2]. intros x Hx. apply U3. intros ->. simpl in Hx. lia. }
    split; [exact U2|]. split; [split|].
    - intros x Hx. rewrite Cs in Hx. rewrite U3; [apply K3; lia|]. intros ->. unfold one in Hx. rewrite Nat.eqb_refl in Hx. lia.
    - intros q Hq. rewrite U4. auto.
    - intros x. rewrite K4, Cs. lia. }
  unfold h_remove. hstep.
  destruct l as [|ll lk la lb lr].
  { cbn [addr]. assert (Er : remove_up r up = Ret t) by (destruct r; exact E). destruct (One r (or_introl (conj eq_refl eq_refl)) Er) as (s' & b' & K & R).
    exists s', b'. split; [|exact R]. destruct r; exact K. }
  destruct r as [|rl rk ra rb rr].
  { cbn [addr]. destruct (One _ (or_intror (conj eq_refl eq_refl)) E) as (s' & b' & K & R). exists s', b'. split; [exact K|exact R]. }
  clear One. cbn [addr]. set (L := Node ll lk la lb lr) in *.
  remember (Node rl rk ra rb rr) as R eqn:ER.
  destruct (remove_two L R k a b up rl rk ra rb rr ltac:(discriminate) ER Hwf)
    as (tk & ta & tb & tr & tup & t1 & F1 & F2 & F3 & F4 & F5 & F6 & F7).
  rewrite F7 in E. injection E as <-.
  assert (HnR : (size R <= n)%nat) by (clear - Hn; simpl in Hn; lia).
  rewrite (first_ok mp R s (FR L k a b :: up) n _ _ _ _ _ _ _ _ _ _ _ ER HnR Hr F1). cbn [bind].
  assert (Ht : at_ s mp (Node Leaf tk ta tb tr) tup).
  { apply at_zip. rewrite F2. apply (proj1 (at_zip _ _ _ _)). exact H. }
  assert (Htup : (length tup <= n)%nat).
  { pose proof (usize_length tup). pose proof (f_equal size F2) as Es. rewrite !size_zip in Es. clear - H0 Es Hn. simpl in *. lia. }
  pose proof Ht as H0. open_at H0. cbn [repr] in Hrep. destruct Hrep as (Mt & _ & Htr).
  assert (Cz : forall x, (tcnt x tr + one ta x + ucnt x tup = tcnt x (Node L k a b R) + ucnt x up)%nat).
  { intros x. pose proof (f_equal (tcnt x) F2) as Ez. rewrite !tcnt_zip in Ez. simpl tcnt at 1 in Ez. lia. }
  rewrite (get_mem _ _ _ Mt). cbn [bind nright].
  destruct (remove_branch_ok s mp Leaf tk ta tb tr tup tr n t1 (or_introl (conj eq_refl eq_refl)) Htup Ht F3)
    as (s1 & K1 & K2 & [K3 K3'] & K4).
  rewrite K1. cbn [bind].
  assert (Ct : (tcnt ta tr + ucnt ta tup = 0)%nat) by (clear - Huniq0; uniq Huniq0 ta; lia).
  assert (Mt1 : mem s1 ta = Some (N None (addr tr) (sup tup) (Some mp) tb tk)) by (rewrite K3; [exact Mt|exact Ct]).
  destruct (locate t1 k a F4 []) as (l1 & b1 & r1 & up1 & Et1). simpl zip at 1 in Et1.
  assert (Ha1 : at_ s1 mp (Node l1 k a b1 r1) up1). { apply at_zip. rewrite <- Et1. exact K2. }
  assert (Cz1 : forall x, (tcnt x (Node l1 k a b1 r1) + ucnt x up1 = tcnt x tr + ucnt x tup)%nat).
  { intros x. rewrite <- K4, Et1, tcnt_zip. reflexivity. }
  destruct (substitute_ok s1 mp l1 k a b1 r1 up1 ta _ _ _ _ _ Ha1 Mt1) as (s2 & y & S1 & S2 & S3 & S4 & S5 & [S6 S7]).
  { rewrite Cz1. exact Ct. }
  change (exists s' b', bind (substitute s1 mp a ta) (fun s => h_unlink s a) = Ret s' /\
    at_ s' mp (replace_node t1 k tk ta) [] /\ mem s' a = Some (N None None None None b' k) /\
    frame_ s s' mp (fun x => (tcnt x (Node L k a b R) + ucnt x up)%nat) /\
    (forall x, tcnt x (replace_node t1 k tk ta) + one a x = tcnt x (Node L k a b R) + ucnt x up)%nat).
  rewrite S1. cbn [bind]. destruct (unlink_ok s2 a _ S3) as (s3 & U1 & U2 & U3 & U4).
  assert (Er : replace_node t1 k tk ta = zip (Node l1 tk ta b1 r1) up1).
  { rewrite Et1. apply replace_here; rewrite <- Et1; assumption. }
  assert (Ce : forall x, (tcnt x (replace_node t1 k tk ta) + one a x = tcnt x (Node L k a b R) + ucnt x up)%nat).
  { intros x. rewrite Er, tcnt_zip, <- Cz. specialize (Cz1 x). simpl in *. lia. }
  exists s3, (nbal y). split; [exact U1|]. split.
  { rewrite Er. apply (proj1 (at_zip _ _ _ _)). apply (at_ext s2); [|now rewrite U4|exact S2].
    intros x Hx. apply U3. intros ->. specialize (Ce a). rewrite Er, tcnt_zip in Ce. simpl in Ce, Hx.
    specialize (Huniq a). simpl in Huniq. unfold one in *. rewrite Nat.eqb_refl in *. lia. }
  split; [rewrite U2, S5; reflexivity|]. split; [split|exact Ce].
  - intros x Hx. rewrite <- Cz in Hx. rewrite U3.
    + rewrite S6; [apply K3; lia|]. specialize (Cz1 x). lia.
    + intros ->. specialize (Cz a). simpl in Cz. unfold one in *. rewrite Nat.eqb_refl in *. lia.
  - intros q Hq. rewrite U4, S7, K3'; auto.
Qed.
