(** * Proofs about the AVL map model. *)

From Verif Require Import Base TextModel MapModel SpecMap.

(** ** The key comparison *)

Lemma text_lt_lex a b : good_key a -> good_key b -> (text_lt a b = true <-> lex_lt a b).
Proof.
  revert b. induction a as [|x a IH]; intros b Ha Hb; destruct b as [|y b]; simpl.
  - split; [discriminate|]. intros H; inversion H.
  - inversion Hb; subst. split; intros; [constructor|lia].
  - inversion Ha; subst. split; [lia|]. intros H; inversion H.
  - inversion Ha; inversion Hb; subst.
    destruct (Z.eqb_spec x y) as [->|Hne]; simpl.
    + replace (y =? 0) with false by lia.
      rewrite (IH b) by auto. split; intros H; [now constructor|].
      inversion H; subst; auto; lia.
    + split; intros H; [constructor; lia|].
      inversion H; subst; lia.
Qed.

Lemma text_lt_cases a b : good_key a -> good_key b ->
  (lex_lt a b /\ text_lt a b = true) \/
  (a = b /\ text_lt a b = false /\ text_lt b a = false) \/
  (lex_lt b a /\ text_lt a b = false /\ text_lt b a = true).
Proof.
  intros Ha Hb.
  pose proof (text_lt_lex a b Ha Hb) as H1. pose proof (text_lt_lex b a Hb Ha) as H2.
  destruct (lex_total a b) as [H|[H|H]].
  - left. split; tauto.
  - right; left. subst. assert (~ lex_lt b b) by apply lex_irrefl.
    destruct (text_lt b b); [tauto|auto].
  - right; right. repeat split; auto; [|tauto].
    destruct (text_lt a b) eqn:E; auto. exfalso.
    apply (lex_irrefl a). apply lex_trans with b; tauto.
Qed.

Ltac apps := simpl; repeat (progress (rewrite <- ?app_assoc; simpl)); reflexivity.

Section Proofs.
Context {A : Type}.
Notation tree := (tree A).
Notation frame := (frame A).

Fixpoint elements (t : tree) : list (list Z * A) :=
  match t with
  | Leaf => []
  | Node l k v _ r => elements l ++ (k, v) :: elements r
  end.

Definition keys (t : tree) : list (list Z) := map fst (elements t).

(** Elements before and after a zipper position. *)
Fixpoint before (up : list frame) : list (list Z * A) :=
  match up with
  | [] => []
  | FL _ _ _ _ :: up' => before up'
  | FR l k v _ :: up' => before up' ++ elements l ++ [(k, v)]
  end.

Fixpoint after (up : list frame) : list (list Z * A) :=
  match up with
  | [] => []
  | FL k v _ r :: up' => (k, v) :: elements r ++ after up'
  | FR _ _ _ _ :: up' => after up'
  end.

Lemma elements_zip up : forall t, elements (zip t up) = before up ++ elements t ++ after up.
Proof.
  induction up as [|[k v b r|l k v b] up IH]; intros t; simpl.
  - now rewrite app_nil_r.
  - rewrite IH. apps.
  - rewrite IH. apps.
Qed.

(** ** Rotations keep the elements *)

Lemma rotate_left_elements t t' : rotate_left t = Ret t' -> elements t' = elements t.
Proof.
  destruct t as [|l k v b [|rl rk rv rb rr]]; simpl; intros H; try discriminate.
  injection H as <-. apps.
Qed.

Lemma rotate_right_elements t t' : rotate_right t = Ret t' -> elements t' = elements t.
Proof.
  destruct t as [|[|ll lk lv lb lr] k v b r]; simpl; intros H; try discriminate.
  injection H as <-. apps.
Qed.

Lemma zigzag_left_elements t t' : zigzag_left t = Ret t' -> elements t' = elements t.
Proof.
  destruct t as [|l k v b [|[|sl tk tv tb sr] rk rv rb rr]]; simpl; intros H; try discriminate.
  injection H as <-. apps.
Qed.

Lemma zigzag_right_elements t t' : zigzag_right t = Ret t' -> elements t' = elements t.
Proof.
  destruct t as [|[|ll lk lv lb [|sl tk tv tb sr]] k v b r]; simpl; intros H; try discriminate.
  injection H as <-. apps.
Qed.

(** ** Balance *)

Fixpoint height (t : tree) : Z :=
  match t with
  | Leaf => 0
  | Node l _ _ _ r => 1 + Z.max (height l) (height r)
  end.

Fixpoint avl (t : tree) : Prop :=
  match t with
  | Leaf => True
  | Node l _ _ b r => avl l /\ avl r /\ b = height r - height l /\ -1 <= b <= 1
  end.

(** A context that expects an AVL subtree of height [h]. *)
Fixpoint ctx_ok (up : list frame) (h : Z) : Prop :=
  match up with
  | [] => True
  | FL _ _ b r :: up' =>
      avl r /\ b = height r - h /\ -1 <= b <= 1 /\ ctx_ok up' (1 + Z.max h (height r))
  | FR l _ _ b :: up' =>
      avl l /\ b = h - height l /\ -1 <= b <= 1 /\ ctx_ok up' (1 + Z.max (height l) h)
  end.

Lemma height_nonneg t : 0 <= height t.
Proof. induction t; simpl; lia. Qed.

Lemma zip_avl up : forall t, avl t -> ctx_ok up (height t) -> avl (zip t up).
Proof.
  induction up as [|[k v b r|l k v b] up IH]; intros t Ht Hc; simpl in *; auto.
  - apply IH; simpl; tauto.
  - apply IH; simpl; tauto.
Qed.

Lemma avl_zip_ctx up : forall t, avl (zip t up) -> avl t /\ ctx_ok up (height t).
Proof.
  induction up as [|[k v b r|l k v b] up IH]; intros t Ht; simpl in *; auto.
  - apply IH in Ht. simpl in Ht. tauto.
  - apply IH in Ht. simpl in Ht. tauto.
Qed.

Definition bal (t : tree) : Z := match t with Leaf => 0 | Node _ _ _ b _ => b end.

Ltac hn :=
  repeat match goal with
  | t : MapModel.tree A |- _ =>
      lazymatch goal with
      | _ : 0 <= height t |- _ => fail
      | |- _ => pose proof (height_nonneg t)
      end
  end.

Lemma insert_up_ok up : forall (dir1 : bool) node,
  avl node -> ctx_ok up (height node - 1) -> bal node = (if dir1 then -1 else 1) ->
  exists t', insert_up dir1 node up = Ret t' /\ avl t' /\ elements t' = before up ++ elements node ++ after up.
Proof.
  induction up as [|[k v b r|l k v b] up IH]; intros dir1 node Hn Hc Hb.
  - simpl. exists node. rewrite app_nil_r. auto.
  - simpl in Hc. destruct Hc as (Hr & Eb & Rb & Hc). simpl.
    destruct (Z.eqb_spec (b - 1) 0) as [E|E].
    + eexists. split; [reflexivity|]. split; [|rewrite elements_zip; apps].
      apply zip_avl; simpl.
      * repeat split; auto; lia.
      * replace (1 + Z.max (height node) (height r)) with (1 + Z.max (height node - 1) (height r)) by lia. auto.
    + destruct (Z.eqb_spec (Z.abs (b - 1)) 2) as [E2|E2].
      * assert (b = -1) by lia.
        destruct node as [|nl nk nv nb nr]; [simpl in Hb; destruct dir1; discriminate|].
        simpl in Hb. subst nb. destruct Hn as (Hnl & Hnr & Enb & Rnb).
        destruct dir1.
        -- simpl. eexists. split; [reflexivity|]. split.
           ++ apply zip_avl; simpl in *.
              ** repeat split; auto; lia.
              ** match goal with |- ctx_ok _ ?x => match type of Hc with ctx_ok _ ?y => replace x with y by lia end end. auto.
           ++ rewrite elements_zip. apps.
        -- destruct nr as [|sl tk tv tb sr]; [simpl in *; hn; lia|].
           simpl in Hnr. destruct Hnr as (Hsl & Hsr & Etb & Rtb).
           simpl. eexists. split; [reflexivity|]. split.
           ++ apply zip_avl; simpl in *.
              ** repeat split; auto; lia.
              ** match goal with |- ctx_ok _ ?x => match type of Hc with ctx_ok _ ?y => replace x with y by lia end end. auto.
           ++ rewrite elements_zip. apps.
      * assert (b = 0) by lia.
        destruct (IH true (Node node k v (b - 1) r)) as (t' & H1 & H2 & H3).
        -- simpl. repeat split; auto; lia.
        -- simpl. match goal with |- ctx_ok _ ?x => match type of Hc with ctx_ok _ ?y => replace x with y by lia end end. auto.
        -- simpl. lia.
        -- exists t'. split; [auto|]. split; [auto|]. rewrite H3. apps.
  - simpl in Hc. destruct Hc as (Hl & Eb & Rb & Hc). simpl.
    destruct (Z.eqb_spec (b + 1) 0) as [E|E].
    + eexists. split; [reflexivity|]. split; [|rewrite elements_zip; apps].
      apply zip_avl; simpl.
      * repeat split; auto; lia.
      * replace (1 + Z.max (height l) (height node)) with (1 + Z.max (height l) (height node - 1)) by lia. auto.
    + destruct (Z.eqb_spec (Z.abs (b + 1)) 2) as [E2|E2].
      * assert (b = 1) by lia.
        destruct node as [|nl nk nv nb nr]; [simpl in Hb; destruct dir1; discriminate|].
        simpl in Hb. subst nb. destruct Hn as (Hnl & Hnr & Enb & Rnb).
        destruct dir1.
        -- destruct nl as [|sl tk tv tb sr]; [simpl in *; hn; lia|].
           simpl in Hnl. destruct Hnl as (Hsl & Hsr & Etb & Rtb).
           simpl. eexists. split; [reflexivity|]. split.
           ++ apply zip_avl; simpl in *.
              ** repeat split; auto; lia.
              ** match goal with |- ctx_ok _ ?x => match type of Hc with ctx_ok _ ?y => replace x with y by lia end end. auto.
           ++ rewrite elements_zip. apps.
        -- simpl. eexists. split; [reflexivity|]. split.
           ++ apply zip_avl; simpl in *.
              ** repeat split; auto; lia.
              ** match goal with |- ctx_ok _ ?x => match type of Hc with ctx_ok _ ?y => replace x with y by lia end end. auto.
           ++ rewrite elements_zip. apps.
      * assert (b = 0) by lia.
        destruct (IH false (Node l k v (b + 1) node)) as (t' & H1 & H2 & H3).
        -- simpl. repeat split; auto; lia.
        -- simpl. match goal with |- ctx_ok _ ?x => match type of Hc with ctx_ok _ ?y => replace x with y by lia end end. auto.
        -- simpl. lia.
        -- exists t'. split; [auto|]. split; [auto|]. rewrite H3. apps.
Qed.

Lemma height_pos l k v b r : 0 < height (Node l k v b r).
Proof. simpl. hn. lia. Qed.

Lemma avl_left_empty k v b r : avl (Node Leaf k v b r) -> b = 0 \/ b = 1.
Proof. simpl. hn. lia. Qed.

Lemma avl_right_empty l k v b : avl (Node l k v b Leaf) -> b = 0 \/ b = -1.
Proof. simpl. hn. lia. Qed.

Lemma insert_left_ok k v b r up nk nv :
  avl (Node Leaf k v b r) -> ctx_ok up (height (Node Leaf k v b r)) ->
  exists t', insert_left_subnode k v b r up nk nv = Ret t' /\ avl t' /\
             elements t' = before up ++ (nk, nv) :: (k, v) :: elements r ++ after up.
Proof.
  intros Ha Hc. unfold insert_left_subnode. pose proof (avl_left_empty _ _ _ _ Ha) as Hb.
  pose proof Ha as Ha'. simpl in Ha'. destruct Ha' as (_ & Hr & Eb & Rb).
  destruct (Z.eqb_spec (b - 1) 0) as [E|E]; simpl negb; cbv iota.
  - eexists. split; [reflexivity|]. split.
    + apply zip_avl.
      * simpl. repeat split; auto; lia.
      * simpl in Hc |- *.
        match goal with |- ctx_ok _ ?x => match type of Hc with ctx_ok _ ?y => replace x with y by lia end end. auto.
    + rewrite elements_zip. reflexivity.
  - assert (b = 0) by lia.
    destruct (insert_up_ok up true (Node (Node Leaf nk nv 0 Leaf) k v (b - 1) r)) as (t' & H1 & H2 & H3).
    + simpl. repeat split; auto; simpl in *; lia.
    + simpl in Hc |- *.
      match goal with |- ctx_ok _ ?x => match type of Hc with ctx_ok _ ?y => replace x with y by lia end end. auto.
    + simpl. lia.
    + exists t'. split; [auto|]. split; [auto|]. rewrite H3. apps.
Qed.

Lemma insert_right_ok l k v b up nk nv :
  avl (Node l k v b Leaf) -> ctx_ok up (height (Node l k v b Leaf)) ->
  exists t', insert_right_subnode l k v b up nk nv = Ret t' /\ avl t' /\
             elements t' = before up ++ elements l ++ (k, v) :: (nk, nv) :: after up.
Proof.
  intros Ha Hc. unfold insert_right_subnode. pose proof (avl_right_empty _ _ _ _ Ha) as Hb.
  pose proof Ha as Ha'. simpl in Ha'. destruct Ha' as (Hl & _ & Eb & Rb).
  destruct (Z.eqb_spec (b + 1) 0) as [E|E]; simpl negb; cbv iota.
  - eexists. split; [reflexivity|]. split.
    + apply zip_avl.
      * simpl. repeat split; auto; lia.
      * simpl in Hc |- *.
        match goal with |- ctx_ok _ ?x => match type of Hc with ctx_ok _ ?y => replace x with y by lia end end. auto.
    + rewrite elements_zip. apps.
  - assert (b = 0) by lia.
    destruct (insert_up_ok up false (Node l k v (b + 1) (Node Leaf nk nv 0 Leaf))) as (t' & H1 & H2 & H3).
    + simpl. repeat split; auto; simpl in *; lia.
    + simpl in Hc |- *.
      match goal with |- ctx_ok _ ?x => match type of Hc with ctx_ok _ ?y => replace x with y by lia end end. auto.
    + simpl. lia.
    + exists t'. split; [auto|]. split; [auto|]. rewrite H3. apps.
Qed.

(** ** Order *)

Definition good_keys (t : tree) : Prop := Forall good_key (keys t).
Definition bst (t : tree) : Prop := increasing (keys t).

(** Well-formed map. *)
Definition wf_map (t : tree) : Prop := avl t /\ bst t /\ good_keys t.

Lemma wf_leaf : wf_map Leaf.
Proof. repeat split; constructor. Qed.

Lemma keys_node l k v b r : keys (Node l k v b r) = keys l ++ k :: keys r.
Proof. unfold keys. simpl. now rewrite map_app. Qed.

Lemma bst_node l k v b r : bst (Node l k v b r) <->
  bst l /\ bst r /\ (forall x, In x (keys l) -> lex_lt x k) /\ (forall x, In x (keys r) -> lex_lt k x).
Proof.
  unfold bst. rewrite keys_node, increasing_app. simpl. rewrite Forall_forall. split.
  - intros (H1 & [H2 H3] & H4). repeat split; auto.
  - intros (H1 & H2 & H3 & H4). repeat split; auto.
    intros a b0 Ha [<-|Hb]; auto. apply lex_trans with k; auto.
Qed.

Lemma good_keys_node l k v b r : good_keys (Node l k v b r) <->
  good_keys l /\ good_key k /\ good_keys r.
Proof.
  unfold good_keys. rewrite keys_node, Forall_app. split.
  - intros [H1 H2]. inversion H2; auto.
  - intros (H1 & H2 & H3). split; auto.
Qed.

(** Descent of an insertion: the elements split at the insertion point. *)
Lemma insert_at_ok t : forall up key e,
  avl t -> ctx_ok up (height t) -> good_key key -> good_keys t -> bst t ->
  (exists t', insert_at t up key e = Ret (t', false) /\ t' = zip t up /\ In key (keys t)) \/
  (exists t' l1 l2, insert_at t up key e = Ret (t', true) /\
     (t <> Leaf \/ up = [] -> avl t') /\
     elements t = l1 ++ l2 /\
     elements t' = before up ++ l1 ++ (key, e) :: l2 ++ after up /\
     (forall x, In x (map fst l1) -> lex_lt x key) /\
     (forall x, In x (map fst l2) -> lex_lt key x)).
Proof.
  induction t as [|l IHl k v b r IHr]; intros up key e Ha Hc Hk Hg Hb.
  - right. simpl. exists (zip (Node Leaf key e 0 Leaf) up), [], []. simpl.
    split; [reflexivity|]. split.
    { intros [H| ->]; [congruence|]. simpl. lia. }
    split; [reflexivity|]. split; [|simpl; tauto].
    rewrite elements_zip. reflexivity.
  - apply good_keys_node in Hg. destruct Hg as (Hgl & Hgk & Hgr).
    apply bst_node in Hb. destruct Hb as (Hbl & Hbr & Hlt & Hgt).
    pose proof Ha as Ha'. simpl in Ha'. destruct Ha' as (Hal & Har & Eb & Rb).
    simpl insert_at.
    destruct (text_lt_cases key k Hk Hgk) as [(HL & E)|[(HE & E1 & E2)|(HL & E1 & E2)]].
    + rewrite E. destruct l as [|ll lk lv lb lr].
      * right. destruct (insert_left_ok k v b r up key e Ha Hc) as (t' & H1 & H2 & H3).
        exists t', [], ((k, v) :: elements r). rewrite H1. simpl.
        split; [reflexivity|]. split; [auto|]. split; [reflexivity|]. split; [auto|].
        split; [tauto|]. intros x [<-|Hx]; auto.
        apply lex_trans with k; auto.
      * set (L := Node ll lk lv lb lr) in *.
        assert (Hc' : ctx_ok (FL k v b r :: up) (height L)).
        { simpl. repeat split; auto; lia. }
        destruct (IHl (FL k v b r :: up) key e Hal Hc' Hk Hgl Hbl)
          as [(t' & H1 & H2 & H3)|(t' & l1 & l2 & H1 & H2 & H3 & H4 & H5 & H6)].
        -- left. exists t'. split; [auto|]. split; [auto|]. rewrite keys_node, in_app_iff. auto.
        -- right. exists t', l1, (l2 ++ (k, v) :: elements r). split; [auto|].
           split. { intros _. apply H2. left. discriminate. }
           split. { change (elements (Node L k v b r)) with (elements L ++ (k, v) :: elements r).
                    rewrite H3. now rewrite <- app_assoc. }
           split. { rewrite H4. apps. }
           split; [auto|]. intros x Hx. rewrite map_app, in_app_iff in Hx. simpl in Hx.
           destruct Hx as [Hx|[<-|Hx]]; auto. apply lex_trans with k; auto.
    + subst key. rewrite E1. left. eexists. split; [reflexivity|].
      split; [reflexivity|]. rewrite keys_node, in_app_iff. simpl. auto.
    + rewrite E1, E2. destruct r as [|rl rk rv rb rr].
      * right. destruct (insert_right_ok l k v b up key e Ha Hc) as (t' & H1 & H2 & H3).
        exists t', (elements l ++ [(k, v)]), []. rewrite H1. simpl.
        split; [reflexivity|]. split; [auto|]. split; [now rewrite app_nil_r|].
        split; [rewrite H3; now rewrite <- app_assoc|].
        split; [|tauto]. intros x Hx. rewrite map_app, in_app_iff in Hx. simpl in Hx.
        destruct Hx as [Hx|[<-|[]]]; auto. apply lex_trans with k; auto.
      * set (R := Node rl rk rv rb rr) in *.
        assert (Hc' : ctx_ok (FR l k v b :: up) (height R)).
        { simpl. repeat split; auto; lia. }
        destruct (IHr (FR l k v b :: up) key e Har Hc' Hk Hgr Hbr)
          as [(t' & H1 & H2 & H3)|(t' & l1 & l2 & H1 & H2 & H3 & H4 & H5 & H6)].
        -- left. exists t'. split; [auto|]. split; [auto|]. rewrite keys_node, in_app_iff. simpl. auto.
        -- right. exists t', (elements l ++ (k, v) :: l1), l2. split; [auto|].
           split. { intros _. apply H2. left. discriminate. }
           split. { change (elements (Node l k v b R)) with (elements l ++ (k, v) :: elements R).
                    rewrite H3. now rewrite <- app_assoc. }
           split. { rewrite H4. simpl. rewrite <- !app_assoc. reflexivity. }
           split; [|auto]. intros x Hx. rewrite map_app, in_app_iff in Hx. simpl in Hx.
           destruct Hx as [Hx|[<-|Hx]]; auto. apply lex_trans with k; auto.
Qed.

(** ** Lookup is the association list lookup *)

Lemma find_assoc t key : good_key key -> good_keys t -> bst t ->
  find_map_element t key = assoc key (elements t).
Proof.
  intros Hk. induction t as [|l IHl k v b r IHr]; intros Hg Hb; [reflexivity|].
  apply good_keys_node in Hg. destruct Hg as (Hgl & Hgk & Hgr).
  apply bst_node in Hb. destruct Hb as (Hbl & Hbr & Hlt & Hgt).
  simpl. rewrite assoc_app. simpl.
  destruct (text_lt_cases key k Hk Hgk) as [(HL & E)|[(HE & E1 & E2)|(HL & E1 & E2)]].
  - rewrite E. rewrite IHl by auto. destruct (assoc key (elements l)) eqn:El; [reflexivity|].
    destruct (key_eqb_spec key k) as [->|]; [exfalso; eapply lex_irrefl; eauto|].
    symmetry. apply assoc_none. intros Hin. apply Hgt in Hin.
    apply (lex_irrefl k). apply lex_trans with key; auto.
  - subst key. rewrite E1. rewrite key_eqb_refl.
    rewrite assoc_none; [reflexivity|]. intros Hin. apply Hlt in Hin. eapply lex_irrefl; eauto.
  - rewrite E1, E2. rewrite IHr by auto.
    rewrite (assoc_none key (elements l)).
    + destruct (key_eqb_spec key k) as [->|]; [exfalso; eapply lex_irrefl; eauto|]. reflexivity.
    + intros Hin. apply Hlt in Hin. apply (lex_irrefl k). apply lex_trans with key; auto.
Qed.

(** ** InsertMapElement *)

Theorem insert_ok t key e : wf_map t -> good_key key ->
  exists t' f, insert_map_element t key e = Ret (t', f) /\ wf_map t' /\
    (f = true <-> ~ In key (keys t)) /\
    (f = false -> t' = t) /\
    (f = true -> exists l1 l2, elements t = l1 ++ l2 /\ elements t' = l1 ++ (key, e) :: l2).
Proof.
  intros (Ha & Hb & Hg) Hk. unfold insert_map_element.
  destruct (insert_at_ok t [] key e Ha I Hk Hg Hb)
    as [(t' & H1 & H2 & H3)|(t' & l1 & l2 & H1 & H2 & H3 & H4 & H5 & H6)].
  - simpl in H2. subst t'. exists t, false. split; [auto|]. split; [repeat split; auto|].
    split; [split; [discriminate|tauto]|]. split; [auto|discriminate].
  - simpl in H4. rewrite app_nil_r in H4. exists t', true. split; [auto|].
    assert (Hkeys : keys t' = map fst l1 ++ key :: map fst l2).
    { unfold keys. rewrite H4, map_app. reflexivity. }
    assert (Hkeys0 : keys t = map fst l1 ++ map fst l2).
    { unfold keys. rewrite H3, map_app. reflexivity. }
    unfold bst in Hb. rewrite Hkeys0 in Hb. apply increasing_app in Hb.
    destruct Hb as (Hi1 & Hi2 & Hi3).
    split; [|split; [|split]].
    + repeat split.
      * apply H2. auto.
      * unfold bst. rewrite Hkeys. apply increasing_app. split; [auto|]. split.
        { simpl. split; auto. rewrite Forall_forall. auto. }
        intros a b Ha' [<-|Hb']; auto.
      * unfold good_keys in *. rewrite Hkeys. rewrite Hkeys0 in Hg.
        apply Forall_app in Hg. apply Forall_app. split; [tauto|]. constructor; tauto.
    + split; [|auto]. intros _ Hin. rewrite Hkeys0, in_app_iff in Hin.
      destruct Hin as [Hin|Hin]; [apply H5 in Hin|apply H6 in Hin]; eapply lex_irrefl; eauto.
    + discriminate.
    + intros _. eauto.
Qed.

Lemma assoc_insert_mid key e (l1 l2 : list (list Z * A)) k' :
  ~ In key (map fst (l1 ++ l2)) ->
  assoc k' (l1 ++ (key, e) :: l2) = if key_eqb k' key then Some e else assoc k' (l1 ++ l2).
Proof.
  intros Hn. rewrite !assoc_app. simpl.
  destruct (key_eqb_spec k' key) as [->|Hne].
  - rewrite assoc_none; [reflexivity|]. rewrite map_app, in_app_iff in Hn. tauto.
  - reflexivity.
Qed.

Theorem insert_find t key e t' f : wf_map t -> good_key key ->
  insert_map_element t key e = Ret (t', f) ->
  forall k', good_key k' ->
  find_map_element t' k' =
    (if key_eqb k' key then match find_map_element t key with Some v => Some v | None => Some e end
     else find_map_element t k').
Proof.
  intros Hwf Hk Hins k' Hk'.
  destruct (insert_ok t key e Hwf Hk) as (t2 & f2 & H1 & H2 & H3 & H4 & H5).
  rewrite Hins in H1. injection H1 as <- <-.
  pose proof Hwf as (Ha & Hb & Hg). pose proof H2 as (Ha2 & Hb2 & Hg2).
  rewrite !find_assoc by auto.
  destruct f.
  - destruct (H5 eq_refl) as (l1 & l2 & E1 & E2). rewrite E1, E2.
    assert (Hn : ~ In key (map fst (l1 ++ l2))). { rewrite <- E1. apply H3. auto. }
    rewrite assoc_insert_mid by auto. rewrite (assoc_none key (l1 ++ l2)) by auto.
    reflexivity.
  - rewrite (H4 eq_refl). destruct (key_eqb_spec k' key) as [->|]; [|reflexivity].
    assert (Hin : In key (keys t)). { destruct (in_dec (list_eq_dec Z.eq_dec) key (keys t)); auto. exfalso. apply H3 in n. discriminate. }
    destruct (assoc_some_in key (elements t)) as [v Hv]; [exact Hin|]. now rewrite Hv.
Qed.

(** ** Iteration *)

Lemma get_first_spec t : forall up l k v b r, t = Node l k v b r ->
  exists k' v' b' r' up', get_first t up = (Node Leaf k' v' b' r', up') /\
    zip (Node Leaf k' v' b' r') up' = zip t up /\
    before up' = before up /\
    (k', v') :: elements r' ++ after up' = elements t ++ after up.
Proof.
  induction t as [|l IHl k v b r _]; intros up l0 k0 v0 b0 r0 E; [discriminate|]. clear E l0 k0 v0 b0 r0.
  destruct l as [|ll lk lv lb lr].
  - simpl. exists k, v, b, r, up. repeat split; reflexivity.
  - simpl get_first. destruct (IHl (FL k v b r :: up) ll lk lv lb lr eq_refl)
      as (k' & v' & b' & r' & up' & H1 & H2 & H3 & H4).
    exists k', v', b', r', up'. split; [exact H1|]. split; [exact H2|]. split; [exact H3|].
    rewrite H4. simpl. rewrite <- !app_assoc. reflexivity.
Qed.

Lemma next_up_spec up : forall t,
  match next_up t up with
  | None => after up = []
  | Some (t', up') => exists l k v b r, t' = Node l k v b r /\
      zip t' up' = zip t up /\ (k, v) :: elements r ++ after up' = after up
  end.
Proof.
  induction up as [|[k v b r|l k v b] up IH]; intros t; simpl.
  - reflexivity.
  - exists t, k, v, b, r. auto.
  - apply IH.
Qed.

Lemma get_next_spec l k v b r up :
  match get_next (Node l k v b r, up) with
  | None => elements r ++ after up = []
  | Some (t', up') => exists l' k' v' b' r', t' = Node l' k' v' b' r' /\
      zip t' up' = zip (Node l k v b r) up /\
      (k', v') :: elements r' ++ after up' = elements r ++ after up
  end.
Proof.
  destruct r as [|rl rk rv rb rr].
  - pose proof (next_up_spec up (Node l k v b Leaf)) as H. cbn [get_next].
    destruct (next_up (Node l k v b Leaf) up) as [[t' up']|]; simpl.
    + destruct H as (l' & k' & v' & b' & r' & H1 & H2 & H3). eauto 10.
    + exact H.
  - cbn [get_next].
    destruct (get_first_spec (Node rl rk rv rb rr) (FR l k v b :: up) rl rk rv rb rr eq_refl)
      as (k' & v' & b' & r' & up' & H1 & H2 & H3 & H4).
    rewrite H1. exists Leaf, k', v', b', r'. split; [reflexivity|]. split; [exact H2|].
    rewrite H4. reflexivity.
Qed.

Lemma iterate_ok n : forall l k v b r up,
  (length (elements r ++ after up) < n)%nat ->
  iterate n (Some (Node l k v b r, up)) = Ret ((k, v) :: elements r ++ after up).
Proof.
  induction n as [|n IH]; intros l k v b r up Hn; [lia|].
  cbn [iterate]. pose proof (get_next_spec l k v b r up) as H.
  destruct (get_next (Node l k v b r, up)) as [[t' up']|].
  - destruct H as (l' & k' & v' & b' & r' & -> & _ & H3).
    rewrite IH.
    + simpl. now rewrite H3.
    + rewrite <- H3 in Hn. simpl in Hn. lia.
  - rewrite H. destruct n; reflexivity.
Qed.

Lemma size_elements (t : tree) : size t = length (elements t).
Proof.
  induction t; simpl; [reflexivity|]. rewrite app_length. simpl. lia.
Qed.

Theorem iterate_elements t n : (size t <= n)%nat -> iterate n (map_first t) = Ret (elements t).
Proof.
  intros Hn. rewrite size_elements in Hn.
  destruct t as [|l k v b r]; [destruct n; reflexivity|].
  cbn [map_first].
  destruct (get_first_spec (Node l k v b r) [] l k v b r eq_refl)
    as (k' & v' & b' & r' & up' & H1 & H2 & H3 & H4).
  rewrite H1. rewrite app_nil_r in H4. rewrite iterate_ok.
  - now rewrite H4.
  - rewrite <- H4 in Hn. simpl in Hn. lia.
Qed.

Lemma nth_from_ok i : forall l k v b r up,
  nth_from i (Some (Node l k v b r, up)) = nth_error ((k, v) :: elements r ++ after up) i.
Proof.
  induction i as [|i IH]; intros l k v b r up; [reflexivity|].
  cbn [nth_from]. pose proof (get_next_spec l k v b r up) as H.
  destruct (get_next (Node l k v b r, up)) as [[t' up']|].
  - destruct H as (l' & k' & v' & b' & r' & -> & _ & H3). rewrite IH. simpl nth_error. now rewrite H3.
  - simpl nth_error. rewrite H. simpl. destruct i; reflexivity.
Qed.

Theorem nth_from_elements t i : nth_from i (map_first t) = nth_error (elements t) i.
Proof.
  destruct t as [|l k v b r]; [destruct i; reflexivity|].
  cbn [map_first].
  destruct (get_first_spec (Node l k v b r) [] l k v b r eq_refl)
    as (k' & v' & b' & r' & up' & H1 & H2 & H3 & H4).
  rewrite H1, nth_from_ok, H4. now rewrite app_nil_r.
Qed.

(** ** Depth bound *)

Fixpoint depth (t : tree) : nat :=
  match t with
  | Leaf => O
  | Node l _ _ _ r => S (Nat.max (depth l) (depth r))
  end.

Lemma depth_height t : Z.of_nat (depth t) = height t.
Proof. induction t; cbn [depth height]; lia. Qed.

Lemma avl_size t : avl t -> forall h, (depth t >= h)%nat -> (2 ^ (Z.of_nat h) <= (Z.of_nat (size t) + 1) ^ 2).
Proof.
  induction t as [|l IHl k v b r IHr]; intros Ha h Hh.
  - simpl in Hh. assert (h = 0)%nat by lia. subst. simpl. lia.
  - simpl in Ha. destruct Ha as (Hl & Hr & Eb & Rb).
    rewrite <- !depth_height in Eb.
    destruct h as [|[|h]].
    + simpl Z.of_nat. rewrite Z.pow_0_r. nia.
    + simpl size. change (Z.of_nat 1) with 1. rewrite Z.pow_1_r. nia.
    + simpl in Hh. specialize (IHl Hl h ltac:(lia)). specialize (IHr Hr h ltac:(lia)).
      replace (Z.of_nat (S (S h))) with (2 + Z.of_nat h) by lia.
      rewrite Z.pow_add_r by lia. change (2 ^ 2) with 4.
      simpl size. set (a := Z.of_nat (size l)) in *. set (c := Z.of_nat (size r)) in *.
      replace (Z.of_nat (S (size l + size r)) + 1) with ((a + 1) + (c + 1)) by lia.
      assert (0 <= a) by lia. assert (0 <= c) by lia.
      set (P := 2 ^ Z.of_nat h) in *. rewrite !Z.pow_2_r in *. 
      destruct (Z.le_ge_cases a c); nia.
Qed.

(** ** Removal *)

Lemma remove_up_ok up : forall node,
  avl node -> ctx_ok up (height node + 1) ->
  exists t', remove_up node up = Ret t' /\ avl t' /\ elements t' = before up ++ elements node ++ after up.
Proof.
  induction up as [|[k v b r|l k v b] up IH]; intros node Hn Hc.
  - simpl. exists node. rewrite app_nil_r. auto.
  - simpl in Hc. destruct Hc as (Hr & Eb & Rb & Hc). simpl remove_up.
    destruct (Z.eqb_spec (Z.abs (b + 1)) 1) as [E|E].
    + assert (b = 0) by lia. eexists. split; [reflexivity|]. split.
      * apply zip_avl; simpl; [repeat split; auto; lia|].
        match goal with |- ctx_ok _ ?x => match type of Hc with ctx_ok _ ?y => replace x with y by lia end end. auto.
      * rewrite elements_zip. apps.
    + destruct (Z.eqb_spec (b + 1) 0) as [E0|E0]; simpl negb; cbv iota.
      * destruct (IH (Node node k v (b + 1) r)) as (t' & H1 & H2 & H3).
        -- simpl. repeat split; auto; lia.
        -- simpl. match goal with |- ctx_ok _ ?x => match type of Hc with ctx_ok _ ?y => replace x with y by lia end end. auto.
        -- exists t'. split; [auto|]. split; [auto|]. rewrite H3. apps.
      * assert (b = 1) by lia. replace (0 <? b + 1) with true by lia.
        destruct r as [|rl rk rv rb rr]; [simpl in *; hn; lia|].
        simpl in Hr. destruct Hr as (Hrl & Hrr & Erb & Rrb). simpl in Eb.
        destruct (Z.leb_spec 0 rb) as [Lrb|Lrb].
        -- simpl bind. destruct (Z.eqb_spec rb 0) as [Z0|Z0].
           ++ eexists. split; [reflexivity|]. split.
              ** apply zip_avl; simpl in *; [repeat split; auto; lia|].
                 match goal with |- ctx_ok _ ?x => match type of Hc with ctx_ok _ ?y => replace x with y by lia end end. auto.
              ** rewrite elements_zip. apps.
           ++ destruct (IH (Node (Node node k v (- (rb - 1)) rl) rk rv (rb - 1) rr)) as (t' & H1 & H2 & H3).
              ** simpl in *. repeat split; auto; lia.
              ** simpl in *. match goal with |- ctx_ok _ ?x => match type of Hc with ctx_ok _ ?y => replace x with y by lia end end. auto.
              ** exists t'. split; [auto|]. split; [auto|]. rewrite H3. apps.
        -- destruct rl as [|sl tk tv tb sr]; [simpl in *; hn; lia|].
           simpl in Hrl. destruct Hrl as (Hsl & Hsr & Etb & Rtb). simpl bind.
           destruct (IH (Node (Node node k v (- Z.max tb 0) sl) tk tv 0 (Node sr rk rv (- Z.min tb 0) rr))) as (t' & H1 & H2 & H3).
           ++ simpl in *. repeat split; auto; lia.
           ++ simpl in *. match goal with |- ctx_ok _ ?x => match type of Hc with ctx_ok _ ?y => replace x with y by lia end end. auto.
           ++ exists t'. split; [auto|]. split; [auto|]. rewrite H3. simpl.
              rewrite <- !app_assoc. apps.
  - simpl in Hc. destruct Hc as (Hl & Eb & Rb & Hc). simpl remove_up.
    destruct (Z.eqb_spec (Z.abs (b - 1)) 1) as [E|E].
    + assert (b = 0) by lia. eexists. split; [reflexivity|]. split.
      * apply zip_avl; simpl; [repeat split; auto; lia|].
        match goal with |- ctx_ok _ ?x => match type of Hc with ctx_ok _ ?y => replace x with y by lia end end. auto.
      * rewrite elements_zip. apps.
    + destruct (Z.eqb_spec (b - 1) 0) as [E0|E0]; simpl negb; cbv iota.
      * destruct (IH (Node l k v (b - 1) node)) as (t' & H1 & H2 & H3).
        -- simpl. repeat split; auto; lia.
        -- simpl. match goal with |- ctx_ok _ ?x => match type of Hc with ctx_ok _ ?y => replace x with y by lia end end. auto.
        -- exists t'. split; [auto|]. split; [auto|]. rewrite H3. apps.
      * assert (b = -1) by lia. replace (0 <? b - 1) with false by lia.
        destruct l as [|ll lk lv lb lr]; [simpl in *; hn; lia|].
        simpl in Hl. destruct Hl as (Hll & Hlr & Elb & Rlb). simpl in Eb.
        destruct (Z.leb_spec lb 0) as [Lrb|Lrb].
        -- simpl bind. destruct (Z.eqb_spec lb 0) as [Z0|Z0].
           ++ eexists. split; [reflexivity|]. split.
              ** apply zip_avl; simpl in *; [repeat split; auto; lia|].
                 match goal with |- ctx_ok _ ?x => match type of Hc with ctx_ok _ ?y => replace x with y by lia end end. auto.
              ** rewrite elements_zip. apps.
           ++ destruct (IH (Node ll lk lv (lb + 1) (Node lr k v (- (lb + 1)) node))) as (t' & H1 & H2 & H3).
              ** simpl in *. repeat split; auto; lia.
              ** simpl in *. match goal with |- ctx_ok _ ?x => match type of Hc with ctx_ok _ ?y => replace x with y by lia end end. auto.
              ** exists t'. split; [auto|]. split; [auto|]. rewrite H3. apps.
        -- destruct lr as [|sl tk tv tb sr]; [simpl in *; hn; lia|].
           simpl in Hlr. destruct Hlr as (Hsl & Hsr & Etb & Rtb). simpl bind.
           destruct (IH (Node (Node ll lk lv (- Z.max tb 0) sl) tk tv 0 (Node sr k v (- Z.min tb 0) node))) as (t' & H1 & H2 & H3).
           ++ simpl in *. repeat split; auto; lia.
           ++ simpl in *. match goal with |- ctx_ok _ ?x => match type of Hc with ctx_ok _ ?y => replace x with y by lia end end. auto.
           ++ exists t'. split; [auto|]. split; [auto|]. rewrite H3. apps.
Qed.

Lemma replace_node_height t k tk tv : height (replace_node t k tk tv) = height t.
Proof.
  induction t as [|l IHl nk nv b r IHr]; simpl; [reflexivity|].
  destruct (text_lt k nk); [simpl; lia|]. destruct (text_lt nk k); simpl; lia.
Qed.

Lemma replace_node_avl t k tk tv : avl t -> avl (replace_node t k tk tv).
Proof.
  induction t as [|l IHl nk nv b r IHr]; simpl; [auto|].
  intros (Hl & Hr & Eb & Rb).
  destruct (text_lt k nk); [simpl; rewrite replace_node_height; auto|].
  destruct (text_lt nk k); simpl; rewrite ?replace_node_height; auto.
Qed.

Lemma replace_node_elements t k tk tv :
  good_key k -> good_keys t -> bst t -> In k (keys t) ->
  exists L v R, elements t = L ++ (k, v) :: R /\ elements (replace_node t k tk tv) = L ++ (tk, tv) :: R.
Proof.
  intros Hk. induction t as [|l IHl nk nv b r IHr]; intros Hg Hb Hin; [destruct Hin|].
  apply good_keys_node in Hg. destruct Hg as (Hgl & Hgk & Hgr).
  apply bst_node in Hb. destruct Hb as (Hbl & Hbr & Hlt & Hgt).
  rewrite keys_node, in_app_iff in Hin. simpl in Hin. simpl.
  destruct (text_lt_cases k nk Hk Hgk) as [(HL & E)|[(HE & E1 & E2)|(HL & E1 & E2)]].
  - rewrite E. destruct IHl as (L & v & R & H1 & H2); auto.
    { destruct Hin as [H|[H|H]]; auto; exfalso.
      - subst. eapply lex_irrefl; eauto.
      - apply Hgt in H. apply (lex_irrefl k). apply lex_trans with nk; auto. }
    exists L, v, (R ++ (nk, nv) :: elements r). simpl. rewrite H1, H2. split; apps.
  - subst. rewrite E1. exists (elements l), nv, (elements r). auto.
  - rewrite E1, E2. destruct IHr as (L & v & R & H1 & H2); auto.
    { destruct Hin as [H|[H|H]]; auto; exfalso.
      - apply Hlt in H. apply (lex_irrefl k). apply lex_trans with nk; auto.
      - subst. eapply lex_irrefl; eauto. }
    exists (elements l ++ (nk, nv) :: L), v, R. simpl. rewrite H1, H2. split; apps.
Qed.

Lemma split_unique (k : list Z) (v v' : A) L L' R R' :
  NoDup (map fst (L ++ (k, v) :: R)) ->
  L ++ (k, v) :: R = L' ++ (k, v') :: R' -> L = L' /\ v = v' /\ R = R'.
Proof.
  revert L'. induction L as [|[a x] L IH]; intros L' Hnd E.
  - destruct L' as [|[a' x'] L']; simpl in E; injection E as E1 E2.
    + auto.
    + exfalso. subst a'. simpl in Hnd. inversion Hnd; subst.
      match goal with H : ~ In _ _ |- _ => apply H end.
      rewrite map_app, in_app_iff. simpl. auto.
  - destruct L' as [|[a' x'] L']; simpl in E.
    + injection E as E1 E2 E3. subst. exfalso. simpl in Hnd. inversion Hnd; subst.
      match goal with H : ~ In _ _ |- _ => apply H end.
      rewrite map_app, in_app_iff. simpl. auto.
    + injection E as -> -> E3. simpl in Hnd. inversion Hnd; subst.
      destruct (IH L') as (-> & -> & ->); auto.
Qed.

Theorem remove_map_element_ok l k v b r up :
  wf_map (zip (Node l k v b r) up) ->
  exists t', remove_map_element (Node l k v b r, up) = Ret t' /\ wf_map t' /\
    elements (zip (Node l k v b r) up) = (before up ++ elements l) ++ (k, v) :: (elements r ++ after up) /\
    elements t' = (before up ++ elements l) ++ (elements r ++ after up).
Proof.
  intros (Ha & Hb & Hg).
  assert (E0 : elements (zip (Node l k v b r) up) = (before up ++ elements l) ++ (k, v) :: (elements r ++ after up)).
  { rewrite elements_zip. apps. }
  assert (Hwf : forall t', avl t' -> elements t' = (before up ++ elements l) ++ (elements r ++ after up) -> wf_map t').
  { intros t' Hat E. unfold wf_map, bst, good_keys, keys in *. rewrite E, E0 in *.
    rewrite map_app in *. simpl in Hb, Hg.
    apply increasing_app in Hb. destruct Hb as (I1 & [I2 I2'] & I3).
    apply Forall_app in Hg. destruct Hg as [G1 G2]. inversion G2; subst.
    split; [auto|]. split.
    - apply increasing_app. split; [auto|]. split; [auto|]. intros; apply I3; auto. now right.
    - apply Forall_app. auto. }
  pose proof (avl_zip_ctx up _ Ha) as [Han Hc].
  simpl in Han. destruct Han as (Hal & Har & Eb & Rb).
  cut (exists t', remove_map_element (Node l k v b r, up) = Ret t' /\ avl t' /\
       elements t' = (before up ++ elements l) ++ elements r ++ after up).
  { intros (t' & H1 & H2 & H3). exists t'. auto. }
  destruct l as [|ll lk lv lb lr].
  - cbn [remove_map_element]. unfold remove_branch_node.
    destruct (remove_up_ok up r) as (t' & H1 & H2 & H3); auto.
    + simpl in Hc, Eb. hn. match goal with |- ctx_ok _ ?x => match type of Hc with ctx_ok _ ?y => replace x with y by lia end end. auto.
    + exists t'. split; [destruct r; exact H1|]. split; [auto|]. rewrite H3. apps.
  - destruct r as [|rl rk rv rb rr].
    + cbn [remove_map_element]. unfold remove_branch_node.
      destruct (remove_up_ok up (Node ll lk lv lb lr)) as (t' & H1 & H2 & H3); auto.
      * remember (Node ll lk lv lb lr) as L eqn:EL. clear EL. simpl in Hc, Eb. hn.
        match goal with |- ctx_ok _ ?x => match type of Hc with ctx_ok _ ?y => replace x with y by lia end end. auto.
      * exists t'. split; [exact H1|]. split; [auto|]. rewrite H3. apps.
    + set (L := Node ll lk lv lb lr) in *. set (R := Node rl rk rv rb rr) in *.
      cbn [remove_map_element].
      change (match L with Leaf => match R with Leaf => remove_branch_node R up | Node _ _ _ _ _ => remove_branch_node R up end
              | Node _ _ _ _ _ => remove_branch_node R up end) with (remove_branch_node R up).
      destruct (get_first_spec R (FR L k v b :: up) rl rk rv rb rr eq_refl)
        as (tk & tv & tb & tr & tup & H1 & H2 & H3 & H4).
      simpl in H2, H3, H4.
      assert (Hc2 : avl (zip (Node Leaf tk tv tb tr) tup)) by (rewrite H2; exact Ha).
      apply avl_zip_ctx in Hc2. destruct Hc2 as [Ht Htc].
      simpl in Ht. destruct Ht as (_ & Htr & Etb & Rtb).
      destruct (remove_up_ok tup tr) as (t1 & K1 & K2 & K3); auto.
      { simpl in Htc. hn. match goal with |- ctx_ok _ ?x => match type of Htc with ctx_ok _ ?y => replace x with y by lia end end. auto. }
      exists (replace_node t1 k tk tv).
      assert (E1 : elements t1 = (before up ++ elements L) ++ (k, v) :: (elements tr ++ after tup)).
      { rewrite K3, H3. apps. }
      assert (Ebst : elements (zip (Node L k v b R) up) = (before up ++ elements L) ++ (k, v) :: (tk, tv) :: (elements tr ++ after tup)).
      { rewrite E0. f_equal. f_equal. simpl in H4. symmetry. exact H4. }
      assert (Hg1 : good_keys t1 /\ bst t1).
      { unfold good_keys, bst, keys in *. rewrite Ebst in Hb, Hg. rewrite E1.
        rewrite map_app in *. simpl in *.
        apply increasing_app in Hb. destruct Hb as (I1 & [I2 [I3 I4]] & I5).
        apply Forall_app in Hg. destruct Hg as [G1 G2]. inversion G2; subst.
        match goal with H : Forall good_key (tk :: _) |- _ => inversion H; subst end.
        inversion I2; subst.
        split.
        - apply Forall_app. split; auto.
        - apply increasing_app. split; [auto|]. split; [split; auto|].
          intros a c Ia Ic. apply I5; auto. simpl in *. tauto. }
      destruct Hg1 as [Hg1 Hb1].
      assert (Hkin : In k (keys t1)). { unfold keys. rewrite E1, map_app, in_app_iff. simpl. auto. }
      assert (Hkg : good_key k). { unfold good_keys in Hg1. rewrite Forall_forall in Hg1. auto. }
      destruct (replace_node_elements t1 k tk tv Hkg Hg1 Hb1 Hkin) as (L1 & v1 & R1 & F1 & F2).
      destruct (split_unique k v1 v L1 (before up ++ elements L) R1 (elements tr ++ after tup)) as (-> & _ & ->).
      { rewrite <- F1. apply increasing_nodup. exact Hb1. }
      { rewrite <- F1. exact E1. }
      split; [|split].
      * unfold R at 1. unfold L at 1. cbv beta iota.
        change (Node ll lk lv lb lr) with L. change (Node rl rk rv rb rr) with R.
        rewrite H1. unfold remove_branch_node. rewrite K1. reflexivity.
      * apply replace_node_avl. auto.
      * rewrite F2. simpl. f_equal. exact H4.
Qed.

(** ** FindMapElement's location *)

Lemma find_loc_spec t : forall up key, good_key key -> good_keys t -> bst t ->
  match find_loc t up key with
  | Some (t', up') => exists l v b r, t' = Node l key v b r /\ zip t' up' = zip t up /\
                      find_map_element t key = Some v
  | None => ~ In key (keys t) /\ find_map_element t key = None
  end.
Proof.
  induction t as [|l IHl k v b r IHr]; intros up key Hk Hg Hb; [simpl; auto|].
  apply good_keys_node in Hg. destruct Hg as (Hgl & Hgk & Hgr).
  apply bst_node in Hb. destruct Hb as (Hbl & Hbr & Hlt & Hgt).
  simpl find_loc. simpl find_map_element. rewrite keys_node.
  destruct (text_lt_cases key k Hk Hgk) as [(HL & E)|[(HE & E1 & E2)|(HL & E1 & E2)]].
  - rewrite E. specialize (IHl (FL k v b r :: up) key Hk Hgl Hbl).
    destruct (find_loc l (FL k v b r :: up) key) as [[t' up']|]; [exact IHl|].
    destruct IHl as [H1 H2]. split; auto. rewrite in_app_iff. simpl. intros [H|[H|H]]; auto.
    + subst. eapply lex_irrefl; eauto.
    + apply Hgt in H. apply (lex_irrefl k). apply lex_trans with key; auto.
  - subst. rewrite E1. exists l, v, b, r. auto.
  - rewrite E1, E2. specialize (IHr (FR l k v b :: up) key Hk Hgr Hbr).
    destruct (find_loc r (FR l k v b :: up) key) as [[t' up']|]; [exact IHr|].
    destruct IHr as [H1 H2]. split; auto. rewrite in_app_iff. simpl. intros [H|[H|H]]; auto.
    + apply Hlt in H. apply (lex_irrefl k). apply lex_trans with key; auto.
    + subst. eapply lex_irrefl; eauto.
Qed.

Theorem remove_key_ok t key : wf_map t -> good_key key ->
  exists t', remove_key t key = Ret t' /\ wf_map t' /\
    (forall k', good_key k' ->
       find_map_element t' k' = if key_eqb k' key then None else find_map_element t k') /\
    (In key (keys t) -> S (size t') = size t).
Proof.
  intros Hwf Hk. pose proof Hwf as (Ha & Hb & Hg). unfold remove_key.
  pose proof (find_loc_spec t [] key Hk Hg Hb) as H.
  destruct (find_loc t [] key) as [[t1 up]|].
  - destruct H as (l & v & b & r & -> & H2 & H3). simpl in H2.
    rewrite <- H2 in Hwf.
    destruct (remove_map_element_ok l key v b r up Hwf) as (t' & K1 & K2 & K3 & K4).
    exists t'. split; [exact K1|]. split; [exact K2|]. rewrite H2 in *.
    pose proof K2 as (Ha2 & Hb2 & Hg2). split.
    + intros k' Hk'. rewrite !find_assoc by auto. rewrite K3, K4. generalize dependent (before up ++ elements l). generalize dependent (elements r ++ after up). intros R L K3 K4. rewrite !assoc_app. simpl.
      destruct (key_eqb_spec k' key) as [->|]; [|reflexivity].
      assert (Hnd : NoDup (keys t)) by (apply increasing_nodup; exact Hb).
      unfold keys in Hnd. rewrite K3, map_app in Hnd. simpl in Hnd.
      apply NoDup_remove_2 in Hnd. rewrite in_app_iff in Hnd.
      rewrite !assoc_none by tauto. reflexivity.
    + intros _. rewrite !size_elements, K3, K4, !app_length. simpl. rewrite !app_length. lia.
  - destruct H as [H1 H2]. exists t. split; [auto|]. split; [auto|]. split.
    + intros k' Hk'. destruct (key_eqb_spec k' key) as [->|]; auto.
    + tauto.
Qed.

End Proofs.

Section More.
Context {A : Type}.
Notation tree := (tree A).

Lemma count_iterate n : forall (x : option (loc A)) l, iterate n x = Ret l -> count_from n x = Ret (length l).
Proof.
  induction n as [|n IH]; intros [[[|tl k v b tr] up]|] l H; simpl in *; try discriminate;
    try (injection H as <-; reflexivity).
  apply bind_ret_inv in H. destruct H as (l' & H1 & H2). injection H2 as <-.
  simpl. rewrite (IH _ _ H1). reflexivity.
Qed.

(** ** Backward iteration *)

Lemma get_last_spec (t : tree) : forall up l k v b r, t = Node l k v b r ->
  exists l' k' v' b' up', get_last t up = (Node l' k' v' b' Leaf, up') /\
    before up' ++ elements l' ++ [(k', v')] = before up ++ elements t.
Proof.
  induction t as [|l _ k v b r IHr]; intros up l0 k0 v0 b0 r0 E; [discriminate|]. clear E l0 k0 v0 b0 r0.
  destruct r as [|rl rk rv rb rr].
  - simpl. exists l, k, v, b, up. split; reflexivity.
  - simpl get_last. destruct (IHr (FR l k v b :: up) rl rk rv rb rr eq_refl)
      as (l' & k' & v' & b' & up' & H1 & H2).
    exists l', k', v', b', up'. split; [exact H1|].
    rewrite H2. simpl. rewrite <- !app_assoc. reflexivity.
Qed.

Lemma prev_up_spec (up : list (frame A)) : forall t,
  match prev_up t up with
  | None => before up = []
  | Some (t', up') => exists l k v b r, t' = Node l k v b r /\
      before up' ++ elements l ++ [(k, v)] = before up
  end.
Proof.
  induction up as [|[k v b r|l k v b] up IH]; intros t; simpl.
  - reflexivity.
  - apply IH.
  - exists l, k, v, b, t. auto.
Qed.

Lemma get_prev_spec l k v b r (up : list (frame A)) :
  match get_prev (Node l k v b r, up) with
  | None => before up ++ elements l = []
  | Some (t', up') => exists l' k' v' b' r', t' = Node l' k' v' b' r' /\
      before up' ++ elements l' ++ [(k', v')] = before up ++ elements l
  end.
Proof.
  destruct l as [|ll lk lv lb lr].
  - pose proof (prev_up_spec up (Node Leaf k v b r)) as H. cbn [get_prev].
    destruct (prev_up (Node Leaf k v b r) up) as [[t' up']|]; simpl elements; rewrite app_nil_r; auto.
  - cbn [get_prev].
    destruct (get_last_spec (Node ll lk lv lb lr) (FL k v b r :: up) ll lk lv lb lr eq_refl)
      as (l' & k' & v' & b' & up' & H1 & H2).
    rewrite H1. exists l', k', v', b', Leaf. split; [reflexivity|]. exact H2.
Qed.

Lemma iterate_back_ok n : forall l k v b r (up : list (frame A)),
  (length (before up ++ elements l) < n)%nat ->
  iterate_back n (Some (Node l k v b r, up)) = Ret (rev (before up ++ elements l ++ [(k, v)])).
Proof.
  induction n as [|n IH]; intros l k v b r up Hn; [lia|].
  cbn [iterate_back]. pose proof (get_prev_spec l k v b r up) as H.
  rewrite app_assoc, rev_app_distr. simpl rev at 1. simpl app.
  destruct (get_prev (Node l k v b r, up)) as [[t' up']|].
  - destruct H as (l' & k' & v' & b' & r' & -> & H3).
    rewrite IH.
    + simpl. now rewrite H3.
    + rewrite <- H3 in Hn. rewrite app_assoc, app_length in Hn. simpl in Hn. lia.
  - rewrite H. destruct n; reflexivity.
Qed.

Theorem iterate_back_elements (t : tree) n : (size t <= n)%nat ->
  iterate_back n (map_last t) = Ret (rev (elements t)).
Proof.
  intros Hn. rewrite size_elements in Hn.
  destruct t as [|l k v b r]; [destruct n; reflexivity|].
  cbn [map_last].
  destruct (get_last_spec (Node l k v b r) [] l k v b r eq_refl)
    as (l' & k' & v' & b' & up' & H1 & H2).
  rewrite H1. rewrite iterate_back_ok.
  - rewrite H2. reflexivity.
  - simpl before in H2. rewrite app_nil_l in H2. rewrite <- H2 in Hn.
    rewrite app_assoc, app_length in Hn. simpl in Hn. lia.
Qed.

Lemma find_comparisons_depth (t : tree) key : (find_comparisons t key <= depth t)%nat.
Proof.
  induction t as [|l IHl k v b r IHr]; simpl; [lia|].
  destruct (text_lt key k); [lia|]. destruct (text_lt k key); lia.
Qed.

(** ** Histories *)

Definition op_key (o : map_op A) : list Z := match o with MInsert k _ => k | MRemove k => k end.

Lemma map_step_wf t o : wf_map t -> good_key (op_key o) -> exists t', map_step t o = Ret t' /\ wf_map t'.
Proof.
  intros Hwf Hk. destruct o as [k e|k]; simpl in *.
  - destruct (insert_ok t k e Hwf Hk) as (t' & f & H1 & H2 & _). exists t'. rewrite H1. auto.
  - destruct (remove_key_ok t k Hwf Hk) as (t' & H1 & H2 & _). eauto.
Qed.

Lemma map_run_wf ops : forall t, wf_map t -> Forall (fun o => good_key (op_key o)) ops ->
  exists t', map_run ops t = Ret t' /\ wf_map t'.
Proof.
  induction ops as [|o ops IH]; intros t Hwf Hg; simpl; [eauto|].
  inversion Hg; subst. destruct (map_step_wf t o) as (t1 & H3 & H4); auto.
  rewrite H3. simpl. auto.
Qed.

(** The same history on an association list. *)
Definition spec_step (m : list (list Z * A)) (o : map_op A) : list (list Z * A) :=
  match o with
  | MInsert k e => match assoc k m with Some _ => m | None => (k, e) :: m end
  | MRemove k => filter (fun x => negb (key_eqb k (fst x))) m
  end.

Lemma assoc_filter k (m : list (list Z * A)) k' :
  assoc k' (filter (fun x => negb (key_eqb k (fst x))) m) = if key_eqb k' k then None else assoc k' m.
Proof.
  induction m as [|[a x] m IH]; simpl; [destruct (key_eqb k' k); reflexivity|].
  destruct (key_eqb_spec k a) as [<-|Hne]; simpl.
  - rewrite IH. destruct (key_eqb_spec k' k); reflexivity.
  - rewrite IH. destruct (key_eqb_spec k' k) as [E|]; [|reflexivity].
    destruct (key_eqb_spec k' a); [congruence|reflexivity].
Qed.

Lemma map_step_spec t o m t' : wf_map t -> good_key (op_key o) ->
  (forall k, good_key k -> find_map_element t k = assoc k m) ->
  map_step t o = Ret t' -> forall k, good_key k -> find_map_element t' k = assoc k (spec_step m o).
Proof.
  intros Hwf Hk Hm Hs k Hgk. destruct o as [key e|key]; simpl in *.
  - apply bind_ret_inv in Hs. destruct Hs as ([t1 f] & H1 & H2). injection H2 as <-.
    rewrite (insert_find t key e t1 f Hwf Hk H1 k Hgk). rewrite !Hm by auto.
    destruct (assoc key m) eqn:E.
    + destruct (key_eqb_spec k key) as [->|]; auto.
    + simpl. destruct (key_eqb_spec k key) as [->|]; auto.
  - destruct (remove_key_ok t key Hwf Hk) as (t1 & H1 & H2 & H3 & _).
    rewrite Hs in H1. injection H1 as <-. rewrite H3 by auto. rewrite Hm by auto.
    now rewrite assoc_filter.
Qed.

Lemma map_run_spec ops : forall t m t', wf_map t -> Forall (fun o => good_key (op_key o)) ops ->
  (forall k, good_key k -> find_map_element t k = assoc k m) ->
  map_run ops t = Ret t' -> forall k, good_key k -> find_map_element t' k = assoc k (fold_left spec_step ops m).
Proof.
  induction ops as [|o ops IH]; intros t m t' Hwf Hg Hm Hr k Hk; simpl in *.
  - injection Hr as <-. auto.
  - apply bind_ret_inv in Hr. destruct Hr as (t1 & H1 & H2). inversion Hg; subst.
    destruct (map_step_wf t o) as (t2 & H5 & H6); auto. rewrite H1 in H5. injection H5 as <-.
    apply (IH t1 (spec_step m o) t'); auto. apply map_step_spec with t; auto.
Qed.
End More.
