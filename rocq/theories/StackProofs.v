(** * Proofs about the depth of the recursion on trees. *)

From Coq Require Import Permutation.
From Verif Require Import Base TextModel NumModel MapModel ParserModel AccessModel WriterModel SchemaModel OwnModel StackModel
  SpecMap SpecGrammar SpecMeaning SpecBuild SpecStack MapProofs ParserProofs WriterProofs SchemaProofs OwnProofs.

#[local] Arguments Nat.max : simpl never.

(** ** Induction on values *)

Lemma value_induct (P : value -> Prop) :
  (forall s, P (VString s)) -> (forall d, P (VNumber d)) -> (forall b, P (VBool b)) -> P VNull ->
  (forall l, Forall P l -> P (VArray l)) -> (forall m order, tall P m -> P (VObject m order)) -> forall v, P v.
Proof.
  intros H1 H2 H3 H4 H5 H6. fix self 1. intros [s|d|b| |l|m order]; [apply H1|apply H2|apply H3|exact H4| |].
  - apply H5. induction l as [|x l IH]; constructor; [apply self|exact IH].
  - apply H6. induction m as [|l IHl k v b r IHr]; cbn [tall]; [exact I|]. split; [exact IHl|]. split; [apply self|exact IHr].
Qed.

Lemma tall_elements {A} (P : A -> Prop) (m : tree A) : tall P m <-> (forall k v, In (k, v) (elements m) -> P v).
Proof.
  induction m as [|l IHl k v b r IHr]; cbn [tall elements]; [split; [intros _ ? ? []|trivial]|].
  rewrite IHl, IHr. split.
  - intros (H1 & H2 & H3) k' v' H. apply in_app_or in H. destruct H as [H|[H|H]]; eauto. now injection H as <- <-.
  - intros H. split; [|split].
    + intros k' v' H'. apply (H k'). apply in_or_app. now left.
    + apply (H k). apply in_or_app. right. now left.
    + intros k' v' H'. apply (H k'). apply in_or_app. right. now right.
Qed.

Lemma map_max_le {A} (f : A -> nat) m b : (map_max f m <= b)%nat <-> tall (fun v => (f v <= b)%nat) m.
Proof. induction m as [|l IHl k v x r IHr]; cbn [map_max tall]; [split; [trivial|lia]|]. fold (map_max f). rewrite !Nat.max_lub_iff, IHl, IHr. tauto. Qed.
Lemma list_max_le {A} (f : A -> nat) l b : (list_max f l <= b)%nat <-> Forall (fun v => (f v <= b)%nat) l.
Proof.
  induction l as [|v l IH]; cbn [list_max]; [split; [constructor|lia]|]. fold (list_max f). rewrite Nat.max_lub_iff, IH, Forall_cons_iff. tauto.
Qed.
Lemma tall_impl {A} (P Q : A -> Prop) m : tall P m -> (forall v, P v -> Q v) -> tall Q m.
Proof. intros H I. induction m as [|l IHl k v b r IHr]; cbn [tall] in *; [trivial|]. destruct H as (H1 & H2 & H3). auto. Qed.
Lemma tall_and {A} (P Q : A -> Prop) m : tall P m -> tall Q m -> tall (fun v => P v /\ Q v) m.
Proof. rewrite !tall_elements. intros H1 H2 k v H. split; eauto. Qed.
Lemma map_max_ext {A} (f g : A -> nat) m : tall (fun v => f v = g v) m -> map_max f m = map_max g m.
Proof. induction m as [|l IHl k v b r IHr]; cbn [tall map_max]; [trivial|]. fold (map_max f) (map_max g). intros (H1 & -> & H3). now rewrite IHl, IHr. Qed.
Lemma list_max_ext {A} (f g : A -> nat) l : Forall (fun v => f v = g v) l -> list_max f l = list_max g l.
Proof. induction 1 as [|v l E _ IH]; cbn [list_max]; [trivial|]. fold (list_max f) (list_max g). now rewrite E, IH. Qed.
Lemma map_max_tmap {A B} (f : B -> nat) (h : A -> B) m : map_max f (tmap h m) = map_max (fun v => f (h v)) m.
Proof. induction m as [|l IHl k v b r IHr]; cbn [tmap map_max]; [trivial|]. fold (tmap h) (map_max f) (map_max (fun v => f (h v))). now rewrite IHl, IHr. Qed.
Lemma list_max_map {A B} (f : B -> nat) (h : A -> B) l : list_max f (map h l) = list_max (fun v => f (h v)) l.
Proof. induction l as [|v l IH]; cbn [map list_max]; [trivial|]. fold (list_max f) (list_max (fun v => f (h v))). now rewrite IH. Qed.

(** ** delete *)

(** The depth of DeleteSubtree. *)
Definition subtree_depth {A} (f : A -> nat) : tree A -> nat :=
  fix go (m : tree A) : nat :=
    match m with
    | Leaf => 0%nat
    | Node l _ v _ r => S (Nat.max (Nat.max (go l) (go r)) (f v))
    end.
Fixpoint delete_depth (n : node) : nat :=
  match n with
  | NArray _ l => S (list_max delete_depth l)
  | NObject _ m _ => S (subtree_depth delete_depth m)
  | _ => 1%nat
  end.

Definition undone {A} (r : out (A * nat)) : out A := let! (x, _) := r in Ret x.

Lemma delete_d_spec n : forall w, delete_d n w = let! w' := delete n w in Ret (w', delete_depth n).
Proof.
  induction n as [id s|id d|id b|id|id l IH|id m order IH] using node_induct; intros w; try reflexivity.
  - cbn [delete_d delete delete_depth].
    assert (E : forall w,
      (fix go (l : list node) (w : world) : out (world * nat) :=
         match l with [] => Ret (w, 0%nat) | x :: l' => let! (w, d1) := delete_d x w in let! (w, d2) := go l' w in Ret (w, Nat.max d1 d2) end) l w =
      let! w' := (fix go (l : list node) (w : world) : out world :=
         match l with [] => Ret w | x :: l' => let! w := delete x w in go l' w end) l w in Ret (w', list_max delete_depth l)).
    { induction IH as [|x l Hx _ IHl]; intros w0; [reflexivity|]. rewrite Hx. destruct (delete x w0) as [w1| |]; [|reflexivity|reflexivity].
      cbn [bind]. rewrite IHl.
      destruct ((fix go (l0 : list node) (w2 : world) {struct l0} : out world := match l0 with [] => Ret w2 | x0 :: l' => let! w3 := delete x0 w2 in go l' w3 end) l w1); reflexivity. }
    rewrite E. destruct ((fix go (l0 : list node) (w2 : world) {struct l0} : out world := match l0 with [] => Ret w2 | x0 :: l' => let! w3 := delete x0 w2 in go l' w3 end) l w) as [w1| |]; [|reflexivity|reflexivity].
    cbn [bind]. now destruct (free id w1).
  - cbn [delete_d delete delete_depth].
    assert (E : forall w,
      (fix go (m : tree node) (w : world) : out (world * nat) :=
         match m with Leaf => Ret (w, 0%nat)
         | Node l _ v _ r => let! (w, d1) := go l w in let! (w, d2) := go r w in let! (w, d3) := delete_d v w in Ret (w, S (Nat.max (Nat.max d1 d2) d3)) end) m w =
      let! w' := (fix go (m : tree node) (w : world) : out world :=
         match m with Leaf => Ret w | Node l _ v _ r => let! w := go l w in let! w := go r w in delete v w end) m w in Ret (w', subtree_depth delete_depth m)).
    { induction m as [|l IHl k v b r IHr]; intros w0; [reflexivity|]. cbn [tall] in IH. destruct IH as (H1 & H2 & H3).
      rewrite (IHl H1). 
      match goal with |- context [bind (bind ?x _) _] => destruct x as [w1| |]; [|reflexivity|reflexivity] end. cbn [bind].
      rewrite (IHr H3).
      match goal with |- context [bind (bind ?x _) _] => destruct x as [w2| |]; [|reflexivity|reflexivity] end. cbn [bind].
      rewrite H2. now destruct (delete v w2). }
    rewrite E.
    match goal with |- context [bind (bind ?x _) _] => destruct x as [w1| |]; [|reflexivity|reflexivity] end. cbn [bind].
    now destruct (free id w1).
Qed.

Lemma subtree_depth_ge {A} (f : A -> nat) m : (map_max f m <= subtree_depth f m)%nat.
Proof. induction m as [|l IHl k v b r IHr]; cbn [map_max subtree_depth]; [lia|]. fold (map_max f) (subtree_depth f). lia. Qed.
Lemma subtree_depth_le {A} (f : A -> nat) m : (subtree_depth f m <= depth m + map_max f m)%nat.
Proof. induction m as [|l IHl k v b r IHr]; cbn [map_max subtree_depth depth]; [lia|]. fold (map_max f) (subtree_depth f). lia. Qed.

Lemma delete_depth_ge n : (levels (erase n) <= delete_depth n)%nat.
Proof.
  induction n as [id s|id d|id b|id|id l IH|id m order IH] using node_induct; cbn [erase levels delete_depth]; try lia.
  - rewrite list_max_map. apply le_n_S. apply list_max_le. rewrite Forall_forall in *. intros x Hx. specialize (IH x Hx).
    assert (H : (list_max delete_depth l <= list_max delete_depth l)%nat) by lia. rewrite list_max_le, Forall_forall in H. specialize (H x Hx). cbv beta in H. lia.
  - rewrite map_max_tmap. apply le_n_S. etransitivity; [|apply subtree_depth_ge]. apply map_max_le.
    assert (H : (map_max delete_depth m <= map_max delete_depth m)%nat) by lia. rewrite map_max_le in H.
    apply (tall_impl _ _ _ (tall_and _ _ _ IH H)). intros v [H1 H2]. lia.
Qed.

(** What an object adds: itself and the height of its map. *)
Definition object_cost (n : nat) : nat := 2 + 2 * Nat.log2 (S n).

Lemma object_cost_mono a b : (a <= b)%nat -> (object_cost a <= object_cost b)%nat.
Proof. intros H. unfold object_cost. pose proof (Nat.log2_le_mono (S a) (S b) ltac:(lia)). lia. Qed.

Lemma depth_cost {A} (m : tree A) : avl m -> (S (depth m) <= object_cost (size m))%nat.
Proof.
  intros H. pose proof (avl_size m H (depth m) ltac:(lia)) as B. unfold object_cost.
  set (k := Nat.log2 (S (size m))).
  assert (Hk : (S (size m) < 2 ^ S k)%nat) by (apply Nat.log2_spec; lia).
  destruct (Nat.le_gt_cases (S (depth m)) (2 + 2 * k)) as [|G]; [lia|]. exfalso.
  assert (L : (2 ^ Z.of_nat (2 * S k) <= 2 ^ Z.of_nat (depth m))) by (apply Z.pow_le_mono_r; lia).
  assert (Hz : Z.of_nat (size m) + 1 < 2 ^ Z.of_nat (S k)).
  { apply inj_lt in Hk. rewrite Nat2Z.inj_pow in Hk. change (Z.of_nat 2) with 2 in Hk. lia. }
  replace (Z.of_nat (2 * S k)) with (Z.of_nat (S k) * 2) in L by lia. rewrite Z.pow_mul_r in L by lia.
  assert (0 <= Z.of_nat (size m) + 1) by lia.
  assert ((Z.of_nat (size m) + 1) ^ 2 < (2 ^ Z.of_nat (S k)) ^ 2) by (apply Z.pow_lt_mono_l; lia).
  lia.
Qed.

Lemma size_tmap {A B} (f : A -> B) m : size (tmap f m) = size m.
Proof. induction m as [|l IHl k v b r IHr]; cbn [tmap size]; [trivial|]. fold (tmap f). now rewrite IHl, IHr. Qed.
Lemma elements_tmap {A B} (f : A -> B) m : elements (tmap f m) = map (fun p => (fst p, f (snd p))) (elements m).
Proof. induction m as [|l IHl k v b r IHr]; cbn [tmap elements]; [trivial|]. fold (tmap f). rewrite map_app, IHl, IHr. reflexivity. Qed.
Lemma height_tmap {A B} (f : A -> B) m : height (tmap f m) = height m.
Proof. induction m as [|l IHl k v b r IHr]; cbn [tmap height]; [trivial|]. fold (tmap f). now rewrite IHl, IHr. Qed.
Lemma avl_tmap {A B} (f : A -> B) m : avl (tmap f m) -> avl m.
Proof.
  induction m as [|l IHl k v b r IHr]; cbn [tmap avl]; [trivial|]. fold (tmap f). rewrite !height_tmap. tauto.
Qed.

Lemma delete_depth_le N n : wf_value (erase n) -> (largest (erase n) <= N)%nat -> (delete_depth n <= levels (erase n) * object_cost N)%nat.
Proof.
  assert (C : (1 <= object_cost N)%nat) by (unfold object_cost; lia).
  induction n as [id s|id d|id b|id|id l IH|id m order IH] using node_induct; cbn [erase levels largest delete_depth]; intros W L; try lia.
  - rewrite list_max_map in *. inversion W as [| | | |? W'|]; subst. rewrite list_max_le in L.
    rewrite Nat.mul_succ_l. assert (list_max delete_depth l <= list_max (fun v => levels (erase v)) l * object_cost N)%nat; [|lia].
    apply list_max_le. rewrite Forall_forall in *. intros x Hx.
    specialize (IH x Hx (W' _ (in_map erase _ _ Hx)) (L x Hx)).
    assert (H : (list_max (fun v => levels (erase v)) l <= list_max (fun v => levels (erase v)) l)%nat) by lia. rewrite list_max_le, Forall_forall in H.
    specialize (H x Hx). cbv beta in H. nia.
  - rewrite map_max_tmap, size_tmap in *. inversion W as [| | | | |? ? M _ W']; subst. destruct M as (M & _ & _). apply avl_tmap in M.
    pose proof (depth_cost m M) as D. pose proof (object_cost_mono (size m) N ltac:(lia)) as O.
    pose proof (subtree_depth_le delete_depth m) as S. rewrite Nat.mul_succ_l.
    assert (map_max delete_depth m <= map_max (fun v => levels (erase v)) m * object_cost N)%nat; [|lia].
    apply map_max_le. assert (L' : (map_max (fun v => largest (erase v)) m <= N)%nat) by lia. rewrite map_max_le in L'.
    assert (H : (map_max (fun v => levels (erase v)) m <= map_max (fun v => levels (erase v)) m)%nat) by lia. rewrite map_max_le in H.
    assert (W2 : tall (fun v => wf_value (erase v)) m).
    { apply tall_elements. intros k v Hv. apply (W' k). rewrite elements_tmap. apply (in_map (fun p => (fst p, erase (snd p))) _ _ Hv). }
    apply (tall_impl _ _ _ (tall_and _ _ _ (tall_and _ _ _ IH W2) (tall_and _ _ _ L' H))).
    intros v [[H1 H2] [H3 H4]]. specialize (H1 H2 H3). nia.
Qed.

(** ** Write *)

Section Write.
Variables (n : nat) (c : Z).

Lemma write_elements_agree l (IH : Forall (fun v => forall arr, fst (write_d n c v arr) = write n c v arr) l) :
  forall arr, fst (write_elements_d (map (write_d n c) l) arr) = write_elements (map (write n c) l) arr.
Proof.
  induction IH as [|v l Hv _ IHl]; intros arr; [reflexivity|]. cbn [map write_elements_d write_elements].
  specialize (Hv arr). destruct (write_d n c v arr) as [[[st o] a1] d1]. cbn [fst] in Hv. rewrite <- Hv.
  destruct (negb (status_eqb st kOk)); [reflexivity|]. specialize (IHl a1).
  destruct (write_elements_d (map (write_d n c) l) a1) as [[[st' o'] a2] d2]. cbn [fst] in IHl. rewrite <- IHl.
  cbn [fst]. do 4 f_equal. now destruct l.
Qed.

Lemma find_named_in {A} (m : tree A) key k v : find_named m key = Some (k, v) -> In (k, v) (elements m).
Proof.
  induction m as [|l IHl k' v' b r IHr]; cbn [find_named elements]; [discriminate|].
  destruct (text_lt key k'); [intros H; apply in_or_app; left; auto|]. destruct (text_lt k' key); [intros H; apply in_or_app; right; right; auto|].
  intros H. injection H as -> ->. apply in_or_app. right. now left.
Qed.

Lemma write_members_agree m (IH : tall (fun v => forall arr, fst (write_d n c v arr) = write n c v arr) m) order :
  forall arr, fst (write_members_d (map_tree (write_d n c) m) order arr) = write_members (map_tree (write n c) m) order arr.
Proof.
  rewrite tall_elements in IH.
  induction order as [|name order IHo]; intros arr; [reflexivity|]. cbn [write_members_d write_members]. rewrite !find_named_map.
  destruct (find_named m name) as [[k v]|] eqn:F; cbn [option_map fst snd]; [|reflexivity].
  apply find_named_in in F. specialize (IH k v F arr). 
  destruct (write_d n c v arr) as [[[st o] a1] d1]. cbn [fst] in IH. rewrite <- IH.
  destruct (negb (status_eqb st kOk)); [reflexivity|]. specialize (IHo a1).
  destruct (write_members_d (map_tree (write_d n c) m) order a1) as [[[st' o'] a2] d2]. cbn [fst] in IHo. now rewrite <- IHo.
Qed.

Lemma write_d_agrees v : forall arr, fst (write_d n c v arr) = write n c v arr.
Proof.
  induction v as [s|d|b| |l IH|m order IH] using value_induct; intros arr; try reflexivity; cbn [write_d write].
  - pose proof (write_elements_agree l IH (expand_array arr c n)) as E.
    destruct (write_elements_d (map (write_d n c) l) (expand_array arr c n)) as [[[st o] a1] d]. cbn [fst] in E. rewrite <- E.
    now destruct (negb (status_eqb st kOk)).
  - pose proof (write_members_agree m IH order (expand_array arr c n)) as E.
    destruct (write_members_d (map_tree (write_d n c) m) order (expand_array arr c n)) as [[[st o] a1] d]. cbn [fst] in E. rewrite <- E.
    now destruct (negb (status_eqb st kOk)).
Qed.

Lemma write_elements_depth l (IH : Forall (fun v => forall arr, (snd (write_d n c v arr) <= levels v)%nat) l) :
  forall arr, (snd (write_elements_d (map (write_d n c) l) arr) <= list_max levels l)%nat.
Proof.
  induction IH as [|v l Hv _ IHl]; intros arr; [cbn; lia|]. cbn [map write_elements_d list_max]. fold (@list_max value levels).
  specialize (Hv arr). destruct (write_d n c v arr) as [[[st o] a1] d1]. cbn [snd] in Hv.
  destruct (negb (status_eqb st kOk)); [cbn [snd]; lia|]. specialize (IHl a1).
  destruct (write_elements_d (map (write_d n c) l) a1) as [[[st' o'] a2] d2]. cbn [snd] in *. lia.
Qed.

Lemma write_members_depth m (IH : tall (fun v => forall arr, (snd (write_d n c v arr) <= levels v)%nat) m) order :
  forall arr, (snd (write_members_d (map_tree (write_d n c) m) order arr) <= map_max levels m)%nat.
Proof.
  assert (H : (map_max levels m <= map_max levels m)%nat) by lia. rewrite map_max_le in H. pose proof (tall_and _ _ _ IH H) as T. rewrite tall_elements in T.
  induction order as [|name order IHo]; intros arr; [cbn; lia|]. cbn [write_members_d]. rewrite !find_named_map.
  destruct (find_named m name) as [[k v]|] eqn:F; cbn [option_map fst snd]; [|lia].
  apply find_named_in in F. destruct (T k v F) as [Hv Hl]. specialize (Hv arr).
  destruct (write_d n c v arr) as [[[st o] a1] d1]. cbn [snd] in Hv.
  destruct (negb (status_eqb st kOk)); [cbn [snd]; lia|]. specialize (IHo a1).
  destruct (write_members_d (map_tree (write_d n c) m) order a1) as [[[st' o'] a2] d2]. cbn [snd] in *. lia.
Qed.

Lemma write_depth_le v : forall arr, (snd (write_d n c v arr) <= levels v)%nat.
Proof.
  induction v as [s|d|b| |l IH|m order IH] using value_induct; intros arr; try (cbn; lia); cbn [write_d levels].
  - pose proof (write_elements_depth l IH (expand_array arr c n)) as E.
    destruct (write_elements_d (map (write_d n c) l) (expand_array arr c n)) as [[[st o] a1] d]. cbn [snd] in E.
    destruct (negb (status_eqb st kOk)); cbn [snd]; lia.
  - pose proof (write_members_depth m IH order (expand_array arr c n)) as E.
    destruct (write_members_d (map_tree (write_d n c) m) order (expand_array arr c n)) as [[[st o] a1] d]. cbn [snd] in E.
    destruct (negb (status_eqb st kOk)); cbn [snd]; lia.
Qed.
End Write.

Lemma wf_induct (P : value -> Prop) :
  (forall s, P (VString s)) -> (forall d, P (VNumber d)) -> (forall b, P (VBool b)) -> P VNull ->
  (forall l, Forall P l -> Forall wf_value l -> P (VArray l)) ->
  (forall m order, wf_map m -> (forall k, In k order <-> In k (keys m)) -> (forall k v, In (k, v) (elements m) -> wf_value v /\ P v) -> P (VObject m order)) ->
  forall v, wf_value v -> P v.
Proof.
  intros H1 H2 H3 H4 H5 H6 v. induction v as [s|d|b| |l IH|m order IH] using value_induct; intros W; auto.
  - inversion W as [| | | |? W'|]; subst. apply H5; [|exact W']. rewrite Forall_forall in *. auto.
  - inversion W as [| | | | |? ? M O W']; subst. apply H6; auto. rewrite tall_elements in IH. intros k v Hv. split; eauto.
Qed.

Lemma assoc_member {A} k (v : A) l : NoDup (map fst l) -> In (k, v) l -> assoc k l = Some v.
Proof.
  induction l as [|[k' v'] l IH]; intros N H; [destruct H|]. cbn [assoc]. inversion N as [|? ? N1 N2]; subst. cbn [fst] in N1.
  destruct (key_eqb_spec k k') as [<-|E].
  - destruct H as [H|H]; [injection H as ->; reflexivity|]. exfalso. apply N1. apply (in_map fst _ _ H).
  - destruct H as [H|H]; [injection H as <- <-; congruence|auto].
Qed.

Lemma member_find {A} (m : tree A) k v : wf_map m -> In (k, v) (elements m) -> good_key k /\ find_map_element m k = Some v.
Proof.
  intros (_ & B & G) H. assert (K : good_key k).
  { unfold good_keys in G. rewrite Forall_forall in G. apply G. apply (in_map fst _ _ H). }
  split; [exact K|]. rewrite find_assoc by auto. apply assoc_member; [|exact H]. apply increasing_nodup, B.
Qed.

(** A tree as Parse makes them is written to its full depth. *)
Lemma write_depth_eq n c v : wf_value v -> forall arr, exists o arr', write_d n c v arr = ((kOk, o, arr'), levels v).
Proof.
  revert v. apply (wf_induct (fun v => forall arr, exists o arr', write_d n c v arr = ((kOk, o, arr'), levels v)));
    [intros s arr|intros d arr|intros b arr|intros arr|intros l IH WL arr|intros m order M O IH arr]; try (do 2 eexists; reflexivity); cbn [write_d levels].
  - assert (E : forall arr, exists o arr', write_elements_d (map (write_d n c) l) arr = ((kOk, o, arr'), list_max levels l)).
    { clear WL. induction l as [|v l IHl]; intros a; [do 2 eexists; reflexivity|]. inversion IH as [|? ? I1 I2]; subst.
      cbn [map write_elements_d list_max]. fold (@list_max value levels). destruct (I1 a) as (o & a1 & ->). cbn [status_eqb negb].
      rewrite status_eqb_refl. cbn [negb]. destruct (IHl I2 a1) as (o2 & a2 & ->). do 2 eexists. reflexivity. }
    destruct (E (expand_array arr c n)) as (o & a1 & ->). rewrite status_eqb_refl. do 2 eexists. reflexivity.
  - assert (E : forall order, (forall k, In k order -> In k (keys m)) -> forall arr,
      exists o arr', write_members_d (map_tree (write_d n c) m) order arr =
        ((kOk, o, arr'), list_max (fun k => match find_map_element m k with Some v => levels v | None => 0%nat end) order)).
    { clear O order. induction order as [|k order IHo]; intros H a; [do 2 eexists; reflexivity|].
      assert (Hk : In k (keys m)) by (apply H; now left). unfold keys in Hk. apply in_map_iff in Hk. destruct Hk as ([k' v] & <- & Hv). cbn [fst].
      destruct (member_find m k' v M Hv) as [G F]. destruct (IH _ _ Hv) as [_ IHv].
      cbn [write_members_d list_max]. rewrite find_named_map, find_named_key, F by (auto; apply M). cbn [option_map fst snd].
      destruct (IHv a) as (o & a1 & ->). rewrite status_eqb_refl. cbn [negb].
      destruct (IHo (fun x Hx => H x (or_intror Hx)) a1) as (o2 & a2 & ->). do 2 eexists. cbn [fst]. reflexivity. }
    destruct (E order (fun k Hk => proj1 (O k) Hk) (expand_array arr c n)) as (o & a1 & ->). rewrite status_eqb_refl. cbn [negb]. do 2 eexists. do 2 f_equal.
    apply Nat.le_antisymm.
    + apply list_max_le. rewrite Forall_forall. intros k Hk. apply O in Hk. unfold keys in Hk. apply in_map_iff in Hk. destruct Hk as ([k' v] & <- & Hv). cbn [fst].
      destruct (member_find m k' v M Hv) as [_ ->].
      assert (H : (map_max levels m <= map_max levels m)%nat) by lia. rewrite map_max_le, tall_elements in H. apply (H k' v Hv).
    + apply map_max_le, tall_elements. intros k v Hv. destruct (member_find m k v M Hv) as [_ F].
      assert (Hk : In k order) by (apply O; apply (in_map fst _ _ Hv)).
      set (f := fun k => match find_map_element m k with Some v => levels v | None => 0%nat end).
      assert (H : (list_max f order <= list_max f order)%nat) by lia. rewrite list_max_le, Forall_forall in H.
      specialize (H k Hk). unfold f at 1 in H. rewrite F in H. exact H.
Qed.

(** ** Trees and the JSON values they show *)

Lemma deepest_max l : deepest l = list_max nesting l.
Proof. induction l as [|x l IH]; cbn [deepest list_max]; [trivial|]. fold (@list_max jv nesting). now rewrite IH. Qed.
Lemma deepest_member_max ms : deepest_member ms = list_max (fun m => nesting (snd m)) ms.
Proof. induction ms as [|[k x] ms IH]; cbn [deepest_member list_max snd]; [trivial|]. fold (@list_max (list Z * jv) (fun m => nesting (snd m))). now rewrite IH. Qed.

Lemma max_member {A} (f : A -> nat) l x : In x l -> (f x <= list_max f l)%nat.
Proof. intros H. assert (E : (list_max f l <= list_max f l)%nat) by lia. rewrite list_max_le, Forall_forall in E. exact (E x H). Qed.

Lemma shown_bounds v : wf_value v -> forall j, represents v j -> (levels v <= nesting j)%nat /\ (largest v <= widest j)%nat.
Proof.
  revert v. apply (wf_induct (fun v => forall j, represents v j -> (levels v <= nesting j)%nat /\ (largest v <= widest j)%nat));
    [intros s j R|intros d j R|intros b j R|intros j R|intros l IH WL j R|intros m order M O IH j R];
    try (inversion R; subst; cbn; lia).
  - inversion R as [| | | |? js F|]; subst. cbn [levels largest widest]. rewrite nesting_arr, deepest_max. clear WL R.
    revert IH. induction F as [|v j l js H _ IHF]; intros IH; [cbn; lia|]. inversion IH as [|? ? I1 I2]; subst. cbn [list_max].
    fold (@list_max value levels) (@list_max value largest) (@list_max jv nesting) (@list_max jv widest).
    specialize (IHF I2). destruct (I1 j H). lia.
  - inversion R as [| | | | |? ? ms Eo HN HS]; subst. cbn [levels largest widest]. rewrite nesting_obj, deepest_member_max.
    assert (T : forall k v, In (k, v) (elements m) -> exists j, In (k, j) ms /\ represents v j).
    { intros k v Hv. destruct (member_find m k v M Hv) as [G F]. destruct (assoc k ms) as [j|] eqn:A.
      - destruct (HS k j G A) as (v' & F' & R'). rewrite F in F'. injection F' as <-. exists j. split; [now apply assoc_in|exact R'].
      - specialize (HN k G A). congruence. }
    split.
    + apply le_n_S, map_max_le, tall_elements. intros k v Hv. destruct (T k v Hv) as (j & Hj & Rj). destruct (IH k v Hv) as [_ Hi].
      destruct (Hi j Rj) as [H1 _]. pose proof (max_member (fun m => nesting (snd m)) ms (k, j) Hj). cbn [snd] in *. lia.
    + apply Nat.max_lub.
      * etransitivity; [|apply Nat.le_max_l]. rewrite size_elements, <- (map_length fst (elements m)), <- (map_length fst ms).
        apply NoDup_incl_length; [apply increasing_nodup, M|]. intros k Hk. now apply O.
      * etransitivity; [|apply Nat.le_max_r]. apply map_max_le, tall_elements. intros k v Hv. destruct (T k v Hv) as (j & Hj & Rj). destruct (IH k v Hv) as [_ Hi].
        destruct (Hi j Rj) as [_ H1]. pose proof (max_member (fun m => widest (snd m)) ms (k, j) Hj). cbn [snd] in *. lia.
Qed.

Lemma widest_text str num : 
  (forall t j, gval str num t j -> (widest j <= length t)%nat) /\
  (forall t l, gelems str num t l -> (list_max widest l <= length t)%nat) /\
  (forall t l, gmembers str num t l -> (length l <= length t)%nat /\ (list_max (fun m => widest (snd m)) l <= length t)%nat).
Proof.
  apply (grammar_mind str num (fun t j => (widest j <= length t)%nat) (fun t l => (list_max widest l <= length t)%nat)
    (fun t l => (length l <= length t)%nat /\ (list_max (fun m => widest (snd m)) l <= length t)%nat)); intros;
    cbn [widest list_max length snd] in *; repeat (rewrite !app_length in * || cbn [length] in *); try lia;
    fold (@list_max jv widest) (@list_max (list Z * jv) (fun m => widest (snd m))); try lia.
Qed.

Lemma widest_doc str num t j : gdoc str num t j -> (widest j <= length t)%nat.
Proof. intros [w1 t' w2 v _ H _]. apply (widest_text str num) in H. rewrite !app_length. lia. Qed.

(** ** Validate, Deserialize and Serialize *)

(** [r] gives what [e] gives, and no more than [b] activations. *)
Definition within {A} (r : out (A * nat)) (e : out A) (b : nat) : Prop :=
  match r, e with
  | Ret (x, d), Ret y => x = y /\ (d <= b)%nat
  | UB, UB | OutOfFuel, OutOfFuel => True
  | _, _ => False
  end.

Lemma within_bind {A B} (r : out (A * nat)) (e : out A) b (k : A -> nat -> out (B * nat)) (k' : A -> out B) b' :
  within r e b -> (forall x d, (d <= b)%nat -> within (k x d) (k' x) b') -> within (let! (x, d) := r in k x d) (bind e k') b'.
Proof.
  unfold within at 1. destruct r as [[x d]| |], e as [y| |]; try contradiction; cbn [bind]; intros H K; [|exact I|exact I].
  destruct H as [<- H]. now apply K.
Qed.
Lemma within_weaken {A} (r : out (A * nat)) e b b' : within r e b -> (b <= b')%nat -> within r e b'.
Proof. unfold within. destruct r as [[x d]| |], e as [y| |]; try tauto. intros [E H] L. split; [exact E|lia]. Qed.
Lemma within_ret {A} (x : A) d b : (d <= b)%nat -> within (Ret (x, d)) (Ret x) b.
Proof. now split. Qed.
Lemma within_same {A B} (e : out A) (k : A -> out (B * nat)) (k' : A -> out B) b :
  (forall x, within (k x) (k' x) b) -> within (bind e k) (bind e k') b.
Proof. intros H. destruct e; [apply H|exact I|exact I]. Qed.

Lemma within_map {A} (r : out (A * nat)) e b (g : nat -> nat) b' : within r e b -> (forall d, (d <= b)%nat -> (g d <= b')%nat) ->
  within (let! (x, d) := r in Ret (x, g d)) e b'.
Proof. unfold within. destruct r as [[x d]| |], e as [y| |]; try tauto. cbn [bind]. intros [E H] K. split; [exact E|now apply K]. Qed.

Lemma validate_each_within f g b l : (forall v, within (f v) (g v) b) -> within (validate_each_d f l) (validate_each g l) b.
Proof.
  intros H. induction l as [|v l IH]; [now apply within_ret; lia|]. cbn [validate_each_d validate_each].
  apply (within_bind _ _ b); [apply H|]. intros st d1 D1. destruct (negb (status_eqb st kOk)); [now apply within_ret|].
  apply (within_map _ _ b (fun d2 => Nat.max d1 d2)); [exact IH|]. lia.
Qed.

Lemma validate_named_within name f g b v : (forall v, within (f v) (g v) b) -> within (validate_named_d name f v) (validate_named name g v) b.
Proof.
  intros H. unfold validate_named_d, validate_named. destruct (as_object v) as [[m o]|]; [|apply within_ret; lia].
  destruct (find_map_element m name); [apply H|apply within_ret; lia].
Qed.

Lemma deeper_within {A} (r : out (A * nat)) e b : within r e b -> within (deeper r) e (S b).
Proof. unfold within, deeper. destruct r as [[x d]| |], e as [y| |]; try tauto. intros [E H]. split; [exact E|lia]. Qed.

Lemma validate_within :
  (forall t v, within (validate_d t v) (validate t v) (type_levels t)) /\
  (forall p v, within (validate_proto_d p v) (validate_proto p v) (proto_levels p)).
Proof.
  apply ty_proto_ind; cbn [type_levels proto_levels validate_d validate validate_proto_d validate_proto];
    try (intros; apply within_ret; lia);
    try (intros t IH v; destruct (get_array v); [|apply within_ret; lia]; apply deeper_within, validate_each_within, IH);
    try (intros t IH v; destruct (as_object v) as [[m o]|]; [|apply within_ret; lia]; apply within_same; intros es; apply deeper_within, validate_each_within, IH).
  - intros p IH v. apply deeper_within, IH.
  - intros k init t IHt rest IHr v.
    assert (R : forall d1, (d1 <= type_levels t)%nat ->
      within (let! (st, d2) := validate_proto_d rest v in Ret (st, S (Nat.max d1 d2))) (validate_proto rest v) (S (Nat.max (type_levels t) (proto_levels rest)))).
    { intros d1 D1. apply (within_map _ _ (proto_levels rest) (fun d2 => S (Nat.max d1 d2))); [apply IHr|]. lia. }
    destruct k as [name|name|]; (apply (within_bind _ _ (type_levels t)); [apply IHt || apply validate_named_within, IHt|]); intros st d1 D1;
      (match goal with |- within (if ?b then _ else _) _ _ => destruct b end; [apply within_ret; lia|now apply R]).
Qed.

Lemma elements_within f h b temp l : (forall v d, within (f v d) (h v d) b) -> forall acc,
  within (deserialize_elements_d f temp l acc) (deserialize_elements h temp l acc) b.
Proof.
  intros H. induction l as [|v l IH]; intros acc; [now apply within_ret; lia|]. cbn [deserialize_elements_d deserialize_elements].
  apply (within_bind _ _ b); [apply H|]. intros [st d] d1 D1. destruct (status_eqb st kOk); [|now apply within_ret].
  apply (within_map _ _ b (fun d2 => Nat.max d1 d2)); [apply IH|]. lia.
Qed.

Lemma members_within f h b temp es : (forall v d, within (f v d) (h v d) b) -> forall m,
  within (deserialize_members_d f temp es m) (deserialize_members h temp es m) b.
Proof.
  intros H. induction es as [|[key v] es IH]; intros m; [now apply within_ret; lia|]. cbn [deserialize_members_d deserialize_members].
  destruct (find_map_element m key) as [d|]; (apply (within_bind _ _ b); [apply H|]); intros [st d'] d1 D1; (destruct (negb (status_eqb st kOk)); [now apply within_ret|]).
  - apply (within_map _ _ b (fun d2 => Nat.max d1 d2)); [apply IH|]. lia.
  - apply within_same. intros [m' i]. apply (within_map _ _ b (fun d2 => Nat.max d1 d2)); [apply IH|]. lia.
Qed.

Lemma std_within f h b temp es : (forall v d, within (f v d) (h v d) b) -> forall l,
  within (deserialize_std_d f temp es l) (deserialize_std h temp es l) b.
Proof.
  intros H. induction es as [|[key v] es IH]; intros l; [now apply within_ret; lia|]. cbn [deserialize_std_d deserialize_std].
  apply (within_bind _ _ b); [apply H|]. intros [st d'] d1 D1. destruct (negb (status_eqb st kOk)); [now apply within_ret|].
  apply (within_map _ _ b (fun d2 => Nat.max d1 d2)); [apply IH|]. lia.
Qed.

Lemma deserialize_named_within name f h b v d : (forall v d, within (f v d) (h v d) b) ->
  within (deserialize_named_d name f v d) (deserialize_named name h v d) b.
Proof.
  intros H. unfold deserialize_named_d, deserialize_named. destruct (as_object v) as [[m o]|]; [|apply within_ret; lia].
  destruct (find_map_element m name); [apply H|apply within_ret; lia].
Qed.

Lemma once_within {A} (e : out A) b : (1 <= b)%nat -> within (let! r := e in Ret (r, 1%nat)) e b.
Proof. intros H. destruct e; cbn; auto. Qed.

Lemma deserialize_within g :
  (forall t v d, within (deserialize_d g t v d) (deserialize g t v d) (type_levels t)) /\
  (forall p v ds, within (deserialize_proto_d g p v ds) (deserialize_proto g p v ds) (proto_levels p)).
Proof.
  apply ty_proto_ind; try (intros v d; apply (once_within (deserialize g _ v d)); cbn; lia);
    cbn [type_levels proto_levels deserialize_d deserialize deserialize_proto_d deserialize_proto];
    try (intros t IH v d; destruct (get_array v); [|apply within_ret; lia];
         apply (within_bind _ _ (type_levels t)); [apply elements_within, IH|]; intros [st acc] d1 D1; apply within_ret; lia);
    try (intros t IH v d; destruct (as_object v) as [[m o]|]; [|apply within_ret; lia]; destruct d; try exact I; apply within_same; intros es;
         apply (within_bind _ _ (type_levels t)); [apply members_within, IH || apply std_within, IH|]; intros [st acc] d1 D1; apply within_ret; lia).
  - intros p IH v d. destruct d; try exact I. apply (within_bind _ _ (proto_levels p)); [apply IH|]. intros [st ds] d1 D1. apply within_ret. lia.
  - intros v ds. apply within_ret. lia.
  - intros k init t IHt rest IHr v [|d ds]; [destruct k; exact I|].
    assert (R : forall d d1, (d1 <= type_levels t)%nat ->
      within (let! (st, ds, d2) := deserialize_proto_d g rest v ds in Ret (st, d :: ds, S (Nat.max d1 d2)))
        (let! (st, ds) := deserialize_proto g rest v ds in Ret (st, d :: ds)) (S (Nat.max (type_levels t) (proto_levels rest)))).
    { intros d0 d1 D1. apply (within_bind _ _ (proto_levels rest)); [apply IHr|]. intros [st ds'] d2 D2. apply within_ret. lia. }
    destruct k as [name|name|]; (apply (within_bind _ _ (type_levels t)); [apply IHt || apply deserialize_named_within, IHt|]); intros [st d'] d1 D1;
      (match goal with |- within (if ?b then _ else _) _ _ => destruct b end; [apply within_ret; lia|now apply R]).
Qed.

Lemma serialize_elements_within f h b ds : (forall d, within (f d) (h d) b) -> forall acc,
  within (serialize_elements_d false f ds acc) (serialize_elements h ds acc) b.
Proof.
  intros H. induction ds as [|d ds IH]; intros acc; [now apply within_ret; lia|]. cbn [serialize_elements_d serialize_elements].
  apply (within_bind _ _ b); [apply H|]. intros [st v] d1 D1. destruct (negb (status_eqb st kOk)); [now apply within_ret|].
  apply (within_map _ _ b (fun d2 => Nat.max d1 d2)); [apply IH|]. lia.
Qed.

Lemma serialize_vector_within f h b ds : (forall d, within (f d) (h d) b) -> forall acc,
  within (serialize_elements_d true f ds acc) (serialize_vector h ds acc) b.
Proof.
  intros H. induction ds as [|d ds IH]; intros acc; [now apply within_ret; lia|]. cbn [serialize_elements_d serialize_vector].
  apply (within_bind _ _ b); [apply H|]. intros [st v] d1 D1. destruct (negb (status_eqb st kOk)); [now apply within_ret|].
  apply (within_map _ _ b (fun d2 => Nat.max d1 d2)); [apply IH|]. lia.
Qed.

Lemma serialize_members_within f h b es : (forall d, within (f d) (h d) b) -> forall m,
  within (serialize_members_d f es m) (serialize_members h es m) b.
Proof.
  intros H. induction es as [|[key d] es IH]; intros m; [now apply within_ret; lia|]. cbn [serialize_members_d serialize_members].
  apply (within_bind _ _ b); [apply H|]. intros [st v] d1 D1. destruct (negb (status_eqb st kOk)); [now apply within_ret|].
  apply within_same. intros [m' i]. apply (within_map _ _ b (fun d2 => Nat.max d1 d2)); [apply IH|]. lia.
Qed.

Lemma serialize_named_within name new f h b v : (forall v, within (f v) (h v) b) ->
  within (serialize_named_d name new f v) (serialize_named name new h v) b.
Proof.
  intros H. unfold serialize_named_d, serialize_named. destruct v; try (apply within_ret; lia).
  - apply (within_bind _ _ b); [apply H|]. intros [st v'] d1 D1. now apply within_ret.
  - apply (within_bind _ _ b); [apply H|]. intros [st v'] d1 D1. apply within_same. intros [[m' o] i]. now apply within_ret.
Qed.

Lemma serialize_within :
  (forall t d v, within (serialize_d t d v) (serialize t d v) (type_levels t)) /\
  (forall p ds v, within (serialize_proto_d p ds v) (serialize_proto p ds v) (proto_levels p)).
Proof.
  apply ty_proto_ind.
  1-4: intros d v; destruct d; try exact I; cbn [serialize_d]; apply (once_within (serialize _ _ v)); cbn; lia.
  1-2: intros t IH d v; destruct d; try exact I; cbn [serialize_d serialize type_levels]; destruct v; try (apply within_ret; lia).
  - apply (within_bind _ _ (type_levels t)); [apply serialize_elements_within; intros; apply IH|]. intros [st l'] d1 D1. apply within_ret. lia.
  - apply within_same. intros es. apply (within_bind _ _ (type_levels t)); [apply serialize_members_within; intros; apply IH|]. intros [st l'] d1 D1. apply within_ret. lia.
  - intros d v; destruct d; try exact I; cbn [serialize_d]; apply (once_within (serialize _ _ v)); cbn; lia.
  - intros t IH d v; destruct d; try exact I; cbn [serialize_d serialize type_levels]; destruct v; try (apply within_ret; lia).
    apply (within_bind _ _ (type_levels t)); [apply serialize_vector_within; intros; apply IH|]. intros [st l'] d1 D1. apply within_ret. lia.
  - intros t IH d v; destruct d; try exact I; cbn [serialize_d serialize type_levels]; destruct v; try (apply within_ret; lia).
    apply (within_bind _ _ (type_levels t)); [apply serialize_members_within; intros; apply IH|]. intros [st l'] d1 D1. apply within_ret. lia.
  - intros p IH d v; destruct d; try exact I. cbn [serialize_d serialize type_levels].
    apply (within_map _ _ (proto_levels p) S); [apply IH|]. lia.
  - intros ds v. apply within_ret. cbn. lia.
  - intros k init t IHt rest IHr [|d ds] v; [destruct k; exact I|]. cbn [proto_levels].
    assert (R : forall v d1, (d1 <= type_levels t)%nat ->
      within (let! (r, d2) := serialize_proto_d rest ds v in Ret (r, S (Nat.max d1 d2))) (serialize_proto rest ds v) (S (Nat.max (type_levels t) (proto_levels rest)))).
    { intros v0 d1 D1. apply (within_map _ _ (proto_levels rest) (fun d2 => S (Nat.max d1 d2))); [apply IHr|]. lia. }
    destruct k as [name|name|]; cbn [serialize_proto_d serialize_proto];
      (apply (within_bind _ _ (type_levels t)); [apply IHt || (apply serialize_named_within; intros; apply IHt)|]); intros [st v'] d1 D1;
      (match goal with |- within (if ?b then _ else _) _ _ => destruct b end; [apply within_ret; lia|now apply R]).
Qed.
