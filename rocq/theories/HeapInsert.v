(** * The pointer heap refines the tree model: insertion, replacement, lookup,
    iteration and the release of whole maps. *)

From Verif Require Import Base TextModel MapModel SpecMap MapProofs HeapModel HeapProofs HeapOps HeapRemove.

#[local] Arguments Z.eqb : simpl nomatch.
#[local] Arguments Z.ltb : simpl nomatch.

(** Where the descent of an insertion ends. *)
Inductive place : Type :=
| Found (l : atree) (k : list Z) (a : nat) (b : Z) (r : atree) (up : list (frame nat))
| GoLeft (k : list Z) (a : nat) (b : Z) (r : atree) (up : list (frame nat))
| GoRight (l : atree) (k : list Z) (a : nat) (b : Z) (up : list (frame nat))
| Empty.

Fixpoint descend (t : atree) (up : list (frame nat)) (key : list Z) : place :=
  match t with
  | Leaf => Empty
  | Node l k a b r =>
      if text_lt key k then
        match l with Leaf => GoLeft k a b r up | _ => descend l (FL k a b r :: up) key end
      else if text_lt k key then
        match r with Leaf => GoRight l k a b up | _ => descend r (FR l k a b :: up) key end
      else Found l k a b r up
  end.

Lemma insert_at_descend (t : atree) : forall up key e, t <> Leaf ->
  insert_at t up key e =
  match descend t up key with
  | Found l k a b r up' => Ret (zip (Node l k a b r) up', false)
  | GoLeft k a b r up' => let! t := insert_left_subnode k a b r up' key e in Ret (t, true)
  | GoRight l k a b up' => let! t := insert_right_subnode l k a b up' key e in Ret (t, true)
  | Empty => UB
  end.
Proof.
  induction t as [|l IHl k a b r IHr]; intros up key e H; [congruence|]. simpl.
  destruct (text_lt key k).
  - destruct l as [|ll lk la lb lr]; [reflexivity|]. apply IHl. discriminate.
  - destruct (text_lt k key); [|reflexivity].
    destruct r as [|rl rk ra rb rr]; [reflexivity|]. apply IHr. discriminate.
Qed.

Definition place_zip (p : place) : atree :=
  match p with
  | Found l k a b r up => zip (Node l k a b r) up
  | GoLeft k a b r up => zip (Node Leaf k a b r) up
  | GoRight l k a b up => zip (Node l k a b Leaf) up
  | Empty => Leaf
  end.

Lemma descend_zip (t : atree) : forall up key, t <> Leaf -> place_zip (descend t up key) = zip t up /\ descend t up key <> Empty.
Proof.
  induction t as [|l IHl k a b r IHr]; intros up key H; [congruence|]. simpl.
  destruct (text_lt key k).
  - destruct l as [|ll lk la lb lr]; [split; [reflexivity|discriminate]|]. apply (IHl (FL k a b r :: up) key). discriminate.
  - destruct (text_lt k key); [|split; [reflexivity|discriminate]].
    destruct r as [|rl rk ra rb rr]; [split; [reflexivity|discriminate]|]. apply (IHr (FR l k a b :: up) key). discriminate.
Qed.

Lemma descend_found (t : atree) : forall up key l k a b r up', good_key key -> good_keys t ->
  descend t up key = Found l k a b r up' -> k = key.
Proof.
  induction t as [|l IHl k a b r IHr]; intros up key l0 k0 a0 b0 r0 up0 Hk Hg E; [discriminate|].
  apply good_keys_node in Hg. destruct Hg as (Gl & Gk & Gr). simpl in E.
  destruct (text_lt_cases key k Hk Gk) as [(HL & E1)|[(HE & E1 & E2)|(HL & E1 & E2)]].
  - rewrite E1 in E. destruct l as [|ll lk la lb lr]; [discriminate|]. eapply IHl; eauto.
  - rewrite E1, E2 in E. injection E as <- <- <- <- <- <-. auto.
  - rewrite E1, E2 in E. destruct r as [|rl rk ra rb rr]; [discriminate|]. eapply IHr; eauto.
Qed.

Lemma insert_from_descend (t : atree) : forall mp up s n m e key l k a b r, t = Node l k a b r -> (size t <= n)%nat ->
  repr (mem s) mp (sup up) t ->
  h_insert_from n m s mp a e key =
  match descend t up key with
  | Found _ _ _ _ _ _ => Ret (s, false)
  | GoLeft _ a' _ _ _ => let! s := h_insert_left m s mp a' e in Ret (s, true)
  | GoRight _ _ a' _ _ => let! s := h_insert_right m s mp a' e in Ret (s, true)
  | Empty => UB
  end.
Proof.
  induction t as [|tl IHl tk ta tb tr IHr]; intros mp up s n m e key l k a b r Et Hn H; [discriminate|].
  injection Et as -> -> -> -> ->. destruct n as [|n]; [simpl in Hn; lia|]. cbn [repr] in H. destruct H as (Ma & Hl & Hr).
  cbn [h_insert_from descend]. hstep. destruct (text_lt key k).
  - destruct l as [|ll lk la lb lr]; [reflexivity|]. cbn [addr].
    eapply IHl; [reflexivity|simpl in Hn |- *; lia|exact Hl].
  - destruct (text_lt k key); [|reflexivity].
    destruct r as [|rl rk ra rb rr]; [reflexivity|]. cbn [addr].
    eapply IHr; [reflexivity|simpl in Hn |- *; lia|exact Hr].
Qed.

Lemma insert_replace_from_descend (t : atree) : forall mp up s n m e key l k a b r, t = Node l k a b r -> (size t <= n)%nat ->
  repr (mem s) mp (sup up) t ->
  h_insert_replace_from n m s mp a e key =
  match descend t up key with
  | Found _ _ a' _ _ _ => if negb (Nat.eqb e a') then let! s := h_replace m s mp a' e in Ret (s, Some a') else Ret (s, None)
  | GoLeft _ a' _ _ _ => let! s := h_insert_left m s mp a' e in Ret (s, None)
  | GoRight _ _ a' _ _ => let! s := h_insert_right m s mp a' e in Ret (s, None)
  | Empty => UB
  end.
Proof.
  induction t as [|tl IHl tk ta tb tr IHr]; intros mp up s n m e key l k a b r Et Hn H; [discriminate|].
  injection Et as -> -> -> -> ->. destruct n as [|n]; [simpl in Hn; lia|]. cbn [repr] in H. destruct H as (Ma & Hl & Hr).
  cbn [h_insert_replace_from descend]. hstep. destruct (text_lt key k).
  - destruct l as [|ll lk la lb lr]; [reflexivity|]. cbn [addr].
    eapply IHl; [reflexivity|simpl in Hn |- *; lia|exact Hl].
  - destruct (text_lt k key); [|reflexivity].
    destruct r as [|rl rk ra rb rr]; [reflexivity|]. cbn [addr].
    eapply IHr; [reflexivity|simpl in Hn |- *; lia|exact Hr].
Qed.

Lemma find_from_ok (t : atree) : forall mp p s n key, (size t <= n)%nat -> repr (mem s) mp p t ->
  h_find_from n s (addr t) key = Ret (find_map_element t key).
Proof.
  induction t as [|l IHl k a b r IHr]; intros mp p s n key Hn H; [destruct n; reflexivity|].
  destruct n as [|n]; [simpl in Hn; lia|]. cbn [repr] in H. destruct H as (Ma & Hl & Hr). simpl in Hn.
  cbn [h_find_from addr find_map_element]. hstep. destruct (text_lt key k).
  - eapply IHl; [lia|exact Hl].
  - destruct (text_lt k key); [|reflexivity]. eapply IHr; [lia|exact Hr].
Qed.

(** An element without links. *)
Definition loose (s : state) (e : nat) (k : list Z) : Prop := exists b, mem s e = Some (N None None None None b k).

(** The rest of InsertLeftSubnode and InsertRightSubnode after the removal from
    the previous map. *)
Definition link_left (n : nat) (s : state) (mp a e : nat) : out state :=
  let! s := set_left s a (Some e) in
  let! s := set_super s e (Some a) in
  let! s := set_owner s e (Some mp) in
  let! s := set_bal s e 0 in
  let! x := get s a in
  let b := nbal x - 1 in
  let! s := set_bal s a b in
  if negb (b =? 0) then h_insert_loop n s mp true a else Ret s.
Definition link_right (n : nat) (s : state) (mp a e : nat) : out state :=
  let! s := set_right s a (Some e) in
  let! s := set_super s e (Some a) in
  let! s := set_owner s e (Some mp) in
  let! s := set_bal s e 0 in
  let! x := get s a in
  let b := nbal x + 1 in
  let! s := set_bal s a b in
  if negb (b =? 0) then h_insert_loop n s mp false a else Ret s.

Definition linked (s s' : state) (mp e : nat) (old t : atree) : Prop :=
  at_ s' mp t [] /\ frame_ s s' mp (fun x => (tcnt x old + one e x)%nat) /\
  (forall x, tcnt x t = tcnt x old + one e x)%nat.

Lemma link_left_ok s mp k a b r up e ek n t : at_ s mp (Node Leaf k a b r) up -> loose s e ek ->
  (tcnt e (Node Leaf k a b r) + ucnt e up = 0)%nat -> (length up < n)%nat ->
  insert_left_subnode k a b r up ek e = Ret t ->
  exists s', link_left n s mp a e = Ret s' /\ linked s s' mp e (zip (Node Leaf k a b r) up) t.
Proof.
  intros H [eb Me] He Hn E. open_at H. simpl in Hrep. destruct Hrep as (Ma & _ & Hr).
  assert (Hu : forall x, (tcnt x (Node (Node Leaf ek e 0 Leaf) k a b r) + ucnt x up <= 1)%nat).
  { intros x. specialize (Huniq x). simpl in *. unfold one in *. destruct (Nat.eqb_spec e x) as [<-|]; lia. }
  clear Huniq He. distinct Hu a e. unfold link_left. fields. hstep. unfold insert_left_subnode in E.
  match goal with |- context [put ?z a (N _ _ _ _ (b - 1) _)] => set (s0 := z) end.
  match goal with |- context [Ret ?z] => set (s1 := z) end.
  assert (H1 : at_ s1 mp (Node (Node Leaf ek e 0 Leaf) k a (b - 1) r) up).
  { unfold s1, s0. split; [|split; [subtrees Hu|split; [|exact Hu]]].
    - rewrite !root_put, Hroot. apply addr_zip. reflexivity.
    - eapply repr_up_ext; [|exact Hup]. frame_goal Hu. }
  assert (F1 : frame_ s s1 mp (fun x => (tcnt x (zip (Node Leaf k a b r) up) + one e x)%nat)).
  { unfold s1, s0. split; [|intros q Hq; mem_goal]. intros x. rewrite tcnt_zip. revert x. frame_goal Hu. }
  assert (Ec : forall x, (tcnt x (zip (Node Leaf k a b r) up) + one e x = tcnt x (Node (Node Leaf ek e 0 Leaf) k a (b - 1) r) + ucnt x up)%nat).
  { intros x. rewrite tcnt_zip. simpl. lia. }
  destruct (b - 1 =? 0); cbn [negb] in *.
  - injection E as <-. exists s1. split; [reflexivity|]. split; [apply (proj1 (at_zip _ _ _ _)); exact H1|]. split; [exact F1|].
    intros x. rewrite Ec, tcnt_zip. reflexivity.
  - destruct (insert_loop_ok mp up _ _ _ _ _ _ true n t Hn H1 E) as (s' & K1 & K2 & K3 & K4).
    exists s'. split; [exact K1|]. split; [exact K2|]. split.
    + eapply frame_trans; [|exact F1|exact K3]. intros x. cbv beta. now rewrite Ec.
    + intros x. rewrite Ec. apply K4.
Qed.

Lemma link_right_ok s mp l k a b up e ek n t : at_ s mp (Node l k a b Leaf) up -> loose s e ek ->
  (tcnt e (Node l k a b Leaf) + ucnt e up = 0)%nat -> (length up < n)%nat ->
  insert_right_subnode l k a b up ek e = Ret t ->
  exists s', link_right n s mp a e = Ret s' /\ linked s s' mp e (zip (Node l k a b Leaf) up) t.
Proof.
  intros H [eb Me] He Hn E. open_at H. simpl in Hrep. destruct Hrep as (Ma & Hl & _).
  assert (Hu : forall x, (tcnt x (Node l k a b (Node Leaf ek e 0 Leaf)) + ucnt x up <= 1)%nat).
  { intros x. specialize (Huniq x). simpl in *. unfold one in *. destruct (Nat.eqb_spec e x) as [<-|]; lia. }
  clear Huniq He. distinct Hu a e. unfold link_right. fields. hstep. unfold insert_right_subnode in E.
  match goal with |- context [put ?z a (N _ _ _ _ (b + 1) _)] => set (s0 := z) end.
  match goal with |- context [Ret ?z] => set (s1 := z) end.
  assert (H1 : at_ s1 mp (Node l k a (b + 1) (Node Leaf ek e 0 Leaf)) up).
  { unfold s1, s0. split; [|split; [subtrees Hu|split; [|exact Hu]]].
    - rewrite !root_put, Hroot. apply addr_zip. reflexivity.
    - eapply repr_up_ext; [|exact Hup]. frame_goal Hu. }
  assert (F1 : frame_ s s1 mp (fun x => (tcnt x (zip (Node l k a b Leaf) up) + one e x)%nat)).
  { unfold s1, s0. split; [|intros q Hq; mem_goal]. intros x. rewrite tcnt_zip. revert x. frame_goal Hu. }
  assert (Ec : forall x, (tcnt x (zip (Node l k a b Leaf) up) + one e x = tcnt x (Node l k a (b + 1) (Node Leaf ek e 0 Leaf)) + ucnt x up)%nat).
  { intros x. rewrite tcnt_zip. simpl. lia. }
  destruct (b + 1 =? 0); cbn [negb] in *.
  - injection E as <-. exists s1. split; [reflexivity|]. split; [apply (proj1 (at_zip _ _ _ _)); exact H1|]. split; [exact F1|].
    intros x. rewrite Ec, tcnt_zip. reflexivity.
  - destruct (insert_loop_ok mp up _ _ _ _ _ _ false n t Hn H1 E) as (s' & K1 & K2 & K3 & K4).
    exists s'. split; [exact K1|]. split; [exact K2|]. split.
    + eapply frame_trans; [|exact F1|exact K3]. intros x. cbv beta. now rewrite Ec.
    + intros x. rewrite Ec. apply K4.
Qed.

(** The rest of SetRootElement, for an empty map. *)
Definition link_root (s : state) (mp e : nat) : out state :=
  let! s := set_owner s e (Some mp) in
  let! s := set_bal s e 0 in
  Ret (set_root s mp (Some e)).

Lemma link_root_ok s mp e ek : at_ s mp Leaf [] -> loose s e ek ->
  exists s', link_root s mp e = Ret s' /\ linked s s' mp e Leaf (Node Leaf ek e 0 Leaf).
Proof.
  intros H [eb Me]. unfold link_root. fields. hstep. eexists. split; [reflexivity|].
  assert (Hu : forall x, (tcnt x (Node Leaf ek e 0 Leaf) + ucnt x [] <= 1)%nat).
  { intros x. simpl. unfold one. destruct (Nat.eqb e x); lia. }
  split; [|split].
  - split; [apply root_set_same|]. split; [subtrees Hu|]. split; [exact I|exact Hu].
  - split; [frame_goal Hu|]. intros q Hq. mem_goal.
  - intros x. simpl. lia.
Qed.

(** The rest of ReplaceMapElement, for an element that is not the root. *)
Definition link_replace (s : state) (mp a e : nat) : out state :=
  let! x := get s a in
  let super := nsuper x in
  let! s := match super with
            | Some sp => set_child s sp a (Some e)
            | None => Ret s
            end in
  let! s := set_super s e super in
  let! x := get s a in
  let! s := set_bal s e (nbal x) in
  let! s := set_owner s e (Some mp) in
  let! x := get s a in
  let! s := set_left s e (nleft x) in
  let! s := set_super_of s (nleft x) (Some e) in
  let! x := get s a in
  let! s := set_right s e (nright x) in
  let! s := set_super_of s (nright x) (Some e) in
  h_unlink s a.

Lemma link_replace_ok s mp l k a b r up e ek : up <> [] -> at_ s mp (Node l k a b r) up -> loose s e ek ->
  (tcnt e (Node l k a b r) + ucnt e up = 0)%nat ->
  exists s', link_replace s mp a e = Ret s' /\ at_ s' mp (Node l ek e b r) up /\ loose s' a k /\
    frame_ s s' mp (fun x => (tcnt x (Node l k a b r) + one e x + ucnt x up)%nat).
Proof.
  intros Hne H [eb Me] He. open_at H. simpl in Hrep. destruct Hrep as (Ma & Hl & Hr).
  assert (Hu : forall x, (tcnt x (Node l k a b r) + one e x + ucnt x up <= 1)%nat).
  { intros x. specialize (Huniq x). simpl in *. unfold one in *. destruct (Nat.eqb_spec e x) as [<-|]; lia. }
  clear Huniq He. unfold link_replace, h_unlink. distinct Hu a e. hstep.
  destruct up as [|f up]; [congruence|]. clear Hne.
  destruct l as [|ll lk la lb lr];
    [|simpl in Hl; destruct Hl as (Ml & Hll & Hlr); distinct Hu a la; distinct Hu e la];
  (destruct r as [|rl rk ra rb rr];
    [|simpl in Hr; destruct Hr as (Mr & Hrl & Hrr); distinct Hu a ra; distinct Hu e ra; try distinct Hu la ra];
  (destruct f as [pk pa pb pr|pl pk pa pb];
    [ simpl in Hup; destruct Hup as (Mp & Hpr & Hup); distinct Hu a pa; distinct Hu e pa; try distinct Hu la pa; try distinct Hu ra pa;
      simpl sup in *; fields; hstep; simpl ptr_eqb; rewrite Nat.eqb_refl; hstep
    | simpl in Hup; destruct Hup as (Mp & Hpl & Hup); distinct Hu a pa; distinct Hu e pa; try distinct Hu la pa; try distinct Hu ra pa;
      simpl sup in *; fields; hstep; rewrite (addr_other a pl) by (clear - Hu; uniq Hu a; lia); hstep ]));
  (eexists; split; [reflexivity|]; split; [|split; [eexists; mem_goal|]];
    [ split; [|split; [|split]];
      [ rewrite ?root_put; rewrite Hroot; apply addr_zip_r; discriminate
      | subtrees Hu | subtrees Hu | clear - Hu; intros x; specialize (Hu x); simpl in *; lia ]
    | split; [frame_goal Hu|]; let q := fresh "q" in intros q Hq; mem_goal ]).
Qed.

(** ** Iteration *)

Definition loc_addr (x : option (loc nat)) : option nat := match x with None => None | Some (t, _) => addr t end.

Lemma next_up_ok mp up : forall s n l k a b r, (length up < n)%nat -> at_ s mp (Node l k a b r) up ->
  h_next_up n s a = Ret (loc_addr (next_up (Node l k a b r) up)).
Proof.
  induction up as [|f up IH]; intros s n l k a b r Hn H; (destruct n as [|n]; [simpl in Hn; lia|]); pose proof H as H0; open_at H0;
    cbn [repr] in Hrep; destruct Hrep as (Ma & _); cbn [h_next_up]; hstep.
  - reflexivity.
  - simpl in Hn. destruct f as [pk pa pb pr|pl pk pa pb]; cbn [repr_up] in Hup; destruct Hup as (Mp & _); cbn [sup]; hstep.
    + simpl ptr_eqb. rewrite Nat.eqb_refl. reflexivity.
    + rewrite (addr_other a pl) by (clear - Huniq; uniq Huniq a; lia). simpl next_up.
      apply IH; [lia|]. now apply at_right.
Qed.

Lemma next_ok s mp l k a b r up n : (size (zip (Node l k a b r) up) <= n)%nat -> at_ s mp (Node l k a b r) up ->
  h_next n s a = Ret (loc_addr (get_next (Node l k a b r, up))).
Proof.
  intros Hn H. rewrite size_zip in Hn. pose proof (usize_length up). pose proof H as H1. open_at H1. cbn [repr] in Hrep. destruct Hrep as (Ma & Hl & Hr).
  unfold h_next. hstep. destruct r as [|rl rk ra rb rr].
  - cbn [addr]. rewrite (next_up_ok mp up _ n _ _ _ _ _ ltac:(simpl in Hn; lia) H). destruct l; reflexivity.
  - cbn [addr]. remember (Node rl rk ra rb rr) as R eqn:ER.
    destruct (get_first_spec R (FR l k a b :: up) rl rk ra rb rr ER) as (k' & a' & b' & r' & up' & F1 & _).
    rewrite (first_ok mp R s (FR l k a b :: up) n _ _ _ _ _ _ _ _ _ _ _ ER ltac:(simpl in Hn; lia) Hr F1). cbn [bind].
    assert (E : get_next (Node l k a b R, up) = Some (get_first R (FR l k a b :: up))) by (rewrite ER; destruct l; reflexivity).
    rewrite E, F1. reflexivity.
Qed.

Lemma prev_up_ok mp up : forall s n l k a b r, (length up < n)%nat -> at_ s mp (Node l k a b r) up ->
  h_prev_up n s a = Ret (loc_addr (prev_up (Node l k a b r) up)).
Proof.
  induction up as [|f up IH]; intros s n l k a b r Hn H; (destruct n as [|n]; [simpl in Hn; lia|]); pose proof H as H0; open_at H0;
    cbn [repr] in Hrep; destruct Hrep as (Ma & _); cbn [h_prev_up]; hstep.
  - reflexivity.
  - simpl in Hn. destruct f as [pk pa pb pr|pl pk pa pb]; cbn [repr_up] in Hup; destruct Hup as (Mp & _); cbn [sup]; hstep.
    + rewrite (addr_other a pr) by (clear - Huniq; uniq Huniq a; lia). simpl prev_up.
      apply IH; [lia|]. now apply at_left.
    + simpl ptr_eqb. rewrite Nat.eqb_refl. reflexivity.
Qed.

Lemma prev_ok s mp l k a b r up n : (size (zip (Node l k a b r) up) <= n)%nat -> at_ s mp (Node l k a b r) up ->
  h_prev n s a = Ret (loc_addr (get_prev (Node l k a b r, up))).
Proof.
  intros Hn H. rewrite size_zip in Hn. pose proof (usize_length up). pose proof H as H1. open_at H1. cbn [repr] in Hrep. destruct Hrep as (Ma & Hl & Hr).
  unfold h_prev. hstep. destruct l as [|ll lk la lb lr].
  - cbn [addr]. rewrite (prev_up_ok mp up _ n _ _ _ _ _ ltac:(simpl in Hn; lia) H). reflexivity.
  - cbn [addr]. remember (Node ll lk la lb lr) as L eqn:EL.
    destruct (get_last_spec L (FL k a b r :: up) ll lk la lb lr EL) as (l' & k' & a' & b' & up' & F1 & _).
    rewrite (last_ok mp L s (FL k a b r :: up) n _ _ _ _ _ _ _ _ _ _ _ EL ltac:(simpl in Hn; lia) Hl F1). cbn [bind].
    assert (E : get_prev (Node L k a b r, up) = Some (get_last L (FL k a b r :: up))) by (rewrite EL; reflexivity).
    rewrite E, F1. reflexivity.
Qed.

Lemma iterate_heap s mp T m : at_ s mp T [] -> (size T <= m)%nat -> forall n l k a b r up, zip (Node l k a b r) up = T ->
  (length (elements r ++ after up) < n)%nat ->
  h_iterate n m s (Some a) = Ret (a :: map snd (elements r ++ after up)).
Proof.
  intros H Hm. induction n as [|n IH]; intros l k a b r up Ez Hn; [lia|].
  assert (Ha : at_ s mp (Node l k a b r) up) by (apply at_zip; now rewrite Ez).
  cbn [h_iterate]. rewrite (next_ok s mp l k a b r up m) by (rewrite ?Ez; assumption). cbn [bind].
  pose proof (get_next_spec l k a b r up) as G.
  destruct (get_next (Node l k a b r, up)) as [[t' up']|].
  - destruct G as (l' & k' & a' & b' & r' & -> & G2 & G3). cbn [loc_addr addr].
    rewrite (IH l' k' a' b' r' up'); [|congruence|rewrite <- G3 in Hn; simpl in Hn; lia]. rewrite <- G3. reflexivity.
  - rewrite G. cbn [loc_addr]. destruct n; reflexivity.
Qed.

Lemma elements_heap s mp T n : at_ s mp T [] -> (size T <= n)%nat -> h_elements n s mp = Ret (map snd (elements T)).
Proof.
  intros H Hn. unfold h_elements. pose proof H as H0. destruct H0 as (Hr & Hrep & _). simpl zip in Hr. rewrite Hr.
  destruct T as [|l k a b r]; [reflexivity|]. remember (Node l k a b r) as T eqn:ET. rewrite ET at 1. cbn [addr].
  destruct (get_first_spec T [] l k a b r ET) as (k' & a' & b' & r' & up' & F1 & F2 & F3 & F4).
  rewrite (first_ok mp T s [] n _ _ _ _ _ _ _ _ _ _ _ ET Hn Hrep F1). cbn [bind]. simpl zip at 2 in F2.
  rewrite app_nil_r in F4.
  rewrite (iterate_heap s mp T n H Hn n Leaf k' a' b' r' up' F2).
  - rewrite <- F4. reflexivity.
  - rewrite size_elements, <- F4 in Hn. simpl in Hn. lia.
Qed.

Lemma get_last_zip (t : atree) : forall up t' up', t <> Leaf -> get_last t up = (t', up') -> zip t' up' = zip t up.
Proof.
  induction t as [|l _ k v b r IHr]; intros up t' up' Ht E; [congruence|].
  destruct r as [|rl rk rv rb rr].
  - destruct l; simpl in E; injection E as <- <-; reflexivity.
  - assert (E' : get_last (Node rl rk rv rb rr) (FR l k v b :: up) = (t', up')) by (destruct l; exact E).
    apply IHr in E'; [exact E'|discriminate].
Qed.
Lemma prev_up_zip (up : list (frame nat)) : forall t t' up', prev_up t up = Some (t', up') -> zip t' up' = zip t up.
Proof.
  induction up as [|[k v b r|l k v b] up IH]; intros t t' up' E; simpl in *; [discriminate|now apply IH in E|].
  injection E as <- <-. reflexivity.
Qed.
Lemma get_prev_zip l k a b r up t' up' : get_prev (Node l k a b r, up) = Some (t', up') ->
  zip t' up' = zip (Node l k a b r) up :> atree.
Proof.
  destruct l as [|ll lk la lb lr]; cbn [get_prev]; intros E.
  - now apply prev_up_zip in E.
  - assert (E' : get_last (Node ll lk la lb lr) (FL k a b r :: up) = (t', up')) by congruence.
    apply get_last_zip in E'; [exact E'|discriminate].
Qed.

Lemma iterate_back_heap s mp T m : at_ s mp T [] -> (size T <= m)%nat -> forall n l k a b r up, zip (Node l k a b r) up = T ->
  (length (before up ++ elements l) < n)%nat ->
  h_iterate_back n m s (Some a) = Ret (rev (map snd (before up ++ elements l ++ [(k, a)]))).
Proof.
  intros H Hm. induction n as [|n IH]; intros l k a b r up Ez Hn; [lia|].
  assert (Ha : at_ s mp (Node l k a b r) up) by (apply at_zip; now rewrite Ez).
  cbn [h_iterate_back]. rewrite (prev_ok s mp l k a b r up m) by (rewrite ?Ez; assumption). cbn [bind].
  pose proof (get_prev_spec l k a b r up) as G. pose proof (get_prev_zip l k a b r up) as Z.
  rewrite app_assoc, map_app, rev_app_distr. simpl rev at 1. simpl app.
  destruct (get_prev (Node l k a b r, up)) as [[t' up']|].
  - destruct G as (l' & k' & a' & b' & r' & -> & G3). cbn [loc_addr addr].
    specialize (Z _ _ eq_refl).
    rewrite (IH l' k' a' b' r' up'); [|congruence|rewrite <- G3, app_assoc, app_length in Hn; simpl in Hn; lia].
    rewrite <- G3. reflexivity.
  - rewrite G. cbn [loc_addr]. destruct n; reflexivity.
Qed.

Lemma elements_back_heap s mp T n : at_ s mp T [] -> (size T <= n)%nat ->
  h_elements_back n s mp = Ret (rev (map snd (elements T))).
Proof.
  intros H Hn. unfold h_elements_back. pose proof H as H0. destruct H0 as (Hr & Hrep & _). simpl zip in Hr. rewrite Hr.
  destruct T as [|l k a b r]; [reflexivity|]. remember (Node l k a b r) as T eqn:ET. rewrite ET at 1. cbn [addr].
  destruct (get_last_spec T [] l k a b r ET) as (l' & k' & a' & b' & up' & F1 & F4).
  rewrite (last_ok mp T s [] n _ _ _ _ _ _ _ _ _ _ _ ET Hn Hrep F1). cbn [bind]. simpl in F4.
  assert (F2 : zip (Node l' k' a' b' Leaf) up' = T).
  { apply get_last_zip in F1; [exact F1|rewrite ET; discriminate]. }
  rewrite (iterate_back_heap s mp T n H Hn n l' k' a' b' Leaf up' F2).
  - rewrite F4. reflexivity.
  - rewrite size_elements, <- F4, app_assoc, app_length in Hn. simpl in Hn. lia.
Qed.

(** ** Whole maps *)

(** RemoveSubtree clears the links of every element. *)
Lemma remove_subtree_ok (t : atree) : forall mp p s n l k a b r, t = Node l k a b r -> (size t <= n)%nat ->
  repr (mem s) mp p t -> (forall x, (tcnt x t <= 1)%nat) ->
  exists s', h_remove_subtree n s a = Ret s' /\ (forall k x, In (k, x) (elements t) -> loose s' x k) /\ (forall x, tcnt x t = 0%nat -> mem s' x = mem s x) /\ root s' = root s.
Proof.
  assert (Inc : forall (t0 : atree) k x, In (k, x) (elements t0) -> (0 < tcnt x t0)%nat).
  { clear t. induction t0 as [|l IHl k a b r IHr]; intros k0 x H; [destruct H|]. simpl in *. rewrite in_app_iff in H. simpl in H.
    destruct H as [H|[H|H]]; [apply IHl in H; lia| |apply IHr in H; lia]. injection H as -> ->. unfold one.
    rewrite Nat.eqb_refl. lia. }
  induction t as [|tl IHl tk ta tb tr IHr]; intros mp p s n l k a b r Et Hn H U; [discriminate|].
  injection Et as -> -> -> -> ->. destruct n as [|n]; [simpl in Hn; lia|]. cbn [repr] in H. destruct H as (Ma & Hl & Hr).
  simpl in Hn. cbn [h_remove_subtree]. hstep.
  assert (Ul : forall x, (tcnt x l <= 1)%nat) by (intros x; specialize (U x); simpl in U; lia).
  assert (Ur : forall x, (tcnt x r <= 1)%nat) by (intros x; specialize (U x); simpl in U; lia).
  assert (Ua : (tcnt a l = 0 /\ tcnt a r = 0)%nat) by (uniq U a; lia).
  assert (L : exists s1, match addr l with Some x => h_remove_subtree n s x | None => Ret s end = Ret s1 /\
    (forall k x, In (k, x) (elements l) -> loose s1 x k) /\ (forall x, tcnt x l = 0%nat -> mem s1 x = mem s x) /\ root s1 = root s).
  { destruct l as [|ll lk la lb lr]; [exists s; repeat split; auto; intros ? ? []|]. cbn [addr].
    eapply IHl; [reflexivity|lia|exact Hl|exact Ul]. }
  destruct L as (s1 & -> & L1 & L2 & L3). cbn [bind].
  assert (Ma1 : mem s1 a = Some (N (addr l) (addr r) p (Some mp) b k)) by (rewrite L2; tauto). hstep.
  assert (Hr1 : repr (mem s1) mp (Some a) r).
  { eapply repr_ext; [|exact Hr]. intros x Hx. apply L2. specialize (U x). simpl in U. lia. }
  assert (R : exists s2, match addr r with Some x => h_remove_subtree n s1 x | None => Ret s1 end = Ret s2 /\
    (forall k x, In (k, x) (elements r) -> loose s2 x k) /\ (forall x, tcnt x r = 0%nat -> mem s2 x = mem s1 x) /\ root s2 = root s1).
  { destruct r as [|rl rk ra rb rr]; [exists s1; repeat split; auto; intros ? ? []|]. cbn [addr].
    eapply IHr; [reflexivity|lia|exact Hr1|exact Ur]. }
  destruct R as (s2 & -> & R1 & R2 & R3). cbn [bind].
  assert (Ma2 : mem s2 a = Some (N (addr l) (addr r) p (Some mp) b k)) by (rewrite R2; tauto).
  destruct (unlink_ok s2 a _ Ma2) as (s3 & V1 & V2 & V3 & V4). exists s3. split; [exact V1|]. split; [|split].
  - intros k0 x Hx. simpl in Hx. rewrite in_app_iff in Hx. simpl in Hx. destruct Hx as [Hx|[Hx|Hx]].
    + pose proof (Inc _ _ _ Hx). destruct (L1 _ _ Hx) as [b1 M1]. exists b1.
      rewrite V3, R2; [exact M1| |]; [specialize (U x); simpl in U; lia|intros ->; lia].
    + injection Hx as <- <-. exists b. exact V2.
    + pose proof (Inc _ _ _ Hx). destruct (R1 _ _ Hx) as [b1 M1]. exists b1. rewrite V3; [exact M1|]. intros ->; lia.
  - intros x Hx. simpl in Hx. rewrite V3, R2, L2; [reflexivity|lia|lia|]. intros ->. unfold one in Hx. rewrite Nat.eqb_refl in Hx. lia.
  - congruence.
Qed.

Lemma free_same s a : mem (free s a) a = None.
Proof. unfold free. simpl. now rewrite Nat.eqb_refl. Qed.
Lemma free_other s a x : x <> a -> mem (free s a) x = mem s x.
Proof. unfold free. simpl. intros H. destruct (Nat.eqb_spec x a); congruence. Qed.

(** DeleteSubtree releases every element exactly once. *)
Lemma delete_subtree_ok (t : atree) : forall mp p s n l k a b r, t = Node l k a b r -> (size t <= n)%nat ->
  repr (mem s) mp p t -> (forall x, (tcnt x t <= 1)%nat) ->
  exists s', h_delete_subtree n s a = Ret s' /\ (forall x, (0 < tcnt x t)%nat -> mem s' x = None) /\
    (forall x, tcnt x t = 0%nat -> mem s' x = mem s x) /\ root s' = root s.
Proof.
  induction t as [|tl IHl tk ta tb tr IHr]; intros mp p s n l k a b r Et Hn H U; [discriminate|].
  injection Et as -> -> -> -> ->. destruct n as [|n]; [simpl in Hn; lia|]. cbn [repr] in H. destruct H as (Ma & Hl & Hr).
  simpl in Hn. cbn [h_delete_subtree]. hstep.
  assert (Ul : forall x, (tcnt x l <= 1)%nat) by (intros x; specialize (U x); simpl in U; lia).
  assert (Ur : forall x, (tcnt x r <= 1)%nat) by (intros x; specialize (U x); simpl in U; lia).
  assert (Ua : (tcnt a l = 0 /\ tcnt a r = 0)%nat) by (uniq U a; lia).
  assert (L : exists s1, match addr l with Some x => h_delete_subtree n s x | None => Ret s end = Ret s1 /\
    (forall x, (0 < tcnt x l)%nat -> mem s1 x = None) /\ (forall x, tcnt x l = 0%nat -> mem s1 x = mem s x) /\ root s1 = root s).
  { destruct l as [|ll lk la lb lr]; [exists s; repeat split; auto; simpl; lia|]. cbn [addr].
    eapply IHl; [reflexivity|lia|exact Hl|exact Ul]. }
  destruct L as (s1 & -> & L1 & L2 & L3). cbn [bind].
  assert (Ma1 : mem s1 a = Some (N (addr l) (addr r) p (Some mp) b k)) by (rewrite L2; tauto). hstep.
  assert (Hr1 : repr (mem s1) mp (Some a) r).
  { eapply repr_ext; [|exact Hr]. intros x Hx. apply L2. specialize (U x). simpl in U. lia. }
  assert (R : exists s2, match addr r with Some x => h_delete_subtree n s1 x | None => Ret s1 end = Ret s2 /\
    (forall x, (0 < tcnt x r)%nat -> mem s2 x = None) /\ (forall x, tcnt x r = 0%nat -> mem s2 x = mem s1 x) /\ root s2 = root s1).
  { destruct r as [|rl rk ra rb rr]; [exists s1; repeat split; auto; simpl; lia|]. cbn [addr].
    eapply IHr; [reflexivity|lia|exact Hr1|exact Ur]. }
  destruct R as (s2 & -> & R1 & R2 & R3). cbn [bind].
  assert (Ma2 : mem s2 a = Some (N (addr l) (addr r) p (Some mp) b k)) by (rewrite R2; tauto).
  unfold set_owner. hstep. unfold h_detach. hstep. eexists. split; [reflexivity|]. split; [|split].
  - intros x Hx. simpl in Hx. destruct (Nat.eq_dec x a) as [->|Hne]; [apply free_same|].
    rewrite free_other by exact Hne. rewrite mem_put_other by congruence. unfold one in Hx.
    destruct (Nat.eqb_spec a x); [congruence|]. destruct (Nat.eq_dec (tcnt x r) 0) as [Z|Z]; [|apply R1; lia].
    rewrite R2 by exact Z. apply L1. lia.
  - intros x Hx. simpl in Hx. assert (x <> a). { intros ->. unfold one in Hx. rewrite Nat.eqb_refl in Hx. lia. }
    rewrite free_other by assumption. rewrite mem_put_other by congruence. rewrite R2, L2; [reflexivity|lia|lia].
  - transitivity (root s2); [reflexivity|congruence].
Qed.
