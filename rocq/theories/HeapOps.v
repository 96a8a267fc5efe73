(** * The pointer heap refines the tree model: insertion and removal. *)

From Verif Require Import Base TextModel MapModel SpecMap MapProofs HeapModel HeapProofs.

#[local] Arguments Z.eqb : simpl nomatch.
#[local] Arguments Z.ltb : simpl nomatch.

Lemma frame_trans s1 s2 s3 mp c c' : (forall x, c' x = c x) -> frame_ s1 s2 mp c -> frame_ s2 s3 mp c' -> frame_ s1 s3 mp c.
Proof.
  intros E [A1 A2] [B1 B2]. split.
  - intros x Hx. rewrite B1 by (rewrite E; exact Hx). auto.
  - intros q Hq. rewrite B2 by exact Hq. auto.
Qed.

Lemma frame_refl s mp c : frame_ s s mp c.
Proof. split; auto. Qed.

Lemma frame_weaken s s' mp c c' : (forall x, c' x = 0 -> c x = 0)%nat -> frame_ s s' mp c -> frame_ s s' mp c'.
Proof. intros E [A1 A2]. split; auto. Qed.

Lemma at_left s mp t k a b r up : at_ s mp t (FL k a b r :: up) <-> at_ s mp (Node t k a b r) up.
Proof. rewrite (at_zip _ _ t), (at_zip _ _ (Node t k a b r)). reflexivity. Qed.
Lemma at_right s mp l k a b t up : at_ s mp t (FR l k a b :: up) <-> at_ s mp (Node l k a b t) up.
Proof. rewrite (at_zip _ _ t), (at_zip _ _ (Node l k a b t)). reflexivity. Qed.

Lemma set_bal_ok s mp l k a b r up b' : at_ s mp (Node l k a b r) up ->
  exists s1, set_bal s a b' = Ret s1 /\ at_ s1 mp (Node l k a b' r) up /\
    frame_ s s1 mp (fun x => (tcnt x (Node l k a b r) + ucnt x up)%nat).
Proof.
  intros H. open_at H. pose proof Huniq as Hu. simpl in Hrep. destruct Hrep as (Ma & Hl & Hr).
  unfold set_bal. hstep. eexists. split; [reflexivity|]. split; [|split].
  - split; [|split; [|split]].
    + rewrite root_put, Hroot. apply addr_zip. reflexivity.
    + subtrees Hu.
    + eapply repr_up_ext; [|exact Hup]. frame_goal Hu.
    + exact Hu.
  - frame_goal Hu.
  - intros q Hq. mem_goal.
Qed.

(** The four rotations, as relations between a tree operation and a heap operation. *)
Definition refines (f : atree -> out atree) (h : state -> nat -> nat -> out (state * nat)) : Prop :=
  forall s mp T a up t, at_ s mp T up -> addr T = Some a -> f T = Ret t ->
  exists s' a', h s mp a = Ret (s', a') /\ addr t = Some a' /\ at_ s' mp t up /\
    frame_ s s' mp (fun x => (tcnt x T + ucnt x up)%nat) /\ (forall x, tcnt x t = tcnt x T).

Lemma rotate_left_refines : refines rotate_left h_rotate_left.
Proof.
  intros s mp T a up t H Ea E. destruct T as [|l k a0 b [|rl rk ra rb rr]]; try discriminate.
  injection Ea as ->. injection E as <-. destruct (h_rotate_left_ok _ _ _ _ _ _ _ _ _ _ _ _ H) as (s' & E & H1 & H2).
  exists s', ra. split; [exact E|]. split; [reflexivity|]. split; [exact H1|]. split; [exact H2|]. intros x. simpl. lia.
Qed.
Lemma rotate_right_refines : refines rotate_right h_rotate_right.
Proof.
  intros s mp T a up t H Ea E. destruct T as [|[|ll lk la lb lr] k a0 b r]; try discriminate.
  injection Ea as ->. injection E as <-. destruct (h_rotate_right_ok _ _ _ _ _ _ _ _ _ _ _ _ H) as (s' & E & H1 & H2).
  exists s', la. split; [exact E|]. split; [reflexivity|]. split; [exact H1|]. split; [exact H2|]. intros x. simpl. lia.
Qed.
Lemma zigzag_left_refines : refines zigzag_left h_zigzag_left.
Proof.
  intros s mp T a up t H Ea E. destruct T as [|l k a0 b [|[|sl tk ta tb sr] rk ra rb rr]]; try discriminate.
  injection Ea as ->. injection E as <-. destruct (h_zigzag_left_ok _ _ _ _ _ _ _ _ _ _ _ _ _ _ _ _ H) as (s' & E & H1 & H2).
  exists s', ta. split; [exact E|]. split; [reflexivity|]. split; [exact H1|]. split; [exact H2|]. intros x. simpl. lia.
Qed.
Lemma zigzag_right_refines : refines zigzag_right h_zigzag_right.
Proof.
  intros s mp T a up t H Ea E. destruct T as [|[|ll lk la lb [|sl tk ta tb sr]] k a0 b r]; try discriminate.
  injection Ea as ->. injection E as <-. destruct (h_zigzag_right_ok _ _ _ _ _ _ _ _ _ _ _ _ _ _ _ _ H) as (s' & E & H1 & H2).
  exists s', ta. split; [exact E|]. split; [reflexivity|]. split; [exact H1|]. split; [exact H2|]. intros x. simpl. lia.
Qed.

(** What a loop leaves: the whole tree [t], from [node] below [up]. *)
Definition left_as (s s' : state) (mp : nat) (node : atree) (up : list (frame nat)) (t : atree) : Prop :=
  at_ s' mp t [] /\ frame_ s s' mp (fun x => (tcnt x node + ucnt x up)%nat) /\
  (forall x, tcnt x t = (tcnt x node + ucnt x up)%nat).

Lemma insert_loop_ok mp up : forall s l k a b r dir1 n t, (length up < n)%nat ->
  at_ s mp (Node l k a b r) up -> insert_up dir1 (Node l k a b r) up = Ret t ->
  exists s', h_insert_loop n s mp dir1 a = Ret s' /\ left_as s s' mp (Node l k a b r) up t.
Proof.
  induction up as [|f up IH]; intros s l k a b r dir1 n t Hn H E.
  - destruct n as [|n]; [simpl in Hn; lia|]. simpl in E. injection E as <-. pose proof H as H0. open_at H0.
    simpl in Hrep. destruct Hrep as (Ma & _). simpl. hstep. exists s. split; [reflexivity|]. split; [exact H|].
    split; [apply frame_refl|]. intros x. simpl. lia.
  - destruct n as [|n]; [simpl in Hn; lia|]. simpl in Hn. pose proof H as H0. open_at H0.
    simpl in Hrep. destruct Hrep as (Ma & _).
    assert (Hnode : exists l1 k1 a1 b1 r1 b2, at_ s mp (Node l1 k1 a1 b1 r1) up /\ sup (f :: up) = Some a1 /\
      (forall x, tcnt x (Node l1 k1 a1 b1 r1) + ucnt x up = tcnt x (Node l k a b r) + ucnt x (f :: up))%nat /\
      (exists n1, mem s a1 = Some n1 /\ nbal n1 = b1 /\
        b2 = (if ptr_eqb (nleft n1) (Some a) then b1 - 1 else b1 + 1) /\
        ptr_eqb (nleft n1) (Some a) = match f with FL _ _ _ _ => true | FR _ _ _ _ => false end) /\
      insert_up dir1 (Node l k a b r) (f :: up) =
        (if b2 =? 0 then Ret (zip (Node l1 k1 a1 b2 r1) up)
         else if Z.abs b2 =? 2 then
           let! t := match f with
                     | FL _ _ _ _ => if dir1 then rotate_right (Node l1 k1 a1 b2 r1) else zigzag_right (Node l1 k1 a1 b2 r1)
                     | FR _ _ _ _ => if dir1 then zigzag_left (Node l1 k1 a1 b2 r1) else rotate_left (Node l1 k1 a1 b2 r1)
                     end in Ret (zip t up)
         else insert_up match f with FL _ _ _ _ => true | FR _ _ _ _ => false end (Node l1 k1 a1 b2 r1) up)).
    { destruct f as [pk pa pb pr|pl pk pa pb].
      - exists (Node l k a b r), pk, pa, pb, pr, (pb - 1). split; [now apply at_left|]. split; [reflexivity|].
        split; [intros x; simpl; lia|]. simpl in Hup. destruct Hup as (Mp & _).
        split; [|reflexivity]. eexists. split; [exact Mp|]. simpl. rewrite Nat.eqb_refl. auto.
      - exists pl, pk, pa, pb, (Node l k a b r), (pb + 1). split; [now apply at_right|]. split; [reflexivity|].
        split; [intros x; simpl; lia|]. simpl in Hup. destruct Hup as (Mp & _).
        split; [|reflexivity]. eexists. split; [exact Mp|]. simpl.
        rewrite (addr_other a pl) by (clear - Huniq; uniq Huniq a; lia). auto. }
    destruct Hnode as (l1 & k1 & a1 & b1 & r1 & b2 & H1 & Es & Ec & (n1 & Mn & Eb & Eb2 & Ed) & Ei).
    rewrite E in Ei. cbn [h_insert_loop]. hstep. cbn [sup] in Es. rewrite Es. hstep. rewrite Eb, <- Eb2, Ed.
    destruct (set_bal_ok _ _ _ _ _ _ _ _ b2 H1) as (s1 & E1 & H2 & F1). rewrite E1. cbn [bind].
    assert (F1' : frame_ s s1 mp (fun x => (tcnt x (Node l k a b r) + ucnt x (f :: up))%nat)).
    { eapply frame_weaken; [|exact F1]. intros x. cbv beta. rewrite Ec. auto. }
    destruct (b2 =? 0).
    { injection Ei as ->. exists s1. split; [reflexivity|]. split; [apply (proj1 (at_zip _ _ _ _)); assumption|]. split; [exact F1'|].
      intros x. rewrite tcnt_zip, <- Ec. simpl. lia. }
    destruct (Z.abs b2 =? 2).
    { symmetry in Ei. apply bind_ret_inv in Ei. destruct Ei as (t1 & E2 & E3). injection E3 as <-.
      assert (Hrot : exists s2 a2, (if match f with FL _ _ _ _ => true | FR _ _ _ _ => false end
         then if dir1 then h_rotate_right s1 mp a1 else h_zigzag_right s1 mp a1
         else if dir1 then h_zigzag_left s1 mp a1 else h_rotate_left s1 mp a1) = Ret (s2, a2) /\
         at_ s2 mp t1 up /\ frame_ s1 s2 mp (fun x => (tcnt x (Node l1 k1 a1 b2 r1) + ucnt x up)%nat) /\
         (forall x, tcnt x t1 = tcnt x (Node l1 k1 a1 b2 r1))).
      { destruct f; destruct dir1;
        [destruct (rotate_right_refines _ _ _ _ _ _ H2 eq_refl E2) as (s2 & a2 & K1 & _ & K)
        |destruct (zigzag_right_refines _ _ _ _ _ _ H2 eq_refl E2) as (s2 & a2 & K1 & _ & K)
        |destruct (zigzag_left_refines _ _ _ _ _ _ H2 eq_refl E2) as (s2 & a2 & K1 & _ & K)
        |destruct (rotate_left_refines _ _ _ _ _ _ H2 eq_refl E2) as (s2 & a2 & K1 & _ & K)]; eauto. }
      destruct Hrot as (s2 & a2 & -> & H3 & F2 & C2). cbn [bind]. exists s2. split; [reflexivity|].
      split; [apply (proj1 (at_zip _ _ _ _)); assumption|]. split.
      - eapply frame_trans; [|exact F1'|exact F2]. intros x. cbv beta. rewrite <- Ec. simpl. lia.
      - intros x. rewrite tcnt_zip, C2, <- Ec. simpl. lia. }
    assert (Hn' : (length up < n)%nat) by lia.
    destruct (IH _ _ _ _ _ _ _ n _ Hn' H2 (eq_sym Ei)) as (s2 & E2 & H3 & F2 & C2).
    exists s2. split; [exact E2|]. split; [exact H3|]. split.
    + eapply frame_trans; [|exact F1'|exact F2]. intros x. cbv beta. rewrite <- Ec. simpl. lia.
    + intros x. rewrite C2, <- Ec. simpl. lia.
Qed.

(** ** Removal *)

(** The end of a round of the loop: on with the super node, if any. *)
Definition climb (n : nat) (s : state) (mp : nat) (up : option nat) (a : nat) : out state :=
  match up with
  | None => Ret s
  | Some super =>
      let! sn := get s super in
      h_remove_loop n s mp super (if ptr_eqb (nleft sn) (Some a) then 1 else -1)
  end.

Definition climbs (mp : nat) (up : list (frame nat)) : Prop := forall s T a n t,
  addr T = Some a -> (length up <= n)%nat -> at_ s mp T up -> remove_up T up = Ret t ->
  exists s', climb n s mp (sup up) a = Ret s' /\ left_as s s' mp T up t.

Definition dir (f : frame nat) : Z := match f with FL _ _ _ _ => 1 | FR _ _ _ _ => -1 end.

Lemma remove_round mp up : climbs mp up -> forall s node f n t p, (length up < n)%nat ->
  at_ s mp node (f :: up) -> remove_up node (f :: up) = Ret t -> sup (f :: up) = Some p ->
  exists s', h_remove_loop n s mp p (dir f) = Ret s' /\ left_as s s' mp node (f :: up) t.
Proof.
  intros IH s node f n t p Hn H E Es. destruct n as [|n]; [lia|].
  assert (Hnode : exists l1 k1 b1 r1 b2, at_ s mp (Node l1 k1 p b1 r1) up /\
      (forall x, tcnt x (Node l1 k1 p b1 r1) + ucnt x up = tcnt x node + ucnt x (f :: up))%nat /\
      b2 = b1 + dir f /\
      remove_up node (f :: up) =
        (if Z.abs b2 =? 1 then Ret (zip (Node l1 k1 p b2 r1) up)
         else if negb (b2 =? 0) then
           if 0 <? b2 then
             match r1 with
             | Node _ _ _ rb _ =>
                 if 0 <=? rb then
                   let! t := rotate_left (Node l1 k1 p b2 r1) in
                   if rb =? 0 then Ret (zip t up) else remove_up t up
                 else let! t := zigzag_left (Node l1 k1 p b2 r1) in remove_up t up
             | Leaf => UB
             end
           else
             match l1 with
             | Node _ _ _ lb _ =>
                 if lb <=? 0 then
                   let! t := rotate_right (Node l1 k1 p b2 r1) in
                   if lb =? 0 then Ret (zip t up) else remove_up t up
                 else let! t := zigzag_right (Node l1 k1 p b2 r1) in remove_up t up
             | Leaf => UB
             end
         else remove_up (Node l1 k1 p b2 r1) up)).
  { destruct f as [pk pa pb pr|pl pk pa pb]; injection Es as ->;
    [ exists node, pk, pb, pr, (pb + 1); split; [now apply at_left|]
    | exists pl, pk, pb, node, (pb - 1); split; [now apply at_right|] ];
    (split; [intros x; simpl; lia|]; split; [simpl; lia|]; reflexivity). }
  destruct Hnode as (l1 & k1 & b1 & r1 & b2 & H1 & Ec & Eb2 & Ei). rewrite E in Ei. clear E.
  pose proof H1 as H0. open_at H0. simpl in Hrep. destruct Hrep as (Mp & Hl1 & Hr1).
  cbn [h_remove_loop]. hstep. rewrite <- Eb2.
  destruct (set_bal_ok _ _ _ _ _ _ _ _ b2 H1) as (s1 & E1 & H2 & F1). rewrite E1. cbn [bind].
  assert (F1' : frame_ s s1 mp (fun x => (tcnt x node + ucnt x (f :: up))%nat)).
  { eapply frame_weaken; [|exact F1]. intros x. cbv beta. rewrite Ec. auto. }
  assert (Fin : forall s2 T, at_ s2 mp T up -> frame_ s1 s2 mp (fun x => (tcnt x (Node l1 k1 p b2 r1) + ucnt x up)%nat) ->
    (forall x, tcnt x T = tcnt x (Node l1 k1 p b2 r1)) -> left_as s s2 mp node (f :: up) (zip T up)).
  { intros s2 T A F C. split; [apply (proj1 (at_zip _ _ _ _)); assumption|]. split.
    - eapply frame_trans; [|exact F1'|exact F]. intros x. cbv beta. rewrite <- Ec. simpl. lia.
    - intros x. rewrite tcnt_zip, C, <- Ec. simpl. lia. }
  assert (Go : forall s2 T a2 t2, at_ s2 mp T up -> frame_ s1 s2 mp (fun x => (tcnt x (Node l1 k1 p b2 r1) + ucnt x up)%nat) ->
    (forall x, tcnt x T = tcnt x (Node l1 k1 p b2 r1)) -> addr T = Some a2 -> remove_up T up = Ret t2 ->
    exists s', climb n s2 mp (sup up) a2 = Ret s' /\ left_as s s' mp node (f :: up) t2).
  { intros s2 T a2 t2 A F C Ea Er. destruct (IH _ _ _ n _ Ea ltac:(lia) A Er) as (s3 & K1 & K2 & K3 & K4).
    exists s3. split; [exact K1|]. split; [exact K2|]. split.
    - eapply frame_trans; [|eapply frame_trans; [|exact F1'|exact F]|exact K3];
        intros x; cbv beta; rewrite ?C, <- Ec; simpl; lia.
    - intros x. rewrite K4, C, <- Ec. simpl. lia. }
  pose proof H2 as H0. destruct H0 as (_ & H0 & _). cbn [repr] in H0. destruct H0 as (Mp1 & Hl2 & Hr2).
  destruct (Z.abs b2 =? 1).
  { injection Ei as ->. exists s1. split; [reflexivity|]. apply Fin; [exact H2|apply frame_refl|reflexivity]. }
  destruct (b2 =? 0); cbn [negb] in *.
  { hstep. apply (Go s1 (Node l1 k1 p b2 r1) p t); auto; apply frame_refl. }
  destruct (0 <? b2).
  - destruct r1 as [|rl rk ra rb rr]; [discriminate|]. cbn [repr] in Hr2. destruct Hr2 as (Mr1 & _). hstep.
    destruct (0 <=? rb); symmetry in Ei; apply bind_ret_inv in Ei; destruct Ei as (T & E2 & E3).
    + destruct (rotate_left_refines _ _ _ _ _ _ H2 eq_refl E2) as (s2 & a2 & K1 & K2 & K3 & K4 & K5).
      rewrite K1. cbn [bind]. destruct (rb =? 0).
      * injection E3 as <-. exists s2. split; [reflexivity|]. now apply Fin.
      * now apply (Go s2 T a2 t).
    + destruct (zigzag_left_refines _ _ _ _ _ _ H2 eq_refl E2) as (s2 & a2 & K1 & K2 & K3 & K4 & K5).
      rewrite K1. cbn [bind]. now apply (Go s2 T a2 t).
  - destruct l1 as [|ll lk la lb lr]; [discriminate|]. cbn [repr] in Hl2. destruct Hl2 as (Ml1 & _). hstep.
    destruct (lb <=? 0); symmetry in Ei; apply bind_ret_inv in Ei; destruct Ei as (T & E2 & E3).
    + destruct (rotate_right_refines _ _ _ _ _ _ H2 eq_refl E2) as (s2 & a2 & K1 & K2 & K3 & K4 & K5).
      rewrite K1. cbn [bind]. destruct (lb =? 0).
      * injection E3 as <-. exists s2. split; [reflexivity|]. now apply Fin.
      * now apply (Go s2 T a2 t).
    + destruct (zigzag_right_refines _ _ _ _ _ _ H2 eq_refl E2) as (s2 & a2 & K1 & K2 & K3 & K4 & K5).
      rewrite K1. cbn [bind]. now apply (Go s2 T a2 t).
Qed.

Lemma climbs_all mp up : climbs mp up.
Proof.
  induction up as [|f up IH]; intros s T a n t Ea Hn H E.
  - simpl in E. injection E as <-. exists s. split; [reflexivity|]. split; [exact H|]. split; [apply frame_refl|].
    intros x. simpl. lia.
  - destruct (sup (f :: up)) as [p|] eqn:Es; [|destruct f; discriminate].
    destruct (remove_round mp up IH s T f n t p) as (s' & K1 & K2); auto.
    exists s'. split; [|exact K2]. unfold climb. rewrite <- K1. pose proof H as H0. open_at H0.
    destruct f as [pk pa pb pr|pl pk pa pb]; injection Es as ->; cbn [repr_up] in Hup; destruct Hup as (Mp & _);
      hstep; f_equal; simpl dir.
    + rewrite Ea. simpl. now rewrite Nat.eqb_refl.
    + rewrite (addr_other a pl); [reflexivity|]. destruct T as [|]; [discriminate|]. injection Ea as ->.
      clear - Huniq. uniq Huniq a. lia.
Qed.

(** RemoveBranchNode. *)
Lemma remove_branch_ok s mp l k a b r up sub n t : (l = Leaf /\ sub = r) \/ (r = Leaf /\ sub = l) ->
  (length up <= n)%nat -> at_ s mp (Node l k a b r) up -> remove_up sub up = Ret t ->
  exists s', h_remove_branch n s mp a (addr sub) = Ret s' /\ left_as s s' mp sub up t.
Proof.
  intros Hsub Hn H E. pose proof H as H0. open_at H0. simpl in Hrep. destruct Hrep as (Ma & Hl & Hr).
  assert (Hu : forall x, (tcnt x sub + one a x + ucnt x up <= 1)%nat).
  { intros x. specialize (Huniq x). simpl in Huniq. destruct Hsub as [[-> ->]|[-> ->]]; simpl in *; lia. }
  assert (Hs : repr (mem s) mp (Some a) sub) by (destruct Hsub as [[-> ->]|[-> ->]]; auto).
  assert (Ec : forall x, (tcnt x sub + ucnt x up = 0 -> tcnt x (Node l k a b r) + ucnt x up - one a x = 0)%nat).
  { intros x. simpl. destruct Hsub as [[-> ->]|[-> ->]]; simpl; lia. }
  assert (Hroot' : up <> [] -> root s mp = addr (zip sub up)).
  { intros Hne. rewrite Hroot. now apply addr_zip_r. }
  clear Huniq Hl Hr Hsub Hroot H Ec.
  unfold h_remove_branch. hstep.
  destruct sub as [|sl sk sa sb sr]; cbn [addr set_super_of bind];
    [|cbn [repr] in Hs; destruct Hs as (Ms & Hsl & Hsr); distinct Hu a sa].
  - destruct up as [|[pk pa pb pr|pl pk pa pb] up]; cbn [sup].
    + injection E as <-. exists (set_root s mp None). split; [reflexivity|]. split; [|split].
      * split; [apply root_set_same|]. split; [exact I|]. split; [exact I|]. intros x. simpl. lia.
      * split; [reflexivity|]. intros q Hq. now apply root_set_other.
      * reflexivity.
    + cbn [repr_up] in Hup. destruct Hup as (Mp & Hpr & Hup). distinct Hu a pa. hstep. simpl ptr_eqb. rewrite Nat.eqb_refl.
      unfold set_left. hstep.
      match goal with |- context [h_remove_loop n ?s1 mp pa 1] =>
        destruct (remove_round mp up (climbs_all mp up) s1 Leaf (FL pk pa pb pr) n t pa) as (s' & K1 & K2 & K3 & K4) end; auto.
      { split; [rewrite root_put; apply Hroot'; discriminate|]. split; [exact I|]. split; [subtrees Hu|].
        clear - Hu. intros x. specialize (Hu x). simpl in *. lia. }
      exists s'. split; [exact K1|]. split; [exact K2|]. split; [|exact K4].
      eapply frame_trans; [| |exact K3]; [reflexivity|]. split; [frame_goal Hu|intros q Hq; mem_goal].
    + cbn [repr_up] in Hup. destruct Hup as (Mp & Hpl & Hup). distinct Hu a pa. hstep.
      rewrite (addr_other a pl) by (clear - Hu; uniq Hu a; lia). unfold set_right. hstep.
      match goal with |- context [h_remove_loop n ?s1 mp pa (-1)] =>
        destruct (remove_round mp up (climbs_all mp up) s1 Leaf (FR pl pk pa pb) n t pa) as (s' & K1 & K2 & K3 & K4) end; auto.
      { split; [rewrite root_put; apply Hroot'; discriminate|]. split; [exact I|]. split; [subtrees Hu|].
        clear - Hu. intros x. specialize (Hu x). simpl in *. lia. }
      exists s'. split; [exact K1|]. split; [exact K2|]. split; [|exact K4].
      eapply frame_trans; [| |exact K3]; [reflexivity|]. split; [frame_goal Hu|intros q Hq; mem_goal].
  - destruct up as [|[pk pa pb pr|pl pk pa pb] up]; cbn [sup].
    + injection E as <-. unfold set_super. hstep. eexists. split; [reflexivity|]. split; [|split].
      * split; [apply root_set_same|]. split; [subtrees Hu|]. split; [exact I|].
        clear - Hu. intros x. specialize (Hu x). simpl in *. lia.
      * split; [frame_goal Hu|]. intros q Hq. mem_goal.
      * intros x. simpl. lia.
    + cbn [repr_up] in Hup. destruct Hup as (Mp & Hpr & Hup). distinct Hu a pa. distinct Hu sa pa.
      unfold set_super. hstep. simpl ptr_eqb. rewrite Nat.eqb_refl. unfold set_left. hstep.
      match goal with |- context [h_remove_loop n ?s1 mp pa 1] =>
        destruct (remove_round mp up (climbs_all mp up) s1 (Node sl sk sa sb sr) (FL pk pa pb pr) n t pa) as (s' & K1 & K2 & K3 & K4) end; auto.
      { split; [rewrite !root_put; apply Hroot'; discriminate|]. split; [subtrees Hu|]. split; [subtrees Hu|].
        clear - Hu. intros x. specialize (Hu x). simpl in *. lia. }
      exists s'. split; [exact K1|]. split; [exact K2|]. split; [|exact K4].
      eapply frame_trans; [| |exact K3]; [reflexivity|]. split; [frame_goal Hu|intros q Hq; mem_goal].
    + cbn [repr_up] in Hup. destruct Hup as (Mp & Hpl & Hup). distinct Hu a pa. distinct Hu sa pa.
      unfold set_super. hstep. rewrite (addr_other a pl) by (clear - Hu; uniq Hu a; lia). unfold set_right. hstep.
      match goal with |- context [h_remove_loop n ?s1 mp pa (-1)] =>
        destruct (remove_round mp up (climbs_all mp up) s1 (Node sl sk sa sb sr) (FR pl pk pa pb) n t pa) as (s' & K1 & K2 & K3 & K4) end; auto.
      { split; [rewrite !root_put; apply Hroot'; discriminate|]. split; [subtrees Hu|]. split; [subtrees Hu|].
        clear - Hu. intros x. specialize (Hu x). simpl in *. lia. }
      exists s'. split; [exact K1|]. split; [exact K2|]. split; [|exact K4].
      eapply frame_trans; [| |exact K3]; [reflexivity|]. split; [frame_goal Hu|intros q Hq; mem_goal].
Qed.

Lemma first_ok mp t : forall s up n l k a b r l' k' a' b' r' up', t = Node l k a b r -> (size t <= n)%nat ->
  repr (mem s) mp (sup up) t -> get_first t up = (Node l' k' a' b' r', up') -> h_first n s a = Ret a'.
Proof.
  induction t as [|tl IHl tk ta tb tr _]; intros s up n l k a b r l' k' a' b' r' up' Et Hn H E; [discriminate|].
  injection Et as -> -> -> -> ->. destruct n as [|n]; [simpl in Hn; lia|]. cbn [repr] in H. destruct H as (Ma & Hl & Hr).
  destruct l as [|ll lk la lb lr].
  - simpl in E. injection E as <- <- <- <- <- <-. cbn [h_first]. hstep. reflexivity.
  - cbn [h_first]. hstep. simpl in E.
    eapply (IHl s (FL k a b r :: up) n); [reflexivity|simpl in Hn |- *; lia|exact Hl|exact E].
Qed.

Lemma last_ok mp t : forall s up n l k a b r l' k' a' b' r' up', t = Node l k a b r -> (size t <= n)%nat ->
  repr (mem s) mp (sup up) t -> get_last t up = (Node l' k' a' b' r', up') -> h_last n s a = Ret a'.
Proof.
  induction t as [|tl _ tk ta tb tr IHr]; intros s up n l k a b r l' k' a' b' r' up' Et Hn H E; [discriminate|].
  injection Et as -> -> -> -> ->. destruct n as [|n]; [simpl in Hn; lia|]. cbn [repr] in H. destruct H as (Ma & Hl & Hr).
  destruct r as [|rl rk ra rb rr].
  - destruct l; simpl in E; injection E as <- <- <- <- <- <-; cbn [h_last]; hstep; reflexivity.
  - cbn [h_last]. hstep.
    eapply (IHr s (FR l k a b :: up) n); [reflexivity|simpl in Hn |- *; lia|exact Hr|]. destruct l; exact E.
Qed.

(** The end of RemoveMapElement for an element with two subnodes. *)
Definition substitute (s : state) (mp e top : nat) : out state :=
  let! x := get s e in
  let super := nsuper x in
  let! s := set_super s top super in
  let! s := match super with
            | Some sp => set_child s sp e (Some top)
            | None => Ret (set_root s mp (Some top))
            end in
  let! x := get s e in
  let lt := nleft x in
  let! s := set_left s top lt in
  let! s := set_super_of s lt (Some top) in
  let! x := get s e in
  let rt := nright x in
  let! s := set_right s top rt in
  let! s := set_super_of s rt (Some top) in
  let! x := get s e in
  set_bal s top (nbal x).

Lemma substitute_ok s mp l k a b r up ta nl nr ns nb tk :
  at_ s mp (Node l k a b r) up -> mem s ta = Some (N nl nr ns (Some mp) nb tk) ->
  (tcnt ta (Node l k a b r) + ucnt ta up = 0)%nat ->
  exists s' x, substitute s mp a ta = Ret s' /\ at_ s' mp (Node l tk ta b r) up /\ mem s' a = Some x /\ nbal x = b /\ nkey x = k /\
    frame_ s s' mp (fun x => (tcnt x (Node l k a b r) + one ta x + ucnt x up)%nat).
Proof.
  intros H Mt Ht. open_at H. simpl in Hrep. destruct Hrep as (Ma & Hl & Hr).
  assert (Hu : forall x, (tcnt x (Node l k a b r) + one ta x + ucnt x up <= 1)%nat).
  { intros x. unfold one at 1. destruct (Nat.eqb_spec ta x) as [<-|]; [lia|]. specialize (Huniq x). lia. }
  clear Huniq Ht. unfold substitute. distinct Hu a ta. hstep.
  destruct l as [|ll lk la lb lr];
    [|simpl in Hl; destruct Hl as (Ml & Hll & Hlr); distinct Hu a la; distinct Hu ta la];
  (destruct r as [|rl rk ra rb rr];
    [|simpl in Hr; destruct Hr as (Mr & Hrl & Hrr); distinct Hu a ra; distinct Hu ta ra; try distinct Hu la ra];
  (destruct up as [|[pk pa pb pr|pl pk pa pb] up];
    [ simpl in Hroot; simpl sup in *; fields; hstep
    | simpl in Hup; destruct Hup as (Mp & Hpr & Hup); distinct Hu a pa; distinct Hu ta pa; try distinct Hu la pa; try distinct Hu ra pa;
      simpl sup in *; fields; hstep; simpl ptr_eqb; rewrite Nat.eqb_refl; hstep
    | simpl in Hup; destruct Hup as (Mp & Hpl & Hup); distinct Hu a pa; distinct Hu ta pa; try distinct Hu la pa; try distinct Hu ra pa;
      simpl sup in *; fields; hstep; rewrite (addr_other a pl) by (clear - Hu; uniq Hu a; lia); hstep ]));
  (eexists; eexists; split; [reflexivity|]; split; [|split; [mem_goal|split; [reflexivity|split; [reflexivity|]]]];
    [ split; [|split; [|split]];
      [ first [ solve [mem_goal] | rewrite ?root_put; rewrite Hroot; apply addr_zip_r; discriminate ]
      | subtrees Hu | subtrees Hu | clear - Hu; intros x; specialize (Hu x); simpl in *; lia ]
    | split; [frame_goal Hu|]; let q := fresh "q" in intros q Hq; mem_goal ]).
Qed.
