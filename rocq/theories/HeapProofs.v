(** * The pointer heap refines the tree model. *)

From Verif Require Import Base TextModel MapModel SpecMap MapProofs HeapModel.

Notation atree := (tree nat).

(** A tree whose elements are addresses describes a part of the heap. *)
Definition addr (t : atree) : option nat := match t with Leaf => None | Node _ _ a _ _ => Some a end.

Fixpoint repr (m : nat -> option node) (mp : nat) (sup : option nat) (t : atree) : Prop :=
  match t with
  | Leaf => True
  | Node l k a b r =>
      m a = Some (N (addr l) (addr r) sup (Some mp) b k) /\
      repr m mp (Some a) l /\ repr m mp (Some a) r
  end.

(** The nearest ancestor. *)
Definition sup (up : list (frame nat)) : option nat :=
  match up with [] => None | FL _ a _ _ :: _ => Some a | FR _ _ a _ :: _ => Some a end.

Fixpoint repr_up (m : nat -> option node) (mp : nat) (c : option nat) (up : list (frame nat)) : Prop :=
  match up with
  | [] => True
  | FL k a b r :: up' =>
      m a = Some (N c (addr r) (sup up') (Some mp) b k) /\
      repr m mp (Some a) r /\ repr_up m mp (Some a) up'
  | FR l k a b :: up' =>
      m a = Some (N (addr l) c (sup up') (Some mp) b k) /\
      repr m mp (Some a) l /\ repr_up m mp (Some a) up'
  end.

(** Occurrences of an address. *)
Definition one (a x : nat) : nat := if Nat.eqb a x then 1 else 0.
Fixpoint tcnt (x : nat) (t : atree) : nat :=
  match t with Leaf => 0 | Node l _ a _ r => tcnt x l + one a x + tcnt x r end.
Fixpoint ucnt (x : nat) (up : list (frame nat)) : nat :=
  match up with
  | [] => 0
  | FL _ a _ r :: up' => one a x + tcnt x r + ucnt x up'
  | FR l _ a _ :: up' => tcnt x l + one a x + ucnt x up'
  end.

Lemma tcnt_zip x up : forall t, tcnt x (zip t up) = (tcnt x t + ucnt x up)%nat.
Proof. induction up as [|[] up IH]; intros t; simpl; [lia| |]; rewrite IH; simpl; lia. Qed.

Lemma repr_zip m mp up : forall t, repr m mp None (zip t up) <-> repr m mp (sup up) t /\ repr_up m mp (addr t) up.
Proof.
  induction up as [|[] up IH]; intros t; simpl; [tauto| |]; rewrite IH; simpl; tauto.
Qed.

Lemma repr_ext m m' mp t : forall p, (forall x, (0 < tcnt x t)%nat -> m' x = m x) -> repr m mp p t -> repr m' mp p t.
Proof.
  induction t as [|l IHl k a b r IHr]; intros p E H; [exact I|]. simpl in *. destruct H as (H1 & H2 & H3). split; [|split].
  - rewrite E; [exact H1|]. unfold one. rewrite Nat.eqb_refl. lia.
  - apply IHl; [|exact H2]. intros x Hx. apply E. lia.
  - apply IHr; [|exact H3]. intros x Hx. apply E. lia.
Qed.

Lemma repr_up_ext m m' mp up : forall c, (forall x, (0 < ucnt x up)%nat -> m' x = m x) -> repr_up m mp c up -> repr_up m' mp c up.
Proof.
  induction up as [|[k a b r|l k a b] up IH]; intros c E H; [exact I| |]; simpl in *; destruct H as (H1 & H2 & H3);
    (split; [|split]);
    [rewrite E; [exact H1|unfold one; rewrite Nat.eqb_refl; lia]
    |eapply repr_ext; [|exact H2]; intros x Hx; apply E; lia
    |apply IH; [|exact H3]; intros x Hx; apply E; lia
    |rewrite E; [exact H1|unfold one; rewrite Nat.eqb_refl; lia]
    |eapply repr_ext; [|exact H2]; intros x Hx; apply E; lia
    |apply IH; [|exact H3]; intros x Hx; apply E; lia].
Qed.

(** The map [mp] is the tree [zip t up], seen from [t]. *)
Definition at_ (s : state) (mp : nat) (t : atree) (up : list (frame nat)) : Prop :=
  root s mp = addr (zip t up) /\
  repr (mem s) mp (sup up) t /\ repr_up (mem s) mp (addr t) up /\
  (forall x, (tcnt x t + ucnt x up <= 1)%nat).

Lemma at_zip s mp t up : at_ s mp t up <-> at_ s mp (zip t up) [].
Proof.
  unfold at_. simpl. rewrite repr_zip. split.
  - intros (H1 & H2 & H3 & H4). repeat split; auto. intros x. rewrite tcnt_zip. specialize (H4 x). lia.
  - intros (H1 & (H2 & H3) & _ & H4). repeat split; auto. intros x. specialize (H4 x). rewrite tcnt_zip in H4. lia.
Qed.

(** Everything outside [t] and [up], and the other maps, are as before. *)
Definition frame_ (s s' : state) (mp : nat) (c : nat -> nat) : Prop :=
  (forall x, c x = 0%nat -> mem s' x = mem s x) /\ (forall q, q <> mp -> root s' q = root s q).

Lemma addr_zip t up t' : addr t = addr t' -> addr (zip t up) = addr (zip t' up).
Proof. revert t t'. induction up as [|[] up IH]; intros t t' E; simpl; auto. Qed.

Lemma addr_zip_cons t t' f up : addr (zip t (f :: up)) = addr (zip t' (f :: up)).
Proof. destruct f; simpl; apply addr_zip; reflexivity. Qed.

Lemma zip_root_inner s mp l k a b r f up :
  (forall x, (tcnt x (Node l k a b r) + ucnt x (f :: up) <= 1)%nat) ->
  root s mp = addr (zip (Node l k a b r) (f :: up)) -> ptr_eqb (Some a) (root s mp) = false.
Proof.
  intros Hu ->.
  assert (H : forall up t, (0 < tcnt a t)%nat -> up <> [] -> (forall x, (tcnt x t + ucnt x up <= 1)%nat) ->
    ptr_eqb (Some a) (addr (zip t up)) = false).
  { clear. induction up as [|g up IH]; intros t Ht Hne Hu; [congruence|].
    destruct up as [|g' up].
    - specialize (Hu a). destruct g; simpl in *; unfold one in Hu; destruct (Nat.eqb_spec v a); subst;
        try lia; apply Nat.eqb_neq; congruence.
    - destruct g; simpl zip; apply IH; try discriminate; simpl in *; try lia; intros x; specialize (Hu x); simpl in Hu;
        unfold one in *; lia. }
  apply H; [simpl; unfold one; rewrite Nat.eqb_refl; lia|discriminate|exact Hu].
Qed.

(** Symbolic execution: all addresses of interest are known to be distinct. *)
Ltac uniq H a := let U := fresh "U" in pose proof (H a) as U; simpl in U; unfold one in U; rewrite ?Nat.eqb_refl in U.
Ltac decide_eqs := repeat match goal with
  | |- context [Nat.eqb ?x ?y] => destruct (Nat.eqb_spec x y); subst; try (exfalso; lia); try congruence
  | H : context [Nat.eqb ?x ?y] |- _ => destruct (Nat.eqb_spec x y); subst; try (exfalso; lia); try congruence
  end.

Lemma get_put_same s a n : get (put s a n) a = Ret n.
Proof. unfold get, put. simpl. now rewrite Nat.eqb_refl. Qed.
Lemma get_put_other s a b n : a <> b -> get (put s a n) b = get s b.
Proof. unfold get, put. simpl. intros H. destruct (Nat.eqb_spec b a); congruence. Qed.
Lemma get_root s mp p a : get (set_root s mp p) a = get s a.
Proof. reflexivity. Qed.
Lemma get_mem s a n : mem s a = Some n -> get s a = Ret n.
Proof. unfold get. now intros ->. Qed.

Ltac neq := first [assumption | apply not_eq_sym; assumption].

Ltac hstep := repeat first
  [ rewrite get_put_same
  | rewrite get_root
  | rewrite get_put_other by neq
  | match goal with H : mem ?s ?x = Some _ |- context [get ?s ?x] => rewrite (get_mem _ _ _ H) end
  | progress cbn [bind nleft nright nsuper nowner nbal nkey addr deref set_super_of] ].

Ltac open_at H := let Hr := fresh "Hroot" in let H1 := fresh "Hrep" in let H2 := fresh "Hup" in let H3 := fresh "Huniq" in
  destruct H as (Hr & H1 & H2 & H3).

Lemma mem_put_same s a n : mem (put s a n) a = Some n.
Proof. simpl. now rewrite Nat.eqb_refl. Qed.
Lemma mem_put_other s a b n : a <> b -> mem (put s a n) b = mem s b.
Proof. simpl. intros H. destruct (Nat.eqb_spec b a); congruence. Qed.
Lemma mem_set_root s mp p : mem (set_root s mp p) = mem s.
Proof. reflexivity. Qed.
Lemma root_put s a n : root (put s a n) = root s.
Proof. reflexivity. Qed.
Lemma root_set_same s mp p : root (set_root s mp p) mp = p.
Proof. simpl. now rewrite Nat.eqb_refl. Qed.
Lemma root_set_other s mp p q : q <> mp -> root (set_root s mp p) q = root s q.
Proof. simpl. intros H. destruct (Nat.eqb_spec q mp); congruence. Qed.

Opaque put set_root.

(** Closing the goals about the final heap. *)
Ltac mem_goal := repeat first
  [ rewrite mem_put_same | rewrite mem_set_root | rewrite root_put | rewrite root_set_same | rewrite root_set_other by assumption
  | rewrite mem_put_other by neq ]; try eassumption; try reflexivity.
Ltac know V Hx p x := match goal with
  | H : p <> x |- _ => idtac
  | _ => assert (p <> x) by (clear - V Hx; intros ->; rewrite ?Nat.eqb_refl in *; lia)
  end.
Ltac frame_goal U := let x := fresh "x" in let Hx := fresh "Hx" in let V := fresh "V" in
  intros x Hx; pose proof (U x) as V; simpl in V; unfold one in V; simpl in Hx; unfold one in Hx;
  repeat first
  [ rewrite mem_set_root
  | match goal with |- context [mem (put _ ?p _) x] => know V Hx p x; rewrite mem_put_other by assumption end ];
  reflexivity.

Lemma addr_other a (t : atree) : tcnt a t = 0%nat -> ptr_eqb (addr t) (Some a) = false.
Proof. destruct t; simpl; [reflexivity|]. unfold one. destruct (Nat.eqb_spec v a); [lia|reflexivity]. Qed.

Lemma addr_zip_r t t' up : up <> [] -> addr (zip t up) = addr (zip t' up).
Proof. destruct up; [congruence|]. intros _. apply addr_zip_cons. Qed.

Ltac fields := unfold set_super_of, set_child, set_super, set_left, set_right, set_bal, set_owner.
Ltac distinct U a b := assert (a <> b) by (clear - U; intros ->; uniq U b; lia).
Ltac subtrees U := cbn [repr repr_up addr sup]; repeat match goal with |- _ /\ _ => split end;
  match goal with
  | |- True => exact I
  | |- mem _ _ = _ => mem_goal
  | |- repr _ _ _ _ => eapply repr_ext; [|eassumption]; frame_goal U
  | |- repr_up _ _ _ _ => eapply repr_up_ext; [|eassumption]; frame_goal U
  end.
Ltac finish U Hroot := eexists; split; [reflexivity|]; split; [|split];
  [ split; [|split; [|split]];
    [ first [ solve [mem_goal] | rewrite ?root_put; rewrite Hroot; apply addr_zip_r; discriminate ]
    | subtrees U
    | subtrees U
    | clear - U; intros x; specialize (U x); simpl in *; lia ]
  | frame_goal U
  | let q := fresh "q" in intros q Hq; mem_goal ].

Lemma h_rotate_left_ok s mp l k a b rl rk ra rb rr up :
  at_ s mp (Node l k a b (Node rl rk ra rb rr)) up ->
  exists s', h_rotate_left s mp a = Ret (s', ra) /\
    at_ s' mp (Node (Node l k a (- (rb - 1)) rl) rk ra (rb - 1) rr) up /\
    frame_ s s' mp (fun x => (tcnt x (Node l k a b (Node rl rk ra rb rr)) + ucnt x up)%nat).
Proof.
  intros H. open_at H. pose proof Huniq as Hu.
  simpl in Hrep. destruct Hrep as (Ma & Hl & Mr & Hrl & Hrr).
  distinct Hu a ra.
  unfold h_rotate_left. rewrite (get_mem _ _ _ Ma). cbn [bind nright addr deref]. unfold relink.
  destruct rl as [|x1 x2 sa x4 x5]; [|simpl in Hrl; destruct Hrl as (Ms & Hs1 & Hs2); distinct Hu a sa; distinct Hu ra sa];
  (destruct up as [|[pk pa pb pr|pl pk pa pb] up];
    [ simpl in Hroot; rewrite Hroot; simpl ptr_eqb; rewrite Nat.eqb_refl; simpl negb; cbv iota; fields; hstep; finish Hu Hroot
    | rewrite (zip_root_inner _ _ _ _ _ _ _ _ _ Huniq Hroot); simpl negb; cbv iota;
      simpl in Hup; destruct Hup as (Mp & Hpr & Hup); distinct Hu a pa; distinct Hu ra pa; try distinct Hu sa pa;
      simpl sup in *; fields; hstep; simpl ptr_eqb; rewrite Nat.eqb_refl; hstep; finish Hu Hroot
    | rewrite (zip_root_inner _ _ _ _ _ _ _ _ _ Huniq Hroot); simpl negb; cbv iota;
      simpl in Hup; destruct Hup as (Mp & Hpl & Hup); distinct Hu a pa; distinct Hu ra pa; try distinct Hu sa pa;
      simpl sup in *; fields; hstep; rewrite (addr_other a pl) by (clear - Hu; uniq Hu a; lia); hstep; finish Hu Hroot ]).
Qed.

Lemma h_rotate_right_ok s mp ll lk la lb lr k a b r up :
  at_ s mp (Node (Node ll lk la lb lr) k a b r) up ->
  exists s', h_rotate_right s mp a = Ret (s', la) /\
    at_ s' mp (Node ll lk la (lb + 1) (Node lr k a (- (lb + 1)) r)) up /\
    frame_ s s' mp (fun x => (tcnt x (Node (Node ll lk la lb lr) k a b r) + ucnt x up)%nat).
Proof.
  intros H. open_at H. pose proof Huniq as Hu.
  simpl in Hrep. destruct Hrep as (Ma & (Ml & Hll & Hlr) & Hr).
  distinct Hu a la.
  unfold h_rotate_right. rewrite (get_mem _ _ _ Ma). cbn [bind nleft addr deref]. unfold relink.
  destruct lr as [|x1 x2 sa x4 x5]; [|simpl in Hlr; destruct Hlr as (Ms & Hs1 & Hs2); distinct Hu a sa; distinct Hu la sa];
  (destruct up as [|[pk pa pb pr|pl pk pa pb] up];
    [ simpl in Hroot; rewrite Hroot; simpl ptr_eqb; rewrite Nat.eqb_refl; simpl negb; cbv iota; fields; hstep; finish Hu Hroot
    | rewrite (zip_root_inner _ _ _ _ _ _ _ _ _ Huniq Hroot); simpl negb; cbv iota;
      simpl in Hup; destruct Hup as (Mp & Hpr & Hup); distinct Hu a pa; distinct Hu la pa; try distinct Hu sa pa;
      simpl sup in *; fields; hstep; simpl ptr_eqb; rewrite Nat.eqb_refl; hstep; finish Hu Hroot
    | rewrite (zip_root_inner _ _ _ _ _ _ _ _ _ Huniq Hroot); simpl negb; cbv iota;
      simpl in Hup; destruct Hup as (Mp & Hpl & Hup); distinct Hu a pa; distinct Hu la pa; try distinct Hu sa pa;
      simpl sup in *; fields; hstep; rewrite (addr_other a pl) by (clear - Hu; uniq Hu a; lia); hstep; finish Hu Hroot ]).
Qed.

Lemma h_zigzag_left_ok s mp l k a b sl tk ta tb sr rk ra rb rr up :
  at_ s mp (Node l k a b (Node (Node sl tk ta tb sr) rk ra rb rr)) up ->
  exists s', h_zigzag_left s mp a = Ret (s', ta) /\
    at_ s' mp (Node (Node l k a (- Z.max tb 0) sl) tk ta 0 (Node sr rk ra (- Z.min tb 0) rr)) up /\
    frame_ s s' mp (fun x => (tcnt x (Node l k a b (Node (Node sl tk ta tb sr) rk ra rb rr)) + ucnt x up)%nat).
Proof.
  intros H. open_at H. pose proof Huniq as Hu.
  simpl in Hrep. destruct Hrep as (Ma & Hl & Mr & (Mt & Hsl & Hsr) & Hrr).
  distinct Hu a ra. distinct Hu a ta. distinct Hu ra ta.
  unfold h_zigzag_left. rewrite (get_mem _ _ _ Ma). cbn [bind nright addr deref]. rewrite (get_mem _ _ _ Mr).
  cbn [bind nleft addr deref]. unfold relink.
  destruct sl as [|x1 x2 sa x4 x5];
    [|simpl in Hsl; destruct Hsl as (Ms & Hs1 & Hs2); distinct Hu a sa; distinct Hu ra sa; distinct Hu ta sa];
  (destruct sr as [|y1 y2 za y4 y5];
    [|simpl in Hsr; destruct Hsr as (Mz & Hz1 & Hz2); distinct Hu a za; distinct Hu ra za; distinct Hu ta za; try distinct Hu sa za];
  (destruct up as [|[pk pa pb pr|pl pk pa pb] up];
    [ simpl in Hroot; rewrite Hroot; simpl ptr_eqb; rewrite Nat.eqb_refl; simpl negb; cbv iota; fields; hstep; finish Hu Hroot
    | rewrite (zip_root_inner _ _ _ _ _ _ _ _ _ Huniq Hroot); simpl negb; cbv iota;
      simpl in Hup; destruct Hup as (Mp & Hpr & Hup); distinct Hu a pa; distinct Hu ra pa; distinct Hu ta pa; try distinct Hu sa pa; try distinct Hu za pa;
      simpl sup in *; fields; hstep; simpl ptr_eqb; rewrite Nat.eqb_refl; hstep; finish Hu Hroot
    | rewrite (zip_root_inner _ _ _ _ _ _ _ _ _ Huniq Hroot); simpl negb; cbv iota;
      simpl in Hup; destruct Hup as (Mp & Hpl & Hup); distinct Hu a pa; distinct Hu ra pa; distinct Hu ta pa; try distinct Hu sa pa; try distinct Hu za pa;
      simpl sup in *; fields; hstep; rewrite (addr_other a pl) by (clear - Hu; uniq Hu a; lia); hstep; finish Hu Hroot ])).
Qed.

Lemma h_zigzag_right_ok s mp ll lk la lb sl tk ta tb sr k a b r up :
  at_ s mp (Node (Node ll lk la lb (Node sl tk ta tb sr)) k a b r) up ->
  exists s', h_zigzag_right s mp a = Ret (s', ta) /\
    at_ s' mp (Node (Node ll lk la (- Z.max tb 0) sl) tk ta 0 (Node sr k a (- Z.min tb 0) r)) up /\
    frame_ s s' mp (fun x => (tcnt x (Node (Node ll lk la lb (Node sl tk ta tb sr)) k a b r) + ucnt x up)%nat).
Proof.
  intros H. open_at H. pose proof Huniq as Hu.
  simpl in Hrep. destruct Hrep as (Ma & (Ml & Hll & (Mt & Hsl & Hsr)) & Hr).
  distinct Hu a la. distinct Hu a ta. distinct Hu la ta.
  unfold h_zigzag_right. rewrite (get_mem _ _ _ Ma). cbn [bind nleft addr deref]. rewrite (get_mem _ _ _ Ml).
  cbn [bind nright addr deref]. unfold relink.
  destruct sl as [|x1 x2 sa x4 x5];
    [|simpl in Hsl; destruct Hsl as (Ms & Hs1 & Hs2); distinct Hu a sa; distinct Hu la sa; distinct Hu ta sa];
  (destruct sr as [|y1 y2 za y4 y5];
    [|simpl in Hsr; destruct Hsr as (Mz & Hz1 & Hz2); distinct Hu a za; distinct Hu la za; distinct Hu ta za; try distinct Hu sa za];
  (destruct up as [|[pk pa pb pr|pl pk pa pb] up];
    [ simpl in Hroot; rewrite Hroot; simpl ptr_eqb; rewrite Nat.eqb_refl; simpl negb; cbv iota; fields; hstep; finish Hu Hroot
    | rewrite (zip_root_inner _ _ _ _ _ _ _ _ _ Huniq Hroot); simpl negb; cbv iota;
      simpl in Hup; destruct Hup as (Mp & Hpr & Hup); distinct Hu a pa; distinct Hu la pa; distinct Hu ta pa; try distinct Hu sa pa; try distinct Hu za pa;
      simpl sup in *; fields; hstep; simpl ptr_eqb; rewrite Nat.eqb_refl; hstep; finish Hu Hroot
    | rewrite (zip_root_inner _ _ _ _ _ _ _ _ _ Huniq Hroot); simpl negb; cbv iota;
      simpl in Hup; destruct Hup as (Mp & Hpl & Hup); distinct Hu a pa; distinct Hu la pa; distinct Hu ta pa; try distinct Hu sa pa; try distinct Hu za pa;
      simpl sup in *; fields; hstep; rewrite (addr_other a pl) by (clear - Hu; uniq Hu a; lia); hstep; finish Hu Hroot ])).
Qed.
