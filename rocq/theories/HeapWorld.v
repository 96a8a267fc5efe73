(** * All maps and elements together: every operation keeps the pointer
    structures sound and changes only what it should. *)

From Verif Require Import Base TextModel MapModel SpecMap MapProofs HeapModel HeapProofs HeapOps HeapRemove HeapInsert.

#[local] Arguments Z.eqb : simpl nomatch.
#[local] Arguments Z.ltb : simpl nomatch.

Definition inside (x : nat) (t : atree) : Prop := (0 < tcnt x t)%nat.

(** What a client sees of an element: its key and the map that owns it. *)
Definition view (s : state) (x : nat) : option (list Z * option nat) :=
  match mem s x with Some nd => Some (nkey nd, nowner nd) | None => None end.

(** [T mp] is the tree of the map [mp]; every other element has no links. *)
Record world (s : state) (T : nat -> atree) : Prop := World {
  w_at : forall mp, at_ s mp (T mp) [];
  w_wf : forall mp, wf_map (T mp);
  w_mem : forall x, (exists mp, inside x (T mp)) \/ mem s x = None \/ exists k, good_key k /\ loose s x k }.

Lemma inside_elements x (t : atree) : inside x t <-> exists k, In (k, x) (elements t).
Proof.
  unfold inside. induction t as [|l IHl k a b r IHr]; simpl.
  - split; [lia|]. intros [k []].
  - split.
    + intros H. destruct (Nat.eq_dec a x) as [->|Hne].
      * exists k. rewrite in_app_iff. simpl. auto.
      * unfold one in H. destruct (Nat.eqb_spec a x); [congruence|].
        destruct (Nat.eq_dec (tcnt x l) 0) as [E|E].
        -- destruct (proj1 IHr ltac:(lia)) as [k0 Hk]. exists k0. rewrite in_app_iff. simpl. auto.
        -- destruct (proj1 IHl ltac:(lia)) as [k0 Hk]. exists k0. rewrite in_app_iff. simpl. auto.
    + intros [k0 H]. rewrite in_app_iff in H. simpl in H. destruct H as [H|[H|H]].
      * pose proof (proj2 IHl (ex_intro _ k0 H)). lia.
      * injection H as -> ->. unfold one. rewrite Nat.eqb_refl. lia.
      * pose proof (proj2 IHr (ex_intro _ k0 H)). lia.
Qed.

Lemma repr_in m mp (t : atree) : forall p k x, repr m mp p t -> In (k, x) (elements t) ->
  exists nd, m x = Some nd /\ nkey nd = k /\ nowner nd = Some mp.
Proof.
  induction t as [|l IHl k0 a b r IHr]; intros p k x H Hin; [destruct Hin|]. cbn [repr] in H. destruct H as (Ma & Hl & Hr).
  simpl in Hin. rewrite in_app_iff in Hin. simpl in Hin. destruct Hin as [Hin|[Hin|Hin]]; eauto.
  injection Hin as <- <-. eauto.
Qed.

Lemma at_view s mp t k x : at_ s mp t [] -> In (k, x) (elements t) -> view s x = Some (k, Some mp).
Proof.
  intros (_ & H & _) Hin. destruct (repr_in _ _ _ _ _ _ H Hin) as (nd & M & <- & <-). unfold view. now rewrite M.
Qed.

Lemma loose_view s x k : loose s x k -> view s x = Some (k, None).
Proof. intros [b M]. unfold view. now rewrite M. Qed.

Lemma world_in s T mp k x : world s T -> (In (k, x) (elements (T mp)) <-> view s x = Some (k, Some mp)).
Proof.
  intros W. split; [apply at_view; apply W|]. intros V.
  destruct (w_mem _ _ W x) as [[q Hq]|[M|(k0 & _ & L)]].
  - apply inside_elements in Hq. destruct Hq as [k1 H1]. pose proof (at_view _ _ _ _ _ (w_at _ _ W q) H1) as V1.
    rewrite V in V1. injection V1 as -> ->. exact H1.
  - unfold view in V. rewrite M in V. discriminate.
  - rewrite (loose_view _ _ _ L) in V. discriminate.
Qed.

Lemma world_inside s T mp x : world s T -> inside x (T mp) -> exists k, view s x = Some (k, Some mp).
Proof. intros W H. apply inside_elements in H. destruct H as [k H]. exists k. now apply (world_in s T mp k x W). Qed.

Lemma world_disjoint s T x p q : world s T -> inside x (T p) -> inside x (T q) -> p = q.
Proof.
  intros W Hp Hq. destruct (world_inside _ _ _ _ W Hp) as [k1 V1]. destruct (world_inside _ _ _ _ W Hq) as [k2 V2]. congruence.
Qed.

Lemma world_key s T x k w : world s T -> view s x = Some (k, w) -> good_key k.
Proof.
  intros W V. destruct w as [mp|].
  - apply (world_in s T mp k x W) in V. destruct (w_wf _ _ W mp) as (_ & _ & G). unfold good_keys, keys in G. rewrite Forall_forall in G.
    apply G. apply in_map_iff. exists (k, x). auto.
  - destruct (w_mem _ _ W x) as [[q Hq]|[M|(k0 & G & L)]].
    + destruct (world_inside _ _ _ _ W Hq) as [k1 V1]. congruence.
    + unfold view in V. rewrite M in V. discriminate.
    + rewrite (loose_view _ _ _ L) in V. congruence.
Qed.

Lemma world_loose s T x k : world s T -> view s x = Some (k, None) -> loose s x k.
Proof.
  intros W V. destruct (w_mem _ _ W x) as [[q Hq]|[M|(k0 & G & L)]].
  - destruct (world_inside _ _ _ _ W Hq) as [k1 V1]. congruence.
  - unfold view in V. rewrite M in V. discriminate.
  - rewrite (loose_view _ _ _ L) in V. congruence.
Qed.

Definition upd (T : nat -> atree) (q : nat) (t : atree) : nat -> atree := fun p => if Nat.eqb p q then t else T p.
Lemma upd_same T q t : upd T q t q = t.
Proof. unfold upd. now rewrite Nat.eqb_refl. Qed.
Lemma upd_other T q t p : p <> q -> upd T q t p = T p.
Proof. unfold upd. intros H. destruct (Nat.eqb_spec p q); congruence. Qed.

(** One map, and the elements [es], change. *)
Lemma world_update s T s' q t' es : world s T -> at_ s' q t' [] -> wf_map t' ->
  (forall x, ~ inside x (T q) -> ~ In x es -> mem s' x = mem s x) ->
  (forall p, p <> q -> root s' p = root s p) ->
  (forall x, In x es -> (forall p, p <> q -> ~ inside x (T p)) /\
     (inside x t' \/ mem s' x = None \/ exists k, good_key k /\ loose s' x k)) ->
  (forall x k, ~ In x es -> In (k, x) (elements (T q)) <-> In (k, x) (elements t')) ->
  world s' (upd T q t') /\ (forall x, ~ In x es -> view s' x = view s x).
Proof.
  intros W At Wf Hm Hr Hes Hin.
  assert (Same : forall x k, ~ In x es -> In (k, x) (elements (T q)) -> view s' x = view s x).
  { intros x k He Hx. rewrite (at_view _ _ _ _ _ At (proj1 (Hin x k He) Hx)).
    symmetry. apply at_view with (t := T q); [apply W|exact Hx]. }
  split; [split|].
  - intros p. destruct (Nat.eq_dec p q) as [->|Hne]; [now rewrite upd_same|]. rewrite upd_other by exact Hne.
    apply (at_ext s); [|now apply Hr|apply W]. intros x Hx. simpl in Hx. assert (Hi : inside x (T p)) by (unfold inside; lia).
    apply Hm.
    + intros Hq. apply Hne. eapply world_disjoint; eauto.
    + intros He. destruct (Hes x He) as [N _]. exact (N p Hne Hi).
  - intros p. destruct (Nat.eq_dec p q) as [->|Hne]; [now rewrite upd_same|]. rewrite upd_other by exact Hne. apply W.
  - intros x. destruct (in_dec Nat.eq_dec x es) as [He|He].
    + destruct (Hes x He) as [_ [H|H]]; [|auto]. left. exists q. now rewrite upd_same.
    + destruct (w_mem _ _ W x) as [[p Hp]|H].
      * left. exists p. destruct (Nat.eq_dec p q) as [->|Hne]; [|now rewrite upd_other].
        rewrite upd_same. apply inside_elements in Hp. destruct Hp as [k Hk]. apply inside_elements. exists k. now apply Hin.
      * assert (Hq : ~ inside x (T q)).
        { intros Hq. destruct (world_inside _ _ _ _ W Hq) as [k V]. destruct H as [M|(k0 & _ & L)].
          - unfold view in V. rewrite M in V. discriminate.
          - rewrite (loose_view _ _ _ L) in V. discriminate. }
        right. unfold loose. rewrite (Hm x Hq He). exact H.
  - intros x He. destruct (Nat.eq_dec (tcnt x (T q)) 0) as [E|E].
    + unfold view. rewrite Hm; [reflexivity|unfold inside; lia|exact He].
    + assert (Hq : inside x (T q)) by (unfold inside; lia). apply inside_elements in Hq. destruct Hq as [k Hk]. eauto.
Qed.

Definition fits (n : nat) (T : nat -> atree) : Prop := forall mp, (size (T mp) <= n)%nat.

Lemma elements_unique (t : atree) L k e R : (forall x, (tcnt x t <= 1)%nat) -> elements t = L ++ (k, e) :: R ->
  forall k', ~ In (k', e) (L ++ R).
Proof.
  intros U E k' H.
  assert (C : tcnt e t = count_occ Nat.eq_dec (map snd (elements t)) e).
  { clear. induction t as [|l IHl k a b r IHr]; [reflexivity|]. simpl. rewrite map_app, count_occ_app. simpl. unfold one.
    destruct (Nat.eq_dec a e) as [->|Hne]; [rewrite Nat.eqb_refl|destruct (Nat.eqb_spec a e); [congruence|]]; lia. }
  specialize (U e). rewrite C, E, map_app, count_occ_app in U. simpl in U. destruct (Nat.eq_dec e e); [|congruence].
  rewrite in_app_iff in H. destruct H as [H|H]; apply (in_map snd), (count_occ_In Nat.eq_dec) in H; simpl in H; lia.
Qed.

(** Detach. *)
Lemma detach_world n s T e k w : world s T -> fits n T -> view s e = Some (k, w) ->
  exists s' T', h_detach n s e = Ret s' /\ world s' T' /\ loose s' e k /\
    (forall x, x <> e -> view s' x = view s x) /\ (forall p, w <> Some p -> T' p = T p /\ root s' p = root s p /\
       forall x, inside x (T p) -> mem s' x = mem s x).
Proof.
  intros W Hn V. unfold h_detach. pose proof V as V0. unfold view in V0. destruct (mem s e) as [nd|] eqn:M; [|discriminate].
  injection V0 as Ek Ew. hstep. rewrite Ew. destruct w as [mp|].
  - apply (world_in s T mp k e W) in V. destruct (locate (T mp) k e V []) as (l & b & r & up & Et). simpl zip at 1 in Et.
    pose proof (w_at _ _ W mp) as At. rewrite Et in At. apply (proj2 (at_zip _ _ _ _)) in At.
    pose proof (w_wf _ _ W mp) as Wf. rewrite Et in Wf. destruct (remove_map_element_ok _ _ _ _ _ _ Wf) as (t' & R1 & R2 & R3 & R4).
    destruct (remove_ok s mp l k e b r up n t' At Wf) as (s' & b' & K1 & K2 & K3 & [K4 K5] & K6); auto.
    { rewrite <- Et. apply Hn. }
    assert (U : forall x, (tcnt x (T mp) <= 1)%nat) by (intros x; rewrite Et, tcnt_zip; apply At).
    assert (Un := elements_unique (T mp) (before up ++ elements l) k e (elements r ++ after up) U ltac:(now rewrite Et, R3)).
    assert (Ln : forall p, p <> mp -> ~ inside e (T p)).
    { intros p Hp Hi. apply Hp. eapply world_disjoint; [exact W|exact Hi|]. apply inside_elements. eauto. }
    assert (Out : forall x, ~ inside x (T mp) -> mem s' x = mem s x).
    { intros x Hx. apply K4. unfold inside in Hx. rewrite Et, tcnt_zip in Hx. lia. }
    destruct (world_update s T s' mp t' [e] W K2 R2) as [W' V'].
    + intros x Hx _. apply Out, Hx.
    + exact K5.
    + intros x [<-|[]]. split; [exact Ln|]. right. right. exists k. split; [|eexists; exact K3].
      eapply world_key; [exact W|apply (world_in s T mp k e W); exact V].
    + intros x k0 Hx. rewrite Et, R3, R4. rewrite (in_app_iff _ (_ :: _)), (in_app_iff _ (elements r ++ _)). simpl. split; [|tauto].
      intros [H|[H|H]]; auto. injection H as <- <-. exfalso. apply Hx. now left.
    + exists s', (upd T mp t'). split; [exact K1|]. split; [exact W'|]. split; [eexists; exact K3|]. split.
      * intros x Hx. apply V'. intros [H|[]]. congruence.
      * intros p Hp. assert (Hne : p <> mp) by congruence. split; [now apply upd_other|]. split; [now apply K5|].
        intros x Hx. apply Out. intros Hq. apply Hne. exact (world_disjoint s T x p mp W Hx Hq).
  - exists s, T. split; [reflexivity|]. split; [exact W|]. split; [now apply (world_loose s T)|]. split; auto.
Qed.

(** The three ways of entering a map, for an element without links. *)
Lemma enter_world s s' T mp e k t : world s T -> loose s e k -> good_key k ->
  linked s s' mp e (T mp) t -> wf_map t ->
  (exists l1 l2, elements (T mp) = l1 ++ l2 /\ elements t = l1 ++ (k, e) :: l2) ->
  world s' (upd T mp t) /\ view s' e = Some (k, Some mp) /\ (forall x, x <> e -> view s' x = view s x).
Proof.
  intros W L G (At & [F1 F2] & C) Wf (l1 & l2 & E1 & E2).
  assert (Hin : In (k, e) (elements t)) by (rewrite E2, in_app_iff; simpl; auto).
  destruct (world_update s T s' mp t [e] W At Wf) as [W' V'].
  - intros x Hx He. apply F1. unfold inside in Hx. unfold one. destruct (Nat.eqb_spec e x); [exfalso; apply He; now left|lia].
  - exact F2.
  - intros x [<-|[]]. split.
    + intros p _ Hi. destruct (world_inside _ _ _ _ W Hi) as [k1 V1]. rewrite (loose_view _ _ _ L) in V1. discriminate.
    + left. apply inside_elements. eauto.
  - intros x k0 Hx. rewrite E1, E2, !in_app_iff. simpl. split; [tauto|]. intros [H|[H|H]]; auto.
    injection H as <- <-. exfalso. apply Hx. now left.
  - split; [exact W'|]. split; [now apply (at_view s' mp t)|]. intros x Hx. apply V'. intros [H|[]]. congruence.
Qed.

Lemma insert_left_split n s mp a e : h_insert_left n s mp a e = bind (h_detach n s e) (fun s => link_left n s mp a e).
Proof. reflexivity. Qed.
Lemma insert_right_split n s mp a e : h_insert_right n s mp a e = bind (h_detach n s e) (fun s => link_right n s mp a e).
Proof. reflexivity. Qed.
Lemma set_root_split n s mp e : h_set_root n s mp e = bind (h_detach n s e) (fun s => link_root s mp e).
Proof. reflexivity. Qed.
Lemma replace_split n s mp a e : h_replace n s mp a e = bind (h_detach n s e) (fun s => link_replace s mp a e).
Proof. reflexivity. Qed.

(** The places an insertion can end in, and what happens there. *)
Definition absent (T : nat -> atree) (mp : nat) (k : list Z) : Prop := ~ In k (keys (T mp)).

Lemma insert_at_absent (T : atree) k e : wf_map T -> good_key k -> ~ In k (keys T) ->
  exists t, insert_at T [] k e = Ret (t, true) /\ wf_map t /\
    exists l1 l2, elements T = l1 ++ l2 /\ elements t = l1 ++ (k, e) :: l2.
Proof.
  intros Wf G Ha. destruct (insert_ok T k e Wf G) as (t & f & H1 & H2 & H3 & _ & H4).
  destruct f.
  - exists t. split; [exact H1|]. split; [exact H2|]. now apply H4.
  - exfalso. apply Ha. destruct (in_dec (list_eq_dec Z.eq_dec) k (keys T)); auto. exfalso. apply H3 in n. discriminate.
Qed.

Lemma world_absent s T mp e k w : world s T -> view s e = Some (k, w) -> absent T mp k -> w <> Some mp.
Proof.
  intros W V Ha ->. apply (world_in s T mp k e W) in V. apply Ha. unfold keys. apply in_map_iff. exists (k, e). auto.
Qed.

Definition entered (s s' : state) (T' : nat -> atree) (mp e : nat) (k : list Z) : Prop :=
  world s' T' /\ view s' e = Some (k, Some mp) /\ (forall x, x <> e -> view s' x = view s x).

Lemma place_world n s T mp e k w : world s T -> fits n T -> view s e = Some (k, w) -> absent T mp k -> T mp <> Leaf ->
  exists s' T', match descend (T mp) [] k with
                | GoLeft _ a _ _ _ => h_insert_left n s mp a e
                | GoRight _ _ a _ _ => h_insert_right n s mp a e
                | _ => UB
                end = Ret s' /\ (forall l k0 a b r up, descend (T mp) [] k <> Found l k0 a b r up) /\
                entered s s' T' mp e k.
Proof.
  intros W Hn V Ha Hne. pose proof (world_key _ _ _ _ _ W V) as G.
  pose proof (world_absent _ _ _ _ _ _ W V Ha) as Hw.
  destruct (detach_world n s T e k w W Hn V) as (s1 & T1 & D1 & W1 & L1 & D2 & D3).
  destruct (D3 mp Hw) as (ET & _ & _). clear D3.
  destruct (insert_at_absent (T mp) k e (w_wf _ _ W mp) G Ha) as (t & I1 & I2 & I3).
  rewrite (insert_at_descend (T mp) [] k e Hne) in I1.
  destruct (descend_zip (T mp) [] k Hne) as [Z1 Z2]. simpl zip in Z1.
  assert (At : at_ s1 mp (T mp) []) by (rewrite <- ET; apply W1).
  assert (Out : tcnt e (T mp) = 0%nat).
  { destruct (Nat.eq_dec (tcnt e (T mp)) 0) as [E|E]; [exact E|]. exfalso.
    assert (Hi : inside e (T1 mp)) by (rewrite ET; unfold inside; lia).
    destruct (world_inside _ _ _ _ W1 Hi) as [k1 V1]. rewrite (loose_view _ _ _ L1) in V1. discriminate. }
  assert (Fin : forall s', linked s1 s' mp e (T mp) t -> entered s s' (upd T1 mp t) mp e k).
  { intros s' Hl. rewrite <- ET in Hl, I3. destruct (enter_world s1 s' T1 mp e k t W1 L1 G Hl I2 I3) as (E1 & E2 & E3).
    split; [exact E1|]. split; [exact E2|]. intros x Hx. rewrite E3 by exact Hx. auto. }
  specialize (Hn mp).
  destruct (descend (T mp) [] k) as [l k0 a b r up|k0 a b r up|l k0 a b up|] eqn:Ed; simpl place_zip in Z1.
  - discriminate.
  - apply bind_ret_inv in I1. destruct I1 as (t0 & J1 & J2). injection J2 as ->. rewrite <- Z1 in At.
    apply (proj2 (at_zip _ _ _ _)) in At. rewrite <- Z1, tcnt_zip in Out. rewrite <- Z1, size_zip in Hn. pose proof (usize_length up).
    destruct (link_left_ok s1 mp k0 a b r up e k n t At L1 Out ltac:(simpl in Hn; lia) J1) as (s' & K1 & K2).
    exists s', (upd T1 mp t). rewrite insert_left_split, D1. split; [exact K1|]. split; [discriminate|]. apply Fin. now rewrite <- Z1.
  - apply bind_ret_inv in I1. destruct I1 as (t0 & J1 & J2). injection J2 as ->. rewrite <- Z1 in At.
    apply (proj2 (at_zip _ _ _ _)) in At. rewrite <- Z1, tcnt_zip in Out. rewrite <- Z1, size_zip in Hn. pose proof (usize_length up).
    destruct (link_right_ok s1 mp l k0 a b up e k n t At L1 Out ltac:(simpl in Hn; lia) J1) as (s' & K1 & K2).
    exists s', (upd T1 mp t). rewrite insert_right_split, D1. split; [exact K1|]. split; [discriminate|]. apply Fin. now rewrite <- Z1.
  - congruence.
Qed.

Lemma root_world n s T mp e k w : world s T -> fits n T -> view s e = Some (k, w) -> T mp = Leaf ->
  exists s' T', h_set_root n s mp e = Ret s' /\ entered s s' T' mp e k.
Proof.
  intros W Hn V El. pose proof (world_key _ _ _ _ _ W V) as G.
  assert (Ha : absent T mp k) by (unfold absent; rewrite El; intros []).
  pose proof (world_absent _ _ _ _ _ _ W V Ha) as Hw.
  destruct (detach_world n s T e k w W Hn V) as (s1 & T1 & D1 & W1 & L1 & D2 & D3).
  destruct (D3 mp Hw) as (ET & _ & _). clear D3. rewrite El in ET.
  destruct (link_root_ok s1 mp e k) as (s' & K1 & K2); [rewrite <- ET; apply W1|exact L1|].
  exists s', (upd T1 mp (Node Leaf k e 0 Leaf)). rewrite set_root_split, D1. split; [exact K1|].
  assert (K3 : linked s1 s' mp e (T1 mp) (Node Leaf k e 0 Leaf)) by (rewrite ET; exact K2).
  destruct (enter_world s1 s' T1 mp e k (Node Leaf k e 0 Leaf) W1 L1 G K3) as (E1 & E2 & E3).
  - split; [simpl; repeat split; lia|]. split; [unfold bst, keys; simpl; auto|]. unfold good_keys, keys. simpl. auto.
  - rewrite ET. exists [], []. auto.
  - split; [exact E1|]. split; [exact E2|]. intros x Hx. rewrite E3 by exact Hx. auto.
Qed.

Lemma present_found s T mp k : world s T -> good_key k -> In k (keys (T mp)) ->
  exists l a b r up, descend (T mp) [] k = Found l k a b r up /\ T mp = zip (Node l k a b r) up.
Proof.
  intros W G Hin. pose proof (w_wf _ _ W mp) as Wf. destruct (insert_ok (T mp) k O Wf G) as (t & f & H1 & _ & H3 & _).
  destruct f. { exfalso. now apply (proj1 H3). }
  assert (Hne : T mp <> Leaf) by (intros E; rewrite E in Hin; destruct Hin).
  unfold insert_map_element in H1. rewrite (insert_at_descend (T mp) [] k O Hne) in H1.
  destruct (descend_zip (T mp) [] k Hne) as [Z1 Z2]. simpl zip in Z1.
  pose proof (fun l k0 a b r up => descend_found (T mp) [] k l k0 a b r up G (proj2 (proj2 Wf))) as Hk.
  destruct (descend (T mp) [] k) as [l k0 a b r up|k0 a b r up|l k0 a b up|].
  - specialize (Hk _ _ _ _ _ _ eq_refl). subst k0. simpl in Z1. exists l, a, b, r, up. auto.
  - apply bind_ret_inv in H1. destruct H1 as (? & _ & H1). discriminate.
  - apply bind_ret_inv in H1. destruct H1 as (? & _ & H1). discriminate.
  - congruence.
Qed.

Lemma root_addr s T mp : world s T -> root s mp = addr (T mp).
Proof. intros W. apply (w_at _ _ W mp). Qed.

(** InsertMapElement. *)
Lemma insert_world_new n s T mp e k w : world s T -> fits n T -> view s e = Some (k, w) -> absent T mp k ->
  exists s' T', h_insert n s mp e = Ret (s', true) /\ entered s s' T' mp e k.
Proof.
  intros W Hn V Ha. unfold h_insert. pose proof V as V0. unfold view in V0. destruct (mem s e) as [nd|] eqn:M; [|discriminate].
  injection V0 as Ek Ew. hstep. rewrite (root_addr _ _ mp W), Ek.
  destruct (T mp) as [|l0 k0 a0 b0 r0] eqn:ET.
  - destruct (root_world n s T mp e k w W Hn V ET) as (s' & T' & K & R). cbn [addr]. rewrite K. exists s', T'. split; [reflexivity|exact R].
  - cbn [addr]. destruct (place_world n s T mp e k w W Hn V Ha ltac:(congruence)) as (s' & T' & K & Nf & R).
    pose proof (w_at _ _ W mp) as At. destruct At as (_ & Hrep & _).
    rewrite (insert_from_descend (T mp) mp [] s n n e k _ _ _ _ _ ET (Hn mp) Hrep).
    destruct (descend (T mp) [] k) as [l k1 a b r up|k1 a b r up|l k1 a b up|]; try discriminate; rewrite K; exists s', T'; split; auto.
Qed.

Lemma insert_world_old n s T mp e k w : world s T -> fits n T -> view s e = Some (k, w) -> In k (keys (T mp)) ->
  h_insert n s mp e = Ret (s, false).
Proof.
  intros W Hn V Hin. unfold h_insert. pose proof V as V0. unfold view in V0. destruct (mem s e) as [nd|] eqn:M; [|discriminate].
  injection V0 as Ek Ew. hstep. rewrite (root_addr _ _ mp W), Ek.
  destruct (present_found s T mp k W (world_key _ _ _ _ _ W V) Hin) as (l & a & b & r & up & Ed & _).
  destruct (T mp) as [|l0 k0 a0 b0 r0] eqn:ET; [destruct Hin|]. cbn [addr].
  pose proof (w_at _ _ W mp) as At. destruct At as (_ & Hrep & _). rewrite <- ET in Ed.
  rewrite (insert_from_descend (T mp) mp [] s n n e k _ _ _ _ _ ET (Hn mp) Hrep), Ed. reflexivity.
Qed.

(** InsertReplaceMapElement. *)
Lemma replace_world_new n s T mp e k w : world s T -> fits n T -> view s e = Some (k, w) -> absent T mp k ->
  exists s' T', h_insert_replace n s mp e = Ret (s', None) /\ entered s s' T' mp e k.
Proof.
  intros W Hn V Ha. unfold h_insert_replace. pose proof V as V0. unfold view in V0. destruct (mem s e) as [nd|] eqn:M; [|discriminate].
  injection V0 as Ek Ew. hstep. rewrite (root_addr _ _ mp W), Ek.
  destruct (T mp) as [|l0 k0 a0 b0 r0] eqn:ET.
  - destruct (root_world n s T mp e k w W Hn V ET) as (s' & T' & K & R). cbn [addr]. rewrite K. exists s', T'. split; [reflexivity|exact R].
  - cbn [addr]. destruct (place_world n s T mp e k w W Hn V Ha ltac:(congruence)) as (s' & T' & K & Nf & R).
    pose proof (w_at _ _ W mp) as At. destruct At as (_ & Hrep & _).
    rewrite (insert_replace_from_descend (T mp) mp [] s n n e k _ _ _ _ _ ET (Hn mp) Hrep).
    destruct (descend (T mp) [] k) as [l k1 a b r up|k1 a b r up|l k1 a b up|]; try discriminate; rewrite K; exists s', T'; split; auto.
Qed.

Lemma same_key s T mp k a e : world s T -> view s a = Some (k, Some mp) -> view s e = Some (k, Some mp) -> a = e.
Proof.
  intros W Va Ve. apply (world_in s T mp k a W) in Va. apply (world_in s T mp k e W) in Ve.
  destruct (w_wf _ _ W mp) as (_ & B & _). apply increasing_nodup in B. unfold keys in B.
  revert B Va Ve. generalize (elements (T mp)). induction l as [|[k0 x] l IH]; intros B Ha He; [destruct Ha|].
  simpl in B. inversion B as [|? ? B1 B2]. subst. destruct Ha as [Ha|Ha], He as [He|He].
  - congruence.
  - injection Ha as -> ->. exfalso. apply B1. apply in_map_iff. exists (k, e). auto.
  - injection He as -> ->. exfalso. apply B1. apply in_map_iff. exists (k, a). auto.
  - auto.
Qed.

Lemma replace_world_same n s T mp e k : world s T -> fits n T -> view s e = Some (k, Some mp) ->
  h_insert_replace n s mp e = Ret (s, None).
Proof.
  intros W Hn V. unfold h_insert_replace. pose proof V as V0. unfold view in V0. destruct (mem s e) as [nd|] eqn:M; [|discriminate].
  injection V0 as Ek Ew. hstep. rewrite (root_addr _ _ mp W), Ek.
  assert (Hin : In k (keys (T mp))).
  { unfold keys. apply in_map_iff. exists (k, e). split; [reflexivity|]. now apply (world_in s T mp k e W). }
  destruct (present_found s T mp k W (world_key _ _ _ _ _ W V) Hin) as (l & a & b & r & up & Ed & Ez).
  assert (Hae : a = e).
  { apply (same_key s T mp k); auto. apply (world_in s T mp k a W). rewrite Ez, elements_zip, !in_app_iff. simpl.
    rewrite !in_app_iff. simpl. auto. }
  subst a. destruct (T mp) as [|l0 k0 a0 b0 r0] eqn:ET; [destruct Hin|]. cbn [addr].
  pose proof (w_at _ _ W mp) as At. destruct At as (_ & Hrep & _). rewrite <- ET in Ed.
  rewrite (insert_replace_from_descend (T mp) mp [] s n n e k _ _ _ _ _ ET (Hn mp) Hrep), Ed. simpl. now rewrite Nat.eqb_refl.
Qed.

Lemma zip_root (t : atree) up : up <> [] -> forall l k a b r, zip t up = Node l k a b r -> (ucnt a up > 0)%nat.
Proof.
  revert t. induction up as [|f up IH]; intros t Hne l k a b r E; [congruence|]. destruct up as [|g up].
  - destruct f; simpl in *; injection E as <- <- <- <- <-; unfold one; rewrite Nat.eqb_refl; lia.
  - destruct f as [fk fa fb fr|fl fk fa fb]; simpl zip in E.
    + apply (IH (Node t fk fa fb fr) ltac:(discriminate)) in E. simpl ucnt in *. lia.
    + apply (IH (Node fl fk fa fb t) ltac:(discriminate)) in E. simpl ucnt in *. lia.
Qed.

(** Replacing an element other than the root. *)
Lemma replace_world n s T mp e a k w : world s T -> fits n T -> view s e = Some (k, w) -> view s a = Some (k, Some mp) ->
  a <> e -> root s mp <> Some a ->
  exists s' T', h_insert_replace n s mp e = Ret (s', Some a) /\ world s' T' /\
    view s' e = Some (k, Some mp) /\ view s' a = Some (k, None) /\ (forall x, x <> e -> x <> a -> view s' x = view s x).
Proof.
  intros W Hn V Va Hae Hroot. pose proof (world_key _ _ _ _ _ W V) as G.
  unfold h_insert_replace. pose proof V as V0. unfold view in V0. destruct (mem s e) as [nd|] eqn:M; [|discriminate].
  injection V0 as Ek Ew. hstep. rewrite (root_addr _ _ mp W) in *. rewrite Ek.
  assert (Hin : In k (keys (T mp))).
  { unfold keys. apply in_map_iff. exists (k, a). split; [reflexivity|]. now apply (world_in s T mp k a W). }
  destruct (present_found s T mp k W G Hin) as (l & a' & b & r & up & Ed & Ez).
  assert (Ha' : a' = a).
  { apply (same_key s T mp k); auto. apply (world_in s T mp k a' W). rewrite Ez, elements_zip, !in_app_iff. simpl.
    rewrite !in_app_iff. simpl. auto. }
  subst a'.
  assert (Hw : w <> Some mp). { intros ->. apply Hae. eapply same_key; eauto. }
  destruct (detach_world n s T e k w W Hn V) as (s1 & T1 & D1 & W1 & L1 & D2 & D3).
  destruct (D3 mp Hw) as (ET & _ & _). clear D3.
  assert (Hup : up <> []).
  { intros ->. apply Hroot. rewrite Ez. reflexivity. }
  assert (At : at_ s1 mp (Node l k a b r) up). { apply at_zip. rewrite <- Ez, <- ET. apply W1. }
  assert (Out : (tcnt e (Node l k a b r) + ucnt e up = 0)%nat).
  { destruct (Nat.eq_dec (tcnt e (T mp)) 0) as [E|E]; [rewrite Ez, tcnt_zip in E; exact E|]. exfalso.
    assert (Hi : inside e (T1 mp)) by (rewrite ET; unfold inside; lia).
    destruct (world_inside _ _ _ _ W1 Hi) as [k1 V1]. rewrite (loose_view _ _ _ L1) in V1. discriminate. }
  destruct (link_replace_ok s1 mp l k a b r up e k Hup At L1 Out) as (s' & K1 & K2 & K3 & [K4 K5]).
  set (t' := zip (Node l k e b r) up).
  assert (Wf : wf_map t').
  { destruct (w_wf _ _ W mp) as (A & B & C). rewrite Ez in A, B, C.
    assert (El : t' = replace_node (zip (Node l k a b r) up) k k e) by (symmetry; now apply replace_here).
    split; [rewrite El; now apply replace_node_avl|].
    assert (Kk : keys t' = keys (zip (Node l k a b r) up)).
    { unfold t', keys. rewrite !elements_zip. simpl. rewrite !map_app. reflexivity. }
    split; [unfold bst; now rewrite Kk|unfold good_keys; now rewrite Kk]. }
  assert (At' : at_ s' mp t' []) by (apply (proj1 (at_zip _ _ _ _)); exact K2).
  assert (Ie : In (k, e) (elements t')).
  { unfold t'. rewrite elements_zip, !in_app_iff. simpl. rewrite !in_app_iff. simpl. auto. }
  destruct (world_update s1 T1 s' mp t' [a; e] W1 At' Wf) as [W' V'].
  - intros x Hx He. apply K4. rewrite ET, Ez in Hx. unfold inside in Hx. rewrite tcnt_zip in Hx. unfold one.
    destruct (Nat.eqb_spec e x); [exfalso; apply He; subst; simpl; auto|lia].
  - exact K5.
  - intros x [<-|[<-|[]]]; split.
    + intros p Hp Hi. apply Hp. apply (world_disjoint s1 T1 a); auto. rewrite ET, Ez. unfold inside. rewrite tcnt_zip. simpl. unfold one. rewrite Nat.eqb_refl. lia.
    + right. right. exists k. auto.
    + intros p _ Hi. destruct (world_inside _ _ _ _ W1 Hi) as [k1 V1]. rewrite (loose_view _ _ _ L1) in V1. discriminate.
    + left. apply inside_elements. eauto.
  - intros x k0 Hx. rewrite ET, Ez. unfold t'. rewrite !elements_zip, !in_app_iff. simpl. rewrite !in_app_iff. simpl.
    split; intros [H|[[H|[H|H]]|H]]; auto; exfalso; apply Hx; injection H as <- <-; simpl; auto.
  - exists s', (upd T1 mp t').
    destruct (T mp) as [|l0 k0 a0 b0 r0] eqn:ETm; [destruct Hin|]. cbn [addr].
    pose proof (w_at _ _ W mp) as At0. destruct At0 as (_ & Hrep & _). rewrite <- ETm in Ed.
    rewrite (insert_replace_from_descend (T mp) mp [] s n n e k _ _ _ _ _ ETm (Hn mp) Hrep), Ed.
    assert (Ene : Nat.eqb e a = false) by (apply Nat.eqb_neq; congruence).
    rewrite Ene. cbn [negb]. rewrite replace_split, D1. cbn [bind]. rewrite K1. cbn [bind]. split; [reflexivity|]. split; [exact W'|].
    split; [now apply (at_view s' mp t')|]. split; [now apply loose_view|].
    intros x Hx1 Hx2. rewrite V' by (intros [H|[H|[]]]; congruence). auto.
Qed.

(** FindMapElement. *)
Lemma find_world n s T mp k : world s T -> fits n T -> good_key k ->
  h_find n s mp k = Ret (assoc k (elements (T mp))).
Proof.
  intros W Hn G. unfold h_find. rewrite (root_addr _ _ mp W). destruct (w_at _ _ W mp) as (_ & Hrep & _).
  rewrite (find_from_ok (T mp) mp _ s n k (Hn mp) Hrep). f_equal. destruct (w_wf _ _ W mp) as (_ & B & C). now apply find_assoc.
Qed.

(** RemoveAllMapElements and PurgeMap. *)
Lemma inside_snd x (t : atree) : In x (map snd (elements t)) <-> inside x t.
Proof.
  rewrite inside_elements, in_map_iff. split.
  - intros [[k y] [<- H]]. eauto.
  - intros [k H]. exists (k, x). auto.
Qed.

Lemma at_empty s mp : root s mp = None -> at_ s mp Leaf [].
Proof. intros H. split; [exact H|]. split; [exact I|]. split; [exact I|]. simpl. lia. Qed.

Lemma remove_all_world n s T mp : world s T -> fits n T ->
  exists s' T', h_remove_all n s mp = Ret s' /\ world s' T' /\
    forall x, view s' x = match view s x with
                          | Some (k, Some q) => Some (k, if Nat.eqb q mp then None else Some q)
                          | v => v
                          end.
Proof.
  intros W Hn. unfold h_remove_all. rewrite (root_addr _ _ mp W).
  destruct (w_at _ _ W mp) as (_ & Hrep & _ & U). simpl in Hrep, U.
  assert (U' : forall x, (tcnt x (T mp) <= 1)%nat) by (intros x; specialize (U x); lia).
  assert (Hv : forall s', (forall k x, In (k, x) (elements (T mp)) -> loose s' x k) ->
    (forall x, ~ inside x (T mp) -> view s' x = view s x) ->
    forall x, view s' x = match view s x with Some (k, Some q) => Some (k, if Nat.eqb q mp then None else Some q) | v => v end).
  { intros s' Hl Ho x. destruct (Nat.eq_dec (tcnt x (T mp)) 0) as [E|E].
    - rewrite Ho by (unfold inside; lia). destruct (view s x) as [[k [q|]]|] eqn:V; auto.
      destruct (Nat.eqb_spec q mp) as [->|]; [|reflexivity]. exfalso. apply (world_in s T mp k x W) in V.
      assert (inside x (T mp)) by (apply inside_elements; eauto). unfold inside in *. lia.
    - assert (Hi : inside x (T mp)) by (unfold inside; lia). apply inside_elements in Hi. destruct Hi as [k Hk].
      rewrite (loose_view _ _ _ (Hl _ _ Hk)). rewrite (proj1 (world_in s T mp k x W) Hk). now rewrite Nat.eqb_refl. }
  destruct (T mp) as [|l k a b r] eqn:ET.
  - cbn [addr]. exists s, T. split; [reflexivity|]. split; [exact W|]. apply Hv; [intros ? ? []|auto].
  - cbn [addr]. rewrite <- ET in *.
    destruct (remove_subtree_ok (T mp) mp None s n l k a b r ET (Hn mp) Hrep U') as (s1 & K1 & K2 & K3 & K4).
    rewrite K1. cbn [bind].
    destruct (world_update s T (set_root s1 mp None) mp Leaf (map snd (elements (T mp))) W) as [W' V'].
    + apply at_empty, root_set_same.
    + apply wf_leaf.
    + intros x Hx _. rewrite mem_set_root. apply K3. unfold inside in Hx. lia.
    + intros p Hp. rewrite root_set_other by exact Hp. now rewrite K4.
    + intros x Hx. split.
      * intros p Hp Hi. apply Hp. apply (world_disjoint s T x); auto. now apply inside_snd.
      * right. right. apply inside_snd, inside_elements in Hx. destruct Hx as [k0 Hx]. exists k0. split; [|now apply K2].
        eapply world_key; [exact W|]. apply (world_in s T mp k0 x W). exact Hx.
    + intros x k0 Hx. split; [|intros []]. intros H. exfalso. apply Hx. apply in_map_iff. exists (k0, x). auto.
    + exists (set_root s1 mp None), (upd T mp Leaf). split; [reflexivity|]. split; [exact W'|].
      apply Hv; [exact K2|]. intros x Hx. apply V'. now rewrite inside_snd.
Qed.

Lemma purge_world n s T mp : world s T -> fits n T ->
  exists s' T', h_purge n s mp = Ret s' /\ world s' T' /\
    forall x, view s' x = match view s x with
                          | Some (k, Some q) => if Nat.eqb q mp then None else Some (k, Some q)
                          | v => v
                          end.
Proof.
  intros W Hn. unfold h_purge. rewrite (root_addr _ _ mp W).
  destruct (w_at _ _ W mp) as (_ & Hrep & _ & U). simpl in Hrep, U.
  assert (U' : forall x, (tcnt x (T mp) <= 1)%nat) by (intros x; specialize (U x); lia).
  assert (Hv : forall s', (forall x, inside x (T mp) -> mem s' x = None) ->
    (forall x, ~ inside x (T mp) -> view s' x = view s x) ->
    forall x, view s' x = match view s x with Some (k, Some q) => if Nat.eqb q mp then None else Some (k, Some q) | v => v end).
  { intros s' Hl Ho x. destruct (Nat.eq_dec (tcnt x (T mp)) 0) as [E|E].
    - rewrite Ho by (unfold inside; lia). destruct (view s x) as [[k [q|]]|] eqn:V; auto.
      destruct (Nat.eqb_spec q mp) as [->|]; [|reflexivity]. exfalso. apply (world_in s T mp k x W) in V.
      assert (inside x (T mp)) by (apply inside_elements; eauto). unfold inside in *. lia.
    - assert (Hi : inside x (T mp)) by (unfold inside; lia). unfold view at 1. rewrite (Hl _ Hi).
      apply inside_elements in Hi. destruct Hi as [k Hk].
      rewrite (proj1 (world_in s T mp k x W) Hk). now rewrite Nat.eqb_refl. }
  destruct (T mp) as [|l k a b r] eqn:ET.
  - cbn [addr]. exists s, T. split; [reflexivity|]. split; [exact W|]. apply Hv; [unfold inside; simpl; lia|auto].
  - cbn [addr]. rewrite <- ET in *.
    destruct (delete_subtree_ok (T mp) mp None s n l k a b r ET (Hn mp) Hrep U') as (s1 & K1 & K2 & K3 & K4).
    rewrite K1. cbn [bind].
    destruct (world_update s T (set_root s1 mp None) mp Leaf (map snd (elements (T mp))) W) as [W' V'].
    + apply at_empty, root_set_same.
    + apply wf_leaf.
    + intros x Hx _. rewrite mem_set_root. apply K3. unfold inside in Hx. lia.
    + intros p Hp. rewrite root_set_other by exact Hp. now rewrite K4.
    + intros x Hx. split.
      * intros p Hp Hi. apply Hp. apply (world_disjoint s T x); auto. now apply inside_snd.
      * right. left. rewrite mem_set_root. apply K2. now apply inside_snd.
    + intros x k0 Hx. split; [|intros []]. intros H. exfalso. apply Hx. apply in_map_iff. exists (k0, x). auto.
    + exists (set_root s1 mp None), (upd T mp Leaf). split; [reflexivity|]. split; [exact W'|].
      apply Hv; [intros x Hx; rewrite mem_set_root; apply K2; exact Hx|]. intros x Hx. apply V'. now rewrite inside_snd.
Qed.

(** The constructor. *)
Lemma new_world s T a k : world s T -> view s a = None -> good_key k ->
  world (h_new s a k) T /\ view (h_new s a k) a = Some (k, None) /\ (forall x, x <> a -> view (h_new s a k) x = view s x).
Proof.
  intros W V G. unfold h_new.
  assert (Out : forall p, ~ inside a (T p)).
  { intros p Hp. destruct (world_inside _ _ _ _ W Hp) as [k1 V1]. congruence. }
  assert (Ml : loose (put s a (N None None None None 0 k)) a k) by (eexists; apply mem_put_same).
  split; [|split].
  - split.
    + intros p. apply (at_ext s); [|now rewrite root_put|apply W]. intros x Hx. apply mem_put_other. intros <-.
      apply (Out p). unfold inside. simpl in Hx. lia.
    + apply W.
    + intros x. destruct (Nat.eq_dec x a) as [->|Hne]; [right; right; eauto|].
      unfold loose. rewrite (mem_put_other s a x) by congruence. apply W.
  - now apply loose_view.
  - intros x Hx. unfold view. rewrite mem_put_other by congruence. reflexivity.
Qed.

(** The destructor. *)
Lemma delete_world n s T e k w : world s T -> fits n T -> view s e = Some (k, w) ->
  exists s' T', h_delete n s e = Ret s' /\ world s' T' /\ view s' e = None /\ (forall x, x <> e -> view s' x = view s x).
Proof.
  intros W Hn V. destruct (detach_world n s T e k w W Hn V) as (s1 & T1 & D1 & W1 & L1 & D2 & _).
  unfold h_delete. rewrite D1. cbn [bind]. exists (free s1 e), T1. split; [reflexivity|].
  assert (Out : forall p, ~ inside e (T1 p)).
  { intros p Hp. destruct (world_inside _ _ _ _ W1 Hp) as [k1 V1]. rewrite (loose_view _ _ _ L1) in V1. discriminate. }
  split; [|split].
  - split.
    + intros p. apply (at_ext s1); [|reflexivity|apply W1]. intros x Hx. apply free_other. intros ->.
      apply (Out p). unfold inside. simpl in Hx. lia.
    + apply W1.
    + intros x. destruct (Nat.eq_dec x e) as [->|Hne]; [right; left; apply free_same|].
      unfold loose. rewrite (free_other s1 e x) by exact Hne. apply W1.
  - unfold view. now rewrite free_same.
  - intros x Hx. unfold view. rewrite free_other by exact Hx. apply D2, Hx.
Qed.

Lemma world_init : world h_init (fun _ => Leaf).
Proof.
  split.
  - intros mp. now apply at_empty.
  - intros mp. apply wf_leaf.
  - intros x. right. left. reflexivity.
Qed.
