(** * Histories of map operations on the pointer heap. *)

From Verif Require Import Base TextModel MapModel SpecMap MapProofs HeapModel HeapProofs HeapOps HeapRemove HeapInsert HeapWorld SpecHeap.

Lemma look_give st a w x : look (give st a w) x =
  match look st x with Some (k, v) => Some (k, if Nat.eqb x a then w else v) | None => None end.
Proof.
  induction st as [|[y [k v]] st IH]; [reflexivity|]. simpl. destruct (Nat.eqb_spec y a) as [->|Hne]; simpl.
  - destruct (Nat.eqb_spec a x) as [->|]; [now rewrite Nat.eqb_refl|]. exact IH.
  - destruct (Nat.eqb_spec y x) as [->|]; [|exact IH]. destruct (Nat.eqb_spec x a); [congruence|reflexivity].
Qed.

Lemma look_filter f st x : NoDup (map fst st) ->
  look (filter f st) x = match look st x with Some v => if f (x, v) then Some v else None | None => None end.
Proof.
  induction st as [|[y v] st IH]; intros Hn; [reflexivity|]. simpl in Hn. inversion Hn as [|? ? H1 H2]. subst. simpl.
  destruct (Nat.eqb_spec y x) as [->|Hne].
  - destruct (f (x, v)); simpl; [now rewrite Nat.eqb_refl|]. rewrite (IH H2).
    destruct (look st x) as [v'|] eqn:E; [|reflexivity]. exfalso. apply H1.
    clear - E. induction st as [|[y u] st IH]; [discriminate|]. simpl in *. destruct (Nat.eqb_spec y x); auto.
  - destruct (f (y, v)); simpl; [destruct (Nat.eqb_spec y x); [congruence|]|]; auto.
Qed.

Lemma look_in st a v : look st a = Some v -> In (a, v) st.
Proof.
  induction st as [|[x u] st IH]; [discriminate|]. simpl. destruct (Nat.eqb_spec x a) as [->|]; [|auto].
  intros H. injection H as ->. now left.
Qed.
Lemma in_look st a v : NoDup (map fst st) -> In (a, v) st -> look st a = Some v.
Proof.
  induction st as [|[x u] st IH]; intros Hn H; [destruct H|]. simpl in Hn. inversion Hn as [|? ? H1 H2]. subst. simpl.
  destruct H as [H|H]; [injection H as -> ->; now rewrite Nat.eqb_refl|].
  destruct (Nat.eqb_spec x a) as [->|]; [|auto]. exfalso. apply H1. apply in_map_iff. exists (a, v). auto.
Qed.
Lemma look_none st a : look st a = None -> ~ In a (map fst st).
Proof.
  induction st as [|[x u] st IH]; simpl; [auto|]. destruct (Nat.eqb_spec x a); [discriminate|]. intros H [E|E]; [congruence|].
  now apply IH.
Qed.

Lemma fst_give st a w : map fst (give st a w) = map fst st.
Proof. unfold give. rewrite map_map. apply map_ext. intros [x v]. simpl. now destruct (Nat.eqb x a). Qed.
Lemma nodup_filter (f : nat * (list Z * option nat) -> bool) st : NoDup (map fst st) -> NoDup (map fst (filter f st)).
Proof.
  induction st as [|e st IH]; intros H; [constructor|]. simpl in *. inversion H as [|? ? H1 H2]. subst.
  destruct (f e); simpl; [|auto]. constructor; [|auto]. intros Hin. apply H1. apply in_map_iff in Hin.
  destruct Hin as (y & E & Hy). apply filter_In in Hy. apply in_map_iff. exists y. tauto.
Qed.

Lemma holder_look st mp k a : holder st mp k = Some a -> NoDup (map fst st) -> look st a = Some (k, Some mp).
Proof.
  intros H Hn. apply in_look; [exact Hn|]. clear Hn. induction st as [|[x [k0 [q|]]] st IH]; simpl in H; [discriminate| |right; auto].
  destruct (Nat.eqb_spec q mp) as [->|]; simpl in H; [|right; auto].
  destruct (key_eqb_spec k0 k) as [->|]; [|right; auto]. injection H as ->. now left.
Qed.
Lemma holder_none st mp k : holder st mp k = None -> forall a, look st a <> Some (k, Some mp).
Proof.
  intros H a E. apply look_in in E. induction st as [|[x [k0 [q|]]] st IH]; simpl in H; [destruct E| |].
  - destruct E as [E|E].
    + injection E as -> -> ->. now rewrite Nat.eqb_refl, key_eqb_refl in H.
    + destruct (Nat.eqb q mp && key_eqb k0 k); [discriminate|auto].
  - destruct E as [E|E]; [discriminate|auto].
Qed.

(** The heap and the specification agree. *)
Record agree (s : state) (T : nat -> atree) (st : store) : Prop := Agree {
  a_world : world s T;
  a_view : forall x, view s x = look st x;
  a_nodup : NoDup (map fst st) }.

Lemma nodup_addrs (t : atree) : (forall x, (tcnt x t <= 1)%nat) -> NoDup (map snd (elements t)).
Proof.
  intros U. apply (NoDup_count_occ Nat.eq_dec). intros x.
  assert (C : tcnt x t = count_occ Nat.eq_dec (map snd (elements t)) x).
  { clear. induction t as [|l IHl k a b r IHr]; [reflexivity|]. simpl. rewrite map_app, count_occ_app. simpl. unfold one.
    destruct (Nat.eq_dec a x) as [->|Hne]; [rewrite Nat.eqb_refl|destruct (Nat.eqb_spec a x); [congruence|]]; lia. }
  rewrite <- C. apply U.
Qed.

Lemma agree_fits s T st n : agree s T st -> (length st <= n)%nat -> fits n T.
Proof.
  intros [W V D] Hn mp. rewrite size_elements, <- (map_length snd). etransitivity; [|exact Hn]. rewrite <- (map_length fst st).
  apply NoDup_incl_length.
  - apply nodup_addrs. intros x. destruct (w_at _ _ W mp) as (_ & _ & _ & U). specialize (U x). simpl in U. lia.
  - intros x Hx. apply inside_snd in Hx. destruct (world_inside _ _ _ _ W Hx) as [k E]. rewrite V in E.
    apply look_in in E. apply in_map_iff. exists (x, (k, Some mp)). auto.
Qed.

Lemma agree_holder s T st mp k : agree s T st -> good_key k -> assoc k (elements (T mp)) = holder st mp k.
Proof.
  intros [W V D] G. destruct (assoc k (elements (T mp))) as [a|] eqn:E; destruct (holder st mp k) as [b|] eqn:H; auto.
  - apply assoc_in in E. apply (world_in s T mp k a W) in E. apply (holder_look _ _ _ _) in H; [|exact D]. rewrite <- V in H.
    f_equal. eapply same_key; eauto.
  - exfalso. apply assoc_in in E. apply (world_in s T mp k a W) in E. rewrite V in E. eapply holder_none; eauto.
  - exfalso. apply holder_look in H; [|exact D]. rewrite <- V in H. apply (world_in s T mp k b W) in H.
    destruct (assoc_some_in k (elements (T mp))) as [v Hv]; [apply in_map_iff; exists (k, b); auto|congruence].
Qed.

Lemma agree_absent s T st mp k : agree s T st -> holder st mp k = None -> absent T mp k.
Proof.
  intros [W V D] H Hin. unfold keys in Hin. apply in_map_iff in Hin. destruct Hin as ([k0 a] & <- & Hin). simpl in *.
  apply (world_in s T mp k0 a W) in Hin. rewrite V in Hin. eapply holder_none; eauto.
Qed.

Lemma agree_present s T st mp k a : agree s T st -> holder st mp k = Some a -> In k (keys (T mp)) /\ view s a = Some (k, Some mp).
Proof.
  intros [W V D] H. apply holder_look in H; [|exact D]. rewrite <- V in H. split; [|exact H].
  apply (world_in s T mp k a W) in H. unfold keys. apply in_map_iff. exists (k, a). auto.
Qed.

(** One call. *)
Lemma step_ok n s T st o : agree s T st -> legal st o -> (length st <= n)%nat ->
  match o with
  | HReplace mp e => forall k w b, look st e = Some (k, w) -> holder st mp k = Some b -> b <> e -> root s mp <> Some b
  | _ => True
  end ->
  exists s' T', h_step n s o = Ret (s', snd (spec_step st o)) /\ agree s' T' (fst (spec_step st o)).
Proof.
  intros A L Hn Hroot. pose proof (agree_fits s T st n A Hn) as F. pose proof A as [W V D].
  destruct o as [a key|mp e|mp e|e|e|mp|mp]; simpl in L; cbn [h_step spec_step].
  - destruct L as [L G]. rewrite <- V in L. destruct (new_world s T a key W L G) as (W' & V1 & V2).
    exists (h_new s a key), T. split; [reflexivity|]. split; [exact W'| |].
    + intros x. simpl. destruct (Nat.eqb_spec a x) as [<-|Hne]; [exact V1|]. rewrite V2 by congruence. apply V.
    + simpl. constructor; [|exact D]. apply look_none. now rewrite <- V.
  - destruct (look st e) as [[k w]|] eqn:E; [|congruence]. rewrite <- V in E.
    destruct (holder st mp k) as [b|] eqn:H.
    + destruct (agree_present _ _ _ _ _ _ A H) as [Hin _]. rewrite (insert_world_old n s T mp e k w W F E Hin). cbn [bind].
      exists s, T. split; [reflexivity|exact A].
    + destruct (insert_world_new n s T mp e k w W F E (agree_absent _ _ _ _ _ A H)) as (s' & T' & K & W' & V1 & V2).
      rewrite K. cbn [bind]. exists s', T'. split; [reflexivity|]. split; [exact W'| |].
      * intros x. simpl. rewrite look_give, <- V. destruct (Nat.eqb_spec x e) as [->|Hne]; [rewrite E; exact V1|].
        rewrite V2 by exact Hne. now destruct (view s x) as [[? ?]|].
      * simpl. now rewrite fst_give.
  - destruct (look st e) as [[k w]|] eqn:E; [|congruence]. rewrite <- V in E.
    destruct (holder st mp k) as [b|] eqn:H.
    + destruct (agree_present _ _ _ _ _ _ A H) as [Hin Hb]. destruct (Nat.eqb_spec b e) as [->|Hne].
      * rewrite (replace_world_same n s T mp e k W F Hb). exists s, T. split; [reflexivity|exact A].
      * destruct (replace_world n s T mp e b k w W F E Hb Hne (Hroot k w b eq_refl H Hne)) as (s' & T' & K & W' & V1 & V2 & V3).
        rewrite K. exists s', T'. split; [reflexivity|]. split; [exact W'| |].
        -- intros x. simpl. rewrite !look_give, <- V. destruct (Nat.eqb_spec x e) as [->|Hx]; [now rewrite E|].
           destruct (Nat.eqb_spec x b) as [->|Hxb]; [now rewrite Hb|]. rewrite V3 by assumption. now destruct (view s x) as [[? ?]|].
        -- simpl. now rewrite !fst_give.
    + destruct (replace_world_new n s T mp e k w W F E (agree_absent _ _ _ _ _ A H)) as (s' & T' & K & W' & V1 & V2).
      rewrite K. exists s', T'. split; [reflexivity|]. split; [exact W'| |].
      * intros x. simpl. rewrite look_give, <- V. destruct (Nat.eqb_spec x e) as [->|Hne]; [rewrite E; exact V1|].
        rewrite V2 by exact Hne. now destruct (view s x) as [[? ?]|].
      * simpl. now rewrite fst_give.
  - destruct (look st e) as [[k w]|] eqn:E; [|congruence]. rewrite <- V in E.
    destruct (detach_world n s T e k w W F E) as (s' & T' & K & W' & Lo & V2 & _).
    rewrite K. cbn [bind]. exists s', T'. split; [reflexivity|]. split; [exact W'| |].
    + intros x. simpl. rewrite look_give, <- V. destruct (Nat.eqb_spec x e) as [->|Hne]; [rewrite E; now apply loose_view|].
      rewrite V2 by exact Hne. now destruct (view s x) as [[? ?]|].
    + simpl. now rewrite fst_give.
  - destruct (look st e) as [[k w]|] eqn:E; [|congruence]. rewrite <- V in E.
    destruct (delete_world n s T e k w W F E) as (s' & T' & K & W' & V1 & V2).
    rewrite K. cbn [bind]. exists s', T'. split; [reflexivity|]. split; [exact W'| |].
    + intros x. simpl. rewrite look_filter, <- V by exact D. simpl. destruct (Nat.eqb_spec x e) as [->|Hne]; simpl.
      * rewrite V1. now rewrite E.
      * rewrite V2 by exact Hne. now destruct (view s x) as [[? ?]|].
    + simpl. now apply nodup_filter.
  - destruct (remove_all_world n s T mp W F) as (s' & T' & K & W' & V1). rewrite K. cbn [bind].
    exists s', T'. split; [reflexivity|]. split; [exact W'| |].
    + intros x. simpl. rewrite V1, V. clear. induction st as [|[y [k [q|]]] st IH]; [reflexivity| |]; simpl.
      * unfold owned at 1. simpl. destruct (Nat.eqb_spec q mp) as [->|]; simpl; destruct (Nat.eqb y x); auto;
          rewrite ?Nat.eqb_refl; auto. destruct (Nat.eqb_spec q mp); congruence.
      * unfold owned at 1. simpl. destruct (Nat.eqb y x); auto.
    + simpl. rewrite map_map. erewrite map_ext; [exact D|]. intros e. now destruct (owned mp e).
  - destruct (purge_world n s T mp W F) as (s' & T' & K & W' & V1). rewrite K. cbn [bind].
    exists s', T'. split; [reflexivity|]. split; [exact W'| |].
    + intros x. simpl. rewrite V1, look_filter, V by exact D. destruct (look st x) as [[k [q|]]|]; auto.
      unfold owned. simpl. now destruct (Nat.eqb q mp).
    + simpl. now apply nodup_filter.
Qed.

Lemma filter_le {A} (f : A -> bool) l : (length (filter f l) <= length l)%nat.
Proof. induction l as [|a l IH]; simpl; [lia|]. destruct (f a); simpl; lia. Qed.

Lemma spec_length st o : (length (fst (spec_step st o)) <= S (length st))%nat.
Proof.
  destruct o as [a key|mp e|mp e|e|e|mp|mp]; simpl.
  - lia.
  - destruct (look st e) as [[k w]|]; [|simpl; lia]. destruct (holder st mp k); simpl; unfold give; rewrite ?map_length; lia.
  - destruct (look st e) as [[k w]|]; [|simpl; lia]. destruct (holder st mp k) as [b|]; [destruct (Nat.eqb b e)|]; simpl; unfold give;
      rewrite ?map_length; lia.
  - unfold give. rewrite map_length. lia.
  - pose proof (filter_le (fun x => negb (Nat.eqb (fst x) e)) st). lia.
  - rewrite map_length. lia.
  - pose proof (filter_le (fun e => negb (owned mp e)) st). lia.
Qed.

Lemma run_ok ops : forall n s T st, agree s T st -> legal_run st ops -> spares_roots n s st ops ->
  (length st + length ops <= n)%nat ->
  exists s' T', h_run n ops s = Ret (s', snd (spec_run st ops)) /\ agree s' T' (fst (spec_run st ops)) /\
    (length (fst (spec_run st ops)) <= n)%nat.
Proof.
  induction ops as [|o ops IH]; intros n s T st A L R Hn; simpl in *.
  - exists s, T. split; [reflexivity|]. split; [exact A|lia].
  - destruct L as [L1 L2]. destruct R as [R1 R2].
    destruct (step_ok n s T st o A L1 ltac:(lia) R1) as (s1 & T1 & K1 & A1).
    rewrite K1. cbn [bind]. specialize (R2 _ _ K1). pose proof (spec_length st o).
    destruct (spec_step st o) as [st1 r1]. simpl in *.
    destruct (IH n s1 T1 st1 A1 L2 R2 ltac:(lia)) as (s2 & T2 & K2 & A2 & Hl). rewrite K2. cbn [bind].
    destruct (spec_run st1 ops) as [st2 rs]. simpl in *. exists s2, T2. auto.
Qed.

Lemma agree_observed n s T st : agree s T st -> (length st <= n)%nat -> observed n s st.
Proof.
  intros A Hn. pose proof (agree_fits s T st n A Hn) as F. pose proof A as [W V D]. split; [exact V|]. split.
  - intros mp key G. rewrite (find_world n s T mp key W F G). f_equal. now apply (agree_holder s T st mp key).
  - intros mp. exists (map snd (elements (T mp))), (keys (T mp)).
    split; [apply elements_heap; [apply W|apply F]|]. split; [apply elements_back_heap; [apply W|apply F]|]. split; [|split].
    + unfold keys. assert (H : forall k x, In (k, x) (elements (T mp)) -> look st x = Some (k, Some mp)).
      { intros k x Hx. rewrite <- V. now apply (world_in s T mp k x W). }
      induction (elements (T mp)) as [|[k x] l IH]; simpl; constructor; [apply H; now left|].
      apply IH. intros k0 x0 H0. apply H. now right.
    + apply (w_wf _ _ W mp).
    + intros a k H. rewrite <- V in H. apply (world_in s T mp k a W) in H. apply in_map_iff. exists (k, a). auto.
Qed.

Lemma agree_init : agree h_init (fun _ => Leaf) [].
Proof. split; [apply world_init|reflexivity|constructor]. Qed.

Lemma no_replace ops : existsb replaces ops = false -> forall n s st, spares_roots n s st ops.
Proof.
  induction ops as [|o ops IH]; intros H n s st; [exact I|]. simpl in H. apply orb_false_iff in H. destruct H as [H1 H2].
  split; [destruct o; auto; discriminate|]. intros s' r _. now apply IH.
Qed.

(** A reservation used at once is an insertion. *)
Lemma reserve_insert_from k e m s mp : forall n a,
  match h_reserve_from n s a k with
  | Ret (Some r) => bind (h_insert_reserved m s mp e r) (fun s => Ret (s, true))
  | Ret None => Ret (s, false)
  | UB => UB
  | OutOfFuel => OutOfFuel
  end = h_insert_from n m s mp a e k.
Proof.
  induction n as [|n IH]; intros a; [reflexivity|]. cbn [h_reserve_from h_insert_from].
  destruct (get s a) as [x| |]; [|reflexivity|reflexivity]. cbn [bind].
  destruct (text_lt k (nkey x)).
  - destruct (nleft x) as [l|]; [apply IH|reflexivity].
  - destruct (text_lt (nkey x) k); [|reflexivity]. destruct (nright x) as [r|]; [apply IH|reflexivity].
Qed.
