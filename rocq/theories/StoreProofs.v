(** * Proofs about Serialize. *)

From Verif Require Import Base TextModel NumModel MapModel ParserModel WriterModel SpecMap SpecGrammar SpecMeaning MapProofs ParserProofs
  AccessModel SchemaModel SpecSchema SchemaProofs WriterProofs.

#[local] Arguments Z.eqb : simpl nomatch.

Lemma insert_new (m : tree value) k v : wf_map m -> good_key k -> ~ In k (keys m) ->
  exists m', insert_map_element m k v = Ret (m', true) /\ wf_map m' /\
    (forall x, In x (elements m') <-> x = (k, v) \/ In x (elements m)) /\
    (forall k', In k' (keys m') <-> k' = k \/ In k' (keys m)) /\
    (forall k', good_key k' -> find_map_element m' k' = if key_eqb k' k then Some v else find_map_element m k').
Proof.
  intros Hw Hk Hn. destruct (insert_ok m k v Hw Hk) as (m' & f & E & Hw' & Hin & _ & Hel).
  assert (f = true) as -> by (apply Hin; auto). destruct (Hel eq_refl) as (l1 & l2 & E1 & E2).
  assert (HE : forall x, In x (elements m') <-> x = (k, v) \/ In x (elements m)).
  { intros x. rewrite E1, E2, !in_app_iff. simpl. intuition congruence. }
  exists m'. split; [auto|]. split; [auto|]. split; [auto|]. split.
  - intros k'. unfold keys. rewrite E1, E2, !map_app, !in_app_iff. simpl. intuition congruence.
  - intros k' Hk'. rewrite (insert_find m k v m' true Hw Hk E k' Hk').
    destruct (find_map_element m k) eqn:Ef; [|reflexivity]. exfalso. pose proof Hw as (_ & Hb & Hg).
    rewrite find_assoc in Ef by auto. apply assoc_in, (in_map fst) in Ef. auto.
Qed.

Lemma represents_shows j : forall v, represents v j -> shows v j.
Proof.
  induction j as [s|d|b| |l IH|ms IH] using jv_induct; intros v Hr; inversion Hr as [| | | |vs js HF|m order ms' Ho Hn Hs]; subst;
    try (constructor; fail).
  - constructor. clear Hr. induction HF as [|v j vs l Hv HF IHF]; [constructor|]. inversion IH; subst. constructor; auto.
  - constructor; [auto|]. intros k j Hk E. destruct (Hs k j Hk E) as (v & Ev & Hv). exists v. split; [auto|].
    apply assoc_in in E. rewrite Forall_forall in IH. apply (IH _ E). exact Hv.
Qed.

Lemma wf_sound : forall v, wf_value v -> sound_value v.
Proof.
  fix IH 2. intros v H. destruct H as [s Hs|d|b| |l Hl|m order Hm Ho Hv].
  - constructor. auto.
  - constructor.
  - constructor.
  - constructor.
  - constructor. induction Hl; constructor; auto.
  - constructor; [auto| |].
    + intros k Hk. apply Ho. exact Hk.
    + intros k v Hin. apply IH. apply (Hv k v Hin).
Qed.

(** ** Types that can be stored *)

(** A value made from an object [d] of type [t]. *)
Definition made (t : ty) (d : data) (v : value) : Prop :=
  sound_value v /\ shows v (json t d) /\ (map_free t -> represents v (json t d) /\ wf_value v).

Definition stored (t : ty) : Prop := forall d, has_type t d ->
  exists v, serialize t d (create_value t) = Ret (kOk, v) /\ made t d v.

(** What the members of a prototype do to an object. *)
Definition stored_members (p : proto) : Prop := forall ds, has_types p ds -> forall m order,
  sound_value (VObject m order) -> NoDup (names p) -> (forall n, In n (names p) -> ~ In n (keys m)) ->
  exists m', serialize_proto p ds (VObject m order) = Ret (kOk, VObject m' (order ++ names p)) /\
    sound_value (VObject m' (order ++ names p)) /\
    (forall k, In k (keys m') <-> In k (keys m) \/ In k (names p)) /\
    (forall k, good_key k ->
       match assoc k (json_members p ds) with
       | None => find_map_element m' k = find_map_element m k
       | Some j => exists v, find_map_element m' k = Some v /\ shows v j /\ (map_free_proto p -> represents v j)
       end) /\
    (map_free_proto p -> (forall k v, In (k, v) (elements m) -> wf_value v) -> forall k v, In (k, v) (elements m') -> wf_value v).

Lemma json_names : (forall t, storable t -> forall d, has_type t d ->
    match t, json t d with TStruct p, JObj ms => map fst ms = names p | TStruct p, _ => False | _, _ => True end) /\
  (forall p, storable_proto p -> forall ds, has_types p ds -> map fst (json_members p ds) = names p).
Proof.
  apply ty_proto_ind; intros; simpl in *; auto.
  - destruct H1 as (l & -> & Hl). apply H; tauto.
  - destruct ds as [|d ds]; [destruct H2|]. destruct H2 as [Hd Hds]. destruct H1 as (Hk & Hi & Ht & Hr).
    rewrite map_app, H0 by auto. f_equal. destruct k; [reflexivity|reflexivity|].
    destruct t; try contradiction. specialize (H Ht d Hd). destruct d; try contradiction. exact H.
Qed.

Lemma store_elements t ds : stored t -> Forall (has_type t) ds -> forall acc,
  exists vs, serialize_elements (fun d => serialize t d (create_value t)) ds acc = Ret (kOk, acc ++ vs) /\
    Forall2 (made t) ds vs.
Proof.
  intros HS. induction 1 as [|d ds Hd _ IH]; intros acc; simpl.
  - exists []. rewrite app_nil_r. split; [reflexivity|constructor].
  - destruct (HS d Hd) as (v & E & Hv). rewrite E. simpl. destruct (IH (acc ++ [v])) as (vs & E' & Hvs).
    exists (v :: vs). rewrite E', <- app_assoc. split; [reflexivity|]. constructor; auto.
Qed.

Lemma store_map t es : stored t -> Forall (fun kd => has_type t (snd kd)) es -> forall m,
  NoDup (map fst es) -> Forall good_key (map fst es) -> wf_map m -> (forall k, In k (map fst es) -> ~ In k (keys m)) ->
  (forall k v, In (k, v) (elements m) -> sound_value v) ->
  exists m', serialize_members (fun d => serialize t d (create_value t)) es m = Ret (kOk, m') /\ wf_map m' /\
    (forall k v, In (k, v) (elements m') -> sound_value v) /\
    forall k, good_key k ->
      match assoc k es with
      | None => find_map_element m' k = find_map_element m k
      | Some d => exists v, find_map_element m' k = Some v /\ made t d v
      end.
Proof.
  intros HS. induction 1 as [|[k d] es Hd _ IH]; intros m Hnd Hg Hw Hdis Hv; simpl in *.
  - exists m. auto.
  - destruct (HS d Hd) as (v & E & Hm). rewrite E. simpl. inversion Hnd as [|? ? Hn Hnd']; subst. inversion Hg as [|? ? Hk Hg']; subst.
    destruct (insert_new m k v Hw Hk) as (m1 & E1 & Hw1 & Hel & Hkeys & Hf); [apply Hdis; auto|]. rewrite E1. simpl.
    destruct (IH m1 Hnd' Hg' Hw1) as (m' & E2 & Hw2 & Hs2 & Hf2).
    { intros k' Hk' Hin. apply Hkeys in Hin. destruct Hin as [->|Hin]; [auto|]. apply (Hdis k'); auto. }
    { intros k' v' Hin. apply Hel in Hin. destruct Hin as [Ek|Hin]; [|eauto]. injection Ek as -> ->. apply Hm. }
    exists m'. split; [auto|]. split; [auto|]. split; [auto|]. intros k' Hk'. specialize (Hf2 k' Hk'). rewrite Hf in Hf2 by auto.
    destruct (key_eqb_spec k' k) as [Ekk|Hne]; [|exact Hf2]. rewrite Ekk in Hf2. rewrite (assoc_none k es) in Hf2 by auto. rewrite Ekk. eauto.
Qed.

Lemma store_object t es l order : stored t -> sorted es -> Forall (fun kd => has_type t (snd kd)) es ->
  l = map (fun kd => (fst kd, json t (snd kd))) es -> order = [] ->
  exists m', serialize_members (fun d => serialize t d (create_value t)) es Leaf = Ret (kOk, m') /\
    sound_value (VObject m' order) /\ shows (VObject m' order) (JObj l).
Proof.
  intros HS [Hi Hg] Ht -> ->.
  destruct (store_map t es HS Ht Leaf) as (m' & E & Hw & Hs & Hf); auto using increasing_nodup, wf_leaf; try (intros ? ? []).
  exists m'. split; [auto|]. split; [constructor; auto; intros k []|].
  constructor.
  - intros k Hk. rewrite assoc_map_snd. specialize (Hf k Hk). destruct (assoc k es); [discriminate|]. intros _. exact Hf.
  - intros k j Hk. rewrite assoc_map_snd. specialize (Hf k Hk). destruct (assoc k es) as [d|]; [|discriminate]. simpl.
    intros Ej. injection Ej as <-. destruct Hf as (v & Ev & _ & Hsh & _). eauto.
Qed.

Lemma shows_members m order ms :
  (forall k, good_key k -> match assoc k ms with
     | None => find_map_element m k = None
     | Some j => exists v, find_map_element m k = Some v /\ shows v j end) -> shows (VObject m order) (JObj ms).
Proof.
  intros H. constructor.
  - intros k Hk E. specialize (H k Hk). now rewrite E in H.
  - intros k j Hk E. specialize (H k Hk). now rewrite E in H.
Qed.

Lemma store_all :
  (forall t, storable t -> proper t -> stored t /\ match t with TStruct q => stored_members q | _ => True end) /\
  (forall p, storable_proto p -> proper_proto p -> stored_members p).
Proof.
  apply ty_proto_ind.
  1-4, 7: intros _ _; (split; [|exact I]); intros d Hd; simpl in Hd; repeat match type of Hd with exists _, _ => destruct Hd as [? Hd] end;
    try match type of Hd with _ /\ _ => destruct Hd as [-> Hd] end; subst; simpl; rewrite ?cstr_good by auto; eexists; (split; [reflexivity|]); 
    repeat split; try constructor; auto.
  - intros t IH Hst Hp. split; [|exact I]. destruct (IH Hst Hp) as [HS _]. intros d (l & -> & Hl).
    destruct (store_elements t l HS Hl []) as (vs & E & HF). simpl. rewrite E. simpl. eexists. split; [reflexivity|].
    split; [|split].
    + constructor. clear E Hl. induction HF as [|d v l vs Hv _ IHF]; constructor; auto. apply Hv.
    + constructor. clear E Hl. induction HF as [|d v l vs Hv _ IHF]; constructor; auto. apply Hv.
    + intros Hm. simpl in Hm. split; constructor; clear E Hl; induction HF as [|d v l vs Hv _ IHF]; constructor; auto; apply Hv; auto.
  - intros t IH Hst Hp. split; [|exact I]. destruct (IH Hst Hp) as [HS _]. intros d (m & -> & Hw & Hl).
    destruct (store_object t (elements m) _ [] HS (sorted_elements _ Hw) Hl eq_refl eq_refl) as (m' & E & Hs & Hsh).
    simpl. rewrite map_elements_ok. simpl. rewrite E. simpl. eexists. split; [reflexivity|]. split; [auto|]. split; [auto|]. intros [].
  - intros t IH [].
  - intros t IH Hst Hp. split; [|exact I]. destruct (IH Hst Hp) as [HS _]. intros d (l & -> & Hi & Hg & Hl).
    destruct (store_object t l _ [] HS (conj Hi Hg) Hl eq_refl eq_refl) as (m' & E & Hs & Hsh).
    assert (El : forall f : list Z * data -> list Z * data, (forall k x, good_key k -> f (k, x) = (k, x)) -> map f l = l).
    { intros f Hf. clear - Hg Hf. induction l as [|[k x] l IH]; simpl in *; [reflexivity|]. inversion Hg; subst. rewrite Hf by auto.
      f_equal. auto. }
    simpl. rewrite El by (intros; simpl; rewrite cstr_good; auto).
    rewrite E. simpl. eexists. split; [reflexivity|]. split; [auto|]. split; [auto|]. intros [].
  - intros p IH [Hst Hnd] Hp. specialize (IH Hst Hp). split; [|exact IH]. intros d (ds & -> & Hds).
    destruct (IH ds Hds Leaf []) as (m' & E & Hs & Hk & Hf & Hwf); auto.
    { constructor; [apply wf_leaf|intros k []|intros k v []]. }
    simpl serialize. rewrite E. simpl app. eexists. split; [reflexivity|]. split; [auto|].
    change (json (TStruct p) (DStruct ds)) with (JObj (json_members p ds)). split.
    + apply shows_members. intros k Hgk. specialize (Hf k Hgk). destruct (assoc k (json_members p ds)); [|exact Hf].
      destruct Hf as (v & ? & ? & ?). eauto.
    + intros Hm. simpl in Hm. split.
      * constructor.
        -- symmetry. apply json_names; auto.
        -- intros k Hgk Ea. specialize (Hf k Hgk). rewrite Ea in Hf. exact Hf.
        -- intros k j Hgk Ea. specialize (Hf k Hgk). rewrite Ea in Hf. destruct Hf as (v & ? & ? & ?). eauto.
      * inversion Hs as [| | | | |? ? Hw Ho Hv]; subst. constructor; [auto| |].
        -- intros k. rewrite Hk. simpl. tauto.
        -- apply Hwf; auto. intros k v [].
  - intros _ _ [|] Hds; [|destruct Hds]. intros m order Hs Hnd Hdis. exists m. simpl. rewrite app_nil_r.
    split; [reflexivity|]. split; [auto|]. split; [tauto|]. split; auto.
  - intros k init t IHt rest IHr (Hk & Hb & Hst & Hsr) (Hg & Hi & Hpt & Hpr). destruct (IHt Hst Hpt) as [HS HM]. specialize (IHr Hsr Hpr).
    intros [|d ds] Hds; [destruct Hds|]. destruct Hds as [Hd Hds]. intros m order Hs Hnd Hdis.
    assert (HN : forall n, good_key n -> names (PItem k init t rest) = n :: names rest ->
      json_members (PItem k init t rest) (d :: ds) = (n, json t d) :: json_members rest ds ->
      exists m', (let! (st, v) := serialize_named n (create_value t) (serialize t d) (VObject m order) in
                  if negb (status_eqb st kOk) then Ret (st, v) else serialize_proto rest ds v)
                 = Ret (kOk, VObject m' (order ++ n :: names rest)) /\
        sound_value (VObject m' (order ++ n :: names rest)) /\
        (forall k, In k (keys m') <-> In k (keys m) \/ In k (n :: names rest)) /\
        (forall k', good_key k' ->
           match assoc k' (json_members (PItem k init t rest) (d :: ds)) with
           | None => find_map_element m' k' = find_map_element m k'
           | Some j => exists v, find_map_element m' k' = Some v /\ shows v j /\ (map_free t /\ map_free_proto rest -> represents v j)
           end) /\
        (map_free t /\ map_free_proto rest -> (forall k v, In (k, v) (elements m) -> wf_value v) -> forall k v, In (k, v) (elements m') -> wf_value v)).
    { intros n Hgn En Ej. rewrite Ej. rewrite En in Hnd, Hdis. inversion Hnd as [|? ? Hn Hnd']; subst.
      destruct (HS d Hd) as (v & E & Hsv & Hshv & Hmf). unfold serialize_named. rewrite E. simpl.
      inversion Hs as [| | | | |? ? Hw Ho Hv]; subst.
      destruct (insert_new m n v Hw Hgn) as (m1 & E1 & Hw1 & Hel & Hkeys & Hf); [apply Hdis; left; auto|].
      unfold insert_accounted. rewrite E1. simpl.
      destruct (IHr ds Hds m1 (order ++ [n])) as (m' & E2 & Hs2 & Hk2 & Hf2 & Hwf2); auto.
      { constructor; [auto| |].
        - intros x Hx. apply Hkeys. apply in_app_iff in Hx. destruct Hx as [Hx|[<-|[]]]; auto.
        - intros k' v' Hin. apply Hel in Hin. destruct Hin as [Ek|Hin]; [injection Ek as -> ->; auto|eauto]. }
      { intros x Hx Hin. apply Hkeys in Hin. destruct Hin as [->|Hin]; [auto|]. apply (Hdis x); auto. right; auto. }
      exists m'. rewrite <- app_assoc in E2, Hs2. simpl in E2, Hs2. split; [auto|]. split; [auto|]. split; [|split].
      - intros k'. rewrite Hk2, Hkeys. simpl. intuition congruence.
      - intros k' Hk'. specialize (Hf2 k' Hk'). rewrite Hf in Hf2 by auto. simpl.
        destruct (key_eqb_spec k' n) as [Ekk|Hne].
        + rewrite Ekk in Hf2. rewrite Ekk. rewrite (assoc_none n (json_members rest ds)) in Hf2.
          * exists v. split; [auto|]. split; [auto|]. intros [? ?]. apply Hmf; auto.
          * rewrite (proj2 json_names) by auto. auto.
        + destruct (assoc k' (json_members rest ds)); [|auto]. destruct Hf2 as (v2 & ? & ? & ?). exists v2. split; [auto|]. split; [auto|]. intros [? ?]; auto.
      - intros [H1 H2] Hwf. apply Hwf2; auto. intros k' v' Hin. apply Hel in Hin. destruct Hin as [Ek|Hin]; [|eauto].
        injection Ek as -> ->. apply Hmf. auto. }
    destruct k as [n|n|].
    + simpl in Hg. exact (HN n Hg eq_refl eq_refl).
    + simpl in Hg. exact (HN n Hg eq_refl eq_refl).
    + clear HN. destruct t as [| | | | | | | | |q]; try contradiction. destruct Hd as (qs & -> & Hqs). simpl in Hst. destruct Hst as [Hst Hndq].
      simpl in Hnd, Hdis. pose proof Hndq as Hn1.
      assert (Hn2 : NoDup (names rest)). { clear - Hnd. induction (names q); simpl in *; auto. inversion Hnd; auto. }
      assert (Hn3 : forall x, In x (names q) -> ~ In x (names rest)).
      { clear - Hnd. induction (names q) as [|y l IH]; simpl in *; [tauto|]. inversion Hnd; subst. intros x [->|Hx]; [rewrite in_app_iff in H1; tauto|auto]. }
      destruct (HM qs Hqs m order Hs Hn1) as (m1 & E1 & Hs1 & Hk1 & Hf1 & Hw1).
      { intros x Hx. apply Hdis. rewrite in_app_iff. auto. }
      destruct (IHr ds Hds m1 (order ++ names q) Hs1 Hn2) as (m' & E2 & Hs2 & Hk2 & Hf2 & Hw2).
      { intros x Hx Hin. apply Hk1 in Hin. destruct Hin as [Hin|Hin]; [|apply (Hn3 x); auto]. apply (Hdis x); auto. rewrite in_app_iff. auto. }
      exists m'. simpl. rewrite E1. simpl. rewrite <- app_assoc in E2, Hs2. split; [exact E2|]. split; [exact Hs2|]. split; [|split].
      * intros k'. rewrite Hk2, Hk1, in_app_iff. tauto.
      * intros k' Hk'. specialize (Hf1 k' Hk'). specialize (Hf2 k' Hk'). rewrite assoc_app.
        assert (Hex : In k' (map fst (json_members q qs)) -> ~ In k' (map fst (json_members rest ds))).
        { rewrite !(proj2 json_names) by auto. auto. }
        destruct (assoc k' (json_members q qs)) as [j|] eqn:Ea.
        -- rewrite (assoc_none k' (json_members rest ds)) in Hf2.
           ++ rewrite Hf2. destruct Hf1 as (v & ? & ? & ?). exists v. split; [auto|]. split; [auto|]. intros [? ?]; auto.
           ++ apply Hex. apply assoc_in, (in_map fst) in Ea. exact Ea.
        -- destruct (assoc k' (json_members rest ds)); [|congruence]. destruct Hf2 as (v & ? & ? & ?). exists v. split; [auto|]. split; [auto|]. intros [? ?]; auto.
      * intros [? ?] Hwf. exact (Hw2 H0 (Hw1 H Hwf)).
Qed.

(** ** The document of an object is valid and reads back as the object *)

Lemma assoc_nodup {A} k (x : A) l : NoDup (map fst l) -> In (k, x) l -> assoc k l = Some x.
Proof.
  induction l as [|[k' y] l IH]; intros Hnd Hin; [destruct Hin|]. simpl in *. inversion Hnd; subst.
  destruct Hin as [E|Hin]; [injection E as -> ->; now rewrite key_eqb_refl|].
  destruct (key_eqb_spec k k') as [->|]; [|auto]. exfalso. apply H1. apply (in_map fst) in Hin. exact Hin.
Qed.

(** The members of [p] with the content [ds] are found in [j]. *)
Definition within (p : proto) (ds : list data) (j : jv) : Prop :=
  is_object j /\ forall k j', In (k, j') (json_members p ds) -> member j k = Some j'.

Lemma json_within p ds : storable_proto p -> NoDup (names p) -> has_types p ds -> within p ds (JObj (json_members p ds)).
Proof.
  intros Hs Hn Ht. split; [eexists; reflexivity|]. intros k j' Hin. simpl. apply assoc_nodup; auto.
  rewrite (proj2 json_names); auto.
Qed.

Lemma within_item k init t rest d ds j : within (PItem k init t rest) (d :: ds) j ->
  within rest ds j /\
  match k with
  | Named n | Optional n => member j n = Some (json t d)
  | Anonymous => forall q qs, t = TStruct q -> d = DStruct qs -> within q qs j
  end.
Proof.
  intros [Ho H]. split.
  - split; [auto|]. intros k' j' Hin. apply H. simpl. apply in_app_iff. auto.
  - destruct k; [apply H; simpl; auto|apply H; simpl; auto|].
    intros q qs -> ->. split; [auto|]. intros k' j' Hin. apply H. simpl. apply in_app_iff. auto.
Qed.

Lemma valid_json :
  (forall t, storable t -> (forall d, has_type t d -> valid t (json t d)) /\
     match t with TStruct q => forall qs j, has_types q qs -> within q qs j -> valid_proto q j | _ => True end) /\
  (forall p, storable_proto p -> forall ds j, has_types p ds -> within p ds j -> valid_proto p j).
Proof.
  apply ty_proto_ind; try (intros _; split; [|exact I]; simpl; intros d Hd;
     repeat match type of Hd with exists _, _ => destruct Hd as [? Hd] end;
     try match type of Hd with _ /\ _ => destruct Hd as [-> Hd] end; subst; simpl; eauto; fail).
  - intros t IH Hs. destruct (IH Hs) as [H _]. split; [|exact I]. intros d (l & -> & Hl). simpl. eexists. split; [reflexivity|].
    rewrite Forall_map. revert Hl. apply Forall_impl. auto.
  - intros t IH Hs. destruct (IH Hs) as [H _]. split; [|exact I]. intros d (m & -> & Hw & Hl). split; [eexists; reflexivity|].
    intros k j' Hk. simpl. rewrite assoc_map_snd. destruct (assoc k (elements m)) as [x|] eqn:Ea; [|discriminate]. simpl. intros E. injection E as <-.
    apply H. apply assoc_in in Ea. rewrite Forall_forall in Hl. apply (Hl _ Ea).
  - intros t IH [].
  - intros t IH Hs. destruct (IH Hs) as [H _]. split; [|exact I]. intros d (l & -> & Hi & Hg & Hl). split; [eexists; reflexivity|].
    intros k j' Hk. simpl. rewrite assoc_map_snd. destruct (assoc k l) as [x|] eqn:Ea; [|discriminate]. simpl. intros E. injection E as <-.
    apply H. apply assoc_in in Ea. rewrite Forall_forall in Hl. apply (Hl _ Ea).
  - intros p IH [Hs Hn]. specialize (IH Hs). split; [|auto]. intros d (l & -> & Hl). simpl. apply IH with l; auto using json_within.
  - simpl. auto.
  - intros k init t IHt rest IHr (Hk & Hb & Hst & Hsr) [|d ds] j Ht Hw; [destruct Ht|]. destruct Ht as [Hd Hds].
    destruct (within_item _ _ _ _ _ _ _ Hw) as [Hwr Hwi]. destruct (IHt Hst) as [Hv Hq]. simpl. split; [|apply (IHr Hsr ds); auto].
    destruct k as [n|n|].
    + eexists. split; [exact Hwi|]. auto.
    + split; [apply Hw|]. intros j' E. rewrite Hwi in E. injection E as <-. auto.
    + destruct t; try contradiction. destruct Hd as (qs & -> & Hqs). simpl. exact (Hq qs j Hqs (Hwi p qs eq_refl eq_refl)).
Qed.

Lemma blank_content : (forall t, forall d, has_type t d -> blank t d -> blank t (content d)) /\
  (forall p, forall ds, has_types p ds -> blanks p ds -> blanks p (map content ds)).
Proof.
  apply ty_proto_ind; try (simpl; intros; auto; fail).
  - intros t IH d (m & -> & _) Hb. simpl in *. subst. reflexivity.
  - intros t IH d (l & -> & _) Hb. simpl in *. subst. reflexivity.
  - intros p IH d (l & -> & Hl) Hb. simpl in *. exact (IH l Hl Hb).
  - intros k init t IHt rest IHr [|d ds] Ht Hb; [destruct Ht|]. simpl in *. destruct Ht, Hb. auto.
Qed.

Lemma fresh_blank g : (forall t, storable t -> blank t (fresh g t)) /\
  (forall p, storable_proto p -> blanks p (fresh_proto g p)).
Proof.
  apply ty_proto_ind; try (simpl; auto; fail).
  - simpl. intros p IH [Hs _]. auto.
  - intros k init t IHt rest IHr (Hk & Hb & Hst & Hsr). simpl. split; [|auto]. destruct init; auto.
Qed.

Lemma fresh_content_blank g t : storable t -> proper t -> blank t (content (fresh g t)).
Proof. intros Hs Hp. apply blank_content; [apply fresh_typed; auto|apply fresh_blank; auto]. Qed.

(** A sorted list of pairs read into an empty map. *)
Lemma reads_map_back g t es l : storable t -> proper t ->
  (forall d, has_type t d -> forall e d', blank t e -> reads g t (json t d) e d' -> d' = content d) ->
  sorted es -> Forall (fun kd => has_type t (snd kd)) es ->
  reads g (TStdMap t) (JObj (map (fun kd => (fst kd, json t (snd kd))) es)) (DStdMap []) (DStdMap l) ->
  l = map (fun kd => (fst kd, content (snd kd))) es.
Proof.
  intros Hs Hp IH [Hi Hg] Ht (ms & l0 & l' & E1 & E2 & E3 & Hil & Hgl & HR). injection E1 as <-. injection E2 as <-. injection E3 as <-.
  apply sorted_ext; [split; auto|split; rewrite map_fst_map; auto|].
  intros k Hk. specialize (HR k Hk). rewrite assoc_map_snd in HR. rewrite assoc_map_snd. destruct (assoc k es) as [d|] eqn:Ea; simpl in *; [|exact HR].
  destruct HR as (d' & E & HR). rewrite E. f_equal.
  apply IH with (e := content (fresh zeroes t)); auto using fresh_content_blank.
  apply assoc_in in Ea. rewrite Forall_forall in Ht. apply (Ht _ Ea).
Qed.

Lemma reads_back g :
  (forall t, storable t -> proper t ->
     (forall d, has_type t d -> forall e d', blank t e -> reads g t (json t d) e d' -> d' = content d) /\
     match t with
     | TStruct q => forall qs j, has_types q qs -> within q qs j -> forall es qs', blanks q es -> reads_proto g q j es qs' -> qs' = map content qs
     | _ => True
     end) /\
  (forall p, storable_proto p -> proper_proto p -> forall ds j, has_types p ds -> within p ds j ->
     forall es ds', blanks p es -> reads_proto g p j es ds' -> ds' = map content ds).
Proof.
  apply ty_proto_ind.
  1-4, 7: intros _ _; (split; [|exact I]); simpl; intros d Hd e d' _ Hr;
     repeat match type of Hd with exists _, _ => destruct Hd as [? Hd] end;
     try match type of Hd with _ /\ _ => destruct Hd as [-> Hd] end; subst; simpl in *;
     repeat match type of Hr with exists _, _ => destruct Hr as [? Hr] end; destruct Hr as [Hr ->]; congruence.
  - intros t IH Hs Hp. destruct (IH Hs Hp) as [H _]. split; [|exact I]. intros d (l & -> & Hl) e d' _ (js & ds & E & -> & HF).
    simpl in E. injection E as <-. simpl. f_equal. revert ds HF. induction Hl as [|x l Hx Hl IHl]; simpl; intros ds HF; inversion HF; subst; [reflexivity|].
    f_equal; [|auto]. eapply H; [exact Hx| |eassumption]. apply fresh_content_blank; auto.
  - intros t IH Hs Hp. destruct (IH Hs Hp) as [H _]. split; [|exact I]. intros d (m & -> & Hw & Hl) e d' Hb Hr.
    assert (He : e = DStdMap [] /\ exists l, d' = DStdMap l).
    { destruct Hr as (ms & l0 & l & _ & -> & -> & _). simpl in Hb. subst. eauto. }
    destruct He as (-> & l & ->). rewrite content_map. f_equal. exact (reads_map_back g t (elements m) l Hs Hp H (sorted_elements m Hw) Hl Hr).
  - intros t IH [].
  - intros t IH Hs Hp. destruct (IH Hs Hp) as [H _]. split; [|exact I]. intros d (l & -> & Hi & Hg & Hl) e d' Hb Hr.
    assert (He : e = DStdMap [] /\ exists l, d' = DStdMap l).
    { destruct Hr as (ms & l0 & l' & _ & -> & -> & _). simpl in Hb. subst. eauto. }
    destruct He as (-> & l' & ->). rewrite content_std. f_equal. exact (reads_map_back g t l l' Hs Hp H (conj Hi Hg) Hl Hr).
  - intros p IH [Hs Hn] Hp. specialize (IH Hs Hp). split; [|auto]. intros d (l & -> & Hl) e d' Hb (es & ds & -> & -> & HR). simpl. f_equal.
    eapply IH; eauto using json_within.
  - intros _ _ [|d ds] j Ht _ es ds' _ Hr; [|destruct Ht]. destruct es, ds'; try destruct Hr. reflexivity.
  - intros k init t IHt rest IHr (Hk & Hb & Hst & Hsr) (Hg & Hi & Hpt & Hpr) [|d ds] j Ht Hw; [destruct Ht|]. destruct Ht as [Hd Hds].
    destruct (within_item _ _ _ _ _ _ _ Hw) as [Hwr Hwi]. destruct (IHt Hst Hpt) as [Hv Hq].
    intros [|e es] [|d' ds'] Hbl Hr; try (destruct Hr; fail). destruct Hbl as [Hbe Hbs]. destruct Hr as [Hr Hrs]. simpl. f_equal.
    + destruct k as [n|n|].
      * destruct Hr as (j' & E & Hr). rewrite Hwi in E. injection E as <-. eapply Hv; eauto.
      * destruct Hr as [_ Hr]. rewrite Hwi in Hr. eapply Hv; eauto.
      * destruct t; try contradiction. destruct Hd as (qs & -> & Hqs). destruct Hr as (es0 & ds0 & -> & -> & Hr). simpl in *. f_equal.
        apply (Hq qs j Hqs (Hwi p qs eq_refl eq_refl) es0 ds0 Hbe Hr).
    + apply (IHr Hsr Hpr ds j Hds Hwr es ds' Hbs Hrs).
Qed.

Lemma assoc_normal k ms :
  assoc k (SpecWrite.first_values (map (fun x => (fst x, SpecWrite.normal (snd x))) ms)) = option_map SpecWrite.normal (assoc k ms).
Proof.
  rewrite <- assoc_map_snd. generalize (map (fun x : list Z * jv => (fst x, SpecWrite.normal (snd x))) ms). clear.
  intros ms. unfold SpecWrite.first_values.
  destruct (assoc k ms) as [j|] eqn:E.
  - pose proof (assoc_in _ _ _ E) as Hin. revert E.
    assert (G : forall l, In k (map fst l) -> forall g : list Z * jv -> jv, (forall x, fst x = k -> g x = j) ->
      assoc k (map (fun m => (fst m, g m)) l) = Some j).
    { induction l as [|[k' x] l IH]; simpl; intros Hk g Hg; [tauto|].
      destruct (key_eqb_spec k k') as [->|N]; [rewrite Hg; auto|]. apply IH; auto. destruct Hk; [congruence|auto]. }
    intros E. apply (G ms); [apply (in_map fst) in Hin; exact Hin|]. intros x <-. now rewrite E.
  - apply assoc_none. rewrite map_map. cbn [fst]. intros Hin. apply assoc_some_in in Hin. destruct Hin. congruence.
Qed.

Lemma shows_normal j : forall v, shows v (SpecWrite.normal j) -> shows v j.
Proof.
  induction j as [s|d|b| |l IH|ms IH] using jv_induct; intros v Hs; auto.
  - simpl in Hs. inversion Hs as [| | | |vs js HF|]; subst. constructor. clear Hs. revert vs HF.
    induction IH as [|j l Hj _ IHl]; intros vs HF; inversion HF; subst; constructor; auto.
  - simpl in Hs. inversion Hs as [| | | | |m order ms' H1 H2]; subst. constructor.
    + intros k Hk E. apply H1; [auto|]. rewrite assoc_normal, E. reflexivity.
    + intros k j Hk E. destruct (H2 k (SpecWrite.normal j) Hk) as (x & Ex & Hx).
      { rewrite assoc_normal, E. reflexivity. }
      exists x. split; [auto|]. apply assoc_in in E. rewrite Forall_forall in IH. apply (IH _ E). exact Hx.
Qed.

(** ** Every outcome of Serialize is sound *)

Lemma insert_any (m : tree value) k v : wf_map m -> good_key k ->
  exists m' f, insert_map_element m k v = Ret (m', f) /\ wf_map m' /\
    (forall x, In x (elements m') -> x = (k, v) \/ In x (elements m)) /\
    (forall k', In k' (keys m') <-> k' = k \/ In k' (keys m)).
Proof.
  intros Hw Hk. destruct (in_dec (list_eq_dec Z.eq_dec) k (keys m)) as [Hin|Hn].
  - destruct (insert_ok m k v Hw Hk) as (m' & f & E & Hw' & Hf & Hs & _). exists m', f. split; [auto|]. split; [auto|].
    assert (f = false) as -> by (destruct f; auto; exfalso; apply Hf; auto). rewrite (Hs eq_refl). split; [auto|].
    intros k'. intuition congruence.
  - destruct (insert_new m k v Hw Hk Hn) as (m' & E & Hw' & He & Hkk & _). exists m', true. split; [auto|]. split; [auto|].
    split; [apply He|auto].
Qed.

Definition outcome (t : ty) : Prop := forall d, has_type t d -> forall v0, sound_value v0 ->
  (is_map t -> exists m, v0 = VObject m []) \/ ~ is_map t ->
  exists st v, serialize t d v0 = Ret (st, v) /\ sound_value v.

Lemma create_sound t : sound_value (create_value t).
Proof.
  assert (HO : sound_value (VObject Leaf [])) by (constructor; [apply wf_leaf|intros ? []|intros ? ? []]).
  destruct t; simpl; auto; constructor; constructor.
Qed.

Lemma outcome_create t : outcome t -> forall d, has_type t d ->
  exists st v, serialize t d (create_value t) = Ret (st, v) /\ sound_value v.
Proof.
  intros H d Hd. apply H; [auto|apply create_sound|]. destruct t; simpl; try (right; tauto); left; eauto.
Qed.

Lemma elements_outcome t ds : outcome t -> Forall (has_type t) ds -> forall acc, Forall sound_value acc ->
  (exists st l, serialize_elements (fun d => serialize t d (create_value t)) ds acc = Ret (st, l) /\ Forall sound_value l) /\
  (exists st l, serialize_vector (fun d => serialize t d (create_value t)) ds acc = Ret (st, l) /\ Forall sound_value l).
Proof.
  intros HO. induction 1 as [|d ds Hd _ IH]; intros acc Ha; simpl; [split; eauto|].
  destruct (outcome_create t HO d Hd) as (st & v & E & Hv). rewrite E. simpl.
  assert (Ha' : Forall sound_value (acc ++ [v])) by (apply Forall_app; auto).
  destruct (IH _ Ha') as [H1 H2]. destruct (negb (status_eqb st kOk)); split; eauto.
Qed.

Lemma members_outcome t es : outcome t -> Forall (fun kd => has_type t (snd kd)) es -> Forall good_key (map fst es) ->
  forall m, wf_map m -> (forall k v, In (k, v) (elements m) -> sound_value v) ->
  exists st m', serialize_members (fun d => serialize t d (create_value t)) es m = Ret (st, m') /\
    wf_map m' /\ (forall k v, In (k, v) (elements m') -> sound_value v).
Proof.
  intros HO. induction 1 as [|[k d] es Hd _ IH]; intros Hg m Hw Hv; simpl; [eauto 6|]. inversion Hg; subst.
  destruct (outcome_create t HO d Hd) as (st & v & E & Hsv). rewrite E. simpl. destruct (negb (status_eqb st kOk)); [eauto 6|].
  destruct (insert_any m k v Hw) as (m' & f & Ei & Hw' & He & _); [auto|]. rewrite Ei. simpl. apply IH; auto.
  intros k' v' Hin. apply He in Hin. destruct Hin as [Ek|Hin]; [injection Ek as -> ->; auto|eauto].
Qed.

Lemma all_outcomes :
  (forall t, tidy t -> proper t -> outcome t) /\
  (forall p, tidy_proto p -> proper_proto p -> forall ds, has_types p ds -> forall v0, sound_value v0 ->
     exists st v, serialize_proto p ds v0 = Ret (st, v) /\ sound_value v).
Proof.
  apply ty_proto_ind.
  1-4, 7: intros _ _ d Hd v0 Hs _; simpl in Hd; repeat match type of Hd with exists _, _ => destruct Hd as [? Hd] end;
    try match type of Hd with _ /\ _ => destruct Hd as [-> Hd] end; subst; simpl; rewrite ?cstr_good by auto;
    destruct v0; do 2 eexists; (split; [reflexivity|]); auto; constructor; auto.
  - intros t IH Ht Hp d (l & -> & Hl) v0 Hs _. simpl. destruct v0; eauto.
    destruct (elements_outcome t l (IH Ht Hp) Hl [] (Forall_nil _)) as [(st & l' & E & H) _]. rewrite E. simpl. do 2 eexists.
    split; [reflexivity|]. constructor. auto.
  - intros t IH Ht Hp d (m & -> & Hw & Hl) v0 Hs Hm. simpl. destruct v0 as [| | | | |m0 order]; eauto.
    rewrite map_elements_ok. simpl.
    destruct (members_outcome t (elements m) (IH Ht Hp) Hl) with (m := @Leaf value) as (st & m' & E & H1 & H2);
      [apply Hw|apply wf_leaf|intros ? ? []|].
    rewrite E. simpl. do 2 eexists. split; [reflexivity|]. constructor; auto.
    destruct Hm as [Hm|Hm]; [|simpl in Hm; tauto]. destruct (Hm I) as (? & Em). injection Em as _ ->. intros k [].
  - intros t IH Ht Hp d (l & -> & Hl) v0 Hs _. simpl. destruct v0; eauto.
    destruct (elements_outcome t l (IH Ht Hp) Hl [] (Forall_nil _)) as [_ (st & l' & E & H)]. rewrite E. simpl. do 2 eexists.
    split; [reflexivity|]. constructor. auto.
  - intros t IH Ht Hp d (l & -> & Hi & Hg & Hl) v0 Hs Hm. simpl. destruct v0 as [| | | | |m0 order]; eauto.
    assert (El : forall f : list Z * data -> list Z * data, (forall k x, good_key k -> f (k, x) = (k, x)) -> map f l = l).
    { intros f Hf. clear - Hg Hf. induction l as [|[k x] l IH]; simpl in *; [reflexivity|]. inversion Hg; subst. rewrite Hf by auto.
      f_equal. auto. }
    rewrite El by (intros; simpl; rewrite cstr_good; auto).
    destruct (members_outcome t l (IH Ht Hp) Hl) with (m := @Leaf value) as (st & m' & E & H1 & H2);
      [auto|apply wf_leaf|intros ? ? []|].
    rewrite E. simpl. do 2 eexists. split; [reflexivity|]. constructor; auto.
    destruct Hm as [Hm|Hm]; [|simpl in Hm; tauto]. destruct (Hm I) as (? & Em). injection Em as _ ->. intros k [].
  - intros p IH Ht Hp d (l & -> & Hl) v0 Hs _. simpl. apply IH; auto.
  - intros _ _ ds _ v0 Hs. simpl. eauto.
  - intros k init t IHt rest IHr (Hk & Ht & Hr) (Hg & Hi & Hpt & Hpr) [|d ds] Hds v0 Hs; [destruct Hds|]. destruct Hds as [Hd Hds].
    specialize (IHt Ht Hpt). specialize (IHr Hr Hpr ds Hds).
    assert (HN : forall n, good_key n -> exists st v, serialize_named n (create_value t) (serialize t d) v0 = Ret (st, v) /\ sound_value v).
    { intros n Hgn. unfold serialize_named. destruct v0 as [| | | |l|m order]; eauto.
      - destruct (outcome_create t IHt d Hd) as (st & v & E & Hv). rewrite E. simpl. do 2 eexists. split; [reflexivity|].
        constructor. inversion Hs; subst. apply Forall_app. auto.
      - destruct (outcome_create t IHt d Hd) as (st & v & E & Hv). rewrite E. simpl. unfold insert_accounted.
        inversion Hs as [| | | | |? ? Hw Ho Hvs]; subst.
        destruct (insert_any m n v Hw Hgn) as (m' & f & Ei & Hw' & He & Hkk). rewrite Ei. simpl. do 2 eexists. split; [reflexivity|].
        constructor; auto.
        + intros k' Hin. apply Hkk. apply in_app_iff in Hin. destruct Hin as [Hin|[<-|[]]]; auto.
        + intros k' v' Hin. apply He in Hin. destruct Hin as [Ek|Hin]; [injection Ek as -> ->; auto|eauto]. }
    assert (HC : forall r : out (status * value), (exists st v, r = Ret (st, v) /\ sound_value v) ->
      exists st v, (let! (st, v) := r in if negb (status_eqb st kOk) then Ret (st, v) else serialize_proto rest ds v) = Ret (st, v) /\ sound_value v).
    { intros r (st & v & -> & Hv). simpl. destruct (negb (status_eqb st kOk)); eauto. }
    destruct k as [n|n|]; simpl in Hg; simpl; apply HC; auto.
Qed.

(** ** What Serialize reports *)

Definition reported (t : ty) : Prop := forall d v, has_type t d -> serialize t d (create_value t) = Ret (kOk, v) -> shows v (json t d) /\ sound_value v.

(** The members that an object has received. *)
Definition reported_members (p : proto) : Prop := forall ds, has_types p ds -> forall m order v,
  sound_value (VObject m order) -> NoDup (names p) -> (forall n, In n (names p) -> ~ In n (keys m)) ->
  serialize_proto p ds (VObject m order) = Ret (kOk, v) ->
  map fst (json_members p ds) = names p /\
  exists m' order', v = VObject m' order' /\ sound_value v /\
    (forall k, In k (keys m') <-> In k (keys m) \/ In k (names p)) /\
    (forall k, good_key k ->
       match assoc k (json_members p ds) with
       | None => find_map_element m' k = find_map_element m k
       | Some j => exists x, find_map_element m' k = Some x /\ shows x j
       end).

Lemma reported_elements t ds : reported t -> tidy t -> proper t -> Forall (has_type t) ds -> forall acc l js,
  Forall2 shows acc js -> Forall sound_value acc ->
  (serialize_elements (fun d => serialize t d (create_value t)) ds acc = Ret (kOk, l) -> Forall2 shows l (js ++ map (json t) ds) /\ Forall sound_value l) /\
  (serialize_vector (fun d => serialize t d (create_value t)) ds acc = Ret (kOk, l) -> Forall2 shows l (js ++ map (json t) ds) /\ Forall sound_value l).
Proof.
  intros HR Ht Hp. induction 1 as [|d ds Hd _ IH]; intros acc l js Ha Hs; simpl.
  - rewrite app_nil_r. split; intros E; injection E as <-; auto.
  - destruct (outcome_create t (proj1 all_outcomes t Ht Hp) d Hd) as (st & v & E & Hv). rewrite E. simpl.
    destruct (status_cases st) as [->|Hst].
    + rewrite status_eqb_refl. simpl. destruct (HR d v Hd E) as [Hsh _].
      destruct (IH (acc ++ [v]) l (js ++ [json t d])) as [H1 H2].
      * apply Forall2_app; auto.
      * apply Forall_app; auto.
      * rewrite <- app_assoc in H1, H2. auto.
    + rewrite (status_eqb_neq _ _ Hst). simpl. split; congruence.
Qed.

Lemma reported_map t es : reported t -> tidy t -> proper t -> Forall (fun kd => has_type t (snd kd)) es -> forall m m',
  NoDup (map fst es) -> Forall good_key (map fst es) -> wf_map m -> (forall k, In k (map fst es) -> ~ In k (keys m)) ->
  (forall k v, In (k, v) (elements m) -> sound_value v) ->
  serialize_members (fun d => serialize t d (create_value t)) es m = Ret (kOk, m') ->
  wf_map m' /\ (forall k v, In (k, v) (elements m') -> sound_value v) /\
    forall k, good_key k ->
      match assoc k es with
      | None => find_map_element m' k = find_map_element m k
      | Some d => exists v, find_map_element m' k = Some v /\ shows v (json t d)
      end.
Proof.
  intros HR Ht Hp. induction 1 as [|[k d] es Hd _ IH]; intros m m' Hnd Hg Hw Hdis Hv; simpl in *.
  - intros E. injection E as <-. auto.
  - inversion Hnd as [|? ? Hn Hnd']; subst. inversion Hg as [|? ? Hk Hg']; subst.
    destruct (outcome_create t (proj1 all_outcomes t Ht Hp) d Hd) as (st & v & E & Hsv). rewrite E. simpl.
    destruct (status_cases st) as [->|Hst]; [|rewrite (status_eqb_neq _ _ Hst); simpl; congruence].
    rewrite status_eqb_refl. simpl. destruct (HR d v Hd E) as [Hsh _].
    destruct (insert_new m k v Hw Hk) as (m1 & E1 & Hw1 & Hel & Hkeys & Hf); [apply Hdis; auto|]. rewrite E1. simpl. intros Em.
    destruct (IH m1 m' Hnd' Hg' Hw1) as (Hw2 & Hs2 & Hf2); auto.
    { intros k' Hk' Hin. apply Hkeys in Hin. destruct Hin as [->|Hin]; [auto|]. apply (Hdis k'); auto. }
    { intros k' v' Hin. apply Hel in Hin. destruct Hin as [Ek|Hin]; [|eauto]. injection Ek as -> ->. auto. }
    split; [auto|]. split; [auto|]. intros k' Hk'. specialize (Hf2 k' Hk'). rewrite Hf in Hf2 by auto.
    destruct (key_eqb_spec k' k) as [Ekk|Hne]; [|exact Hf2]. rewrite Ekk in Hf2. rewrite (assoc_none k es) in Hf2 by auto. rewrite Ekk. eauto.
Qed.

Lemma storable_tidy : (forall t, storable t -> tidy t) /\ (forall p, storable_proto p -> tidy_proto p).
Proof.
  apply ty_proto_ind; simpl; auto; try tauto.
  intros k init t IHt rest IHr (Hk & Hb & Hst & Hsr). split; [|split]; auto.
  destruct k; auto. destruct t; simpl in *; tauto.
Qed.

Lemma reporting_tidy : (forall t, reporting t -> tidy t) /\ (forall p, reporting_proto p -> tidy_proto p).
Proof.
  apply ty_proto_ind; simpl; auto; try tauto.
  intros k init t IHt rest IHr (Hk & Hr).
  destruct k; (split; [|split]); auto; try tauto; try (apply storable_tidy; auto); try (apply IHt; tauto).
Qed.

Lemma report_all :
  (forall t, reporting t -> proper t -> reported t /\ match t with TStruct q => reported_members q | _ => True end) /\
  (forall p, reporting_proto p -> proper_proto p -> reported_members p).
Proof.
  apply ty_proto_ind.
  1-4, 7: intros _ _; (split; [|exact I]); intros d v Hd; simpl in Hd; repeat match type of Hd with exists _, _ => destruct Hd as [? Hd] end;
    try match type of Hd with _ /\ _ => destruct Hd as [-> Hd] end; subst; simpl; rewrite ?cstr_good by auto;
    intros E; injection E as <-; split; constructor; auto.
  - intros t IH Ht Hp. split; [|exact I]. destruct (IH Ht Hp) as [HR _]. intros d v (l & -> & Hl). simpl. intros E.
    destruct (serialize_elements _ l []) as [[st l']| |] eqn:El; simpl in E; try discriminate. injection E as -> <-.
    destruct (reported_elements t l HR (proj1 reporting_tidy t Ht) Hp Hl [] l' [] (Forall2_nil _) (Forall_nil _)) as [H _].
    destruct (H El). split; constructor; auto.
  - intros t IH Ht Hp. split; [|exact I]. destruct (IH Ht Hp) as [HR _]. intros d v (m & -> & Hw & Hl). simpl. rewrite map_elements_ok. simpl.
    intros E. destruct (serialize_members _ (elements m) Leaf) as [[st m']| |] eqn:Em; simpl in E; try discriminate. injection E as -> <-.
    pose proof (sorted_elements _ Hw) as [Hi Hg].
    destruct (reported_map t (elements m) HR (proj1 reporting_tidy t Ht) Hp Hl Leaf m') as (Hw' & Hs & Hf); auto.
    + apply increasing_nodup. exact Hi.
    + apply wf_leaf.
    + intros ? ? [].
    + split; [|constructor; auto; intros ? []]. constructor; intros k.
      * intros Hk Ea. specialize (Hf k Hk). rewrite assoc_map_snd in Ea. destruct (assoc k (elements m)); [discriminate|]. exact Hf.
      * intros j Hk Ea. specialize (Hf k Hk). rewrite assoc_map_snd in Ea. destruct (assoc k (elements m)); [|discriminate].
        injection Ea as <-. exact Hf.
  - intros t IH Ht Hp. split; [|exact I]. intros d v (l & -> & Hl). simpl. discriminate.
  - intros t IH Ht Hp. split; [|exact I]. destruct (IH Ht Hp) as [HR _]. intros d v (l & -> & Hi & Hg & Hl). simpl.
    assert (El : forall f : list Z * data -> list Z * data, (forall k x, good_key k -> f (k, x) = (k, x)) -> map f l = l).
    { intros f Hf. clear - Hg Hf. induction l as [|[k x] l IH]; simpl in *; [reflexivity|]. inversion Hg; subst. rewrite Hf by auto.
      f_equal. auto. }
    rewrite El by (intros; simpl; rewrite cstr_good; auto).
    intros E. destruct (serialize_members _ l Leaf) as [[st m']| |] eqn:Em; simpl in E; try discriminate. injection E as -> <-.
    destruct (reported_map t l HR (proj1 reporting_tidy t Ht) Hp Hl Leaf m') as (Hw' & Hs & Hf); auto.
    + apply increasing_nodup. exact Hi.
    + apply wf_leaf.
    + intros ? ? [].
    + split; [|constructor; auto; intros ? []]. constructor; intros k.
      * intros Hk Ea. specialize (Hf k Hk). rewrite assoc_map_snd in Ea. destruct (assoc k l); [discriminate|]. exact Hf.
      * intros j Hk Ea. specialize (Hf k Hk). rewrite assoc_map_snd in Ea. destruct (assoc k l); [|discriminate].
        injection Ea as <-. exact Hf.
  - intros p IH [Hr Hnd] Hp. specialize (IH Hr Hp). split; [|exact IH]. intros d v (ds & -> & Hds). simpl serialize. intros E.
    destruct (IH ds Hds Leaf [] v) as (Hn & m' & order' & -> & Hs & Hk & Hf); auto.
    { constructor; [apply wf_leaf|intros k []|intros k x []]. }
    split; [|auto]. change (json (TStruct p) (DStruct ds)) with (JObj (json_members p ds)).
    constructor; intros k.
    + intros Hgk Ea. specialize (Hf k Hgk). rewrite Ea in Hf. exact Hf.
    + intros j Hgk Ea. specialize (Hf k Hgk). rewrite Ea in Hf. exact Hf.
  - intros _ _ [|] Hds; [|destruct Hds]. intros m order v Hs Hnd Hdis E. simpl in *. injection E as <-.
    split; [reflexivity|]. exists m, order. split; [auto|]. split; [auto|]. split; [tauto|auto].
  - intros k init t IHt rest IHr (Hk & Hsr) (Hg & Hi & Hpt & Hpr). specialize (IHr Hsr Hpr).
    intros [|d ds] Hds; [destruct Hds|]. destruct Hds as [Hd Hds]. intros m order v Hs Hnd Hdis.
    assert (HN : forall n, good_key n -> storable t -> names (PItem k init t rest) = n :: names rest ->
      json_members (PItem k init t rest) (d :: ds) = (n, json t d) :: json_members rest ds ->
      (let! (st, v) := serialize_named n (create_value t) (serialize t d) (VObject m order) in
                  if negb (status_eqb st kOk) then Ret (st, v) else serialize_proto rest ds v) = Ret (kOk, v) ->
      map fst (json_members (PItem k init t rest) (d :: ds)) = names (PItem k init t rest) /\
      exists m' order', v = VObject m' order' /\ sound_value v /\
        (forall k', In k' (keys m') <-> In k' (keys m) \/ In k' (names (PItem k init t rest))) /\
        (forall k', good_key k' ->
           match assoc k' (json_members (PItem k init t rest) (d :: ds)) with
           | None => find_map_element m' k' = find_map_element m k'
           | Some j => exists v, find_map_element m' k' = Some v /\ shows v j
           end)).
    { intros n Hgn Hst En Ej. rewrite Ej, En. rewrite En in Hnd, Hdis. inversion Hnd as [|? ? Hn Hnd']; subst.
      destruct (proj1 (proj1 store_all t Hst Hpt) d Hd) as (x & E & Hsv & Hshv & _). unfold serialize_named. rewrite E. simpl.
      inversion Hs as [| | | | |? ? Hw Ho Hv]; subst. unfold insert_accounted.
      destruct (insert_new m n x Hw Hgn) as (m1 & E1 & Hw1 & Hel & Hkeys & Hf); [apply Hdis; left; auto|]. rewrite E1. simpl. intros Er.
      destruct (IHr ds Hds m1 (order ++ [n]) v) as (Hjn & m' & order' & -> & Hs' & Hk' & Hf'); auto.
      { constructor; auto.
        - intros k' Hin. apply Hkeys. apply in_app_iff in Hin. destruct Hin as [Hin|[<-|[]]]; auto.
        - intros k' v' Hin. apply Hel in Hin. destruct Hin as [Ek|Hin]; [injection Ek as -> ->; auto|eauto]. }
      { intros k' Hin Hin'. apply Hkeys in Hin'. destruct Hin' as [->|Hin']; [auto|]. apply (Hdis k'); [right|]; auto. }
      split; [simpl; congruence|]. exists m', order'. split; [auto|]. split; [auto|]. split.
      - intros k'. rewrite Hk', Hkeys. simpl. intuition.
      - intros k' Hgk. specialize (Hf' k' Hgk). simpl. rewrite Hf in Hf' by auto.
        destruct (key_eqb_spec k' n) as [Ekn|Hne]; [|exact Hf']. rewrite Ekn in Hf'. rewrite (assoc_none n (json_members rest ds)) in Hf'.
        + rewrite Ekn. eauto.
        + rewrite Hjn. auto. }
    destruct k as [n|n|]; simpl in Hg.
    + intros E. apply (HN n); auto.
    + intros E. apply (HN n); auto.
    + clear HN. destruct Hk as [Hrt Hmap]. destruct t as [| | | | | | | | |q];
        try (simpl in Hd; repeat match type of Hd with exists _, _ => destruct Hd as [? Hd] end;
             try match type of Hd with _ /\ _ => destruct Hd as [-> Hd] end; subst; simpl; discriminate);
        try (exfalso; apply Hmap; exact I).
      destruct Hd as (qs & -> & Hqs).
      change (serialize_proto (PItem Anonymous init (TStruct q) rest) (DStruct qs :: ds) (VObject m order)) with
        (let! (st, v) := serialize_proto q qs (VObject m order) in
         if negb (status_eqb st kOk) then Ret (st, v) else serialize_proto rest ds v).
      change (json_members (PItem Anonymous init (TStruct q) rest) (DStruct qs :: ds)) with (json_members q qs ++ json_members rest ds).
      change (names (PItem Anonymous init (TStruct q) rest)) with (names q ++ names rest) in *.
      destruct (IHt Hrt Hpt) as [_ HM].
      destruct (proj2 all_outcomes q (proj1 reporting_tidy (TStruct q) Hrt) Hpt qs Hqs (VObject m order) Hs) as (st & x & E & Hsx).
      rewrite E. simpl. destruct (status_cases st) as [->|Hst]; [|rewrite (status_eqb_neq _ _ Hst); simpl; congruence].
      rewrite status_eqb_refl. simpl. intros Er.
      destruct (HM qs Hqs m order x Hs) as (Hjn & m1 & order1 & -> & Hs1 & Hk1 & Hf1); auto.
      { apply Hrt. }
      { intros n Hn. apply Hdis. apply in_app_iff. auto. }
      destruct (IHr ds Hds m1 order1 v Hs1) as (Hjr & m2 & order2 & -> & Hs2 & Hk2 & Hf2); auto.
      { clear - Hnd. induction (names q) as [|a l IH]; simpl in Hnd; auto. inversion Hnd; auto. }
      { intros n Hn Hin. apply Hk1 in Hin. destruct Hin as [Hin|Hin].
        - apply (Hdis n); auto. apply in_app_iff. auto.
        - clear - Hnd Hn Hin. induction (names q) as [|a l IH]; simpl in *; [auto|]. inversion Hnd as [|? ? Ha Hl]; subst.
          destruct Hin as [->|Hin]; [|auto]. apply Ha. apply in_app_iff. auto. }
      split; [rewrite map_app; congruence|]. exists m2, order2. split; [auto|]. split; [auto|]. split.
      * intros k. rewrite Hk2, Hk1, in_app_iff. tauto.
      * intros k Hgk. specialize (Hf2 k Hgk). specialize (Hf1 k Hgk). rewrite assoc_app.
        destruct (assoc k (json_members q qs)) as [j|] eqn:Eq.
        -- assert (Enone : assoc k (json_members rest ds) = None).
           { apply assoc_none. rewrite Hjr. apply assoc_in in Eq. apply (in_map fst) in Eq. rewrite Hjn in Eq. simpl in Eq. clear - Hnd Eq.
             induction (names q) as [|a l IH]; simpl in *; [destruct Eq|]. inversion Hnd as [|? ? Ha Hl]; subst.
             destruct Eq as [->|Eq]; [|auto]. intros Hin. apply Ha. apply in_app_iff. auto. }
           rewrite Enone in Hf2. destruct Hf1 as (y & Ey & Hy). rewrite Hf2. eauto.
        -- destruct (assoc k (json_members rest ds)); [exact Hf2|]. congruence.
Qed.
