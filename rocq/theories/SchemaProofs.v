(** * Proofs about Validate, Deserialize and Serialize. *)

From Verif Require Import Base TextModel NumModel MapModel ParserModel WriterModel SpecMap SpecGrammar SpecMeaning MapProofs ParserProofs
  AccessModel SchemaModel SpecSchema.

Scheme ty_mut := Induction for ty Sort Prop
  with proto_mut := Induction for proto Sort Prop.
Combined Scheme ty_proto_ind from ty_mut, proto_mut.

#[local] Arguments Z.eqb : simpl nomatch.

Lemma map_elements_ok {A} (m : tree A) : map_elements m = Ret (elements m).
Proof. apply iterate_elements. auto. Qed.

Lemma status_cases st : {st = kOk} + {st <> kOk}.
Proof. apply status_eq_dec. Qed.

Ltac stat st := destruct (status_cases st) as [->|?Hst]; [rewrite ?status_eqb_refl|rewrite ?(status_eqb_neq st kOk) by auto]; simpl.

(** ** Sorted pair lists and maps *)

Definition sorted {A} (l : list (list Z * A)) : Prop := increasing (map fst l) /\ Forall good_key (map fst l).

Lemma sorted_elements {A} (m : tree A) : wf_map m -> sorted (elements m).
Proof. intros (_ & Hb & Hg). split; auto. Qed.

Lemma sorted_cons {A} k (x : A) l : sorted ((k, x) :: l) <->
  good_key k /\ (forall k', In k' (map fst l) -> lex_lt k k') /\ sorted l.
Proof.
  unfold sorted. simpl. rewrite Forall_cons_iff. split.
  - intros [[H1 H2] [H3 H4]]. rewrite Forall_forall in H1. auto.
  - intros (H1 & H2 & H3 & H4). repeat split; auto. rewrite Forall_forall. auto.
Qed.

Lemma std_lookup_assoc k l : good_key k -> sorted l -> std_lookup k l = assoc k l.
Proof.
  intros Hk. induction l as [|[k' x] l IH]; intros Hs; simpl; [reflexivity|].
  apply sorted_cons in Hs. destruct Hs as (Hg & Hl & Hs).
  destruct (text_lt_cases k k' Hk Hg) as [(HL & E)|[(HE & E1 & E2)|(HL & E1 & E2)]].
  - rewrite E. destruct (key_eqb_spec k k') as [->|]; [exfalso; eapply lex_irrefl; eauto|].
    symmetry. apply assoc_none. intros Hin. apply Hl in Hin. apply (lex_irrefl k'). eapply lex_trans; eauto.
  - subst. rewrite E1, key_eqb_refl. reflexivity.
  - rewrite E1, E2, IH by auto. destruct (key_eqb_spec k k') as [->|]; [exfalso; eapply lex_irrefl; eauto|]. reflexivity.
Qed.

Lemma std_store_keys k d l : good_key k -> sorted l ->
  forall k', In k' (map fst (std_store k d l)) <-> k' = k \/ In k' (map fst l).
Proof.
  intros Hk. induction l as [|[k' x] l IH]; intros Hs k2; simpl; [intuition congruence|].
  apply sorted_cons in Hs. destruct Hs as (Hg & Hl & Hs).
  destruct (text_lt_cases k k' Hk Hg) as [(HL & E)|[(HE & E1 & E2)|(HL & E1 & E2)]].
  - rewrite E. simpl. intuition congruence.
  - subst. rewrite E1. simpl. intuition congruence.
  - rewrite E1, E2. simpl. rewrite IH by auto. intuition congruence.
Qed.

Lemma std_store_sorted k d l : good_key k -> sorted l -> sorted (std_store k d l).
Proof.
  intros Hk. induction l as [|[k' x] l IH]; intros Hs; simpl.
  - apply sorted_cons. simpl. repeat split; auto; try tauto. constructor.
  - pose proof Hs as Hs0. apply sorted_cons in Hs. destruct Hs as (Hg & Hl & Hs).
    destruct (text_lt_cases k k' Hk Hg) as [(HL & E)|[(HE & E1 & E2)|(HL & E1 & E2)]].
    + rewrite E. apply sorted_cons. split; [auto|]. split; [|auto].
      intros k2 [<-|Hin]; [auto|]. apply Hl in Hin. eapply lex_trans; eauto.
    + subst. rewrite E1. apply sorted_cons. auto.
    + rewrite E1, E2. apply sorted_cons. split; [auto|]. split; [|auto].
      intros k2 Hin. apply std_store_keys in Hin; auto. destruct Hin as [->|Hin]; auto.
Qed.

Lemma std_store_assoc k d l k' : good_key k -> sorted l ->
  assoc k' (std_store k d l) = if key_eqb k' k then Some d else assoc k' l.
Proof.
  intros Hk. induction l as [|[k2 x] l IH]; intros Hs; simpl; [reflexivity|].
  apply sorted_cons in Hs. destruct Hs as (Hg & Hl & Hs).
  destruct (text_lt_cases k k2 Hk Hg) as [(HL & E)|[(HE & E1 & E2)|(HL & E1 & E2)]].
  - rewrite E. reflexivity.
  - subst. rewrite E1. simpl. destruct (key_eqb k' k2); reflexivity.
  - rewrite E1, E2. simpl. rewrite IH by auto. destruct (key_eqb_spec k' k2) as [->|]; [|reflexivity].
    destruct (key_eqb_spec k2 k) as [->|]; [exfalso; eapply lex_irrefl; eauto|reflexivity].
Qed.

Lemma std_store_forall (P : data -> Prop) k d l : P d -> Forall (fun kd => P (snd kd)) l ->
  Forall (fun kd => P (snd kd)) (std_store k d l).
Proof.
  intros Hd. induction l as [|[k' x] l IH]; intros H; simpl; [auto|]. inversion H; subst.
  destruct (text_lt k k'); [auto|]. destruct (text_lt k' k); auto.
Qed.

(** Two sorted lists with the same lookups are equal. *)
Lemma sorted_ext {A} (l1 : list (list Z * A)) : forall l2, sorted l1 -> sorted l2 ->
  (forall k, good_key k -> assoc k l1 = assoc k l2) -> l1 = l2.
Proof.
  induction l1 as [|[k1 x1] l1 IH]; intros [|[k2 x2] l2] H1 H2 HE; [reflexivity| | |].
  - apply sorted_cons in H2. destruct H2 as (Hg & _ & _). specialize (HE k2 Hg). simpl in HE.
    rewrite key_eqb_refl in HE. discriminate.
  - apply sorted_cons in H1. destruct H1 as (Hg & _ & _). specialize (HE k1 Hg). simpl in HE.
    rewrite key_eqb_refl in HE. discriminate.
  - apply sorted_cons in H1, H2. destruct H1 as (Hg1 & Hl1 & Hs1), H2 as (Hg2 & Hl2 & Hs2).
    assert (k1 = k2).
    { pose proof (HE k1 Hg1) as E1. pose proof (HE k2 Hg2) as E2. simpl in E1, E2. rewrite key_eqb_refl in E1, E2.
      destruct (key_eqb_spec k1 k2) as [|Hne]; [auto|]. destruct (key_eqb_spec k2 k1) as [|Hne']; [auto|].
      symmetry in E1. apply assoc_in, (in_map fst), Hl2 in E1. apply assoc_in, (in_map fst), Hl1 in E2. simpl in *.
      exfalso. apply (lex_irrefl k1). eapply lex_trans; eauto. }
    subst k2. pose proof (HE k1 Hg1) as E. simpl in E. rewrite key_eqb_refl in E. injection E as <-. f_equal.
    apply IH; auto. intros k Hk. pose proof (HE k Hk) as E. simpl in E.
    destruct (key_eqb_spec k k1) as [->|]; [|auto].
    rewrite !assoc_none; auto; intros Hin; [apply Hl2 in Hin|apply Hl1 in Hin]; eapply lex_irrefl; eauto.
Qed.

Lemma insert_store (m : tree data) k d : wf_map m -> good_key k -> find_map_element m k = None ->
  exists m', insert_map_element m k d = Ret (m', true) /\ wf_map m' /\ elements m' = std_store k d (elements m).
Proof.
  intros Hw Hk Hf. destruct (insert_ok m k d Hw Hk) as (m' & f & E & Hw' & Hin & _ & _).
  pose proof Hw as (_ & Hb & Hg). rewrite find_assoc in Hf by auto.
  assert (f = true) as ->.
  { apply Hin. intros Hi. apply assoc_some_in in Hi. destruct Hi. congruence. }
  exists m'. split; [auto|]. split; [auto|].
  apply sorted_ext; [apply sorted_elements; auto|apply std_store_sorted; [auto|apply sorted_elements; auto]|].
  intros k' Hk'. rewrite std_store_assoc by (auto using sorted_elements).
  pose proof (insert_find m k d m' true Hw Hk E k' Hk') as H. pose proof Hw' as (_ & Hb' & Hg').
  rewrite !find_assoc in H by auto. rewrite H, Hf. reflexivity.
Qed.

Lemma replace_store (m : tree data) k d x : wf_map m -> good_key k -> find_map_element m k = Some x ->
  wf_map (replace_node m k k d) /\ elements (replace_node m k k d) = std_store k d (elements m).
Proof.
  intros Hw Hk Hf. pose proof Hw as (Ha & Hb & Hg). rewrite find_assoc in Hf by auto.
  assert (Hin : In k (keys m)). { apply assoc_in, (in_map fst) in Hf. exact Hf. }
  destruct (replace_node_elements m k k d Hk Hg Hb Hin) as (L & v & R & E1 & E2).
  assert (Hk2 : keys (replace_node m k k d) = keys m).
  { unfold keys. rewrite E1, E2, !map_app. reflexivity. }
  assert (Hw' : wf_map (replace_node m k k d)).
  { split; [apply replace_node_avl; auto|]. unfold bst, good_keys. rewrite Hk2. auto. }
  split; [auto|].
  apply sorted_ext; [apply sorted_elements; auto|apply std_store_sorted; [auto|apply sorted_elements; auto]|].
  intros k' Hk'. rewrite std_store_assoc by (auto using sorted_elements).
  assert (HnL : ~ In k (map fst L)).
  { unfold bst in Hb. unfold keys in Hb. rewrite E1, map_app in Hb. simpl in Hb. apply increasing_nodup, NoDup_remove_2 in Hb.
    rewrite in_app_iff in Hb. tauto. }
  rewrite E1, E2, !assoc_app. simpl. destruct (key_eqb_spec k' k) as [->|]; [|reflexivity].
  rewrite assoc_none by auto. reflexivity.
Qed.

(** ** Contents *)

Lemma elements_map_tree {A B} (f : A -> B) (m : tree A) :
  elements (map_tree f m) = map (fun kd => (fst kd, f (snd kd))) (elements m).
Proof. induction m as [|l IHl k v b r IHr]; simpl; [reflexivity|]. rewrite IHl, IHr, map_app. reflexivity. Qed.

Lemma content_std l : content (DStdMap l) = DStdMap (map (fun kd => (fst kd, content (snd kd))) l).
Proof. simpl. f_equal. induction l as [|[k x] l IH]; simpl; congruence. Qed.

Lemma content_map m : content (DMap m) = DStdMap (map (fun kd => (fst kd, content (snd kd))) (elements m)).
Proof. simpl. now rewrite elements_map_tree. Qed.

Lemma map_fst_map {A B} (f : A -> B) (l : list (list Z * A)) :
  map fst (map (fun kd => (fst kd, f (snd kd))) l) = map fst l.
Proof. rewrite map_map. reflexivity. Qed.

Lemma assoc_map_snd {A B} (f : A -> B) k (l : list (list Z * A)) :
  assoc k (map (fun kd => (fst kd, f (snd kd))) l) = option_map f (assoc k l).
Proof. induction l as [|[k' x] l IH]; simpl; [reflexivity|]. destruct (key_eqb k k'); auto. Qed.

(** ** New objects have their type *)

Lemma fresh_typed g : (forall t, proper t -> has_type t (fresh g t)) /\
  (forall p, proper_proto p -> has_types p (fresh_proto g p)).
Proof.
  apply ty_proto_ind; simpl; intros; eauto.
  - exists []; split; auto. constructor.
  - eexists; split; eauto. split; [apply wf_leaf|constructor].
  - exists []; split; auto. constructor.
  - eexists; split; eauto. repeat split; constructor.
  - destruct H1 as (H1 & H2 & H3 & H4). split; [|auto]. destruct init; auto.
Qed.

(** ** Validate and Deserialize agree *)

(** The status of Validate (its computation always returns). *)
Definition vstat (t : ty) (v : value) : status := match validate t v with Ret st => st | _ => kException end.

Fixpoint first_bad (F : value -> status) (l : list value) : status :=
  match l with
  | [] => kOk
  | v :: l' => if status_eqb (F v) kOk then first_bad F l' else F v
  end.

Lemma first_bad_ok F l : first_bad F l = kOk <-> Forall (fun v => F v = kOk) l.
Proof.
  induction l as [|v l IH]; simpl; [split; auto|]. rewrite Forall_cons_iff. stat (F v).
  - rewrite IH. tauto.
  - tauto.
Qed.

Lemma validate_each_ok f F l : (forall v, In v l -> f v = Ret (F v)) -> validate_each f l = Ret (first_bad F l).
Proof.
  induction l as [|v l IH]; intros H; simpl; [reflexivity|]. rewrite H by (left; auto). simpl.
  destruct (status_cases (F v)) as [E|E].
  - rewrite E, status_eqb_refl. simpl. apply IH. intros; apply H; right; auto.
  - rewrite (status_eqb_neq _ _ E). reflexivity.
Qed.

Section Loops.
Variables (f : value -> data -> out (status * data)) (F : value -> status) (P : data -> Prop) (temp : data).
Hypothesis Htemp : P temp.

Definition behaves (v : value) : Prop := forall d, P d -> exists d', f v d = Ret (F v, d') /\ P d'.

Lemma des_elements_ok l : forall acc, Forall behaves l -> Forall P acc ->
  exists acc', deserialize_elements f temp l acc = Ret (first_bad F l, acc') /\ Forall P acc' /\
    (first_bad F l = kOk -> exists ds, acc' = acc ++ ds /\ Forall2 (fun v d => f v temp = Ret (kOk, d)) l ds).
Proof.
  induction l as [|v l IH]; intros acc Hl Ha; simpl.
  - exists acc. repeat split; auto. intros _. exists []. rewrite app_nil_r. auto.
  - inversion Hl as [|? ? Hv Hl']; subst. destruct (Hv temp Htemp) as (d & E & Hd). rewrite E. simpl.
    destruct (status_cases (F v)) as [Ek|Ek].
    + rewrite Ek, status_eqb_refl. destruct (IH (acc ++ [d]) Hl') as (acc' & E1 & H1 & H2).
      { apply Forall_app. auto. }
      exists acc'. rewrite E1. split; [auto|]. split; [auto|]. intros Hk. destruct (H2 Hk) as (ds & -> & H3).
      exists (d :: ds). rewrite <- app_assoc. split; [reflexivity|]. constructor; [|auto]. rewrite E, Ek. reflexivity.
    + rewrite (status_eqb_neq _ _ Ek). exists acc. repeat split; auto. tauto.
Qed.

Lemma des_std_ok es : forall l, Forall behaves (map snd es) -> Forall good_key (map fst es) ->
  sorted l -> Forall (fun kd => P (snd kd)) l ->
  exists l', deserialize_std f temp es l = Ret (first_bad F (map snd es), l') /\ sorted l' /\
    Forall (fun kd => P (snd kd)) l' /\
    (first_bad F (map snd es) = kOk -> NoDup (map fst es) -> forall k, good_key k ->
       match assoc k es with
       | None => assoc k l' = assoc k l
       | Some v => exists d', assoc k l' = Some d' /\
                    f v (match assoc k l with Some x => x | None => temp end) = Ret (kOk, d')
       end).
Proof.
  induction es as [|[k v] es IH]; intros l Hb Hg Hs HP; simpl in *.
  - exists l. repeat split; auto; apply Hs.
  - inversion Hb as [|? ? Hv Hb']; subst. inversion Hg as [|? ? Hk Hg']; subst.
    rewrite std_lookup_assoc by auto.
    assert (HPd : P (match assoc k l with Some d => d | None => temp end)).
    { destruct (assoc k l) eqn:E; [|auto]. apply assoc_in in E. rewrite Forall_forall in HP. apply (HP _ E). }
    destruct (Hv _ HPd) as (d & E & Hd). rewrite E. simpl.
    destruct (status_cases (F v)) as [Ek|Ek].
    + rewrite Ek, status_eqb_refl. simpl.
      destruct (IH (std_store k d l)) as (l' & E1 & H1 & H2 & H3); auto using std_store_sorted, std_store_forall.
      exists l'. rewrite E1. split; [auto|]. split; [auto|]. split; [auto|].
      intros Hok Hnd k' Hk'. inversion Hnd as [|? ? Hn Hnd']; subst.
      specialize (H3 Hok Hnd' k' Hk'). rewrite !std_store_assoc in H3 by auto.
      destruct (key_eqb_spec k' k) as [Ekk|Hne]; [rewrite Ekk in H3; rewrite Ekk|].
      * rewrite assoc_none in H3 by auto. exists d. split; [auto|]. rewrite E, Ek. reflexivity.
      * exact H3.
    + rewrite (status_eqb_neq _ _ Ek). simpl. exists (std_store k d l).
      repeat split; auto using std_store_forall; try (apply std_store_sorted; auto). tauto.
Qed.

(** The loop over an ObjectMap does what the loop over a std::map does. *)
Lemma des_members_ok es : forall m, Forall behaves (map snd es) -> Forall good_key (map fst es) ->
  wf_map m -> Forall (fun kd => P (snd kd)) (elements m) ->
  exists m', deserialize_members f temp es m = Ret (first_bad F (map snd es), m') /\ wf_map m' /\
    Forall (fun kd => P (snd kd)) (elements m') /\
    (first_bad F (map snd es) = kOk -> deserialize_std f temp es (elements m) = Ret (kOk, elements m')).
Proof.
  induction es as [|[k v] es IH]; intros m Hb Hg Hw HP; simpl in *.
  - exists m. repeat split; auto; apply Hw.
  - inversion Hb as [|? ? Hv Hb']; subst. inversion Hg as [|? ? Hk Hg']; subst.
    pose proof (sorted_elements m Hw) as Hs. pose proof Hw as (Hw1 & Hw2 & Hw3).
    rewrite std_lookup_assoc by auto.
    destruct (find_map_element m k) as [x|] eqn:Ef.
    + pose proof Ef as Ef'. rewrite find_assoc in Ef' by auto. rewrite Ef'.
      assert (HPx : P x). { apply assoc_in in Ef'. rewrite Forall_forall in HP. apply (HP _ Ef'). }
      destruct (Hv x HPx) as (d & E & Hd). rewrite E. simpl.
      destruct (replace_store m k d x Hw Hk Ef) as [Hwr Er].
      assert (HPr : Forall (fun kd => P (snd kd)) (elements (replace_node m k k d))) by (rewrite Er; apply std_store_forall; auto).
      destruct (status_cases (F v)) as [Ek|Ek].
      * rewrite Ek, status_eqb_refl. simpl.
        destruct (IH (replace_node m k k d)) as (m' & E1 & H1 & H2 & H3); auto.
        exists m'. rewrite E1. rewrite <- Er. auto.
      * rewrite (status_eqb_neq _ _ Ek). simpl. exists (replace_node m k k d). split; [auto|]. split; [auto|]. split; [auto|].
        tauto.
    + pose proof Ef as Ef'. rewrite find_assoc in Ef' by auto. rewrite Ef'.
      destruct (Hv temp Htemp) as (d & E & Hd). rewrite E. simpl.
      destruct (status_cases (F v)) as [Ek|Ek].
      * rewrite Ek, status_eqb_refl. simpl.
        destruct (insert_store m k d Hw Hk Ef) as (m1 & Ei & Hw1' & Es). rewrite Ei. simpl.
        destruct (IH m1) as (m' & E1 & H1 & H2 & H3); auto. { rewrite Es. apply std_store_forall; auto. }
        exists m'. rewrite E1, <- Es. auto.
      * rewrite (status_eqb_neq _ _ Ek). simpl. exists m. split; [auto|]. split; [auto|]. split; [auto|]. tauto.
Qed.
End Loops.

Lemma sound_elements m order : sound_value (VObject m order) ->
  wf_map m /\ Forall sound_value (map snd (elements m)) /\ Forall good_key (map fst (elements m)) /\ NoDup (map fst (elements m)).
Proof.
  intros H. inversion H as [| | | | |m' o' Hw Ho Hv]; subst. split; [auto|]. split; [|split].
  - rewrite Forall_forall. intros v Hin. apply in_map_iff in Hin. destruct Hin as ([k x] & <- & Hin). simpl. eauto.
  - apply Hw.
  - apply increasing_nodup. apply Hw.
Qed.

Lemma sound_find m order k v : sound_value (VObject m order) -> find_map_element m k = Some v -> sound_value v.
Proof.
  intros H Hf. inversion H as [| | | | |m' o' Hw Ho Hv]; subst. destruct (find_in m k v Hf) as [k' Hin]. eauto.
Qed.

Lemma named_agree g name t v : proper t -> good_key name -> sound_value v ->
  (forall v, sound_value v -> validate t v = Ret (vstat t v) /\
     forall d, has_type t d -> exists d', deserialize g t v d = Ret (vstat t v, d') /\ has_type t d') ->
  exists st, validate_named name (validate t) v = Ret st /\
    forall d, has_type t d -> exists d', deserialize_named name (deserialize g t) v d = Ret (st, d') /\ has_type t d'.
Proof.
  intros Hp Hn Hs IH. unfold validate_named, deserialize_named. destruct (as_object v) as [[m order]|] eqn:Eo.
  2: { eexists. split; [reflexivity|]. eauto. }
  destruct v; try discriminate. injection Eo as -> ->.
  destruct (find_map_element m name) as [x|] eqn:Ef.
  2: { eexists. split; [reflexivity|]. eauto. }
  pose proof (sound_find _ _ _ _ Hs Ef) as Hx. destruct (IH x Hx) as [H1 H2]. eauto.
Qed.

Lemma agree g :
  (forall t, proper t -> forall v, sound_value v -> validate t v = Ret (vstat t v) /\
     forall d, has_type t d -> exists d', deserialize g t v d = Ret (vstat t v, d') /\ has_type t d') /\
  (forall p, proper_proto p -> forall v, sound_value v -> exists st, validate_proto p v = Ret st /\
     forall ds, has_types p ds -> exists ds', deserialize_proto g p v ds = Ret (st, ds') /\ has_types p ds').
Proof.
  apply ty_proto_ind; unfold vstat.
  1-4, 7: intros Hp v Hs; simpl; split; [reflexivity|]; intros d Hd; destruct Hs; simpl; eexists; (split; [reflexivity|]); eauto.
  - exists (cstr s). split; [reflexivity|]. clear - H. induction H; simpl; [constructor|].
    destruct (Z.eqb_spec x 0); constructor; auto.
  - intros t IH Hp v Hs. simpl. destruct (get_array v) as [l|] eqn:Ea.
    2: { split; [reflexivity|]. eauto. }
    destruct v; try discriminate. injection Ea as ->. inversion Hs as [| | | |l' Hl|]; subst.
    assert (HV : validate_each (validate t) l = Ret (first_bad (vstat t) l)).
    { apply validate_each_ok. intros v Hin. rewrite Forall_forall in Hl. apply IH; auto. }
    rewrite HV. split; [reflexivity|]. intros d (l0 & -> & _).
    destruct (des_elements_ok (deserialize g t) (vstat t) (has_type t) (fresh g t)) with (l := l) (acc := @nil data)
      as (acc' & E & H1 & H2); auto.
    { apply fresh_typed. auto. }
    { rewrite Forall_forall in *. intros v Hin d Hd. apply IH; auto. }
    rewrite E. simpl. eexists. split; [reflexivity|]. eauto.
  - intros t IH Hp v Hs. simpl. destruct (as_object v) as [[m order]|] eqn:Ea.
    2: { split; [reflexivity|]. eauto. }
    destruct v; try discriminate. injection Ea as -> ->. destruct (sound_elements _ _ Hs) as (Hw & Hl & Hg & Hnd).
    rewrite map_elements_ok. simpl.
    assert (HV : validate_each (validate t) (map snd (elements m)) = Ret (first_bad (vstat t) (map snd (elements m)))).
    { apply validate_each_ok. intros v Hin. rewrite Forall_forall in Hl. apply IH; auto. }
    rewrite HV. split; [reflexivity|]. intros d (m0 & -> & Hw0 & H0).
    destruct (des_members_ok (deserialize g t) (vstat t) (has_type t) (fresh zeroes t)) with (es := elements m) (m := m0)
      as (m' & E & H1 & H2 & H3); auto.
    { apply fresh_typed. auto. }
    { rewrite Forall_forall in *. intros v Hin d Hd. apply IH; auto. }
    rewrite E. simpl. eexists. split; [reflexivity|]. eauto.
  - intros t IH Hp v Hs. simpl. destruct (get_array v) as [l|] eqn:Ea.
    2: { split; [reflexivity|]. eauto. }
    destruct v; try discriminate. injection Ea as ->. inversion Hs as [| | | |l' Hl|]; subst.
    assert (HV : validate_each (validate t) l = Ret (first_bad (vstat t) l)).
    { apply validate_each_ok. intros v Hin. rewrite Forall_forall in Hl. apply IH; auto. }
    rewrite HV. split; [reflexivity|]. intros d (l0 & -> & _).
    destruct (des_elements_ok (deserialize g t) (vstat t) (has_type t) (fresh g t)) with (l := l) (acc := @nil data)
      as (acc' & E & H1 & H2); auto.
    { apply fresh_typed. auto. }
    { rewrite Forall_forall in *. intros v Hin d Hd. apply IH; auto. }
    rewrite E. simpl. eexists. split; [reflexivity|]. eauto.
  - intros t IH Hp v Hs. simpl. destruct (as_object v) as [[m order]|] eqn:Ea.
    2: { split; [reflexivity|]. eauto. }
    destruct v; try discriminate. injection Ea as -> ->. destruct (sound_elements _ _ Hs) as (Hw & Hl & Hg & Hnd).
    rewrite map_elements_ok. simpl.
    assert (HV : validate_each (validate t) (map snd (elements m)) = Ret (first_bad (vstat t) (map snd (elements m)))).
    { apply validate_each_ok. intros v Hin. rewrite Forall_forall in Hl. apply IH; auto. }
    rewrite HV. split; [reflexivity|]. intros d (l0 & -> & Hi & Hk & H0).
    destruct (des_std_ok (deserialize g t) (vstat t) (has_type t) (fresh zeroes t)) with (es := elements m) (l := l0)
      as (l' & E & [H1 H1'] & H2 & H3); auto.
    { apply fresh_typed. auto. }
    { rewrite Forall_forall in *. intros v Hin d Hd. apply IH; auto. }
    { split; auto. }
    rewrite E. simpl. eexists. split; [reflexivity|]. eauto 6.
  - intros p IH Hp v Hs. simpl. destruct (IH Hp v Hs) as (st & E & H). rewrite E. split; [reflexivity|].
    intros d (l & -> & Hl). destruct (H l Hl) as (ds' & E' & H'). rewrite E'. simpl. eauto.
  - intros _ v Hs. exists kOk. split; [reflexivity|]. intros [|] H; [|destruct H]. exists []. split; reflexivity.
  - intros k init t IHt rest IHr (Hk & Hi & Hpt & Hpr) v Hs. destruct (IHr Hpr v Hs) as (sr & Er & Hr).
    assert (HT : forall v, sound_value v -> validate t v = Ret (vstat t v) /\
       forall d, has_type t d -> exists d', deserialize g t v d = Ret (vstat t v, d') /\ has_type t d').
    { intros; apply IHt; auto. }
    destruct k as [name|name|].
    + destruct (named_agree g name t v Hpt Hk Hs HT) as (st & E & H). simpl. rewrite E. simpl.
      exists (if negb (status_eqb st kOk) then st else sr). split; [stat st; auto|].
      intros [|d ds] Hd; [destruct Hd|]. destruct Hd as [Hd Hds]. destruct (H d Hd) as (d' & E' & Hd').
      destruct (Hr ds Hds) as (ds' & Er' & Hds'). rewrite E'. simpl. stat st.
      * rewrite Er'. simpl. eexists. split; [reflexivity|]. split; auto.
      * eexists. split; [reflexivity|]. split; auto.
    + destruct (named_agree g name t v Hpt Hk Hs HT) as (st & E & H). simpl. rewrite E. simpl.
      exists (if negb (status_eqb st kOk) && negb (status_eqb st kNameNotPresent) then st else sr).
      split; [destruct (negb _ && negb _); auto|].
      intros [|d ds] Hd; [destruct Hd|]. destruct Hd as [Hd Hds]. destruct (H d Hd) as (d' & E' & Hd').
      destruct (Hr ds Hds) as (ds' & Er' & Hds'). rewrite E'. simpl. destruct (negb _ && negb _).
      * eexists. split; [reflexivity|]. split; auto.
      * rewrite Er'. simpl. eexists. split; [reflexivity|]. split; auto.
    + destruct (HT v Hs) as (E & H). simpl. rewrite E. simpl. set (st := vstat t v) in *.
      exists (if negb (status_eqb st kOk) then st else sr). split; [destruct (status_eqb st kOk); auto|].
      intros [|d ds] Hd; [destruct Hd|]. destruct Hd as [Hd Hds]. destruct (H d Hd) as (d' & E' & Hd').
      destruct (Hr ds Hds) as (ds' & Er' & Hds'). rewrite E'. simpl. destruct (status_eqb st kOk); simpl.
      * rewrite Er'. simpl. eexists. split; [reflexivity|]. split; auto.
      * eexists. split; [reflexivity|]. split; auto.
Qed.

(** ** Valid documents are read *)

Lemma shows_member m order j k v : good_key k -> shows (VObject m order) j -> find_map_element m k = Some v ->
  exists j', member j k = Some j' /\ shows v j'.
Proof.
  intros Hk H Hf. inversion H as [| | | | |m' o' ms H1 H2]; subst. simpl.
  destruct (assoc k ms) as [j'|] eqn:E; [|rewrite (H1 k Hk E) in Hf; discriminate].
  destruct (H2 k j' Hk E) as (x & Ex & Hx). rewrite Ex in Hf. injection Hf as ->. eauto.
Qed.

Lemma shows_find m order j k j' : good_key k -> shows (VObject m order) j -> member j k = Some j' ->
  exists v, find_map_element m k = Some v /\ shows v j'.
Proof. intros Hk H Hf. inversion H as [| | | | |m' o' ms H1 H2]; subst. simpl in Hf. eauto. Qed.

Lemma shows_find_none m order j k : good_key k -> shows (VObject m order) j -> member j k = None ->
  find_map_element m k = None.
Proof. intros Hk H Hf. inversion H as [| | | | |m' o' ms H1 H2]; subst. simpl in Hf. eauto. Qed.

Lemma shows_object v j : shows v j -> is_object j -> exists m order, v = VObject m order.
Proof. intros H [ms ->]. inversion H; subst. eauto. Qed.

Lemma cstr_good s : good_key s -> cstr s = s.
Proof.
  induction s as [|c s IH]; intros H; simpl; [reflexivity|]. inversion H; subst.
  destruct (Z.eqb_spec c 0); [lia|]. f_equal. auto.
Qed.

Definition delivers g t (v : value) (j : jv) : Prop :=
  vstat t v = kOk /\
  forall d0, has_type t d0 -> exists d, deserialize g t v d0 = Ret (kOk, d) /\ has_type t d /\ reads g t j (content d0) (content d).

Lemma Forall2_in_l {A B} (R : A -> B -> Prop) l l' x : Forall2 R l l' -> In x l -> exists y, In y l' /\ R x y.
Proof. induction 1; intros Hin; [destruct Hin|]. destruct Hin as [->|Hin]; [eauto with datatypes|]. destruct (IHForall2 Hin) as (z & ? & ?). eauto with datatypes. Qed.

Lemma deliver_array g t v j : proper t ->
  (forall v j, sound_value v -> shows v j -> valid t j -> delivers g t v j) ->
  sound_value v -> shows v j -> (exists js, j = JArr js /\ Forall (valid t) js) ->
  exists l js, v = VArray l /\ j = JArr js /\ first_bad (vstat t) l = kOk /\
    exists ds, deserialize_elements (deserialize g t) (fresh g t) l [] = Ret (kOk, ds) /\
      Forall (has_type t) ds /\
      Forall2 (fun j d => reads g t j (content (fresh g t)) d) js (map content ds).
Proof.
  intros Hp IH Hs Hsh (js & -> & Hv). inversion Hsh as [| | | |l js' H2|]; subst.
  exists l, js. split; [auto|]. split; [auto|]. inversion Hs as [| | | |l' Hl|]; subst.
  assert (HD : Forall2 (delivers g t) l js).
  { clear Hs Hsh. induction H2; [constructor|]. inversion Hl; inversion Hv; subst. constructor; auto. }
  assert (HF : first_bad (vstat t) l = kOk).
  { apply first_bad_ok. rewrite Forall_forall. intros x Hx. destruct (Forall2_in_l _ _ _ _ HD Hx) as (y & _ & Hy). apply Hy. }
  split; [auto|].
  destruct (des_elements_ok (deserialize g t) (vstat t) (has_type t) (fresh g t)) with (l := l) (acc := @nil data)
    as (acc' & E & H1 & H3); auto.
  { apply fresh_typed. auto. }
  { rewrite Forall_forall in *. intros x Hx d Hd. apply (proj1 (agree g)); auto. }
  rewrite HF in E. exists acc'. split; [auto|]. split; [auto|].
  destruct (H3 HF) as (ds & E' & HR). simpl in E'. subst acc'. clear - HD HR Hp.
  revert js HD. induction HR as [|x d l ds Hx HR IH]; intros js HD; inversion HD as [|? y ? ? Hy HD']; subst; simpl; constructor; auto.
  destruct Hy as [_ Hy]. destruct (Hy (fresh g t)) as (d' & E1 & _ & E2); [apply fresh_typed; auto|].
  rewrite Hx in E1. injection E1 as ->. auto.
Qed.

Lemma deliver_map g t v j : proper t ->
  (forall v j, sound_value v -> shows v j -> valid t j -> delivers g t v j) ->
  sound_value v -> shows v j -> is_object j -> (forall k j', good_key k -> member j k = Some j' -> valid t j') ->
  exists m order ms, v = VObject m order /\ j = JObj ms /\ first_bad (vstat t) (map snd (elements m)) = kOk /\
    forall l, sorted l -> Forall (fun kd => has_type t (snd kd)) l ->
      exists l', deserialize_std (deserialize g t) (fresh zeroes t) (elements m) l = Ret (kOk, l') /\ sorted l' /\
        Forall (fun kd => has_type t (snd kd)) l' /\
        reads g (TStdMap t) j (content (DStdMap l)) (content (DStdMap l')).
Proof.
  intros Hp IH Hs Hsh Ho Hv. destruct (shows_object _ _ Hsh Ho) as (m & order & ->). destruct Ho as [ms ->].
  exists m, order, ms. split; [auto|]. split; [auto|]. destruct (sound_elements _ _ Hs) as (Hw & Hl & Hg & Hnd).
  assert (HD : forall k x, In (k, x) (elements m) -> good_key k /\ exists j', assoc k ms = Some j' /\ delivers g t x j').
  { intros k x Hin. assert (Hk : good_key k).
    { rewrite Forall_forall in Hg. apply Hg. apply (in_map fst) in Hin. exact Hin. }
    split; [auto|]. pose proof (in_find m k x Hw Hin) as Hf.
    destruct (shows_member _ _ _ _ _ Hk Hsh Hf) as (j' & E & Hj). exists j'. split; [exact E|].
    apply IH; eauto using sound_find. }
  assert (HF : first_bad (vstat t) (map snd (elements m)) = kOk).
  { apply first_bad_ok. rewrite Forall_forall. intros x Hx. apply in_map_iff in Hx. destruct Hx as ([k y] & <- & Hin).
    destruct (HD _ _ Hin) as (_ & j' & _ & H). apply H. }
  split; [auto|]. intros l Hsl Htl.
  destruct (des_std_ok (deserialize g t) (vstat t) (has_type t) (fresh zeroes t)) with (es := elements m) (l := l)
    as (l' & E & H1 & H2 & H3); auto.
  { apply fresh_typed. auto. }
  { rewrite Forall_forall in *. intros x Hx d Hd. apply (proj1 (agree g)); auto. }
  rewrite HF in E. exists l'. split; [auto|]. split; [auto|]. split; [auto|].
  rewrite !content_std. cbn [reads]. exists ms. do 2 eexists. split; [reflexivity|]. split; [reflexivity|]. split; [reflexivity|].
  rewrite map_fst_map. split; [apply H1|]. split; [apply H1|]. intros k Hk. specialize (H3 HF Hnd k Hk).
  rewrite !assoc_map_snd. pose proof Hw as (_ & Hb & Hgk). rewrite <- find_assoc in H3 by auto.
  destruct (assoc k ms) as [j'|] eqn:Ea.
  - destruct (shows_find m order (JObj ms) k j' Hk Hsh Ea) as (x & Ex & Hx). rewrite Ex in H3. destruct H3 as (d' & E1 & E2).
    rewrite E1. simpl. eexists. split; [reflexivity|].
    assert (Hin : In (k, x) (elements m)). { rewrite find_assoc in Ex by auto. apply assoc_in. exact Ex. }
    destruct (HD _ _ Hin) as (_ & j2 & Ej & HDx). rewrite Ea in Ej. injection Ej as <-.
    set (d0 := match assoc k l with Some y => y | None => fresh zeroes t end) in *.
    assert (Hd0 : has_type t d0).
    { unfold d0. destruct (assoc k l) eqn:El; [|apply fresh_typed; auto]. apply assoc_in in El. rewrite Forall_forall in Htl. apply (Htl _ El). }
    destruct HDx as [_ HDx]. destruct (HDx d0 Hd0) as (d2 & Ed & _ & Hr). rewrite E2 in Ed. injection Ed as <-.
    replace (match option_map content (assoc k l) with Some y => y | None => content (fresh zeroes t) end) with (content d0); auto.
    unfold d0. destruct (assoc k l); reflexivity.
  - rewrite (shows_find_none m order (JObj ms) k Hk Hsh Ea) in H3. now rewrite H3.
Qed.

Lemma deliver g :
  (forall t, proper t -> forall v j, sound_value v -> shows v j -> valid t j -> delivers g t v j) /\
  (forall p, proper_proto p -> forall v j, sound_value v -> shows v j -> valid_proto p j ->
     validate_proto p v = Ret kOk /\
     forall ds0, has_types p ds0 -> exists ds, deserialize_proto g p v ds0 = Ret (kOk, ds) /\ has_types p ds /\
       reads_proto g p j (map content ds0) (map content ds)).
Proof.
  apply ty_proto_ind.
  1-4, 7: intros Hp v j Hs Hsh Hv; simpl in Hv; repeat match type of Hv with exists _, _ => destruct Hv as [? Hv] end; subst; inversion Hsh; subst;
    (split; [reflexivity|]); intros d0 Hd; inversion Hs; subst; simpl; rewrite ?cstr_good by auto;
    eexists; (split; [reflexivity|]); simpl; eauto 6.
  - intros t IH Hp v j Hs Hsh Hv.
    destruct (deliver_array g t v j Hp (IH Hp) Hs Hsh Hv) as (l & js & -> & -> & HF & ds & E & HT & HR).
    split.
    { unfold vstat. simpl. rewrite (validate_each_ok _ (vstat t)); [auto|]. intros x Hx. inversion Hs as [| | | |l' Hl|]; subst.
      rewrite Forall_forall in Hl. apply (proj1 (agree g)); auto. }
    intros d0 _. simpl. rewrite E. simpl. eexists. split; [reflexivity|]. split; [eauto|]. do 2 eexists. split; [reflexivity|]. split; [reflexivity|exact HR].
  - intros t IH Hp v j Hs Hsh (Ho & Hv).
    destruct (deliver_map g t v j Hp (IH Hp) Hs Hsh Ho Hv) as (m & order & ms & -> & -> & HF & HE).
    destruct (sound_elements _ _ Hs) as (Hw & Hl & Hg & Hnd).
    split.
    { unfold vstat. simpl. rewrite map_elements_ok. simpl. rewrite (validate_each_ok _ (vstat t)); [auto|]. intros x Hx.
      rewrite Forall_forall in Hl. apply (proj1 (agree g)); auto. }
    intros d0 (m0 & -> & Hw0 & H0). simpl. rewrite map_elements_ok. simpl.
    destruct (des_members_ok (deserialize g t) (vstat t) (has_type t) (fresh zeroes t)) with (es := elements m) (m := m0)
      as (m' & E & H1 & H2 & H3); auto.
    { apply fresh_typed. auto. }
    { rewrite Forall_forall in *. intros x Hx d Hd. apply (proj1 (agree g)); auto. }
    rewrite HF in E. rewrite E. simpl. eexists. split; [reflexivity|]. split; [eauto|].
    destruct (HE (elements m0) (sorted_elements _ Hw0) H0) as (l' & El & _ & _ & HR). rewrite (H3 HF) in El. injection El as <-.
    rewrite !content_std in HR. rewrite <- !content_map in HR. exact HR.
  - intros t IH Hp v j Hs Hsh Hv.
    destruct (deliver_array g t v j Hp (IH Hp) Hs Hsh Hv) as (l & js & -> & -> & HF & ds & E & HT & HR).
    split.
    { unfold vstat. simpl. rewrite (validate_each_ok _ (vstat t)); [auto|]. intros x Hx. inversion Hs as [| | | |l' Hl|]; subst.
      rewrite Forall_forall in Hl. apply (proj1 (agree g)); auto. }
    intros d0 _. simpl. rewrite E. simpl. eexists. split; [reflexivity|]. split; [eauto|]. do 2 eexists. split; [reflexivity|]. split; [reflexivity|exact HR].
  - intros t IH Hp v j Hs Hsh (Ho & Hv).
    destruct (deliver_map g t v j Hp (IH Hp) Hs Hsh Ho Hv) as (m & order & ms & -> & -> & HF & HE).
    destruct (sound_elements _ _ Hs) as (Hw & Hl & Hg & Hnd).
    split.
    { unfold vstat. simpl. rewrite map_elements_ok. simpl. rewrite (validate_each_ok _ (vstat t)); [auto|]. intros x Hx.
      rewrite Forall_forall in Hl. apply (proj1 (agree g)); auto. }
    intros d0 (l0 & -> & Hi & Hk & H0). simpl. rewrite map_elements_ok. simpl.
    destruct (HE l0 (conj Hi Hk) H0) as (l' & El & [Hi' Hk'] & HT & HR). rewrite El. simpl. eexists. split; [reflexivity|].
    split; [eauto 6|exact HR].
  - intros p IH Hp v j Hs Hsh Hv. destruct (IH Hp v j Hs Hsh Hv) as [E H]. split; [unfold vstat; simpl; rewrite E; auto|].
    intros d0 (l & -> & Hl). destruct (H l Hl) as (ds & E' & HT & HR). simpl. rewrite E'. simpl. eexists. split; [reflexivity|].
    split; [eauto|]. simpl. eauto.
  - intros _ v j Hs Hsh _. split; [reflexivity|]. intros [|] H; [|destruct H]. exists []. simpl. auto.
  - intros k init t IHt rest IHr (Hk & Hi & Hpt & Hpr) v j Hs Hsh (Hm & Hv).
    destruct (IHr Hpr v j Hs Hsh Hv) as (Er & Hr). specialize (IHt Hpt).
    destruct k as [name|name|].
    + destruct Hm as (j' & Ej & Hj). assert (Ho : is_object j) by (destruct j; try discriminate; eexists; reflexivity).
      destruct (shows_object _ _ Hsh Ho) as (m & order & ->). destruct (shows_find _ _ _ _ _ Hk Hsh Ej) as (x & Ex & Hx).
      pose proof (sound_find _ _ _ _ Hs Ex) as Hsx. destruct (IHt x j' Hsx Hx Hj) as [Eo Hd].
      destruct (proj1 (agree g) t Hpt x Hsx) as [Ev _]. rewrite Eo in Ev.
      simpl. unfold validate_named, deserialize_named. simpl. rewrite Ex, Ev. simpl. split; [exact Er|].
      intros [|d0 ds0] Hds; [destruct Hds|]. destruct Hds as [Hd0 Hds0]. destruct (Hd d0 Hd0) as (d & E1 & Ht & Hrd).
      destruct (Hr ds0 Hds0) as (ds & E2 & Hts & Hrs). rewrite E1. simpl. rewrite E2. simpl. eexists. split; [reflexivity|].
      split; [split; auto|]. simpl. split; eauto.
    + destruct Hm as (Ho & Hm). destruct (shows_object _ _ Hsh Ho) as (m & order & ->).
      simpl. unfold validate_named, deserialize_named. simpl. destruct (member j name) as [j'|] eqn:Ej.
      * destruct (shows_find _ _ _ _ _ Hk Hsh Ej) as (x & Ex & Hx).
        pose proof (sound_find _ _ _ _ Hs Ex) as Hsx. destruct (IHt x j' Hsx Hx (Hm _ eq_refl)) as [Eo Hd].
        destruct (proj1 (agree g) t Hpt x Hsx) as [Ev _]. rewrite Eo in Ev.
        rewrite Ex, Ev. simpl. split; [exact Er|].
        intros [|d0 ds0] Hds; [destruct Hds|]. destruct Hds as [Hd0 Hds0]. destruct (Hd d0 Hd0) as (d & E1 & Ht & Hrd).
        destruct (Hr ds0 Hds0) as (ds & E2 & Hts & Hrs). rewrite E1. simpl. rewrite E2. simpl. eexists. split; [reflexivity|].
        split; [split; auto|]. simpl. rewrite ?Ej. auto.
      * rewrite (shows_find_none _ _ _ _ Hk Hsh Ej). simpl. split; [exact Er|].
        intros [|d0 ds0] Hds; [destruct Hds|]. destruct Hds as [Hd0 Hds0].
        destruct (Hr ds0 Hds0) as (ds & E2 & Hts & Hrs). simpl. rewrite E2. simpl. eexists. split; [reflexivity|].
        split; [split; auto|]. simpl. rewrite ?Ej. auto.
    + destruct (IHt v j Hs Hsh Hm) as [Eo Hd]. destruct (proj1 (agree g) t Hpt v Hs) as [Ev _]. rewrite Eo in Ev.
      simpl. rewrite Ev. simpl. split; [exact Er|].
      intros [|d0 ds0] Hds; [destruct Hds|]. destruct Hds as [Hd0 Hds0]. destruct (Hd d0 Hd0) as (d & E1 & Ht & Hrd).
      destruct (Hr ds0 Hds0) as (ds & E2 & Hts & Hrs). rewrite E1. simpl. rewrite E2. simpl. eexists. split; [reflexivity|].
      split; [split; auto|]. simpl. auto.
Qed.

(** ** Only valid documents are accepted *)

Lemma first_bad_not F l st : st <> kOk -> (forall v, In v l -> F v <> st) -> first_bad F l <> st.
Proof.
  intros Hst. induction l as [|v l IH]; simpl; intros H; [auto|].
  destruct (status_eqb (F v) kOk); [apply IH; intros; apply H; auto|apply H; auto].
Qed.

Lemma present_not {A} (o : option A) : present o <> kNameNotPresent.
Proof. destruct o; discriminate. Qed.

Lemma validate_array t v : proper t -> sound_value v -> validate (TArray t) v =
  match v with VArray l => Ret (first_bad (vstat t) l) | _ => Ret kInvalidValueType end.
Proof.
  intros Hp Hs. destruct v; try reflexivity. simpl. apply validate_each_ok. intros x Hx.
  inversion Hs as [| | | |l' Hl|]; subst. rewrite Forall_forall in Hl. apply (proj1 (agree zeroes)); auto.
Qed.

Lemma validate_map t v : proper t -> sound_value v -> validate (TObjectMap t) v =
  match v with VObject m _ => Ret (first_bad (vstat t) (map snd (elements m))) | _ => Ret kInvalidValueType end.
Proof.
  intros Hp Hs. destruct v; try reflexivity. simpl. rewrite map_elements_ok. simpl. apply validate_each_ok. intros x Hx.
  destruct (sound_elements _ _ Hs) as (_ & Hl & _). rewrite Forall_forall in Hl. apply (proj1 (agree zeroes)); auto.
Qed.

Lemma never_missing :
  (forall t, no_required t -> proper t -> forall v, sound_value v -> vstat t v <> kNameNotPresent) /\
  (forall p, no_required_proto p -> proper_proto p -> forall v, sound_value v -> validate_proto p v <> Ret kNameNotPresent).
Proof.
  assert (HA : forall t, (forall v, sound_value v -> vstat t v <> kNameNotPresent) -> proper t ->
     forall v, sound_value v -> vstat (TArray t) v <> kNameNotPresent).
  { intros t IH Hp v Hs. unfold vstat. rewrite validate_array by auto. destruct v; try discriminate.
    apply first_bad_not; [discriminate|]. inversion Hs as [| | | |l' Hl|]; subst. rewrite Forall_forall in Hl. auto. }
  assert (HM : forall t, (forall v, sound_value v -> vstat t v <> kNameNotPresent) -> proper t ->
     forall v, sound_value v -> vstat (TObjectMap t) v <> kNameNotPresent).
  { intros t IH Hp v Hs. unfold vstat. rewrite validate_map by auto. destruct v; try discriminate.
    apply first_bad_not; [discriminate|]. destruct (sound_elements _ _ Hs) as (_ & Hl & _). rewrite Forall_forall in Hl. auto. }
  apply ty_proto_ind.
  1-4, 7: intros _ _ v _; apply present_not.
  - intros t IH Hn Hp. apply HA; auto.
  - intros t IH Hn Hp. apply HM; auto.
  - intros t IH Hn Hp. exact (HA t (IH Hn Hp) Hp).
  - intros t IH Hn Hp. exact (HM t (IH Hn Hp) Hp).
  - intros p IH Hn Hp v Hs. unfold vstat. simpl. specialize (IH Hn Hp v Hs). destruct (validate_proto p v); congruence.
  - discriminate.
  - intros k init t IHt rest IHr (Hk & Hnt & Hnr) (Hg & Hi & Hpt & Hpr) v Hs. simpl.
    specialize (IHt Hnt Hpt). specialize (IHr Hnr Hpr v Hs).
    destruct k as [name|name|]; [destruct Hk| |].
    + destruct (named_agree zeroes name t v Hpt Hg Hs) as (st & E & _); [apply (proj1 (agree zeroes)); auto|].
      rewrite E. simpl. destruct (negb (status_eqb st kOk) && negb (status_eqb st kNameNotPresent)) eqn:Eb; [|exact IHr].
      intros Ek. injection Ek as ->. rewrite status_eqb_refl in Eb. rewrite andb_comm in Eb. discriminate.
    + destruct (proj1 (agree zeroes) t Hpt v Hs) as [E _]. rewrite E. simpl. specialize (IHt v Hs).
      destruct (negb _); [congruence|exact IHr].
Qed.

Lemma accepted :
  (forall t, strict t -> proper t -> forall v j, sound_value v -> shows v j -> vstat t v = kOk -> valid t j) /\
  (forall p, strict_proto p -> proper_proto p -> forall v j, sound_value v -> shows v j -> validate_proto p v = Ret kOk -> valid_proto p j).
Proof.
  assert (HA : forall t, (forall v j, sound_value v -> shows v j -> vstat t v = kOk -> valid t j) -> proper t ->
     forall v j, sound_value v -> shows v j -> vstat (TArray t) v = kOk -> valid (TArray t) j).
  { intros t IH Hp v j Hs Hsh. unfold vstat. rewrite validate_array by auto. destruct v as [| | | |l|]; try discriminate.
    intros HF. apply first_bad_ok in HF. inversion Hs as [| | | |l' Hl|]; subst. inversion Hsh as [| | | |l' js H2|]; subst.
    exists js. split; [auto|]. clear Hs Hsh. induction H2; [constructor|]. inversion HF; inversion Hl; subst. constructor; eauto. }
  assert (HM : forall t, (forall v j, sound_value v -> shows v j -> vstat t v = kOk -> valid t j) -> proper t ->
     forall v j, sound_value v -> shows v j -> vstat (TObjectMap t) v = kOk -> valid (TObjectMap t) j).
  { intros t IH Hp v j Hs Hsh. unfold vstat. rewrite validate_map by auto. destruct v as [| | | | |m order]; try discriminate.
    intros HF. apply first_bad_ok in HF. pose proof Hsh as Hsh'. inversion Hsh' as [| | | | |m' o' ms H1 H2]; subst.
    split; [eexists; reflexivity|]. intros k j' Hk Ej. destruct (shows_find _ _ _ _ _ Hk Hsh Ej) as (x & Ex & Hx).
    apply IH with x; auto; [eapply sound_find; eauto|]. destruct (sound_elements _ _ Hs) as (Hw & _ & _).
    pose proof Hw as (_ & Hb & Hg). rewrite find_assoc in Ex by auto. apply assoc_in, (in_map snd) in Ex.
    rewrite Forall_forall in HF. apply HF. exact Ex. }
  apply ty_proto_ind.
  1-4, 7: intros _ _ v j Hs Hsh; destruct Hsh; try discriminate; simpl; eauto.
  - intros t IH Hst Hp. exact (HA t (IH Hst Hp) Hp).
  - intros t IH Hst Hp. exact (HM t (IH Hst Hp) Hp).
  - intros t IH Hst Hp. exact (HA t (IH Hst Hp) Hp).
  - intros t IH Hst Hp. exact (HM t (IH Hst Hp) Hp).
  - intros p IH Hst Hp v j Hs Hsh E. apply (IH Hst Hp v j Hs Hsh). unfold vstat in E. simpl in E.
    destruct (proj2 (agree zeroes) p Hp v Hs) as (st & Es & _). rewrite Es in *. congruence.
  - simpl. auto.
  - intros k init t IHt rest IHr (Hk & Hnt & Hnr) (Hg & Hi & Hpt & Hpr) v j Hs Hsh. simpl.
    specialize (IHt Hnt Hpt). specialize (IHr Hnr Hpr v j Hs Hsh).
    assert (HT : forall x, sound_value x -> validate t x = Ret (vstat t x)) by (intros; apply (proj1 (agree zeroes)); auto).
    destruct k as [name|name|].
    + unfold validate_named. destruct (as_object v) as [[m order]|] eqn:Eo; [|discriminate].
      destruct v; try discriminate. injection Eo as -> ->. destruct (find_map_element m name) as [x|] eqn:Ex; [|discriminate].
      pose proof (sound_find _ _ _ _ Hs Ex) as Hsx. rewrite HT by auto. simpl.
      destruct (status_cases (vstat t x)) as [E|E]; [|rewrite (status_eqb_neq _ _ E); simpl; congruence].
      rewrite E, status_eqb_refl. simpl. intros Hr. split; [|auto].
      destruct (shows_member _ _ _ _ _ Hg Hsh Ex) as (j' & Ej & Hj). eauto.
    + unfold validate_named. destruct (as_object v) as [[m order]|] eqn:Eo; [|discriminate].
      destruct v; try discriminate. injection Eo as -> ->.
      assert (Ho : is_object j) by (inversion Hsh; subst; eexists; reflexivity).
      destruct (find_map_element m name) as [x|] eqn:Ex.
      * pose proof (sound_find _ _ _ _ Hs Ex) as Hsx. rewrite HT by auto. simpl.
        destruct (status_cases (vstat t x)) as [E|E].
        -- rewrite E, status_eqb_refl. simpl. intros Hr. split; [|auto]. split; [auto|]. intros j' Ej.
           destruct (shows_find _ _ _ _ _ Hg Hsh Ej) as (x' & Ex' & Hx'). rewrite Ex in Ex'. injection Ex' as <-. eauto.
        -- rewrite (status_eqb_neq _ _ E).
           rewrite (status_eqb_neq _ _ (proj1 never_missing t Hk Hpt x Hsx)). simpl. congruence.
      * simpl. intros Hr. split; [|auto]. split; [auto|]. intros j' Ej.
        destruct (shows_find _ _ _ _ _ Hg Hsh Ej) as (x' & Ex' & Hx'). congruence.
    + rewrite HT by auto. simpl. destruct (status_cases (vstat t v)) as [E|E]; [|rewrite (status_eqb_neq _ _ E); simpl; congruence].
      rewrite E, status_eqb_refl. simpl. intros Hr. split; eauto.
Qed.
