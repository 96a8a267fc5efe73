(** * What Deserialize leaves behind, whatever its status. *)

From Verif Require Import Base NumModel MapModel ParserModel WriterModel SpecMap SpecGrammar MapProofs ParserProofs AccessModel SchemaModel SpecSchema
  SchemaProofs SpecAbort.

Section Loops.
Variables (f : value -> data -> out (status * data)) (P : data -> Prop) (R : value -> data -> data -> Prop) (temp : data).
Hypothesis Htemp : P temp.

Definition acts (v : value) : Prop := forall d, P d -> exists st d', f v d = Ret (st, d') /\ P d' /\ R v d d'.

Lemma elements_mix l : forall acc, Forall acts l ->
  exists st n ds, deserialize_elements f temp l acc = Ret (st, acc ++ ds) /\ Forall P ds /\
    Forall2 (fun v d => R v temp d /\ f v temp = Ret (kOk, d)) (firstn n l) ds.
Proof.
  induction l as [|v l IH]; intros acc Hl; simpl.
  - exists kOk, O, []. rewrite app_nil_r. repeat split; constructor.
  - inversion Hl as [|? ? Hv Hl']; subst. destruct (Hv temp Htemp) as (st & d & E & Hd & HR). rewrite E. simpl.
    destruct (status_cases st) as [->|Hne]; [rewrite status_eqb_refl|rewrite (status_eqb_neq _ _ Hne)].
    + destruct (IH (acc ++ [d]) Hl') as (st' & n & ds & E' & HP & HF). exists st', (S n), (d :: ds).
      rewrite E', <- app_assoc. repeat split; constructor; auto.
    + exists st, O, []. rewrite app_nil_r. repeat split; constructor.
Qed.

Lemma std_mix es : forall l, Forall acts (map snd es) -> Forall good_key (map fst es) -> NoDup (map fst es) ->
  sorted l -> Forall (fun kd => P (snd kd)) l ->
  exists st l', deserialize_std f temp es l = Ret (st, l') /\ sorted l' /\ Forall (fun kd => P (snd kd)) l' /\
    forall k, good_key k ->
      assoc k l' = assoc k l \/
      exists v d', assoc k es = Some v /\ assoc k l' = Some d' /\ R v (match assoc k l with Some x => x | None => temp end) d'.
Proof.
  induction es as [|[k v] es IH]; intros l Hb Hg Hnd Hs HP; simpl in *.
  - exists kOk, l. repeat split; auto; apply Hs.
  - inversion Hb as [|? ? Hv Hb']; subst. inversion Hg as [|? ? Hk Hg']; subst. inversion Hnd as [|? ? Hn Hnd']; subst.
    rewrite std_lookup_assoc by auto.
    assert (HPd : P (match assoc k l with Some d => d | None => temp end)).
    { destruct (assoc k l) eqn:E; [|auto]. apply assoc_in in E. rewrite Forall_forall in HP. apply (HP _ E). }
    destruct (Hv _ HPd) as (st & d & E & Hd & HR). rewrite E. simpl.
    destruct (status_eqb st kOk); simpl.
    + destruct (IH (std_store k d l)) as (st' & l' & E1 & H1 & H2 & H3); auto using std_store_sorted, std_store_forall.
      exists st', l'. rewrite E1. split; [auto|]. split; [auto|]. split; [auto|]. intros k' Hk'. specialize (H3 k' Hk').
      rewrite !std_store_assoc in H3 by auto. destruct (key_eqb_spec k' k) as [Ekk|Hne]; [rewrite Ekk in H3; rewrite Ekk|exact H3].
      right. exists v. rewrite (assoc_none k es Hn) in H3. destruct H3 as [H3|(? & ? & ? & _)]; [|discriminate]. eauto.
    + exists st, (std_store k d l). split; [auto|]. split; [apply std_store_sorted; auto|]. split; [apply std_store_forall; auto|].
      intros k' Hk'. rewrite !std_store_assoc by auto. destruct (key_eqb_spec k' k) as [Ekk|Hne]; [rewrite Ekk|auto]. right. eauto.
Qed.

Lemma members_mix es : forall m, Forall acts (map snd es) -> Forall good_key (map fst es) -> NoDup (map fst es) ->
  wf_map m -> Forall (fun kd => P (snd kd)) (elements m) ->
  exists st m', deserialize_members f temp es m = Ret (st, m') /\ wf_map m' /\ Forall (fun kd => P (snd kd)) (elements m') /\
    forall k, good_key k ->
      assoc k (elements m') = assoc k (elements m) \/
      exists v d', assoc k es = Some v /\ assoc k (elements m') = Some d' /\
        R v (match assoc k (elements m) with Some x => x | None => temp end) d' /\
        (assoc k (elements m) = None -> f v temp = Ret (kOk, d')).
Proof.
  induction es as [|[k v] es IH]; intros m Hb Hg Hnd Hw HP; simpl in *.
  - exists kOk, m. repeat split; auto; apply Hw.
  - inversion Hb as [|? ? Hv Hb']; subst. inversion Hg as [|? ? Hk Hg']; subst. inversion Hnd as [|? ? Hn Hnd']; subst.
    pose proof (sorted_elements m Hw) as Hs. pose proof Hw as (Hw1 & Hw2 & Hw3).
    destruct (find_map_element m k) as [x|] eqn:Ef.
    + pose proof Ef as Ef'. rewrite find_assoc in Ef' by auto.
      assert (HPx : P x). { apply assoc_in in Ef'. rewrite Forall_forall in HP. apply (HP _ Ef'). }
      destruct (Hv x HPx) as (st & d & E & Hd & HR). rewrite E. simpl.
      destruct (replace_store m k d x Hw Hk Ef) as [Hwr Er].
      assert (HPr : Forall (fun kd => P (snd kd)) (elements (replace_node m k k d))) by (rewrite Er; apply std_store_forall; auto).
      destruct (status_eqb st kOk); simpl.
      * destruct (IH (replace_node m k k d)) as (st' & m' & E1 & H1 & H2 & H3); auto.
        exists st', m'. split; [auto|]. split; [auto|]. split; [auto|]. intros k' Hk'. specialize (H3 k' Hk').
        rewrite Er, !std_store_assoc in H3 by auto. destruct (key_eqb_spec k' k) as [Ekk|Hne]; [rewrite Ekk in H3; rewrite Ekk|exact H3].
        right. exists v. rewrite (assoc_none k es Hn) in H3. destruct H3 as [H3|(? & ? & ? & _)]; [|discriminate]. rewrite Ef'. exists d. repeat split; auto. discriminate.
      * exists st, (replace_node m k k d). split; [auto|]. split; [auto|]. split; [auto|]. intros k' Hk'.
        rewrite Er, !std_store_assoc by auto. destruct (key_eqb_spec k' k) as [Ekk|Hne]; [rewrite Ekk|auto]. right. rewrite Ef'. exists v, d. repeat split; auto. discriminate.
    + pose proof Ef as Ef'. rewrite find_assoc in Ef' by auto.
      destruct (Hv temp Htemp) as (st & d & E & Hd & HR). rewrite E. simpl.
      destruct (status_cases st) as [->|Hne]; [rewrite status_eqb_refl|rewrite (status_eqb_neq _ _ Hne)]; simpl.
      * destruct (insert_store m k d Hw Hk Ef) as (m1 & Ei & Hw1' & Es). rewrite Ei. simpl.
        destruct (IH m1) as (st' & m' & E1 & H1 & H2 & H3); auto. { rewrite Es. apply std_store_forall; auto. }
        exists st', m'. split; [auto|]. split; [auto|]. split; [auto|]. intros k' Hk'. specialize (H3 k' Hk').
        rewrite Es, !std_store_assoc in H3 by auto. destruct (key_eqb_spec k' k) as [Ekk|Hne]; [rewrite Ekk in H3; rewrite Ekk|exact H3].
        right. exists v. rewrite (assoc_none k es Hn) in H3. destruct H3 as [H3|(? & ? & ? & _)]; [|discriminate]. rewrite Ef'. eauto.
      * exists st, m. split; [auto|]. split; [auto|]. split; [auto|]. intros k' Hk'. auto.
Qed.
End Loops.

Lemma one_member g k init t rest v d ds :
  deserialize_proto g (PItem k init t rest) v (d :: ds) =
  let! (st, one) := deserialize_proto g (PItem k init t PNil) v [d] in
  match one with
  | [d'] => if status_eqb st kOk then let! (st, ds) := deserialize_proto g rest v ds in Ret (st, d' :: ds) else Ret (st, d' :: ds)
  | _ => UB
  end.
Proof.
  destruct k as [n|n|]; simpl.
  - destruct (deserialize_named n (deserialize g t) v d) as [[st d']| |]; simpl; auto. destruct (status_eqb st kOk) eqn:E; simpl; auto.
    now rewrite E.
  - destruct (deserialize_named n (deserialize g t) v d) as [[st d']| |]; simpl; auto.
    destruct (status_eqb st kOk) eqn:E; simpl; auto. destruct (status_eqb st kNameNotPresent); simpl; auto. now rewrite E.
  - destruct (deserialize g t v d) as [[st d']| |]; simpl; auto. destruct (status_eqb st kOk) eqn:E; simpl; auto.
    now rewrite E.
Qed.

Section Mix.
Variable g : junk.

(** The result of reading [v], which shows [j], whatever the status. *)
Definition leaves (t : ty) (v : value) (j : jv) : Prop := forall d0, has_type t d0 ->
  exists st d, deserialize g t v d0 = Ret (st, d) /\ has_type t d /\ mixes g t j (content d0) (content d).

(** The document shown by a value, as a relation between the contents. *)
Definition mixed (t : ty) (v : value) (d d' : data) : Prop :=
  forall j, shows v j -> mixes g t j (content d) (content d').

Lemma leaves_acts t v : sound_value v -> (exists j, shows v j) -> (forall j, shows v j -> leaves t v j) ->
  acts (deserialize g t) (has_type t) (mixed t) v.
Proof.
  intros Hs (j & Hj) H d Hd. destruct (H j Hj d Hd) as (st & d' & E & Ht & _). exists st, d'. split; [auto|]. split; [auto|].
  intros j' Hj'. destruct (H j' Hj' d Hd) as (st2 & d2 & E2 & _ & Hm). rewrite E in E2. injection E2 as _ <-. exact Hm.
Qed.

(** What is accepted is read. *)
Lemma ok_reads t v j d0 d : proper t -> sound_value v -> shows v j -> has_type t d0 -> deserialize g t v d0 = Ret (kOk, d) ->
  strict t -> reads g t j (content d0) (content d).
Proof.
  intros Hp Hs Hsh Hd E Hst. destruct (proj1 (agree g) t Hp v Hs) as [_ H]. destruct (H d0 Hd) as (d' & E' & _).
  rewrite E in E'. injection E' as Est _. assert (Hv : valid t j) by (apply (proj1 accepted t Hst Hp v j); auto).
  destruct (proj1 (deliver g) t Hp v j Hs Hsh Hv) as [_ HD]. destruct (HD d0 Hd) as (d2 & E2 & _ & Hr). rewrite E in E2.
  now injection E2 as <-.
Qed.

Lemma ok_reads_proto p v j ds0 ds : proper_proto p -> sound_value v -> shows v j -> has_types p ds0 ->
  deserialize_proto g p v ds0 = Ret (kOk, ds) -> strict_proto p -> reads_proto g p j (map content ds0) (map content ds).
Proof.
  intros Hp Hs Hsh Hd E Hst. destruct (proj2 (agree g) p Hp v Hs) as (st & Ev & H). destruct (H ds0 Hd) as (d' & E' & _).
  rewrite E in E'. injection E' as <- _. assert (Hv : valid_proto p j) by (apply (proj2 accepted p Hst Hp v j); auto).
  destruct (proj2 (deliver g) p Hp v j Hs Hsh Hv) as [_ HD]. destruct (HD ds0 Hd) as (d2 & E2 & _ & Hr). rewrite E in E2.
  now injection E2 as <-.
Qed.

Lemma shows_elements m order ms : sound_value (VObject m order) -> shows (VObject m order) (JObj ms) ->
  forall k x, In (k, x) (elements m) -> good_key k /\ exists j', assoc k ms = Some j' /\ shows x j'.
Proof.
  intros Hs Hsh k x Hin. destruct (sound_elements _ _ Hs) as (Hw & Hl & Hg & Hnd).
  assert (Hk : good_key k). { rewrite Forall_forall in Hg. apply Hg. apply (in_map fst) in Hin. exact Hin. }
  split; [auto|]. pose proof (in_find m k x Hw Hin) as Hf.
  destruct (shows_member _ _ _ _ _ Hk Hsh Hf) as (j' & E & Hj). eauto.
Qed.

Lemma array_acts t l js : (forall v j, sound_value v -> shows v j -> leaves t v j) ->
  Forall sound_value l -> Forall2 shows l js -> Forall (acts (deserialize g t) (has_type t) (mixed t)) l.
Proof.
  intros IH Hl H2. rewrite Forall_forall in *. intros x Hx. destruct (Forall2_in_l _ _ _ _ H2 Hx) as (y & _ & Hy).
  apply leaves_acts; eauto.
Qed.

Lemma map_acts t m order ms : (forall v j, sound_value v -> shows v j -> leaves t v j) ->
  sound_value (VObject m order) -> shows (VObject m order) (JObj ms) ->
  Forall (acts (deserialize g t) (has_type t) (mixed t)) (map snd (elements m)).
Proof.
  intros IH Hs Hsh. destruct (sound_elements _ _ Hs) as (Hw & Hl & Hg & Hnd). rewrite Forall_forall in *. intros x Hx.
  pose proof (Hl x Hx) as Hsx. apply in_map_iff in Hx. destruct Hx as ([k y] & <- & Hin).
  destruct (shows_elements _ _ _ Hs Hsh k y Hin) as (_ & j' & _ & Hj). simpl in *. apply leaves_acts; eauto.
Qed.

Lemma array_mixes t l js n ds : proper t -> Forall sound_value l -> Forall2 shows l js ->
  Forall2 (fun v d => mixed t v (fresh g t) d /\ deserialize g t v (fresh g t) = Ret (kOk, d)) (firstn n l) ds ->
  Forall2 (fun j d => mixes g t j (content (fresh g t)) d /\ (strict t -> reads g t j (content (fresh g t)) d)) (firstn n js) (map content ds).
Proof.
  intros Hp Hl H. revert n ds Hl. induction H as [|v j l js Hv H IH]; intros n ds Hl HF.
  - rewrite firstn_nil in *. inversion HF; subst. constructor.
  - destruct n; simpl in *; [inversion HF; subst; constructor|]. inversion HF as [|? ? ? ? [HM HE]]; subst. inversion Hl; subst.
    constructor; auto. split; [auto|]. apply (ok_reads t v); auto. apply fresh_typed. auto.
Qed.

(** The elements of a map, from the loops. *)
Lemma std_mixes t m order ms (l0 l : list (list Z * data)) :
  sound_value (VObject m order) -> shows (VObject m order) (JObj ms) -> sorted l ->
  (forall k, good_key k -> assoc k l = assoc k l0 \/
     exists v d', assoc k (elements m) = Some v /\ assoc k l = Some d' /\
       mixed t v (match assoc k l0 with Some x => x | None => fresh zeroes t end) d') ->
  mixes g (TStdMap t) (JObj ms) (content (DStdMap l0)) (content (DStdMap l)).
Proof.
  intros Hs Hsh Hsl H. rewrite !content_std. cbn [mixes]. do 2 eexists. split; [reflexivity|]. split; [reflexivity|].
  rewrite map_fst_map. split; [apply Hsl|]. split; [apply Hsl|]. intros k Hk. rewrite !assoc_map_snd.
  destruct (H k Hk) as [E|(v & d' & E & E' & HM)]; [left; now rewrite E|right].
  apply assoc_in in E. destruct (shows_elements _ _ _ Hs Hsh k v E) as (_ & j' & Ej & Hj).
  exists j', (content d'). split; [auto|]. split; [now rewrite E'|]. specialize (HM j' Hj).
  destruct (assoc k l0); exact HM.
Qed.

Lemma map_mixes t m order ms (m0 m1 : tree data) : proper t ->
  sound_value (VObject m order) -> shows (VObject m order) (JObj ms) -> wf_map m1 ->
  (forall k, good_key k -> assoc k (elements m1) = assoc k (elements m0) \/
     exists v d', assoc k (elements m) = Some v /\ assoc k (elements m1) = Some d' /\
       mixed t v (match assoc k (elements m0) with Some x => x | None => fresh zeroes t end) d' /\
       (assoc k (elements m0) = None -> deserialize g t v (fresh zeroes t) = Ret (kOk, d'))) ->
  mixes g (TObjectMap t) (JObj ms) (content (DMap m0)) (content (DMap m1)).
Proof.
  intros Hp Hs Hsh Hw H. pose proof (sorted_elements m1 Hw) as Hsl. rewrite !content_map. cbn [mixes]. do 2 eexists.
  split; [reflexivity|]. split; [reflexivity|].
  rewrite map_fst_map. split; [apply Hsl|]. split; [apply Hsl|]. intros k Hk. rewrite !assoc_map_snd.
  destruct (H k Hk) as [E|(v & d' & E & E' & HM & HN)]; [left; now rewrite E|right].
  apply assoc_in in E. destruct (shows_elements _ _ _ Hs Hsh k v E) as (_ & j' & Ej & Hj).
  exists j', (content d'). split; [auto|]. split; [now rewrite E'|]. specialize (HM j' Hj). split; [destruct (assoc k (elements m0)); exact HM|].
  destruct (assoc k (elements m0)); [discriminate|]. intros _. apply (ok_reads t v); auto.
  - destruct (sound_elements _ _ Hs) as (_ & Hl & _). rewrite Forall_forall in Hl. apply Hl. apply (in_map snd) in E. exact E.
  - apply fresh_typed. auto.
Qed.

Lemma leave :
  (forall t, proper t -> forall v j, sound_value v -> shows v j -> leaves t v j) /\
  (forall p, proper_proto p -> forall v j, sound_value v -> shows v j ->
     forall ds0, has_types p ds0 -> exists st ds, deserialize_proto g p v ds0 = Ret (st, ds) /\ has_types p ds /\
       mixes_proto g p j (map content ds0) (map content ds)).
Proof.
  apply ty_proto_ind.
  1-4, 7: intros Hp v j Hs Hsh d0 Hd; inversion Hs; subst; inversion Hsh; subst; simpl in *; rewrite ?cstr_good by auto;
    repeat match type of Hd with exists _, _ => destruct Hd as [? Hd] end; subst;
    do 2 eexists; (split; [reflexivity|]); simpl; eauto.
  - intros t IH Hp v j Hs Hsh d0 Hd. specialize (IH Hp). simpl. destruct Hsh as [| | | |l js H2|]; simpl; eauto.
    inversion Hs as [| | | |l' Hl|]; subst.
    destruct (elements_mix (deserialize g t) (has_type t) (mixed t) (fresh g t)) with (l := l) (acc := @nil data)
      as (st & n & ds & E & HP & HF); [apply fresh_typed; auto|eapply array_acts; eauto|].
    rewrite E. simpl. do 2 eexists. split; [reflexivity|]. split; [eauto|]. exists n, (map content ds). split; [auto|].
    eapply array_mixes; eauto.
  - intros t IH Hp v j Hs Hsh d0 Hd. specialize (IH Hp). pose proof Hsh as Hsh'.
    destruct Hsh as [| | | | |m order ms HA HB]; try (simpl; eauto; fail).
    destruct Hd as (m0 & -> & Hw0 & H0). cbn [deserialize as_object]. rewrite map_elements_ok. simpl bind.
    destruct (sound_elements _ _ Hs) as (Hw & Hl & Hg & Hnd).
    destruct (members_mix (deserialize g t) (has_type t) (mixed t) (fresh zeroes t)) with (es := elements m) (m := m0)
      as (st & m' & E & Hw' & HP & HM); auto; [apply fresh_typed; auto|eapply map_acts; eauto|].
    rewrite E. simpl bind. do 2 eexists. split; [reflexivity|]. split; [exists m'; auto|].
    apply (map_mixes t m order); auto.
  - intros t IH Hp v j Hs Hsh d0 Hd. specialize (IH Hp). simpl. destruct Hsh as [| | | |l js H2|]; simpl; eauto.
    inversion Hs as [| | | |l' Hl|]; subst.
    destruct (elements_mix (deserialize g t) (has_type t) (mixed t) (fresh g t)) with (l := l) (acc := @nil data)
      as (st & n & ds & E & HP & HF); [apply fresh_typed; auto|eapply array_acts; eauto|].
    rewrite E. simpl. do 2 eexists. split; [reflexivity|]. split; [eauto|]. exists n, (map content ds). split; [auto|].
    eapply array_mixes; eauto.
  - intros t IH Hp v j Hs Hsh d0 Hd. specialize (IH Hp). pose proof Hsh as Hsh'.
    destruct Hsh as [| | | | |m order ms HA HB]; try (simpl; eauto; fail).
    destruct Hd as (l0 & -> & Hi & Hk & H0). cbn [deserialize as_object]. rewrite map_elements_ok. simpl bind.
    destruct (sound_elements _ _ Hs) as (Hw & Hl & Hg & Hnd).
    destruct (std_mix (deserialize g t) (has_type t) (mixed t) (fresh zeroes t)) with (es := elements m) (l := l0)
      as (st & l' & E & Hs' & HP & HM); auto; [apply fresh_typed; auto|eapply map_acts; eauto|split; auto|].
    rewrite E. simpl bind. do 2 eexists. split; [reflexivity|]. split; [exists l'; repeat split; auto; apply Hs'|].
    apply (std_mixes t m order); auto.
  - intros p IH Hp v j Hs Hsh d0 (l & -> & Hl). destruct (IH Hp v j Hs Hsh l Hl) as (st & ds & E & HT & HM).
    simpl. rewrite E. simpl. exists st, (DStruct ds). split; [reflexivity|]. split; [eauto|]. do 2 eexists. split; [reflexivity|].
    split; [reflexivity|exact HM].
  - intros _ v j Hs Hsh [|] H; [|destruct H]. exists kOk, []. simpl. auto.
  - intros k init t IHt rest IHr (Hk & Hi & Hpt & Hpr) v j Hs Hsh ds0 Hds. specialize (IHt Hpt).
    destruct ds0 as [|d0 ds0]; [destruct Hds|]. destruct Hds as [Hd Hds].
    destruct (IHr Hpr v j Hs Hsh ds0 Hds) as (st2 & ds & E2 & HT2 & HM2).
    assert (HN : forall name, good_key name ->
      exists st d, deserialize_named name (deserialize g t) v d0 = Ret (st, d) /\ has_type t d /\
        match member j name with Some j' => mixes g t j' (content d0) (content d) | None => content d = content d0 end).
    { intros name Hn. unfold deserialize_named. pose proof Hsh as Hsh'. destruct Hsh as [| | | | |m order ms H1 H3]; simpl; eauto.
      destruct (assoc name ms) as [j'|] eqn:Ej.
      - destruct (H3 name j' Hn Ej) as (x & Ex & Hx). rewrite Ex. apply IHt; eauto using sound_find.
      - rewrite (H1 name Hn Ej). eauto. }
    set (single := PItem k init t PNil).
    assert (HS : forall d, deserialize_proto g single v [d0] = Ret (kOk, [d]) ->
      strict_proto single -> reads_proto g single j [content d0] [content d]).
    { intros d E Hst. apply (ok_reads_proto single v j [d0] [d]); auto; [repeat split; auto|split; [auto|exact I]]. }
    rewrite one_member. fold single.
    assert (HO : exists st d, deserialize_proto g single v [d0] = Ret (st, [d]) /\ has_type t d /\
      match k with
      | Named n | Optional n => match member j n with Some j' => mixes g t j' (content d0) (content d) | None => content d = content d0 end
      | Anonymous => mixes g t j (content d0) (content d)
      end).
    { unfold single. destruct k as [name|name|].
      - destruct (HN name Hk) as (st & d & E & HT & HM). simpl. rewrite E. simpl. destruct (status_eqb st kOk); simpl; eauto.
      - destruct (HN name Hk) as (st & d & E & HT & HM). simpl. rewrite E. simpl. destruct (negb _ && negb _); simpl; eauto.
      - destruct (IHt v j Hs Hsh d0 Hd) as (st & d & E & HT & HM). simpl. rewrite E. simpl. destruct (status_eqb st kOk); simpl; eauto. }
    destruct HO as (st & d & E & HT & HM). rewrite E. cbn [bind].
    destruct (status_cases st) as [->|Hne]; [rewrite status_eqb_refl|rewrite (status_eqb_neq _ _ Hne)].
    + rewrite E2. simpl. do 2 eexists. split; [reflexivity|]. split; [split; auto|]. simpl. split; [exact HM|]. right. split; [|exact HM2].
      exact (HS d E).
    + do 2 eexists. split; [reflexivity|]. split; [split; auto|]. simpl. auto.
Qed.
End Mix.

(** ** Where reading a structure stops *)

Lemma not_fit k init t j : ~ valid_proto (PItem k init t PNil) j -> unfit (k, t) j.
Proof.
  intros H. simpl in H. destruct k as [n|n|]; simpl.
  - intros j' Ej Hv. apply H. eauto.
  - destruct j as [| | | | |ms]; try (left; intros [? ?]; discriminate). right. simpl. destruct (assoc n ms) as [j'|] eqn:E.
    + exists j'. split; [auto|]. intros Hv. apply H. split; [|auto]. split; [eexists; reflexivity|]. intros j2 E2. simpl in E2.
      rewrite E in E2. now injection E2 as <-.
    + exfalso. apply H. split; [|auto]. split; [eexists; reflexivity|]. simpl. rewrite E. discriminate.
  - intros Hv. apply H. auto.
Qed.

Lemma stops g p : strict_proto p -> proper_proto p -> forall v j, sound_value v -> shows v j ->
  forall ds0 st ds, has_types p ds0 -> deserialize_proto g p v ds0 = Ret (st, ds) -> st <> kOk ->
  exists n kt, nth_member n p = Some kt /\ unfit kt j /\
    reads_proto g (first_members n p) j (map content (firstn n ds0)) (map content (firstn n ds)) /\
    skipn (S n) ds = skipn (S n) ds0.
Proof.
  induction p as [|k init t rest IH]; intros Hst Hp v j Hs Hsh ds0 st ds Hds E Hne.
  - destruct ds0; [|destruct Hds]. simpl in E. congruence.
  - destruct ds0 as [|d0 ds0]; [destruct Hds|]. destruct Hds as [Hd Hds]. rewrite one_member in E.
    set (single := PItem k init t PNil) in *.
    assert (Hp1 : proper_proto single) by (destruct Hp as (? & ? & ? & ?); repeat split; auto).
    assert (Hst1 : strict_proto single) by (destruct Hst as (? & ? & ?); repeat split; auto).
    destruct (proj2 (agree g) single Hp1 v Hs) as (s1 & E1 & H1). destruct (H1 [d0]) as (one & E2 & HT); [split; [auto|exact I]|].
    rewrite E2 in E. cbn [bind] in E. destruct one as [|d' [|]]; try (now destruct HT as [_ []]); [destruct HT|].
    destruct (status_cases s1) as [->|Ek].
    + rewrite status_eqb_refl in E. destruct (deserialize_proto g rest v ds0) as [[s2 ds2]| |] eqn:E3; try discriminate.
      cbn [bind] in E. injection E as <- <-.
      destruct Hp as (? & ? & ? & Hpr). destruct Hst as (? & ? & Hstr).
      destruct (IH Hstr Hpr v j Hs Hsh ds0 s2 ds2 Hds E3 Hne) as (n & kt & HN & HU & HR & HK).
      exists (S n), kt. split; [exact HN|]. split; [exact HU|]. split; [|exact HK].
      assert (HV : valid_proto single j) by (apply (proj2 accepted single Hst1 Hp1 v j); auto).
      destruct (proj2 (deliver g) single Hp1 v j Hs Hsh HV) as [_ HD]. destruct (HD [d0]) as (ds1 & E4 & _ & HR1); [split; [auto|exact I]|].
      rewrite E2 in E4. injection E4 as <-. simpl in HR1. simpl. split; [apply HR1|exact HR].
    + rewrite (status_eqb_neq _ _ Ek) in E. injection E as <- <-. exists O, (k, t). split; [reflexivity|].
      split; [|split; [exact I|reflexivity]]. apply (not_fit k init). intros HV.
      destruct (proj2 (deliver g) single Hp1 v j Hs Hsh HV) as [E4 _]. congruence.
Qed.
