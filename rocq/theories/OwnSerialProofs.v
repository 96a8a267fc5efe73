(** * Proofs about Serialize with failing allocations. *)

From Coq Require Import Permutation.
From Verif Require Import Base TextModel NumModel MapModel ParserModel WriterModel SpecMap SpecGrammar SpecMeaning MapProofs ParserProofs
  AccessModel SchemaModel SpecSchema SchemaProofs OwnModel SpecOwn OwnProofs OwnParse OwnSerialModel SpecOwnSerial.

#[local] Arguments Z.eqb : simpl nomatch.

(** ** Pieces *)

(** The keys of an object, and objects with a well-formed map. *)
Definition tops (n : node) : list (list Z) := match n with NObject _ m _ => keys m | _ => [] end.
Definition wf_top (n : node) : Prop := match n with NObject _ m _ => wf_map m | _ => True end.
Definition tnames (t : ty) : list (list Z) := match t with TStruct p => names p | _ => [] end.
Definition apart (a b : list (list Z)) : Prop := forall k, In k a -> ~ In k b.

Lemma delete_all_ok l : forall w r, holds w (flat_map ids l ++ r) -> exists w', delete_all l w = Ret w' /\ tick w' = tick w /\ holds w' r.
Proof.
  induction l as [|n l IH]; intros w r H; [eexists; split; [reflexivity|]; auto|]. cbn [flat_map] in H. rewrite <- app_assoc in H.
  destruct (delete_ok n w _ H) as (w1 & E1 & T1 & H1). destruct (IH w1 r H1) as (w2 & E2 & T2 & H2).
  exists w2. cbn [delete_all]. rewrite E1. cbn [bind]. split; [exact E2|]. split; [congruence|exact H2].
Qed.

Lemma erase_create t id : erase (create_node t id) = create_value t.
Proof. destruct t; reflexivity. Qed.
Lemma ids_create t id : ids (create_node t id) = [id].
Proof. destruct t; reflexivity. Qed.
Lemma tops_create t id : tops (create_node t id) = [].
Proof. destruct t; reflexivity. Qed.
Lemma wf_create t id : wf_top (create_node t id).
Proof. destruct t; (exact I || exact (wf_leaf (A := node))). Qed.

Section OwnSerial.
Variable fails : nat -> bool.
Notation faulty := (faulty fails).

Lemma faulty_split a b c : faulty a c -> faulty a b \/ faulty b c.
Proof. intros (k & H & E). destruct (le_lt_dec b k); [right|left]; exists k; split; auto; lia. Qed.

Lemma faulty_none a b : (b <= a)%nat -> ~ faulty a b.
Proof. intros H (k & L & _). lia. Qed.

Lemma create_spec t w l : holds w l -> exists o w', create_o fails t w = (o, w') /\ tick w' = S (tick w) /\
  match o with
  | Some n => exists id, n = create_node t id /\ holds w' (ids n ++ l) /\ ~ faulty (tick w) (tick w')
  | None => holds w' l /\ faulty (tick w) (tick w')
  end.
Proof.
  intros H. destruct (new_spec fails w l H) as (o & w' & E & T & Ho). unfold create_o. rewrite E. destruct o as [id|].
  - exists (Some (create_node t id)), w'. split; [reflexivity|]. split; [exact T|]. exists id. split; [reflexivity|]. rewrite ids_create.
    split; [exact Ho|]. intros (k & L & F). unfold new_value in E. replace k with (tick w) in F by lia. rewrite F in E. discriminate.
  - exists None, w'. auto.
Qed.

Lemma ask_spec2 w l : holds w l -> exists ok w', ask fails w = (ok, w') /\ tick w' = S (tick w) /\ holds w' l /\
  (if ok then ~ faulty (tick w) (tick w') else faulty (tick w) (tick w')).
Proof.
  intros H. destruct (ask_spec fails w l H) as (ok & w' & E & T & Hw & F). exists ok, w'. do 3 (split; [assumption|]).
  destruct ok; [|auto]. intros (k & L & Fk). unfold ask in E. replace k with (tick w) in Fk by lia. rewrite Fk in E. discriminate.
Qed.

(** What one call does: its own status and value, [n'], the objects [L] nobody can
    reach any more, what it would do with enough memory [V], and when failures are
    reported ([hon]) and nothing is lost. *)
Definition step (hon cln mfree mp : Prop) (nm : list (list Z)) (n : node) (w : world) (r : list nat)
    (E : out (status * node * world)) (V : out (status * value)) : Prop :=
  exists st n' w' L, E = Ret (st, n', w') /\ (tick w <= tick w')%nat /\ holds w' (ids n' ++ L ++ r) /\ wf_top n' /\
    (~ faulty (tick w) (tick w') -> V = Ret (st, erase n')) /\
    (st = kException -> faulty (tick w) (tick w')) /\
    (hon -> faulty (tick w) (tick w') -> st = kException) /\
    (cln -> ~ mp -> incl (tops n') (tops n ++ nm)) /\
    (cln -> apart (tops n) nm -> (mp -> tops n = []) -> mfree \/ ~ faulty (tick w) (tick w') -> L = []).

Definition tstep (t : ty) (n : node) := step (honest t) (clean t) (map_free t) (is_map t) (tnames t) n.

(** Nothing is touched. *)
Lemma step_same hon cln mfree mp nm n w r st v : holds w (ids n ++ r) -> wf_top n -> st <> kException -> v = erase n ->
  step hon cln mfree mp nm n w r (Ret (st, n, w)) (Ret (st, v)).
Proof.
  intros H W S ->. exists st, n, w, []. split; [reflexivity|]. split; [lia|]. split; [exact H|]. split; [exact W|].
  split; [reflexivity|]. split; [intros; contradiction|]. split; [intros _ F; now apply faulty_none in F|].
  split; [intros _ _; apply incl_appl, incl_refl|auto].
Qed.

(** ** The loops *)

Section Loop.
Variables (t : ty) (f : data -> node -> world -> out (status * node * world)).
Hypothesis IH : forall d n w r, has_type t d -> wf_top n -> holds w (ids n ++ r) -> tstep t n w r (f d n w) (serialize t d (erase n)).

(** The new element. *)
Lemma inner d w r id : has_type t d -> holds w (ids (create_node t id) ++ r) ->
  exists st n' w' L, f d (create_node t id) w = Ret (st, n', w') /\ (tick w <= tick w')%nat /\ holds w' (ids n' ++ L ++ r) /\
    (~ faulty (tick w) (tick w') -> serialize t d (create_value t) = Ret (st, erase n')) /\
    (st = kException -> faulty (tick w) (tick w')) /\
    (honest t -> faulty (tick w) (tick w') -> st = kException) /\
    (clean t -> map_free t \/ ~ faulty (tick w) (tick w') -> L = []).
Proof.
  intros Hd H. destruct (IH d _ w r Hd (wf_create t id) H) as (st & n' & w' & L & E & T & Hh & _ & V & X & Y & _ & Z0).
  exists st, n', w', L. rewrite erase_create in V. do 6 (split; [assumption|]). intros C M. apply Z0; auto.
  - rewrite tops_create. intros k [].
  - intros _. apply tops_create.
Qed.

Definition list_post (w : world) (r : list nat) (E : out (status * list node * world)) (V : out (status * list value)) : Prop :=
  exists st l w' L, E = Ret (st, l, w') /\ (tick w <= tick w')%nat /\ holds w' (flat_map ids l ++ L ++ r) /\
    (~ faulty (tick w) (tick w') -> V = Ret (st, map erase l)) /\
    (st = kException -> faulty (tick w) (tick w')) /\
    (honest t -> faulty (tick w) (tick w') -> st = kException) /\
    (clean t -> map_free t \/ ~ faulty (tick w) (tick w') -> L = []).

Lemma flat_snoc (acc : list node) n x : flat_map ids (acc ++ [n]) ++ x = flat_map ids acc ++ ids n ++ x.
Proof. rewrite flat_map_app. cbn [flat_map]. now rewrite app_nil_r, <- app_assoc. Qed.

Lemma not_faulty a b a' b' : ~ faulty a b -> (a <= a')%nat -> (b' <= b)%nat -> ~ faulty a' b'.
Proof. intros N H1 H2 F. apply N. eapply faulty_wider; eauto. Qed.

Ltac wider := eapply faulty_wider; [eassumption|lia|lia].
Ltac narrow := eapply not_faulty; [eassumption|lia|lia].

Lemma elements_o (vec : bool) : forall ds acc w r, Forall (has_type t) ds -> holds w (flat_map ids acc ++ r) ->
  list_post w r ((if vec then serialize_vector_o fails t f else serialize_elements_o fails t f) ds acc w)
    ((if vec then serialize_vector else serialize_elements) (fun d => serialize t d (create_value t)) ds (map erase acc)).
Proof.
  induction ds as [|d ds IHd]; intros acc w r Hd H.
  - exists kOk, acc, w, []. split; [destruct vec; reflexivity|]. split; [lia|]. split; [exact H|]. split; [intros _; destruct vec; reflexivity|].
    split; [discriminate|]. split; [intros _ F; now apply faulty_none in F|auto].
  - inversion Hd as [|? ? Hd1 Hd2]; subst.
    destruct (create_spec t w _ H) as (o & w1 & E1 & T1 & Ho). destruct o as [n|].
    2:{ destruct Ho as [Hh F]. exists kException, acc, w1, []. split; [destruct vec; cbn; now rewrite E1|]. split; [lia|]. split; [exact Hh|].
        split; [tauto|]. split; [auto|]. split; [auto|]. intros _ [M|N]; [reflexivity|tauto]. }
    destruct Ho as (id & -> & Hh & N1).
    destruct (inner d w1 (flat_map ids acc ++ r) id Hd1 Hh) as (st & n' & w2 & L & E2 & T2 & H2 & V2 & X2 & Y2 & Z2).
    destruct (status_cases st) as [->|Hst].
    + destruct (IHd (acc ++ [n']) w2 (L ++ r) Hd2) as (st & l & w3 & L3 & E3 & T3 & H3 & V3 & X3 & Y3 & Z3).
      { eapply holds_perm; [exact H2|]. rewrite flat_snoc. etransitivity; [apply Permutation_app_head, perm_mid|]. apply perm_mid. }
      exists st, l, w3, (L3 ++ L). split.
      { destruct vec; cbn; rewrite E1, E2; cbn; exact E3. }
      split; [lia|]. split; [rewrite <- app_assoc; exact H3|]. split.
      { intros N. rewrite map_app in V3. cbn [map] in V3. rewrite <- V3 by narrow. destruct vec; cbn; rewrite V2 by narrow; reflexivity. }
      split; [intros S; apply X3 in S; wider|]. split.
      { intros Ho F. apply (faulty_split _ (tick w1)) in F. destruct F as [F|F]; [tauto|]. apply (faulty_split _ (tick w2)) in F.
        destruct F as [F|F]; [apply Y2 in F; [discriminate|assumption]|auto]. }
      intros C M. rewrite Z3, Z2; auto; (destruct M as [M|M]; [left; exact M|right; narrow]).
    + destruct vec.
      * exists st, (acc ++ [n']), w2, L. split.
        { cbn. rewrite E1, E2. cbn. now rewrite (status_eqb_neq st kOk). }
        split; [lia|]. split.
        { eapply holds_perm; [exact H2|]. rewrite flat_snoc. etransitivity; [apply Permutation_app_head, perm_mid|]. apply perm_mid. }
        split. { intros N. cbn. rewrite V2 by narrow. cbn. rewrite (status_eqb_neq st kOk) by auto. cbn. now rewrite map_app. }
        split; [intros S; apply X2 in S; wider|]. split.
        { intros Ho F. apply (faulty_split _ (tick w1)) in F. destruct F as [F|F]; [tauto|auto]. }
        intros C M. apply Z2; auto. destruct M as [M|M]; [left; exact M|right; narrow].
      * destruct (delete_ok n' w2 _ H2) as (w3 & E3 & T3 & H3).
        exists st, acc, w3, L. split.
        { cbn. rewrite E1, E2. cbn. rewrite (status_eqb_neq st kOk) by auto. cbn. rewrite E3. reflexivity. }
        split; [lia|]. split; [eapply holds_perm; [exact H3|]; apply perm_mid|].
        split. { intros N. cbn. rewrite V2 by narrow. cbn. now rewrite (status_eqb_neq st kOk). }
        split; [intros S; apply X2 in S; wider|]. split.
        { intros Ho F. rewrite T3 in F. apply (faulty_split _ (tick w1)) in F. destruct F as [F|F]; [tauto|auto]. }
        intros C M. apply Z2; auto. destruct M as [M|M]; [left; exact M|right; narrow].
Qed.

Lemma keys_insert (m m' : tree node) name v l1 l2 : elements m = l1 ++ l2 -> elements m' = l1 ++ (name, v) :: l2 ->
  forall k, In k (keys m') <-> k = name \/ In k (keys m).
Proof.
  intros E1 E2 k. unfold keys. rewrite E1, E2, !map_app, !in_app_iff. cbn [map In fst]. intuition congruence.
Qed.

(** A new element is inserted, or is lost because the name is taken. *)
Lemma insert_holds m name n w r : wf_map m -> good_key name -> holds w (ids n ++ tflat ids m ++ r) ->
  exists m' b L, insert_map_element m name n = Ret (m', b) /\ wf_map m' /\ holds w (tflat ids m' ++ L ++ r) /\
    insert_map_element (tmap erase m) name (erase n) = Ret (tmap erase m', b) /\
    incl (keys m') (name :: keys m) /\ (~ In name (keys m) -> L = []).
Proof.
  intros Hm Hk H. destruct (insert_ok m name n Hm Hk) as (m' & b & E & W & B & B0 & B1).
  exists m', b, (if b then [] else ids n). split; [exact E|]. split; [exact W|]. split.
  - destruct b.
    + destruct (B1 eq_refl) as (l1 & l2 & E1 & E2). eapply holds_perm; [exact H|]. cbn [app]. rewrite app_assoc. apply Permutation_app_tail.
      symmetry. now apply (tflat_insert m m' name n l1 l2).
    + rewrite (B0 eq_refl). eapply holds_perm; [exact H|]. apply perm_mid.
  - split; [now apply insert_map_map|]. split.
    + destruct b; [destruct (B1 eq_refl) as (l1 & l2 & E1 & E2); intros k Hin; apply (keys_insert m m' name n l1 l2 E1 E2) in Hin; cbn; intuition|].
      rewrite (B0 eq_refl). intros k Hin. now right.
    + intros N. apply B in N. now rewrite N.
Qed.

Lemma members_o : forall es m w r, Forall (fun kd => has_type t (snd kd)) es -> Forall good_key (map fst es) -> wf_map m ->
  holds w (tflat ids m ++ r) ->
  exists st m' w' L, serialize_members_o fails t f es m w = Ret (st, m', w') /\ (tick w <= tick w')%nat /\ holds w' (tflat ids m' ++ L ++ r) /\
    wf_map m' /\
    (~ faulty (tick w) (tick w') -> serialize_members (fun d => serialize t d (create_value t)) es (tmap erase m) = Ret (st, tmap erase m')) /\
    (st = kException -> faulty (tick w) (tick w')) /\
    (honest t -> faulty (tick w) (tick w') -> st = kException) /\
    (clean t -> NoDup (map fst es) -> apart (map fst es) (keys m) -> ~ faulty (tick w) (tick w') -> L = []).
Proof.
  induction es as [|[key d] es IHd]; intros m w r Hd Hg Hm H.
  - exists kOk, m, w, []. split; [reflexivity|]. split; [lia|]. split; [exact H|]. split; [exact Hm|]. split; [reflexivity|].
    split; [discriminate|]. split; [intros _ F; now apply faulty_none in F|auto].
  - inversion Hd as [|? ? Hd1 Hd2]; subst. cbn [snd] in Hd1. cbn [map fst] in Hg. inversion Hg as [|? ? Hg1 Hg2]; subst.
    destruct (create_spec t w _ H) as (o & w1 & E1 & T1 & Ho). cbn [serialize_members_o]. rewrite E1. destruct o as [n|].
    2:{ destruct Ho as [Hh F]. exists kException, m, w1, []. split; [reflexivity|]. split; [lia|]. split; [exact Hh|]. split; [exact Hm|].
        split; [tauto|]. split; [auto|]. split; [auto|]. tauto. }
    destruct Ho as (id & -> & Hh & N1).
    destruct (ask_spec2 w1 _ Hh) as (ok & wa & Ea & Ta & Ha & Na). rewrite Ea. destruct ok; cbn [negb].
    2:{ exists kException, m, wa, (ids (create_node t id)). split; [reflexivity|]. split; [lia|].
        split; [eapply holds_perm; [exact Ha|]; apply perm_mid|]. split; [exact Hm|].
        split; [intros N; elim N; wider|]. split; [intros _; wider|]. split; [auto|]. intros _ _ _ N. elim N; wider. }
    destruct (inner d wa (tflat ids m ++ r) id Hd1 Ha) as (st & n' & w2 & L & E2 & T2 & H2 & V2 & X2 & Y2 & Z2).
    rewrite E2. cbn [bind].
    destruct (status_cases st) as [->|Hst].
    + rewrite status_eqb_refl. cbn [negb].
      destruct (insert_holds m key n' w2 (L ++ r) Hm Hg1) as (m' & b & Li & Ei & Wi & Hi & Vi & Ki & Zi).
      { eapply holds_perm; [exact H2|]. apply Permutation_app_head, perm_mid. }
      rewrite Ei. cbn [bind].
      destruct (IHd m' w2 (Li ++ L ++ r) Hd2 Hg2 Wi Hi) as (st & m3 & w3 & L3 & E3 & T3 & H3 & W3 & V3 & X3 & Y3 & Z3).
      exists st, m3, w3, (L3 ++ Li ++ L). split; [exact E3|]. split; [lia|]. split; [rewrite <- !app_assoc; exact H3|]. split; [exact W3|]. split.
      { intros N. cbn [serialize_members]. rewrite V2 by narrow. cbn [bind]. rewrite status_eqb_refl. cbn [negb]. rewrite Vi. cbn [bind]. apply V3. narrow. }
      split; [intros S; apply X3 in S; wider|]. split.
      { intros Ho F. apply (faulty_split _ (tick w1)) in F. destruct F as [F|F]; [tauto|]. apply (faulty_split _ (tick wa)) in F.
        destruct F as [F|F]; [tauto|]. apply (faulty_split _ (tick w2)) in F.
        destruct F as [F|F]; [apply Y2 in F; [discriminate|assumption]|auto]. }
      intros C ND A N. inversion ND as [|? ? ND1 ND2]; subst. rewrite Z3, Zi, Z2; auto.
      * right. narrow.
      * intros I. now apply (A key (or_introl eq_refl)).
      * intros k I1 I2. apply Ki in I2. destruct I2 as [<-|I2]; [contradiction|]. exact (A k (or_intror I1) I2).
      * narrow.
    + rewrite (status_eqb_neq st kOk) by auto. cbn [negb].
      destruct (delete_ok n' w2 _ H2) as (w3 & E3 & T3 & H3). rewrite E3. cbn [bind].
      exists st, m, w3, L. split; [reflexivity|]. split; [lia|]. split; [eapply holds_perm; [exact H3|]; apply perm_mid|]. split; [exact Hm|].
      split. { intros N. cbn [serialize_members]. rewrite V2 by narrow. cbn [bind]. now rewrite (status_eqb_neq st kOk). }
      split; [intros S; apply X2 in S; wider|]. split.
      { intros Ho F. rewrite T3 in F. apply (faulty_split _ (tick w1)) in F. destruct F as [F|F]; [tauto|].
        apply (faulty_split _ (tick wa)) in F. destruct F as [F|F]; [tauto|auto]. }
      intros C _ _ N. apply Z2; auto. right. narrow.
Qed.

(** Serialize(value, name, data). *)
Lemma quiet_same d id w : quiet t -> has_type t d -> (forall n, f d n w = serialize_o fails t d n w) ->
  exists n', f d (create_node t id) w = Ret (kOk, n', w).
Proof.
  intros Q Hd E. rewrite E. destruct t; try contradiction; cbn in Hd.
  - destruct Hd as (x & ->). eexists. reflexivity.
  - destruct Hd as (x & ->). eexists. reflexivity.
  - subst d. eexists. reflexivity.
Qed.

Lemma named_o name d n w r : good_key name -> has_type t d -> wf_top n -> holds w (ids n ++ r) ->
  (forall n w, f d n w = serialize_o fails t d n w) ->
  step (quiet t) (clean t) (map_free t) False [name] n w r (serialize_named_o fails name t (f d) n w)
    (serialize_named name (create_value t) (serialize t d) (erase n)).
Proof.
  intros Hg Hd Hn H Ef.
  destruct n as [id s|id s|id s|id|id l|id m order]; try (apply step_same; [exact H|exact Hn|discriminate|reflexivity]).
  - (* an array *)
    cbn [serialize_named_o]. destruct (create_spec t w _ H) as (o & w1 & E1 & T1 & Ho). rewrite E1. destruct o as [x|].
    2:{ destruct Ho as [Hh F]. exists kException, (NArray id l), w1, []. split; [reflexivity|]. split; [lia|]. split; [exact Hh|]. split; [exact I|].
        split; [tauto|]. split; [auto|]. split; [auto|]. split; [intros _ _ k []|auto]. }
    destruct Ho as (idx & -> & Hh & N1).
    destruct (ask_spec2 w1 _ Hh) as (ok & wa & Ea & Ta & Ha & Na). rewrite Ea. destruct ok; cbn [negb].
    2:{ destruct (delete_ok _ wa _ Ha) as (w3 & E3 & T3 & H3). rewrite E3. cbn [bind].
        exists kException, (NArray id l), w3, []. split; [reflexivity|]. split; [lia|]. split; [exact H3|]. split; [exact I|].
        split; [intros N; elim N; wider|]. split; [intros _; wider|]. split; [auto|]. split; [intros _ _ k []|auto]. }
    destruct (inner d wa (ids (NArray id l) ++ r) idx Hd Ha) as (st & n' & w2 & L & E2 & T2 & H2 & V2 & X2 & Y2 & Z2).
    rewrite E2. cbn [bind].
    exists st, (NArray id (l ++ [n'])), w2, L. split; [reflexivity|]. split; [lia|]. split.
    { eapply holds_perm; [exact H2|]. cbn [ids app]. rewrite flat_snoc. rewrite app_assoc.
      transitivity (id :: (ids n' ++ L) ++ flat_map ids l ++ r); [symmetry; apply Permutation_middle|]. constructor.
      rewrite <- app_assoc. etransitivity; [apply Permutation_app_head, perm_mid|]. apply perm_mid. }
    split; [exact I|]. split. { intros N. cbn [erase serialize_named]. rewrite V2 by narrow. cbn [bind]. now rewrite map_app. }
    split; [intros S; apply X2 in S; wider|]. split.
    { intros Q F. apply (faulty_split _ (tick w1)) in F. destruct F as [F|F]; [tauto|].
      apply (faulty_split _ (tick wa)) in F. destruct F as [F|F]; [tauto|]. destruct (quiet_same d idx wa Q Hd (fun n => Ef n wa)) as (n2 & E').
      rewrite E' in E2. injection E2 as _ _ <-. now apply faulty_none in F. }
    split; [intros _ _ k []|]. intros C _ _ M. apply Z2; auto. destruct M as [M|M]; [left; exact M|right; narrow].
  - (* an object *)
    cbn [serialize_named_o]. destruct (create_spec t w _ H) as (o & w1 & E1 & T1 & Ho). rewrite E1. destruct o as [x|].
    2:{ destruct Ho as [Hh F]. exists kException, (NObject id m order), w1, []. split; [reflexivity|]. split; [lia|]. split; [exact Hh|]. split; [exact Hn|].
        split; [tauto|]. split; [auto|]. split; [auto|]. split; [intros _ _; apply incl_appl, incl_refl|auto]. }
    destruct Ho as (idx & -> & Hh & N1).
    destruct (ask_spec2 w1 _ Hh) as (ok & wa & Ea & Ta & Ha & Na). rewrite Ea. destruct ok; cbn [negb].
    2:{ destruct (delete_ok _ wa _ Ha) as (w3 & E3 & T3 & H3). rewrite E3. cbn [bind].
        exists kException, (NObject id m order), w3, []. split; [reflexivity|]. split; [lia|]. split; [exact H3|]. split; [exact Hn|].
        split; [intros N; elim N; wider|]. split; [intros _; wider|]. split; [auto|]. split; [intros _ _; apply incl_appl, incl_refl|auto]. }
    destruct (inner d wa (ids (NObject id m order) ++ r) idx Hd Ha) as (st & n' & w2 & L & E2 & T2 & H2 & V2 & X2 & Y2 & Z2).
    rewrite E2. cbn [bind].
    assert (ZL : clean t -> forall b, (tick w2 <= b)%nat -> map_free t \/ ~ faulty (tick w) b -> L = []).
    { intros C b Hb M. apply Z2; auto. destruct M as [M|M]; [left; exact M|right; narrow]. }
    destruct (ask_spec2 w2 _ H2) as (ok & wb & Eb & Tb & Hb & Nb). rewrite Eb. destruct ok; cbn [negb].
    2:{ destruct (delete_ok _ wb _ Hb) as (w3 & E3 & T3 & H3). rewrite E3. cbn [bind].
        exists kException, (NObject id m order), w3, L. split; [reflexivity|]. split; [lia|].
        split; [eapply holds_perm; [exact H3|]; apply perm_mid|]. split; [exact Hn|].
        split; [intros N; elim N; wider|]. split; [intros _; wider|]. split; [auto|]. split; [intros _ _; apply incl_appl, incl_refl|].
        intros C _ _ M. apply (ZL C (tick w3)); [lia|exact M]. }
    destruct (ask_spec2 wb _ Hb) as (ok & wc & Ec & Tc & Hc & Nc). rewrite Ec. destruct ok; cbn [negb].
    2:{ destruct (delete_ok _ wc _ Hc) as (w3 & E3 & T3 & H3). rewrite E3. cbn [bind].
        exists kException, (NObject id m order), w3, L. split; [reflexivity|]. split; [lia|].
        split; [eapply holds_perm; [exact H3|]; apply perm_mid|]. split; [exact Hn|].
        split; [intros N; elim N; wider|]. split; [intros _; wider|]. split; [auto|]. split; [intros _ _; apply incl_appl, incl_refl|].
        intros C _ _ M. apply (ZL C (tick w3)); [lia|exact M]. }
    destruct (insert_holds m name n' wc (id :: L ++ r) Hn Hg) as (m' & b & Li & Ei & Wi & Hi & Vi & Ki & Zi).
    { eapply holds_perm; [exact Hc|]. apply Permutation_app_head. cbn [ids app]. rewrite <- !Permutation_middle. constructor. apply perm_mid. }
    rewrite Ei. cbn [bind].
    exists kOk, (NObject id m' (order ++ [name])), wc, (Li ++ L). split; [reflexivity|]. split; [lia|]. split.
    { eapply holds_perm; [exact Hi|]. cbn [ids app]. rewrite !app_assoc. symmetry. rewrite <- Permutation_middle. constructor. now rewrite <- !app_assoc. }
    split; [exact Wi|]. split.
    { intros N. cbn [erase serialize_named]. rewrite V2 by narrow. cbn [bind]. unfold insert_accounted. rewrite Vi. reflexivity. }
    split; [discriminate|]. split.
    { intros Q F. exfalso. apply (faulty_split _ (tick w1)) in F. destruct F as [F|F]; [tauto|].
      apply (faulty_split _ (tick wa)) in F. destruct F as [F|F]; [tauto|]. destruct (quiet_same d idx wa Q Hd (fun n => Ef n wa)) as (n2 & E').
      rewrite E' in E2. injection E2 as _ _ <-. apply (faulty_split _ (tick wb)) in F. tauto. }
    split. { intros _ _ k Hk. apply Ki in Hk. cbn [tops]. apply in_or_app. destruct Hk as [<-|Hk]; [right; now left|now left]. }
    intros C A _ M. rewrite Zi, (ZL C (tick wc)); auto; [lia|]. intros Hin. apply (A name Hin). now left.
Qed.
End Loop.

Ltac wider := eapply faulty_wider; [eassumption|lia|lia].
Ltac narrow := eapply not_faulty; [eassumption|lia|lia].

(** ** All types *)

Lemma step_weak (h h' c c' m m' mp mp' : Prop) nm nm' n w r E V : (h' -> h) -> (c' -> c) -> (c' -> m' -> m) -> (c' -> mp -> mp') -> (mp' -> mp) -> nm = nm' ->
  step h c m mp nm n w r E V -> step h' c' m' mp' nm' n w r E V.
Proof.
  intros Hh Hc Hm Hmp Hmp' <- (st & n' & w' & L & E' & T & Hh' & W & V' & X & Y & I & Z0). exists st, n', w', L.
  do 6 (split; [assumption|]). split; [auto|]. split; [intros C N; apply I; [auto|]; intros M; auto|].
  intros C A P M. apply Z0; auto. destruct M; auto.
Qed.

Lemma step_seq (h1 h2 c1 c2 m1 m2 mp : Prop) nm1 nm2 n w r E1 V1 K KV :
  step h1 c1 m1 mp nm1 n w r E1 V1 ->
  (forall n1 w1 r1, wf_top n1 -> holds w1 (ids n1 ++ r1) -> step h2 c2 m2 False nm2 n1 w1 r1 (K n1 w1) (KV (erase n1))) ->
  step (h1 /\ h2) (~ mp /\ c1 /\ c2 /\ apart nm1 nm2) (m1 /\ m2) False (nm1 ++ nm2) n w r
    (let! (st, n, w) := E1 in if negb (status_eqb st kOk) then Ret (st, n, w) else K n w)
    (let! (st, v) := V1 in if negb (status_eqb st kOk) then Ret (st, v) else KV v).
Proof.
  intros (st1 & n1 & w1 & L1 & -> & T1 & H1 & W1 & V1' & X1 & Y1 & I1 & Z1) HK. cbn [bind].
  destruct (status_cases st1) as [->|Hst].
  - rewrite status_eqb_refl. cbn [negb]. destruct (HK n1 w1 (L1 ++ r) W1 H1) as (st2 & n2 & w2 & L2 & -> & T2 & H2 & W2 & V2 & X2 & Y2 & I2 & Z2).
    exists st2, n2, w2, (L2 ++ L1). split; [reflexivity|]. split; [lia|]. split; [rewrite <- app_assoc; exact H2|]. split; [exact W2|].
    split. { intros N. rewrite V1' by narrow. cbn [bind]. rewrite status_eqb_refl. apply V2. narrow. }
    split; [intros S; apply X2 in S; wider|]. split.
    { intros [h h'] F. apply (faulty_split _ (tick w1)) in F. destruct F as [F|F]; [apply Y1 in F; [discriminate|exact h]|auto]. }
    split.
    { intros (Nm & C1 & C2 & A) _ k Hk. apply I2 in Hk; [|exact C2|tauto]. rewrite !in_app_iff in *. destruct Hk as [Hk|Hk]; [|tauto].
      apply I1 in Hk; [|exact C1|exact Nm]. rewrite in_app_iff in Hk. tauto. }
    intros (Nm & C1 & C2 & A) Ap _ M. rewrite Z2, Z1; auto.
    + intros k K1 K2. apply (Ap k K1). apply in_or_app. now left.
    + tauto.
    + destruct M as [M|M]; [left; tauto|right; narrow].
    + intros k K1 K2. apply I1 in K1; [|exact C1|exact Nm]. apply in_app_or in K1. destruct K1 as [K1|K1]; [|exact (A k K1 K2)].
      apply (Ap k K1). apply in_or_app. now right.
    + tauto.
    + destruct M as [M|M]; [left; tauto|right; narrow].
  - rewrite (status_eqb_neq st1 kOk) by auto. cbn [negb].
    exists st1, n1, w1, L1. do 4 (split; [assumption||reflexivity|]). split.
    { intros N. rewrite V1' by narrow. cbn [bind]. now rewrite (status_eqb_neq st1 kOk). }
    split; [exact X1|]. split; [tauto|]. split.
    { intros (Nm & C1 & C2 & A) _ k Hk. apply I1 in Hk; [|exact C1|exact Nm]. rewrite !in_app_iff in *. tauto. }
    intros (Nm & C1 & C2 & A) Ap _ M. apply Z1; auto; [|tauto|destruct M; tauto].
    intros k K1 K2. apply (Ap k K1). apply in_or_app. now left.
Qed.

Lemma assign_step t s n w r v : wf_top n -> holds w (ids n ++ r) -> tnames t = [] -> ~ is_map t ->
  v = match erase n with VString _ => (kOk, VString s) | _ => (kInvalidValueType, erase n) end ->
  tstep t n w r (assign_o fails s n w) (Ret v).
Proof.
  intros Hn H Nm Mp ->.
  destruct n as [id x|id x|id x|id|id l|id m order]; try (apply step_same; [exact H|exact Hn|discriminate|reflexivity]).
  cbn [assign_o]. destruct (ask_spec2 w _ H) as (ok & wa & Ea & Ta & Ha & Na). rewrite Ea. destruct ok.
  - exists kOk, (NString id s), wa, []. split; [reflexivity|]. split; [lia|]. split; [exact Ha|]. split; [exact I|]. split; [reflexivity|].
    split; [discriminate|]. split; [tauto|]. split; [intros _ _ k []|auto].
  - exists kException, (NString id x), wa, []. split; [reflexivity|]. split; [lia|]. split; [exact Ha|]. split; [exact I|]. split; [tauto|].
    split; [auto|]. split; [auto|]. split; [intros _ _ k []|auto].
Qed.

(** Arrays and vectors. *)
Lemma array_step (vec : bool) t ds n w r :
  (forall d n w r, has_type t d -> wf_top n -> holds w (ids n ++ r) -> tstep t n w r (serialize_o fails t d n w) (serialize t d (erase n))) ->
  Forall (has_type t) ds -> wf_top n -> holds w (ids n ++ r) ->
  step (honest t) (clean t) (map_free t) False [] n w r
    (match n with
     | NArray id l =>
         let! w := delete_all l w in
         let '(ok, w) := ask fails w in
         if negb ok then Ret (kException, NArray id [], w)
         else let! (st, l, w) := (if vec then serialize_vector_o fails t (serialize_o fails t) else serialize_elements_o fails t (serialize_o fails t)) ds [] w in
              Ret (st, NArray id l, w)
     | _ => Ret (kInvalidValueType, n, w)
     end)
    (match erase n with
     | VArray _ => let! (st, l) := (if vec then serialize_vector else serialize_elements) (fun d => serialize t d (create_value t)) ds [] in Ret (st, VArray l)
     | _ => Ret (kInvalidValueType, erase n)
     end).
Proof.
  intros IH Hd Hn H.
  destruct n as [id x|id x|id x|id|id l|id m order]; try (apply step_same; [exact H|exact Hn|discriminate|reflexivity]).
  destruct (delete_all_ok l w (id :: r)) as (w1 & E1 & T1 & H1).
  { eapply holds_perm; [exact H|]. cbn [ids app]. apply Permutation_middle. }
  rewrite E1. cbn [bind]. destruct (ask_spec2 w1 _ H1) as (ok & wa & Ea & Ta & Ha & Na). rewrite Ea. rewrite T1 in *. destruct ok; cbn [negb].
  2:{ exists kException, (NArray id []), wa, []. split; [reflexivity|]. split; [lia|]. split; [exact Ha|]. split; [exact I|]. split; [tauto|].
      split; [auto|]. split; [auto|]. split; [intros _ _ k []|auto]. }
  destruct (elements_o t (serialize_o fails t) IH vec ds [] wa (id :: r) Hd Ha) as (st & l' & w2 & L & E2 & T2 & H2 & V2 & X2 & Y2 & Z2).
  rewrite E2. cbn [bind]. exists st, (NArray id l'), w2, L. split; [reflexivity|]. split; [lia|]. split.
  { eapply holds_perm; [exact H2|]. cbn [ids app]. rewrite !app_assoc. symmetry. apply Permutation_middle. }
  split; [exact I|]. split. { intros N. cbn [erase]. cbn [map] in V2. rewrite V2 by narrow. reflexivity. }
  split; [intros S; apply X2 in S; wider|]. split.
  { intros Ho F. apply (faulty_split _ (tick wa)) in F. destruct F as [F|F]; [tauto|auto]. }
  split; [intros _ _ k []|]. intros C _ _ M. apply Z2; auto. destruct M as [M|M]; [left; exact M|right; narrow].
Qed.

(** Maps. *)
Lemma map_step t es n w r :
  (forall d n w r, has_type t d -> wf_top n -> holds w (ids n ++ r) -> tstep t n w r (serialize_o fails t d n w) (serialize t d (erase n))) ->
  Forall (fun kd => has_type t (snd kd)) es -> increasing (map fst es) -> Forall good_key (map fst es) -> wf_top n -> holds w (ids n ++ r) ->
  step (honest t) (clean t) False True [] n w r
    (match n with
     | NObject id _ order =>
         let '(ok, w) := ask fails w in
         if negb ok then Ret (kException, NObject id Leaf order, w)
         else let! (st, m, w) := serialize_members_o fails t (serialize_o fails t) es Leaf w in Ret (st, NObject id m order, w)
     | _ => Ret (kInvalidValueType, n, w)
     end)
    (match erase n with
     | VObject _ order => let! (st, m) := serialize_members (fun d => serialize t d (create_value t)) es Leaf in Ret (st, VObject m order)
     | _ => Ret (kInvalidValueType, erase n)
     end).
Proof.
  intros IH Hd Hi Hg Hn H.
  destruct n as [id x|id x|id x|id|id l|id m order]; try (apply step_same; [exact H|exact Hn|discriminate|reflexivity]).
  destruct (ask_spec2 w _ H) as (ok & wa & Ea & Ta & Ha & Na). rewrite Ea. destruct ok; cbn [negb].
  2:{ exists kException, (NObject id Leaf order), wa, (tflat ids m). split; [reflexivity|]. split; [lia|]. split; [exact Ha|].
      split; [exact (wf_leaf (A := node))|]. split; [tauto|].
      split; [auto|]. split; [auto|]. split; [intros _ N; elim N; exact I|]. intros _ _ P. cbn [tops] in P. specialize (P I).
      intros _. unfold keys in P. apply map_eq_nil in P. rewrite tflat_elements, P. reflexivity. }
  destruct (members_o t (serialize_o fails t) IH es Leaf wa (id :: tflat ids m ++ r) Hd Hg (wf_leaf (A := node))) as (st & m' & w2 & L & E2 & T2 & H2 & W2 & V2 & X2 & Y2 & Z2).
  { exact Ha. }
  rewrite E2. cbn [bind]. exists st, (NObject id m' order), w2, (L ++ tflat ids m). split; [reflexivity|]. split; [lia|]. split.
  { eapply holds_perm; [exact H2|]. cbn [ids app]. rewrite <- !app_assoc. rewrite app_assoc. rewrite <- Permutation_middle. constructor. now rewrite <- app_assoc. }
  split; [exact W2|]. split. { intros N. cbn [erase]. cbn [tmap] in V2. rewrite V2 by narrow. reflexivity. }
  split; [intros S; apply X2 in S; wider|]. split.
  { intros Ho F. apply (faulty_split _ (tick wa)) in F. destruct F as [F|F]; [tauto|auto]. }
  split; [intros _ N; elim N; exact I|]. intros C _ P M. destruct M as [[]|M]. rewrite Z2; auto.
  - cbn [tops] in P. specialize (P I). unfold keys in P. apply map_eq_nil in P. rewrite tflat_elements, P. reflexivity.
  - now apply increasing_nodup.
  - intros k _ [].
  - narrow.
Qed.

Lemma cstr_keys (l : list (list Z * data)) : Forall good_key (map fst l) -> map (fun kd => (cstr (fst kd), snd kd)) l = l.
Proof.
  induction l as [|[k d] l IH]; intros H; [reflexivity|]. inversion H; subst. cbn [map fst snd]. rewrite cstr_good, IH by assumption. reflexivity.
Qed.

Lemma serialize_o_spec :
  (forall t d n w r, proper t -> has_type t d -> wf_top n -> holds w (ids n ++ r) ->
     tstep t n w r (serialize_o fails t d n w) (serialize t d (erase n))) /\
  (forall p ds n w r, proper_proto p -> has_types p ds -> wf_top n -> holds w (ids n ++ r) ->
     step (honest_proto p) (clean_proto p /\ NoDup (names p)) (map_free_proto p) False (names p) n w r
       (serialize_proto_o fails p ds n w) (serialize_proto p ds (erase n))).
Proof.
  assert (H : (forall t, proper t -> forall d n w r, has_type t d -> wf_top n -> holds w (ids n ++ r) ->
     tstep t n w r (serialize_o fails t d n w) (serialize t d (erase n))) /\
  (forall p, proper_proto p -> forall ds n w r, has_types p ds -> wf_top n -> holds w (ids n ++ r) ->
     step (honest_proto p) (clean_proto p /\ NoDup (names p)) (map_free_proto p) False (names p) n w r
       (serialize_proto_o fails p ds n w) (serialize_proto p ds (erase n)))).
  2:{ destruct H as [H1 H2]. split; auto. }
  apply ty_proto_ind.
  - intros _ d n w r (s & -> & _) Hn H. apply assign_step; auto.
  - intros _ d n w r (x & ->) Hn H. cbn. destruct n; try (apply step_same; [exact H|exact Hn|discriminate|reflexivity]).
    apply (step_same _ _ _ _ _ (NNumber id x)); [exact H|exact I|discriminate|reflexivity].
  - intros _ d n w r (x & ->) Hn H. cbn. destruct n; try (apply step_same; [exact H|exact Hn|discriminate|reflexivity]).
    apply (step_same _ _ _ _ _ (NBool id x)); [exact H|exact I|discriminate|reflexivity].
  - intros _ d n w r -> Hn H. cbn. destruct n; try (apply step_same; [exact H|exact Hn|discriminate|reflexivity]).
  - intros t IH Hp d n w r (ds & -> & Hd) Hn H. apply (array_step false t ds n w r); auto.
  - intros t IH Hp d n w r (m & -> & Hm & Hd) Hn H. cbn [serialize_o serialize]. rewrite map_elements_ok. cbn [bind].
    destruct Hm as (Ha & Hb & Hg). apply (step_weak (honest t) _ (clean t) _ False _ True _ [] _); try (intros; exact I); auto.
    apply map_step; auto.
  - intros _ d n w r (s & -> & Hs) Hn H. cbn [serialize_o serialize]. rewrite cstr_good by assumption. apply assign_step; auto.
  - intros t IH Hp d n w r (ds & -> & Hd) Hn H. apply (array_step true t ds n w r); auto.
  - intros t IH Hp d n w r (l & -> & Hi & Hg & Hd) Hn H. cbn [serialize_o serialize]. rewrite cstr_keys by assumption.
    apply (step_weak (honest t) _ (clean t) _ False _ True _ [] _); try (intros; exact I); auto.
    apply map_step; auto.
  - intros p IH Hp d n w r (ds & -> & Hd) Hn H. apply (IH Hp ds n w r Hd Hn H).
  - intros _ ds n w r Hd Hn H. destruct ds; [|destruct Hd]. apply step_same; [exact H|exact Hn|discriminate|reflexivity].
  - intros k init t IHt rest IHr (Hk & Hi & Hpt & Hpr) ds n w r Hd Hn H. destruct ds as [|d ds]; [destruct Hd|]. destruct Hd as [Hd Hds].
    assert (Seq : forall h1 c1 m1 mp nm1 E1 V1, step h1 c1 m1 mp nm1 n w r E1 V1 ->
      (honest_proto (PItem k init t rest) -> h1) -> (clean_proto (PItem k init t rest) -> NoDup (nm1 ++ names rest) -> c1 /\ ~ mp) ->
      (clean_proto (PItem k init t rest) -> map_free_proto (PItem k init t rest) -> m1) -> names (PItem k init t rest) = nm1 ++ names rest ->
      step (honest_proto (PItem k init t rest)) (clean_proto (PItem k init t rest) /\ NoDup (names (PItem k init t rest)))
        (map_free_proto (PItem k init t rest)) False (names (PItem k init t rest)) n w r
        (let! (st, n, w) := E1 in if negb (status_eqb st kOk) then Ret (st, n, w) else serialize_proto_o fails rest ds n w)
        (let! (st, v) := V1 in if negb (status_eqb st kOk) then Ret (st, v) else serialize_proto rest ds v)).
    { intros h1 c1 m1 mp nm1 E1 V1 S1 Hh Hc Hm Hnm. rewrite Hnm.
      eapply step_weak; [| | | | | |eapply step_seq; [exact S1|intros n1 w1 r1 W1 H1; exact (IHr Hpr ds n1 w1 r1 Hds W1 H1)]].
      - intros h. split; [auto|]. exact (proj2 h).
      - intros [C ND]. assert (C' := C). destruct C as (_ & _ & C). destruct (Hc C' ND) as [D1 D2]. split; [exact D2|]. split; [exact D1|].
        split; [split; [exact C|]|].
        + clear - ND. induction nm1 as [|x nm1 IH]; [exact ND|]. inversion ND; auto.
        + clear - ND. intros x X1 X2. induction nm1 as [|y nm1 IH]; [destruct X1|]. cbn in ND. inversion ND; subst.
          destruct X1 as [->|X1]; [apply H1; apply in_or_app; now right|auto].
      - intros [C _] M. split; [auto|]. exact (proj2 M).
      - intros _ [].
      - intros [].
      - reflexivity. }
    destruct k as [name|name|].
    + cbn [serialize_proto_o serialize_proto]. eapply Seq; [apply (named_o t (serialize_o fails t) (IHt Hpt) name d n w r); auto| | | |].
      * intros h. exact (proj1 h).
      * intros (_ & C & _) _. tauto.
      * intros _ M. exact (proj1 M).
      * reflexivity.
    + cbn [serialize_proto_o serialize_proto]. eapply Seq; [apply (named_o t (serialize_o fails t) (IHt Hpt) name d n w r); auto| | | |].
      * intros h. exact (proj1 h).
      * intros (_ & C & _) _. tauto.
      * intros _ M. exact (proj1 M).
      * reflexivity.
    + cbn [serialize_proto_o serialize_proto]. eapply Seq; [apply (IHt Hpt d n w r); auto| | | |].
      * intros h. exact (proj1 h).
      * intros (C1 & C2 & _) _. tauto.
      * intros _ M. exact (proj1 M).
      * cbn [names]. destruct t; reflexivity.
Qed.
End OwnSerial.

(** ** The document *)

Lemma free_dead id w : ~ In id (live w) -> free id w = UB.
Proof.
  intros H. unfold free. enough (take_out id (live w) = None) as -> by reflexivity.
  revert H. generalize (live w) as l. induction l as [|x l IH]; intros H; [reflexivity|]. cbn [take_out].
  destruct (Nat.eqb_spec x id) as [->|Hne]; [elim H; now left|]. rewrite IH; [reflexivity|]. intros Hi. apply H. now right.
Qed.

Lemma delete_dead n : forall w, (forall id, In id (ids n) -> ~ In id (live w)) -> delete n w = UB.
Proof.
  induction n as [id s|id d|id b|id|id l IH|id m order IH] using node_induct; intros w H; try (apply free_dead, H; now left).
  - destruct l as [|x l].
    + cbn. apply free_dead, H. now left.
    + inversion IH as [|? ? Hx _]; subst. cbn [delete]. rewrite Hx; [reflexivity|]. intros i Hi. apply H. cbn [ids flat_map]. right. apply in_or_app. now left.
  - cbn [delete].
    set (go := fix go (m : tree node) (w : world) : out world :=
      match m with Leaf => Ret w | Node l _ v _ r => let! w := go l w in let! w := go r w in delete v w end).
    assert (Hgo : m = Leaf \/ go m w = UB).
    { assert (Hm : forall i, In i (tflat ids m) -> ~ In i (live w)) by (intros i Hi; apply H; right; exact Hi).
      clear H id order. induction m as [|l IHl k v b r IHr]; [now left|]. right. destruct IH as (Hl & Hv & Hr).
      cbn. destruct (IHl Hl) as [->|E]; [intros i Hi; apply Hm; cbn; apply in_or_app; now left| |now rewrite E].
      cbn [go bind]. destruct (IHr Hr) as [->|E]; [intros i Hi; apply Hm; cbn; apply in_or_app; now right| |now rewrite E].
      cbn [go bind]. apply Hv. intros i Hi. apply Hm. cbn. rewrite app_nil_r. exact Hi. }
    destruct Hgo as [->|E]; [cbn; apply free_dead, H; now left|now rewrite E].
Qed.

Lemma delete_root_ok root w r : holds w (oids root ++ r) -> exists w', delete_root root w = Ret w' /\ tick w' = tick w /\ holds w' r.
Proof. intros H. destruct root as [n|]; [now apply delete_ok|]. exists w. auto. Qed.

Lemma sd_serialize_o_spec fails t d root w r : proper t -> has_type t d -> holds w (oids root ++ r) ->
  (exists w', sd_serialize_o fails t d root w = Ret (kException, root, w') /\ tick w' = S (tick w) /\ fails (tick w) = true /\ holds w' r) \/
  (fails (tick w) = false /\ exists st n w' L, sd_serialize_o fails t d root w = Ret (st, Some n, w') /\ (tick w < tick w')%nat /\
    holds w' (ids n ++ L ++ r) /\
    (~ faulty fails (tick w) (tick w') -> sd_serialize t d (option_map erase root) = Ret (st, Some (erase n))) /\
    (st = kException -> faulty fails (tick w) (tick w')) /\
    (honest t -> faulty fails (tick w) (tick w') -> st = kException) /\
    (clean t -> map_free t \/ ~ faulty fails (tick w) (tick w') -> L = [])).
Proof.
  intros Hp Hd H. destruct (delete_root_ok root w r H) as (w0 & E0 & T0 & H0).
  unfold sd_serialize_o. rewrite E0. cbn [bind]. destruct (create_spec fails t w0 r H0) as (o & w1 & E1 & T1 & Ho). rewrite E1.
  destruct (fails (tick w)) eqn:F.
  - left. destruct o as [n|].
    + destruct Ho as (id & _ & _ & N). elim N. exists (tick w). split; [lia|exact F].
    + destruct Ho as [Hh _]. exists w1. split; [reflexivity|]. split; [lia|]. split; [reflexivity|exact Hh].
  - right. split; [reflexivity|]. destruct o as [n|].
    2:{ destruct Ho as [_ (k & Hk & Fk)]. replace k with (tick w) in Fk by lia. congruence. }
    destruct Ho as (id & -> & Hh & N1).
    destruct (proj1 (serialize_o_spec fails) t d (create_node t id) w1 r Hp Hd (wf_create t id) Hh) as (st & n & w2 & L & E2 & T2 & H2 & _ & V & X & Y & _ & Z0).
    rewrite E2. cbn [bind]. exists st, n, w2, L. split; [reflexivity|]. split; [lia|]. split; [exact H2|].
    assert (D : forall P : Prop, (~ faulty fails (tick w1) (tick w2) -> P) -> ~ faulty fails (tick w) (tick w2) -> P).
    { intros P HP N. apply HP. eapply not_faulty; [exact N|lia|lia]. }
    split. { apply D. intros N. unfold sd_serialize. rewrite erase_create in V. now rewrite V. }
    split; [intros S; apply X in S; eapply faulty_wider; [exact S|lia|lia]|]. split.
    { intros Ho F'. apply (faulty_split fails _ (tick w1)) in F'. destruct F' as [F'|F']; [|auto]. elim N1. eapply faulty_wider; [exact F'|lia|lia]. }
    intros C M. apply Z0; auto.
    + rewrite tops_create. intros k [].
    + intros _. apply tops_create.
    + destruct M as [M|M]; [now left|right]. eapply not_faulty; [exact M|lia|lia].
Qed.

(** ** What stands behind a NUL *)

Lemma cstr_cstr s : cstr (cstr s) = cstr s.
Proof. induction s as [|c s IH]; [reflexivity|]. cbn [cstr]. destruct (Z.eqb_spec c 0); [reflexivity|]. cbn [cstr]. destruct (Z.eqb_spec c 0); [lia|]. now rewrite IH. Qed.

Lemma elements_each {A B} (f : A -> B) (m : tree A) : elements (each f m) = map (fun kd => (fst kd, f (snd kd))) (elements m).
Proof. induction m as [|l IHl k v b r IHr]; [reflexivity|]. cbn [each elements]. change (each f l) with (each f l). rewrite map_app. cbn [map fst snd]. now rewrite <- IHl, <- IHr. Qed.

Section Cut.
Variable fails : nat -> bool.

Lemma cut_elements t ds : (forall d n w, serialize_o fails t (cut t d) n w = serialize_o fails t d n w) ->
  forall acc w, serialize_elements_o fails t (serialize_o fails t) (map (cut t) ds) acc w = serialize_elements_o fails t (serialize_o fails t) ds acc w.
Proof.
  intros H. induction ds as [|d ds IH]; intros acc w; [reflexivity|]. cbn [map serialize_elements_o]. destruct (create_o fails t w) as [[n|] w']; [|reflexivity].
  rewrite H. destruct (serialize_o fails t d n w') as [[[st n'] w2]| |]; cbn [bind]; [|reflexivity|reflexivity]. now rewrite IH.
Qed.

Lemma cut_vector t ds : (forall d n w, serialize_o fails t (cut t d) n w = serialize_o fails t d n w) ->
  forall acc w, serialize_vector_o fails t (serialize_o fails t) (map (cut t) ds) acc w = serialize_vector_o fails t (serialize_o fails t) ds acc w.
Proof.
  intros H. induction ds as [|d ds IH]; intros acc w; [reflexivity|]. cbn [map serialize_vector_o]. destruct (create_o fails t w) as [[n|] w']; [|reflexivity].
  rewrite H. destruct (serialize_o fails t d n w') as [[[st n'] w2]| |]; cbn [bind]; [|reflexivity|reflexivity]. now rewrite IH.
Qed.

Lemma cut_members t es : (forall d n w, serialize_o fails t (cut t d) n w = serialize_o fails t d n w) ->
  forall m w, serialize_members_o fails t (serialize_o fails t) (map (fun kd => (fst kd, cut t (snd kd))) es) m w = serialize_members_o fails t (serialize_o fails t) es m w.
Proof.
  intros H. induction es as [|[k d] es IH]; intros m w; [reflexivity|]. cbn [map serialize_members_o fst snd]. destruct (create_o fails t w) as [[n|] w']; [|reflexivity].
  destruct (ask fails w') as [ok w1]. destruct (negb ok); [reflexivity|].
  rewrite H. destruct (serialize_o fails t d n w1) as [[[st n'] w2]| |]; cbn [bind]; [|reflexivity|reflexivity]. destruct (negb _); [reflexivity|].
  destruct (insert_map_element m k n') as [[m' o]| |]; [|reflexivity|reflexivity]. cbn [bind]. apply IH.
Qed.

Definition item_o (k : mention) (t : ty) (d : data) (n : node) (w : world) : out (status * node * world) :=
  match k with
  | Anonymous => serialize_o fails t d n w
  | Named name | Optional name => serialize_named_o fails name t (serialize_o fails t d) n w
  end.
Lemma proto_item k o t rest d ds n w : serialize_proto_o fails (PItem k o t rest) (d :: ds) n w =
  let! (st, n, w) := item_o k t d n w in
  if negb (status_eqb st kOk) then Ret (st, n, w) else serialize_proto_o fails rest ds n w.
Proof. destruct k; reflexivity. Qed.

Lemma serialize_cut :
  (forall t d n w, serialize_o fails t (cut t d) n w = serialize_o fails t d n w) /\
  (forall p ds n w, serialize_proto_o fails p (cut_items p ds) n w = serialize_proto_o fails p ds n w).
Proof.
  apply ty_proto_ind.
  - intros d n w. reflexivity.
  - intros d n w. reflexivity.
  - intros d n w. reflexivity.
  - intros d n w. reflexivity.
  - intros t IH d n w. destruct d; try reflexivity. cbn [cut serialize_o]. destruct n; try reflexivity.
    destruct (delete_all _ w) as [w1| |]; try reflexivity. cbn [bind]. destruct (ask fails w1) as [ok w2]. now rewrite cut_elements.
  - intros t IH d n w. destruct d; try reflexivity. cbn [cut serialize_o]. destruct n; try reflexivity. rewrite !map_elements_ok, elements_each. cbn [bind].
    destruct (ask fails w) as [ok w2]. now rewrite cut_members.
  - intros d n w. destruct d; try reflexivity. cbn [cut serialize_o]. now rewrite cstr_cstr.
  - intros t IH d n w. destruct d; try reflexivity. cbn [cut serialize_o]. destruct n; try reflexivity.
    destruct (delete_all _ w) as [w1| |]; try reflexivity. cbn [bind]. destruct (ask fails w1) as [ok w2]. now rewrite cut_vector.
  - intros t IH d n w. destruct d; try reflexivity. cbn [cut serialize_o]. destruct n; try reflexivity.
    destruct (ask fails w) as [ok w2]. rewrite map_map. cbn [fst snd].
    rewrite <- (cut_members t (map (fun kd => (cstr (fst kd), snd kd)) l) IH), map_map. cbn [fst snd].
    erewrite map_ext; [reflexivity|]. intros [k d]. cbn [fst snd]. now rewrite cstr_cstr.
  - intros p IH d n w. destruct d; try reflexivity. apply IH.
  - intros ds n w. reflexivity.
  - intros k o t IHt rest IHr ds n w. destruct ds as [|d ds]; [now destruct k|]. cbn [cut_items]. rewrite !proto_item.
    replace (item_o k t (cut t d) n w) with (item_o k t d n w).
    + destruct (item_o k t d n w) as [[[st n'] w2]| |]; cbn [bind]; [|reflexivity|reflexivity]. now rewrite IHr.
    + destruct k; cbn [item_o]; [| |now rewrite IHt]; unfold serialize_named_o; destruct n; try reflexivity;
        destruct (create_o fails t w) as [[x|] w1]; try reflexivity; destruct (ask fails w1) as [ok w2]; now rewrite IHt.
Qed.
End Cut.
