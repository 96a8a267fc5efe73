(** * SerializeFrom when memory runs out: C97.

    [fails k] says whether the k-th request for memory throws; [holds w l] says that the
    value objects alive in [w] are exactly those of [l] (PropOwn.v); [delete_root] is what
    the destructor of the document does. *)

From Coq Require Import Permutation.
From Verif Require Import Base TextModel NumModel MapModel ParserModel SpecMap SpecGrammar SpecMeaning MapProofs WriterModel
  AccessModel SchemaModel SpecSchema SchemaProofs OwnModel SpecOwn OwnProofs OwnParse PropOwn OwnSerialModel SpecOwnSerial OwnSerialProofs
  PropSchema Str.

(** ** What goes wrong *)

(** The document holds a value, SerializeFrom cannot make the new root and says
    kException: the document still points to the old value, which is deleted, and the
    destructor deletes it again. *)
Theorem C97_dangling_refuted : exists fails t d root w w',
  proper t /\ has_type t d /\ holds w (oids root) /\
  sd_serialize_o fails t d root w = Ret (kException, root, w') /\ root <> None /\
  live w' = [] /\ delete_root root w' = UB.
Proof.
  exists (only 1), TBool, (DBool true), (Some (NNumber 0 (S754_zero false))), (World 1 [0%nat]). eexists.
  split; [exact I|]. split; [exists true; reflexivity|]. split; [repeat constructor; intros []|].
  split; [vm_compute; reflexivity|]. split; [discriminate|]. split; reflexivity.
Qed.
Print Assumptions C97_dangling_refuted.

(** So it is for every type and every document that is not empty, whenever the first
    request fails: destroying the document, or using SerializeFrom again, is undefined. *)
Theorem C97_dangling (fails : nat -> bool) (t : ty) (d : data) (n : node) (w : world) (old : list nat) :
  holds w (ids n ++ old) -> fails (tick w) = true ->
  exists w', sd_serialize_o fails t d (Some n) w = Ret (kException, Some n, w') /\ Permutation (live w') old /\
    delete_root (Some n) w' = UB /\ forall fails' t' d', sd_serialize_o fails' t' d' (Some n) w' = UB.
Proof.
  intros H F. destruct (delete_ok n w old H) as (w1 & E1 & T1 & H1).
  unfold sd_serialize_o at 1, delete_root. rewrite E1. cbn [bind]. unfold create_o, new_value. rewrite T1, F.
  eexists. split; [reflexivity|]. cbn [live]. split; [apply H1|].
  assert (D : delete n (World (S (tick w)) (live w1)) = UB).
  { apply delete_dead. cbn [live]. intros i Hi Hl. destruct H as [[ND _] P]. destruct H1 as [_ P1].
    rewrite P in ND. apply (Permutation_in _ P1) in Hl. clear - ND Hi Hl.
    induction (ids n) as [|x l IH]; [destruct Hi|]. cbn in ND. inversion ND; subst. destruct Hi as [->|Hi]; [|auto].
    apply H1. apply in_or_app. now right. }
  split; [exact D|]. intros fails' t' d'. unfold sd_serialize_o, delete_root. now rewrite D.
Qed.
Print Assumptions C97_dangling.

(** A member of a structure loses its contents, and the call says kOk. *)
Definition tnamed : ty := TStruct (PItem (Named (`"name")) None TString PNil).
Definition dnamed : data := DStruct [DString (`"a name")].

Theorem C97_silent_refuted : exists fails t d n w,
  proper t /\ has_type t d /\ sd_serialize_o fails t d None start = Ret (kOk, Some n, w) /\
  (exists k, (k < tick w)%nat /\ fails k = true) /\
  erase n = VObject (Node Leaf (`"name") (VString []) 0 Leaf) [`"name"] /\
  sd_serialize t d None = Ret (kOk, Some (VObject (Node Leaf (`"name") (VString (`"a name")) 0 Leaf) [`"name"])).
Proof.
  exists (only 3), tnamed, dnamed. eexists _, _. split; [repeat split; repeat constructor|].
  split; [typed; auto|].
  split; [vm_compute; reflexivity|]. split; [exists 3%nat; split; [repeat constructor|reflexivity]|]. split; vm_compute; reflexivity.
Qed.
Print Assumptions C97_silent_refuted.

(** A map: the name of the new element cannot be copied, and the element is lost. *)
Theorem C97_leak_refuted : exists fails t d n w,
  proper t /\ clean t /\ has_type t d /\ sd_serialize_o fails t d None start = Ret (kException, Some n, w) /\
  exists id, In id (live w) /\ ~ In id (ids n).
Proof.
  exists (only 3), (TStdMap TBool), (DStdMap [(`"a", DBool true)]). eexists _, _. split; [exact I|]. split; [exact I|].
  split; [typed|]. split; [vm_compute; reflexivity|]. exists 2%nat. split; [now left|]. intros [H|[]]. discriminate.
Qed.
Print Assumptions C97_leak_refuted.

(** Two cases in which memory is lost without any failure: a structure with two members
    of one name, and a map as anonymous member after a named one. *)
Theorem C97_leak_twice_refuted : exists t d n w, proper t /\ has_type t d /\
  sd_serialize_o never t d None start = Ret (kOk, Some n, w) /\ exists id, In id (live w) /\ ~ In id (ids n).
Proof.
  exists (TStruct (PItem (Named (`"a")) None TBool (PItem (Named (`"a")) None TBool PNil))), (DStruct [DBool true; DBool false]).
  eexists _, _. split; [repeat split; repeat constructor|]. split; [typed|]. split; [vm_compute; reflexivity|].
  exists 5%nat. split; [now left|]. intros [H|[H|[]]]; discriminate.
Qed.
Print Assumptions C97_leak_twice_refuted.

Theorem C97_leak_anonymous_refuted : exists t d n w, proper t /\ has_type t d /\
  sd_serialize_o never t d None start = Ret (kOk, Some n, w) /\ exists id, In id (live w) /\ ~ In id (ids n).
Proof.
  exists (TStruct (PItem (Named (`"a")) None TBool (PItem Anonymous None (TStdMap TBool) PNil))), (DStruct [DBool true; DStdMap []]).
  eexists _, _. split; [repeat split; repeat constructor|]. split; [typed|]. split; [vm_compute; reflexivity|].
  exists 1%nat. split; [now left|]. intros [H|[]]; discriminate.
Qed.
Print Assumptions C97_leak_anonymous_refuted.

(** ** What is true *)

(** Missing from the full claim: documents that are not empty when the first request
    fails, and types with maps or repeated names, which lose memory. Whatever other
    requests fail, the call ends without an undefined step, the objects of the document are
    alive, the destructor leaves only what the call lost and what was there before, and
    for [clean] types that is nothing unless a request failed in a type with maps. *)
Theorem C97_safe_partial (fails : nat -> bool) (t : ty) (d : data) (root : option node) (w : world) (old : list nat) :
  proper t -> has_type t d -> holds w (oids root ++ old) -> root = None \/ fails (tick w) = false ->
  exists st root' w' lost w2, sd_serialize_o fails t d root w = Ret (st, root', w') /\
    holds w' (oids root' ++ lost ++ old) /\ delete_root root' w' = Ret w2 /\ holds w2 (lost ++ old) /\
    (clean t -> map_free t \/ (forall k, (tick w <= k < tick w')%nat -> fails k = false) -> lost = []).
Proof.
  intros Hp Hd H Hr. destruct (sd_serialize_o_spec fails t d root w old Hp Hd H)
    as [(w1 & E & _ & F & H1)|(_ & st & n & w1 & L & E & T & H1 & _ & _ & _ & Z0)].
  - destruct Hr as [->|F']; [|congruence]. exists kException, None, w1, [], w1. split; [exact E|]. repeat split; auto; apply H1.
  - destruct (delete_ok n w1 _ H1) as (w2 & E2 & _ & H2). exists st, (Some n), w1, L, w2. do 4 (split; [assumption|]).
    intros C M. apply Z0; [exact C|]. destruct M as [M|M]; [now left|right]. intros (k & Hk & Fk). rewrite M in Fk by exact Hk. discriminate.
Qed.
Print Assumptions C97_safe_partial.

(** Without failing requests the status and the value are those of [sd_serialize]
    (C29-C31), and kException always means that a request failed. *)
Theorem C97_agrees (fails : nat -> bool) (t : ty) (d : data) (root : option node) (w : world) (old : list nat) :
  proper t -> has_type t d -> holds w (oids root ++ old) ->
  exists st root' w', sd_serialize_o fails t d root w = Ret (st, root', w') /\
    ((forall k, (tick w <= k < tick w')%nat -> fails k = false) -> sd_serialize t d (option_map erase root) = Ret (st, option_map erase root')) /\
    (st = kException -> exists k, (tick w <= k < tick w')%nat /\ fails k = true).
Proof.
  intros Hp Hd H. destruct (sd_serialize_o_spec fails t d root w old Hp Hd H)
    as [(w1 & E & T & F & H1)|(_ & st & n & w1 & L & E & T & H1 & V & X & _)].
  - exists kException, root, w1. split; [exact E|]. split.
    + intros N. rewrite N in F by lia. discriminate.
    + intros _. exists (tick w). split; [lia|exact F].
  - exists st, (Some n), w1. split; [exact E|]. split.
    + intros N. apply V. intros (k & Hk & Fk). rewrite N in Fk by exact Hk. discriminate.
    + exact X.
Qed.
Print Assumptions C97_agrees.

(** What stands behind a NUL in a std::string, or in a key of a std::map, does not matter: the
    requests, the objects and the result are those of the object without it. *)
Theorem C97_cut (fails : nat -> bool) (t : ty) (d : data) (root : option node) (w : world) :
  sd_serialize_o fails t (cut t d) root w = sd_serialize_o fails t d root w.
Proof.
  unfold sd_serialize_o. destruct (delete_root root w) as [w1| |]; cbn [bind]; [|reflexivity|reflexivity].
  destruct (create_o fails t w1) as [[n|] w2]; [|reflexivity]. now rewrite (proj1 (serialize_cut fails)).
Qed.
Print Assumptions C97_cut.

Example C97_cut_instance :
  cut (TArray (TStdMap TStdString)) (DArray [DStdMap [(`"a" ++ 0 :: `"b", DString (0 :: `"c"))]]) = DArray [DStdMap [(`"a", DString [])]] /\
  sd_serialize_o never (TArray (TStdMap TStdString)) (DArray [DStdMap [(`"a" ++ 0 :: `"b", DString (0 :: `"c"))]]) None start =
    Ret (kOk, Some (NArray 0 [NObject 2 (Node Leaf (`"a") (NString 4 []) 0 Leaf) []]), World 7 [4%nat; 2%nat; 0%nat]).
Proof. split; vm_compute; reflexivity. Qed.

(** Every failure is reported, provided the named members of structures are numbers, truth
    values or null. *)
Theorem C97_reported_partial (fails : nat -> bool) (t : ty) (d : data) (root : option node) (w : world) (old : list nat) :
  proper t -> honest t -> has_type t d -> holds w (oids root ++ old) ->
  forall st root' w', sd_serialize_o fails t d root w = Ret (st, root', w') ->
  (st = kException <-> exists k, (tick w <= k < tick w')%nat /\ fails k = true).
Proof.
  intros Hp Ho Hd H st root' w' E'. destruct (sd_serialize_o_spec fails t d root w old Hp Hd H)
    as [(w1 & E & T & F & H1)|(_ & st1 & n & w1 & L & E & T & H1 & V & X & Y & _)]; rewrite E in E'; injection E' as <- <- <-.
  - split; [|auto]. intros _. exists (tick w). split; [lia|exact F].
  - split; [exact X|exact (Y Ho)].
Qed.
Print Assumptions C97_reported_partial.

(** ** Histories *)

(** A client: texts are parsed and objects stored, in any order. *)
Inductive use := UseParse (buf : list Z) | UseSerialize (t : ty) (d : data).

Definition good_use (u : use) : Prop :=
  match u with UseParse buf => bytes buf | UseSerialize t d => proper t /\ has_type t d end.

Fixpoint use_all (fails : nat -> bool) (root : option node) (us : list use) (w : world) : out (list status * option node * world) :=
  match us with
  | [] => Ret ([], root, w)
  | UseParse buf :: us =>
      let! (r, root, w) := sd_parse_o fails root buf w in
      let! (sts, root, w) := use_all fails root us w in
      Ret (pr_status r :: sts, root, w)
  | UseSerialize t d :: us =>
      let! (st, root, w) := sd_serialize_o fails t d root w in
      let! (sts, root, w) := use_all fails root us w in
      Ret (st :: sts, root, w)
  end.

(** [safe_uses]: no SerializeFrom meets a document that is not empty and an exhausted heap
    at its first request. *)
Fixpoint safe_uses (fails : nat -> bool) (root : option node) (us : list use) (w : world) : Prop :=
  match us with
  | [] => True
  | UseParse buf :: us =>
      forall r root' w', sd_parse_o fails root buf w = Ret (r, root', w') -> safe_uses fails root' us w'
  | UseSerialize t d :: us =>
      (root = None \/ fails (tick w) = false) /\
      forall st root' w', sd_serialize_o fails t d root w = Ret (st, root', w') -> safe_uses fails root' us w'
  end.

(** Then the document can be used and destroyed; with other failures memory may be lost,
    and nothing else happens. *)
Theorem C97_histories_partial (fails : nat -> bool) (us : list use) : Forall good_use us -> safe_uses fails None us start ->
  exists sts root w lost w', use_all fails None us start = Ret (sts, root, w) /\ length sts = length us /\
    holds w (oids root ++ lost) /\ delete_root root w = Ret w' /\ Permutation (live w') lost.
Proof.
  intros HU. assert (HS : holds start (oids None ++ [])) by exact holds_start. revert HS.
  generalize start as w. generalize (@None node) as root. generalize (@nil nat) as old.
  induction HU as [|u us Hu HU IH]; intros old root w H HS.
  - destruct (delete_root_ok root w old H) as (w' & E & _ & H'). exists [], root, w, old, w'. repeat split; auto; apply H || apply H'.
  - destruct u as [buf|t d].
    + destruct (root_o_spec fails root buf w old Hu H) as (st & ln & co & r & w2 & L & E2 & _ & H2 & _).
      destruct (IH _ _ _ H2 (HS _ _ _ E2)) as (rs & root2 & w3 & lost & w4 & I1 & I2 & I3 & I4 & I5).
      exists (st :: rs), root2, w3, lost, w4. cbn [use_all]. rewrite E2. cbn [bind]. rewrite I1. cbn [bind length pr_status]. auto.
    + destruct Hu as [Hp Hd]. destruct HS as [Hr HS].
      destruct (C97_safe_partial fails t d root w old Hp Hd H Hr) as (st & r & w2 & L & w5 & E2 & H2 & _).
      destruct (IH _ _ _ H2 (HS _ _ _ E2)) as (rs & root2 & w3 & lost & w4 & I1 & I2 & I3 & I4 & I5).
      exists (st :: rs), root2, w3, lost, w4. cbn [use_all]. rewrite E2. cbn [bind]. rewrite I1. cbn [bind length]. auto.
Qed.
Print Assumptions C97_histories_partial.

(** ** Instances *)

Definition shape_data2 : data :=
  DStruct [DString (`"n"); DArray [DStruct [DDouble one; DDouble two]; DStruct [DDouble two; DDouble one]];
           DMap (Node Leaf (`"f") (DBool true) 0 Leaf); DStruct [DDouble one; DDouble one]].

(** Each of the first forty requests fails in turn: the call ends, and the document can be destroyed. *)
Definition outcome97 (k : nat) : option (status * nat) :=
  match sd_serialize_o (only k) tshape shape_data2 None start with
  | Ret (st, root, w) => match delete_root root w with Ret w => Some (st, length (live w)) | _ => None end
  | _ => None
  end.

Example C97_instance :
  proper tshape /\ clean tshape /\ ~ map_free tshape /\ ~ honest tshape /\ has_type tshape shape_data2 /\
  Forall (fun o => o = Some (kOk, 0%nat) \/ o = Some (kOk, 1%nat) \/ o = Some (kException, 0%nat)) (map outcome97 (seq 0 60)) /\
  In (Some (kOk, 1%nat)) (map outcome97 (seq 0 60)) /\ In (Some (kException, 0%nat)) (map outcome97 (seq 0 60)) /\
  proper (TArray tpoint) /\ honest (TArray tpoint) /\ clean (TArray tpoint) /\ map_free (TArray tpoint).
Proof.
  split; [apply tshape_proper|]. split; [cbn; intuition (try discriminate); repeat constructor; cbn; intuition discriminate|].
  split; [intros (_ & _ & [] & _)|]. split; [intros ([] & _)|].
  split. { typed; auto; try (unfold wf_map; typed); try apply wf_leaf; repeat constructor; auto; lia. }
  split; [|split; [vm_compute; auto 80|split; [vm_compute; auto|repeat split; repeat constructor; cbn; intuition discriminate]]].
  remember (map outcome97 (seq 0 60)) as l eqn:E. vm_compute in E. subst l. repeat (apply Forall_cons; [auto|]). apply Forall_nil.
Qed.
