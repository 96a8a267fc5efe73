(** * Properties of Validate, Deserialize and Serialize: C26 - C31, C45. *)

From Verif Require Import Base Str NumModel MapModel ParserModel WriterModel SpecUtf8 SpecMap SpecGrammar MapProofs SpecMeaning
  ParserProofs RootProofs SpecWrite WriterProofs PropWrite SchemaModel SpecSchema SchemaProofs StoreProofs.
From Coq Require Import Floats.SpecFloat.

Definition one : double := S754_finite false 4503599627370496 (-52).
Definition two : double := S754_finite false 4503599627370496 (-51).

(** struct Point { double x; double y; }, both members required. *)
Definition tpoint : ty := TStruct (PItem (Named `"x") None TDouble (PItem (Named `"y") None TDouble PNil)).

(** A structure using every kind of member: { String name; Array<Point> points;
    optional ObjectMap<bool> flags; Point (anonymous) }. *)
Definition tshape : ty :=
  TStruct (PItem (Named `"name") None TString
          (PItem (Named `"points") None (TArray tpoint)
          (PItem (Optional `"flags") None (TObjectMap TBool)
          (PItem Anonymous None tpoint PNil)))).

Definition shape_text : list Z :=
  `"{""name"":""n"",""extra"":null,""points"":[{""x"":1,""y"":2},{""y"":1,""x"":2,""z"":0}],""x"":1,""y"":1}".

Definition shape_value : value :=
  match sd_parse None (shape_text ++ [0]) with Ret (_, Some v) => v | _ => VNull end.

Definition any_junk : junk := Junk (S754_infinity true) true.

Ltac typed := simpl; repeat match goal with
  | |- exists _, _ => eexists
  | |- _ /\ _ => split
  | |- good_key _ => repeat constructor
  | |- Forall _ _ => constructor
  | |- _ = _ => reflexivity
  | |- True => exact I
  | _ => progress simpl
  end.

Lemma bytes_forallb l : forallb (fun c => (0 <=? c) && (c <? 256)) l = true -> bytes l.
Proof. intros H. apply Forall_forall. intros c Hc. rewrite forallb_forall in H. specialize (H c Hc). unfold is_byte. lia. Qed.

Lemma tshape_proper : proper tshape.
Proof. repeat split; repeat constructor; auto. Qed.

Lemma parsed_sound buf v l c : bytes buf -> sd_parse None buf = Ret (PR kOk l c, Some v) -> sound_value v /\ exists j, shows v j.
Proof.
  intros HB H. apply root_sound in H; [|auto]. destruct H as (t & rest & j & v' & _ & _ & _ & _ & E & (Hr & Hw & _) & _). injection E as <-.
  split; [apply wf_sound; auto|]. exists j. apply represents_shows. auto.
Qed.

(** ** C26: Validate gives the status that Deserialize would give, whatever the
    destination holds; neither has undefined behaviour. *)
Theorem C26_validate_predicts (g : junk) (t : ty) (v : value) : proper t -> sound_value v ->
  exists st, sd_validate t (Some v) = Ret st /\
    forall d, has_type t d -> exists d', sd_deserialize g t (Some v) d = Ret (st, d') /\ has_type t d'.
Proof. intros Hp Hs. exists (vstat t v). apply (agree g); auto. Qed.
Print Assumptions C26_validate_predicts.

Example C26_instance : sound_value shape_value /\ sd_validate tshape (Some shape_value) = Ret kOk /\
  sd_validate tpoint (Some VNull) = Ret kInvalidValueType /\ sd_validate (TArray tpoint) (Some (VArray [VObject Leaf []])) = Ret kNameNotPresent.
Proof.
  split.
  - apply (parsed_sound (shape_text ++ [0]) shape_value 0 0); [|vm_compute; reflexivity].
    apply bytes_forallb. reflexivity.
  - repeat split; vm_compute; reflexivity.
Qed.

(** ** C27 *)

(** When the document is valid for the type, Deserialize succeeds and the object
    then holds what the document says: every member named by the prototype its
    value, arrays exactly the elements in order, maps the union. Members
    of the document that the prototype does not name do not occur in [reads].
    All types. *)
Theorem C47_valid_delivers (g : junk) (t : ty) (v : value) (j : jv) (d0 : data) :
  proper t -> sound_value v -> shows v j -> valid t j -> has_type t d0 ->
  exists d, sd_deserialize g t (Some v) d0 = Ret (kOk, d) /\ has_type t d /\ reads g t j (content d0) (content d).
Proof. intros Hp Hs Hsh Hv Hd. destruct (proj1 (deliver g) t Hp v j Hs Hsh Hv) as [_ H]. apply H. auto. Qed.
Print Assumptions C47_valid_delivers.

(** The same from the text. *)
Theorem C47_text_delivers (g : junk) (t : ty) (txt : list Z) (j : jv) (d0 : data) :
  proper t -> lib_doc txt j -> (2 <= length txt)%nat -> valid t j -> has_type t d0 ->
  exists v d, (forall root, sd_parse root (txt ++ [0]) = Ret (PR kOk 0 0, Some v)) /\
    sd_deserialize g t (Some v) d0 = Ret (kOk, d) /\ reads g t j (content d0) (content d).
Proof.
  intros Hp Hd HL Hv Hd0.
  assert (Hg : tokens good_key any_number j) by (eapply tokens_mono; [| |exact (lib_doc_tokens _ _ Hd)]; unfold any_number; auto).
  pose proof (build_good j Hg) as (Hr & Hw & _).
  destruct (C47_valid_delivers g t (build j) j d0) as (d & Ed & _ & H); auto using wf_sound, represents_shows.
  exists (build j), d. split; [|auto]. intros root.
  destruct (root_complete root txt j []) as (v & E' & (_ & _ & Ev)); auto; [now exists []|]. now rewrite <- Ev.
Qed.
Print Assumptions C47_text_delivers.

(** For types whose optional members have no required parts, kOk means that the
    document is valid, so that the object holds what the document says. *)
Theorem C27_ok_delivers_partial (g : junk) (t : ty) (v : value) (j : jv) (d0 d : data) :
  strict t -> proper t -> sound_value v -> shows v j -> has_type t d0 ->
  sd_deserialize g t (Some v) d0 = Ret (kOk, d) ->
  valid t j /\ reads g t j (content d0) (content d).
Proof.
  intros Hst Hp Hs Hsh Hd E. destruct (proj1 (agree g) t Hp v Hs) as [_ H]. destruct (H d0 Hd) as (d' & E' & _).
  unfold sd_deserialize in E. rewrite E in E'. injection E' as Est _.
  assert (Hv : valid t j) by (apply (proj1 accepted t Hst Hp v j); auto). split; [auto|].
  destruct (C47_valid_delivers g t v j d0 Hp Hs Hsh Hv Hd) as (d2 & E2 & _ & Hr). unfold sd_deserialize in E2. rewrite E in E2.
  injection E2 as ->. exact Hr.
Qed.
Print Assumptions C27_ok_delivers_partial.

(** In general kOk does not mean that: an optional array of three objects, the
    second of which lacks its required member, is accepted and the array ends
    up with one element. *)
Definition titems : ty := TStruct (PItem (Optional `"a") None (TArray (TStruct (PItem (Named `"b") None TDouble PNil))) PNil).

Theorem C27_refuted : exists t txt v j d0 d, proper t /\ has_type t d0 /\
  sd_parse None (txt ++ [0]) = Ret (PR kOk 0 0, Some v) /\ shows v j /\
  sd_deserialize any_junk t (Some v) d0 = Ret (kOk, d) /\ ~ valid t j /\
  j = JObj [(`"a", JArr [JObj [(`"b", JNum one)]; JObj []; JObj [(`"b", JNum two)]])] /\
  d = DStruct [DArray [DStruct [DDouble one]]].
Proof.
  exists titems, `"{""a"":[{""b"":1},{},{""b"":2}]}".
  eexists (match sd_parse None (`"{""a"":[{""b"":1},{},{""b"":2}]}" ++ [0]) with Ret (_, Some v) => v | _ => VNull end).
  exists (JObj [(`"a", JArr [JObj [(`"b", JNum one)]; JObj []; JObj [(`"b", JNum two)]])]), (DStruct [DArray []]).
  eexists. split; [repeat split; repeat constructor; auto|]. split; [typed|]. split; [vm_compute; reflexivity|].
  split.
  { apply represents_shows.
    match goal with |- represents ?v ?j => change (represents (build j) j) end.
    apply build_good. repeat constructor; simpl; auto. }
  split; [vm_compute; reflexivity|]. split; [|split; reflexivity].
  simpl. intros [[_ H] _]. destruct (H _ eq_refl) as (js & Ejs & HF). injection Ejs as <-.
  inversion HF as [|? ? _ HF']; subst. inversion HF' as [|? ? Hb _]; subst. destruct Hb as [(j' & Ej & _) _]. discriminate.
Qed.
Print Assumptions C27_refuted.

Example C27_instance : valid tshape (JObj [(`"x", JNum one); (`"y", JNum two); (`"q", JNull); (`"name", JStr `"n"); (`"points", JArr [])]) /\
  sd_deserialize any_junk tshape (Some shape_value) (fresh any_junk tshape) =
  Ret (kOk, DStruct [DString `"n"; DArray [DStruct [DDouble one; DDouble two]; DStruct [DDouble two; DDouble one]]; DMap Leaf;
                     DStruct [DDouble one; DDouble one]]) /\ strict tshape.
Proof.
  split; [|split; [vm_compute; reflexivity|]].
  - simpl. repeat split; eauto 6; try discriminate. unfold is_object. eauto.
  - simpl. tauto.
Qed.

(** ** C28 *)

Fixpoint joined (p q : proto) : proto := match p with PNil => q | PItem k i t p => PItem k i t (joined p q) end.
Fixpoint count (p : proto) : nat := match p with PNil => 0%nat | PItem _ _ _ p => S (count p) end.

(** An optional member whose name the document does not have, at any place of a
    prototype: the call does what it would do without the member, with the same
    status, and the member keeps its value. *)
Theorem C28_absent_partial (g : junk) (p q : proto) (name : list Z) (init : option data) (t : ty) m order ds1 d ds2 :
  find_map_element m name = None -> length ds1 = count p ->
  deserialize_proto g (joined p (PItem (Optional name) init t q)) (VObject m order) (ds1 ++ d :: ds2) =
  let! (st, ds) := deserialize_proto g (joined p q) (VObject m order) (ds1 ++ ds2) in
  Ret (st, firstn (count p) ds ++ d :: skipn (count p) ds).
Proof.
  intros Hf. revert ds1.
  induction p as [|k i t' p IH]; intros ds1 HL.
  - destruct ds1; [|discriminate]. cbn [app joined count deserialize_proto firstn skipn]. unfold deserialize_named. simpl. rewrite Hf. simpl.
    reflexivity.
  - destruct ds1 as [|d1 ds1]; [discriminate|]. injection HL as HL. cbn [app joined count deserialize_proto].
    assert (HC : forall (b : status -> bool) (x : out (status * data)),
      (let! (st, d0) := x in if b st then Ret (st, d0 :: ds1 ++ d :: ds2)
        else let! (st, ds) := deserialize_proto g (joined p (PItem (Optional name) init t q)) (VObject m order) (ds1 ++ d :: ds2) in Ret (st, d0 :: ds)) =
      let! (st, ds) := (let! (st, d0) := x in if b st then Ret (st, d0 :: ds1 ++ ds2)
        else let! (st, ds) := deserialize_proto g (joined p q) (VObject m order) (ds1 ++ ds2) in Ret (st, d0 :: ds)) in
      Ret (st, firstn (S (count p)) ds ++ d :: skipn (S (count p)) ds)).
    { intros b [[st d0]| |]; try reflexivity. cbn [bind]. destruct (b st).
      - cbn [bind firstn skipn app]. rewrite <- HL, firstn_app, firstn_all, Nat.sub_diag, skipn_app, skipn_all, Nat.sub_diag. simpl.
        rewrite app_nil_r. reflexivity.
      - rewrite IH by auto. destruct (deserialize_proto g (joined p q) (VObject m order) (ds1 ++ ds2)) as [[st' ds]| |]; reflexivity. }
    destruct k; apply HC.
Qed.
Print Assumptions C28_absent_partial.

(** When the member is present and its type has no required parts, the status is
    that of the member. *)
Theorem C28_present_partial (g : junk) (name : list Z) (init : option data) (t : ty) m order x d :
  no_required t -> proper t -> good_key name -> sound_value (VObject m order) -> find_map_element m name = Some x -> has_type t d ->
  exists st d', sd_validate t (Some x) = Ret st /\ sd_deserialize g t (Some x) d = Ret (st, d') /\
    sd_deserialize g (TStruct (PItem (Optional name) init t PNil)) (Some (VObject m order)) (DStruct [d]) = Ret (st, DStruct [d']).
Proof.
  intros Hn Hp Hgn Hs Hf Hd.
  assert (Hx : sound_value x).
  { inversion Hs; subst. eapply sound_find; eauto. }
  destruct (proj1 (agree g) t Hp x Hx) as [E1 H]. destruct (H d Hd) as (d' & E2 & _).
  exists (vstat t x), d'. split; [exact E1|]. split; [exact E2|].
  simpl. unfold deserialize_named. simpl. rewrite Hf, E2. simpl.
  pose proof (proj1 never_missing t Hn Hp x Hx) as Hnm. rewrite (status_eqb_neq _ _ Hnm).
  destruct (negb (status_eqb (vstat t x) kOk)) eqn:E; simpl; [reflexivity|].
  destruct (status_cases (vstat t x)) as [->|Hne]; [reflexivity|]. rewrite (status_eqb_neq _ _ Hne) in E. discriminate.
Qed.
Print Assumptions C28_present_partial.

(** In general a present member need not be valid: here it is an object that lacks
    a required member, the status is kOk, and the destination has been changed
    in part. *)
Theorem C28_refuted : exists t name x d d', proper t /\ sound_value x /\ has_type t d /\
  sd_validate t (Some x) = Ret kNameNotPresent /\
  sd_validate (TStruct (PItem (Optional name) None t PNil)) (Some (VObject (Node Leaf name x 0 Leaf) [name])) = Ret kOk /\
  sd_deserialize any_junk (TStruct (PItem (Optional name) None t PNil)) (Some (VObject (Node Leaf name x 0 Leaf) [name])) (DStruct [d]) =
    Ret (kOk, DStruct [d']) /\ d <> d'.
Proof.
  exists tpoint, `"p", (VObject (Node Leaf `"x" (VNumber one) 0 Leaf) [`"x"]), (DStruct [DDouble two; DDouble two]), (DStruct [DDouble one; DDouble two]).
  split; [repeat split; repeat constructor; auto|].
  split.
  { apply (parsed_sound (`"{""x"":1}" ++ [0]) _ 0 0); [apply bytes_forallb; reflexivity|vm_compute; reflexivity]. }
  split; [typed|]. repeat split; try (vm_compute; reflexivity). discriminate.
Qed.
Print Assumptions C28_refuted.

Example C28_instance :
  no_required (TArray TBool) /\
  sd_deserialize any_junk tshape (Some shape_value) (DStruct [DString []; DArray []; DMap (Node Leaf `"f" (DBool true) 0 Leaf); DStruct [DDouble two; DDouble two]]) =
  Ret (kOk, DStruct [DString `"n"; DArray [DStruct [DDouble one; DDouble two]; DStruct [DDouble two; DDouble one]];
                     DMap (Node Leaf `"f" (DBool true) 0 Leaf); DStruct [DDouble one; DDouble one]]).
Proof. split; [simpl; auto|vm_compute; reflexivity]. Qed.

(** ** C29 *)

(** For types with distinct names and without std::vector: SerializeFrom, whatever the
    document was, then DeserializeTo of a default object both succeed, and the
    object has the original content. *)
Theorem C46_storable_round_trip (g : junk) (t : ty) (d : data) (root : option value) :
  storable t -> proper t -> has_type t d ->
  exists v d', sd_serialize t d root = Ret (kOk, Some v) /\
    sd_deserialize g t (Some v) (fresh g t) = Ret (kOk, d') /\ has_type t d' /\ content d' = content d.
Proof.
  intros Hs Hp Hd. destruct (proj1 (proj1 store_all t Hs Hp) d Hd) as (v & E & Hsv & Hsh & _).
  exists v. unfold sd_serialize. rewrite E.
  destruct (C47_valid_delivers g t v (json t d) (fresh g t) Hp Hsv Hsh) as (d' & E' & Ht & Hr).
  - apply (proj1 valid_json t Hs). auto.
  - apply fresh_typed. auto.
  - exists d'. split; [reflexivity|]. split; [auto|]. split; [auto|].
    apply (proj1 (proj1 (reads_back g) t Hs Hp) d Hd (content (fresh g t))); auto. apply fresh_content_blank; auto.
Qed.
Print Assumptions C46_storable_round_trip.

(** Not so for a std::vector, and not for std::string with a zero byte. *)
Theorem C29_refuted :
  (exists t d v d', proper t /\ has_type t d /\ NoDup (match t with TStruct p => names p | _ => [] end) /\
     sd_serialize t d None = Ret (kOk, Some v) /\ sd_deserialize any_junk t (Some v) (fresh any_junk t) = Ret (kInvalidValueType, d')) /\
  (exists s v s', sd_serialize TStdString (DString s) None = Ret (kOk, Some v) /\
     sd_deserialize any_junk TStdString (Some v) (DString []) = Ret (kOk, DString s') /\ s <> s').
Proof.
  split.
  - exists (TStruct (PItem (Named `"a") None (TVector TDouble) PNil)), (DStruct [DArray [DDouble one]]). do 2 eexists.
    split; [repeat split; repeat constructor; auto|]. split; [typed|]. split; [repeat constructor; auto|].
    split; vm_compute; reflexivity.
  - exists [97; 0; 98], (VString [97]), [97]. repeat split; try (vm_compute; reflexivity). discriminate.
Qed.
Print Assumptions C29_refuted.

Definition shape_data : data :=
  DStruct [DString `"n"; DArray [DStruct [DDouble one; DDouble two]]; DMap (Node Leaf `"f" (DBool true) 0 Leaf);
           DStruct [DDouble two; DDouble one]].

Example C29_instance : storable tshape /\ proper tshape /\ has_type tshape shape_data /\
  exists v, sd_serialize tshape shape_data None = Ret (kOk, Some v) /\
    sd_deserialize any_junk tshape (Some v) (fresh any_junk tshape) = Ret (kOk, shape_data).
Proof.
  split; [|split; [apply tshape_proper|split]].
  - simpl. repeat split; auto; repeat constructor; simpl; intuition discriminate.
  - assert (Hf : wf_map (Node Leaf `"f" (DBool true) 0 Leaf)).
    { split; [|split; repeat constructor]. simpl. lia. }
    unfold shape_data, tshape, tpoint. typed. exact Hf.
  - eexists. split; vm_compute; reflexivity.
Qed.

(** ** C30 *)

(** When all named members are of storable types, kOk means that the tree has all
    the data, and SerializeFrom never has undefined behaviour. *)
Theorem C30_complete_partial (t : ty) (d : data) (root : option value) :
  reporting t -> proper t -> has_type t d ->
  exists st v, sd_serialize t d root = Ret (st, Some v) /\ sound_value v /\ (st = kOk -> shows v (json t d)).
Proof.
  intros Hr Hp Hd. destruct (outcome_create t (proj1 all_outcomes t (proj1 reporting_tidy t Hr) Hp) d Hd) as (st & v & E & Hv).
  exists st, v. unfold sd_serialize. rewrite E. split; [reflexivity|]. split; [auto|]. intros ->.
  apply (proj1 (proj1 report_all t Hr Hp) d v Hd E).
Qed.
Print Assumptions C30_complete_partial.

(** In general not: the status of a named member is ignored. A std::vector of
    any length is replaced by an object without members. *)
Theorem C30_refuted : exists name, forall t l, sd_serialize (TStruct (PItem (Named name) None (TVector t) PNil)) (DStruct [DArray l]) None =
  Ret (kOk, Some (VObject (Node Leaf name (VObject Leaf []) 0 Leaf) [name])).
Proof. exists `"a". intros t l. reflexivity. Qed.
Print Assumptions C30_refuted.

(** Nor when two members have the same name: the second value is lost. *)
Theorem C30_refuted_names : exists t d v, proper t /\ has_type t d /\ sd_serialize t d None = Ret (kOk, Some v) /\
  d = DStruct [DDouble one; DDouble two] /\ v = VObject (Node Leaf `"a" (VNumber one) 0 Leaf) [`"a"; `"a"].
Proof.
  exists (TStruct (PItem (Named `"a") None TDouble (PItem (Named `"a") None TDouble PNil))). do 2 eexists.
  split; [repeat split; repeat constructor; auto|]. split; [|split; [|split; reflexivity]]; [typed|vm_compute; reflexivity].
Qed.
Print Assumptions C30_refuted_names.

Example C30_instance :
  reporting tshape /\ reporting (TArray (TVector TDouble)) /\
  sd_serialize (TArray (TVector TDouble)) (DArray [DArray []]) None = Ret (kInvalidValueType, Some (VArray [])) /\
  exists v, sd_serialize tshape shape_data None = Ret (kOk, Some v) /\
    json tshape shape_data = JObj [(`"name", JStr `"n"); (`"points", JArr [JObj [(`"x", JNum one); (`"y", JNum two)]]);
      (`"flags", JObj [(`"f", JBool true)]); (`"x", JNum two); (`"y", JNum one)].
Proof.
  split; [|split; [exact I|split; [vm_compute; reflexivity|]]].
  - simpl. repeat split; auto; repeat constructor; simpl; intuition discriminate.
  - eexists. split; vm_compute; reflexivity.
Qed.

(** ** C31: of a map nothing is written: for every map of a storable type
    SerializeFrom returns kOk, the tree has all the members, and what Write writes
    is an object without members. *)
Theorem C31_map_written_empty (t : ty) (d : data) (root : option value) (n : nat) (c : Z) :
  storable t -> proper t -> is_map t -> has_type t d ->
  exists v out, sd_serialize t d root = Ret (kOk, Some v) /\ shows v (json t d) /\
    sd_write (Some v) n c = (kOk, out) /\ text out = [123; 10; 125].
Proof.
  intros Hs Hp Hm Hd. destruct (proj1 (proj1 store_all t Hs Hp) d Hd) as (v & E & _ & Hsh & _).
  assert (exists m, v = VObject m []) as [m ->].
  { destruct t; try destruct Hm; simpl in E, Hd.
    - destruct Hd as (m & -> & _). destruct (map_elements m); simpl in E; try discriminate.
      destruct (serialize_members _ a Leaf) as [[]| |]; simpl in E; try discriminate. injection E as _ <-. eauto.
    - destruct Hd as (l & -> & _).
      destruct (serialize_members _ _ Leaf) as [[]| |]; simpl in E; try discriminate. injection E as _ <-. eauto. }
  exists (VObject m []). eexists. unfold sd_serialize. rewrite E. split; [reflexivity|]. split; [auto|].
  split; [reflexivity|]. 
  assert (shrink_array (expand_array [] c n) n = []) as Es; [|unfold text; cbn [concat app]; rewrite Es; reflexivity].
  unfold shrink_array, expand_array. apply length_zero_iff_nil. rewrite firstn_length, !app_length, !repeat_length. simpl. lia.
Qed.
Print Assumptions C31_map_written_empty.

(** So the property fails for every map with a member. *)
Theorem C31_refuted : exists d v, storable (TStdMap TDouble) /\ has_type (TStdMap TDouble) d /\
  json (TStdMap TDouble) d = JObj [(`"a", JNum one); (`"b", JNum two)] /\
  sd_serialize (TStdMap TDouble) d None = Ret (kOk, Some v) /\
  text (snd (sd_write (Some v) 4 32)) = `"{
}".
Proof.
  exists (DStdMap [(`"a", DDouble one); (`"b", DDouble two)]). eexists. split; [exact I|]. split.
  - eexists. split; [reflexivity|]. split; [repeat constructor; vm_compute; auto|]. repeat constructor; simpl; eauto.
  - repeat split; vm_compute; reflexivity.
Qed.
Print Assumptions C31_refuted.

(** ** C45: the whole way. For types without maps and std::vector, with distinct
    names: SerializeFrom, Write, Parse of the written text and DeserializeTo of
    a default object all succeed and the object has the original content,
    provided that the strings need no escaping and the numbers are finite. The
    root must not be a number, because a document of one byte is refused. *)
Theorem C45_full_round_trip (g : junk) (t : ty) (d : data) (root root' : option value) (n : nat) (c : Z) :
  storable t -> map_free t -> proper t -> has_type t d -> t <> TDouble ->
  tokens lib_plain finite_number (json t d) -> ws (repeat c n) ->
  exists v out v' d', sd_serialize t d root = Ret (kOk, Some v) /\ sd_write (Some v) n c = (kOk, out) /\
    sd_parse root' (text out ++ [0]) = Ret (PR kOk 0 0, Some v') /\
    sd_deserialize g t (Some v') (fresh g t) = Ret (kOk, d') /\ content d' = content d.
Proof.
  intros Hs Hm Hp Hd Hnum Htok Hws. destruct (proj1 (proj1 store_all t Hs Hp) d Hd) as (v & E & _ & Hsh & HM).
  destruct (HM Hm) as [Hr Hw].
  destruct (sd_write_layout v (json t d) n c Hr Hw) as (out & Eo & C).
  assert (Hj : forall x, json t d <> JNum x).
  { destruct t; try congruence; simpl in Hd; repeat match type of Hd with exists _, _ => destruct Hd as [? Hd] end;
      try match type of Hd with _ /\ _ => destruct Hd as [-> Hd] end; subst; discriminate. }
  destruct (C11_two_bytes v (json t d) n c Hr Hw Hj) as (out' & Eo' & HL). rewrite Eo in Eo'. injection Eo' as <-.
  assert (Hn : tokens lib_plain finite_number (normal (json t d))) by (apply tokens_normal; auto).
  destruct (C11_write_parse v (json t d) n c Hr Hw Hn Hws) as (out' & Eo' & HP). rewrite Eo in Eo'. injection Eo' as <-.
  destruct (HP HL root') as (v' & Ep & _ & Hr' & Hw').
  destruct (C47_valid_delivers g t v' (json t d) (fresh g t) Hp (wf_sound _ Hw')) as (d' & E' & Ht & Hrd).
  - apply shows_normal. apply represents_shows. auto.
  - apply (proj1 valid_json t Hs). auto.
  - apply fresh_typed. auto.
  - exists v, out, v', d'. unfold sd_serialize. rewrite E. repeat (split; [first [reflexivity|auto]|]).
    apply (proj1 (proj1 (reads_back g) t Hs Hp) d Hd (content (fresh g t))); auto. apply fresh_content_blank; auto.
Qed.
Print Assumptions C45_full_round_trip.

Definition tpath : ty := TStruct (PItem (Named `"name") None TStdString (PItem (Optional `"points") None (TArray tpoint) PNil)).
Definition path_data : data := DStruct [DString `"né"; DArray [DStruct [DDouble one; DDouble two]; DStruct [DDouble two; DDouble two]]].

Example C45_instance : storable tpath /\ map_free tpath /\ proper tpath /\ has_type tpath path_data /\
  tokens lib_plain finite_number (json tpath path_data) /\
  exists v, sd_serialize tpath path_data None = Ret (kOk, Some v) /\ text (snd (sd_write (Some v) 1 9)) = `"{
	""name"" : ""né"",
	""points"" : [
		{
			""x"" : 1,
			""y"" : 2
		},
		{
			""x"" : 2,
			""y"" : 2
		}
	]
}".
Proof.
  assert (H1 : finite_number one) by (vm_compute; auto). assert (H2 : finite_number two) by (vm_compute; auto).
  split; [simpl; repeat split; auto; repeat constructor; simpl; intuition discriminate|].
  split; [simpl; tauto|]. split; [repeat split; repeat constructor; auto|].
  split; [unfold path_data, tpath, tpoint; typed|]. split.
  - assert (HS : forall cps, Forall lib_raw cps -> lib_plain (flat_map utf8 cps)) by (intros cps H; exists cps; auto).
    assert (Hx : lib_plain `"x") by (apply (HS [120]); repeat constructor; vm_compute; congruence).
    assert (Hy : lib_plain `"y") by (apply (HS [121]); repeat constructor; vm_compute; congruence).
    assert (Hn : lib_plain `"name") by (apply (HS [110; 97; 109; 101]); repeat constructor; vm_compute; congruence).
    assert (Hp : lib_plain `"points") by (apply (HS [112; 111; 105; 110; 116; 115]); repeat constructor; vm_compute; congruence).
    assert (Hs : lib_plain `"né") by (apply (HS [110; 0xE9]); repeat constructor; vm_compute; congruence).
    assert (HP : forall a c, finite_number a -> finite_number c ->
      tokens lib_plain finite_number (JObj [(`"x", JNum a); (`"y", JNum c)])).
    { intros a c Ha Hc. constructor. constructor; [split; [exact Hx|constructor; exact Ha]|].
      constructor; [split; [exact Hy|constructor; exact Hc]|constructor]. }
    change (tokens lib_plain finite_number (JObj [(`"name", JStr `"né"); (`"points", JArr
      [JObj [(`"x", JNum one); (`"y", JNum two)]; JObj [(`"x", JNum two); (`"y", JNum two)]])])).
    constructor. constructor; [split; [exact Hn|constructor; exact Hs]|].
    constructor; [split; [exact Hp|constructor]|constructor].
    constructor; [apply HP; auto|]. constructor; [apply HP; auto|constructor].
  - eexists. split; [vm_compute; reflexivity|]. vm_compute. reflexivity.
Qed.
