(** * Property of a Deserialize that fails: C94. *)

From Verif Require Import Base Str NumModel MapModel ParserModel WriterModel SpecMap SpecGrammar SpecMeaning MapProofs ParserProofs
  RootProofs SchemaModel SpecSchema SchemaProofs PropSchema SpecAbort AbortProofs.
From Coq Require Import Floats.SpecFloat.

(** ** C94: a DeserializeTo that fails leaves the object as it was.

    It does not: the members before the one that does not fit are overwritten, and
    an array that ends early has lost its old elements. *)
Theorem C94_refuted : exists t txt v d0 d,
  proper t /\ strict t /\ has_type t d0 /\ sd_parse None (txt ++ [0]) = Ret (PR kOk 0 0, Some v) /\
  (forall g, sd_deserialize g t (Some v) d0 = Ret (kInvalidValueType, d)) /\ content d <> content d0 /\
  txt = `"{""x"":1,""y"":[2,null]}" /\
  t = TStruct (PItem (Named `"x") None TDouble (PItem (Named `"y") None (TArray TDouble) PNil)) /\
  d0 = DStruct [DDouble two; DArray [DDouble one; DDouble one]] /\
  d = DStruct [DDouble one; DArray [DDouble two]].
Proof.
  exists (TStruct (PItem (Named `"x") None TDouble (PItem (Named `"y") None (TArray TDouble) PNil))), `"{""x"":1,""y"":[2,null]}".
  exists (match sd_parse None (`"{""x"":1,""y"":[2,null]}" ++ [0]) with Ret (_, Some v) => v | _ => VNull end).
  exists (DStruct [DDouble two; DArray [DDouble one; DDouble one]]), (DStruct [DDouble one; DArray [DDouble two]]).
  split; [repeat split; repeat constructor; auto|]. split; [simpl; auto|].
  split; [simpl; eexists; split; [reflexivity|]; split; [eauto|]; split; [|exact I]; eexists; split; [reflexivity|]; repeat constructor; eauto|].
  split; [vm_compute; reflexivity|]. split; [intros g; vm_compute; reflexivity|]. split; [discriminate|]. auto.
Qed.
Print Assumptions C94_refuted.

(** What is left, whatever the status, for all types, documents and objects: the
    old content and the document's, nothing else, in an object that still has its
    type. *)
Theorem C94_mixes_partial (g : junk) (t : ty) (v : value) (j : jv) (d0 : data) :
  proper t -> sound_value v -> shows v j -> has_type t d0 ->
  exists st d, sd_deserialize g t (Some v) d0 = Ret (st, d) /\ has_type t d /\ mixes g t j (content d0) (content d).
Proof. intros Hp Hs Hsh Hd. apply (proj1 (leave g) t Hp v j Hs Hsh d0 Hd). Qed.
Print Assumptions C94_mixes_partial.

(** Where it stops, for structures whose optional members have no required parts:
    the members before the first that does not fit are read, those after it
    are not touched. *)
Theorem C94_stops_partial (g : junk) (p : proto) (v : value) (j : jv) (ds0 : list data) (st : status) (d : data) :
  strict_proto p -> proper_proto p -> sound_value v -> shows v j -> has_types p ds0 ->
  sd_deserialize g (TStruct p) (Some v) (DStruct ds0) = Ret (st, d) -> st <> kOk ->
  exists ds n kt, d = DStruct ds /\ nth_member n p = Some kt /\ unfit kt j /\
    reads_proto g (first_members n p) j (map content (firstn n ds0)) (map content (firstn n ds)) /\
    skipn (S n) ds = skipn (S n) ds0.
Proof.
  intros Hst Hp Hs Hsh Hd E Hne. unfold sd_deserialize in E. simpl in E.
  destruct (deserialize_proto g p v ds0) as [[s ds]| |] eqn:E'; try discriminate. injection E as <- <-.
  destruct (stops g p Hst Hp v j Hs Hsh ds0 s ds Hd E' Hne) as (n & kt & H). exists ds, n, kt. split; [reflexivity|]. exact H.
Qed.
Print Assumptions C94_stops_partial.

(** A value that is read as a whole is kept when the document has another kind. *)
Theorem C94_scalar_partial (g : junk) (t : ty) (v : value) (d0 d : data) (st : status) :
  (t = TString \/ t = TStdString \/ t = TDouble \/ t = TBool \/ t = TNull) ->
  sound_value v -> (exists j, shows v j) -> has_type t d0 ->
  sd_deserialize g t (Some v) d0 = Ret (st, d) -> st <> kOk -> st = kInvalidValueType /\ d = d0.
Proof.
  intros Ht Hs (j & Hj) Hd E Hne. unfold sd_deserialize in E.
  destruct Ht as [->|[->|[->|[->| ->]]]]; destruct Hs; simpl in E; injection E as <- <-; congruence || auto.
Qed.
Print Assumptions C94_scalar_partial.

(** A structure, an array and maps, one failing in the middle: the second element
    of the map does not fit; the first has been read into the old element. *)
Definition tmarks : ty :=
  TStruct (PItem (Named `"m") None (TObjectMap tpoint) (PItem (Optional `"b") None TBool PNil)).
Definition marks_text : list Z := `"{""m"":{""p"":{""x"":1,""y"":1},""q"":{""x"":1,""y"":""""},""r"":{""x"":1,""y"":1}},""b"":true}".
Definition marks_value : value := match sd_parse None (marks_text ++ [0]) with Ret (_, Some v) => v | _ => VNull end.
Definition marks_old : data :=
  DStruct [DMap (Node (Node Leaf `"p" (DStruct [DDouble two; DDouble two]) 0 Leaf) `"q" (DStruct [DDouble two; DDouble two]) 0
                     (Node Leaf `"z" (DStruct [DDouble two; DDouble one]) 0 Leaf)); DBool false].

Example C94_instance : sound_value marks_value /\ (exists j, shows marks_value j) /\ proper tmarks /\ strict tmarks /\ has_type tmarks marks_old /\
  exists d, sd_deserialize any_junk tmarks (Some marks_value) marks_old = Ret (kInvalidValueType, d) /\
  content d = DStruct [DStdMap [(`"p", DStruct [DDouble one; DDouble one]); (`"q", DStruct [DDouble one; DDouble two]);
                                (`"z", DStruct [DDouble two; DDouble one])]; DBool false].
Proof.
  destruct (parsed_sound (marks_text ++ [0]) marks_value 0 0) as [Hs Hj];
    [apply bytes_forallb; reflexivity|vm_compute; reflexivity|].
  split; [auto|]. split; [auto|]. split; [repeat split; repeat constructor; auto|]. split; [simpl; tauto|]. split.
  - simpl. eexists. split; [reflexivity|]. split; [|split; [eauto|exact I]]. eexists. split; [reflexivity|]. split.
    + split; [simpl; lia|]. split; [|repeat constructor]. unfold bst. simpl. repeat split; repeat constructor.
    + repeat constructor; simpl; eexists; (split; [reflexivity|]); simpl; eauto 8.
  - eexists. split; [vm_compute; reflexivity|]. reflexivity.
Qed.
