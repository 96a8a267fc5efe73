(** * C100: DeserializeTo when memory runs out *)

From Verif Require Import Base Str TextModel NumModel MapModel ParserModel SpecMap MapProofs AccessModel SchemaModel SpecSchema SchemaProofs
  SpecText DynModel DynProofs StrFailModel OwnModel DeserFailModel SpecDeserFail DeserFailProofs.

(** A type that the program can use: it compiles, its names and initialisers are C strings of the
    right types, and ObjectMaps are initialised empty. *)
Definition usable (t : ty) : Prop := compiles t /\ proper t /\ inits (fun _ d => bare d) t.

(** What should hold of every call. [w] counts requests and ObjectMap elements; [fails] says which
    requests fail. The call returns; it gives kException after a failed request or else what
    Deserialize gives with enough memory; the object can be destroyed; nothing is lost. *)
Definition safe (fails : nat -> bool) (g : junk) (t : ty) (v : value) (o : odata) (w : mem) : Prop :=
  exists st o' w', deserialize_o fails g t v o w = Ret (st, o', w') /\
    (deserialize g t v (seen o) = Ret (st, seen o') \/
     st = kException /\ exists k, (asked w <= k < asked w')%nat /\ fails k = true) /\
    destroy_o o' w' = Ret (Mem (asked w') (alive w - elems o)).

(** Proved for objects and initialisers whose Strings (outside arrays) have no text on the heap; at
    most one ObjectMap element is lost. Missing: [safe] itself; see the theorems named _refuted. *)
Theorem C100_partial fails g t v o w :
  usable t -> inits short t -> sound_value v -> otype t o -> settled o -> (elems o <= alive w)%nat ->
  exists st o' w' lost, deserialize_o fails g t v o w = Ret (st, o', w') /\
    (deserialize g t v (seen o) = Ret (st, seen o') /\ otype t o' /\ lost = 0%nat \/
     st = kException /\ exists k, (asked w <= k < asked w')%nat /\ fails k = true) /\
    destroy_o o' w' = Ret (Mem (asked w') (alive w - elems o + lost)) /\ (lost <= 1)%nat /\
    (short_names v \/ plain t -> lost = 0%nat).
Proof.
  intros (U1 & U2 & U3) S Sv T C L.
  destruct (proj1 (deserialize_step fails g) t (conj U1 (conj U2 (conj U3 (or_intror S)))) v Sv o w T (or_intror C) L) as (st & o' & w' & E & A & D).
  destruct D as [(D1 & D2 & D3)|(D1 & D2 & D3 & lost & D4 & D5 & D6 & D7)].
  - exists st, o', w', 0%nat. split; [exact E|]. split; [left; auto|]. rewrite (destroy_ok o' (proj1 otype_undead t o' D2)) by lia.
    split; [unfold less; do 2 f_equal; lia|]. auto.
  - exists st, o', w', lost. split; [exact E|]. split; [right; auto|]. rewrite (destroy_ok o' D3) by lia.
    split; [unfold less; do 2 f_equal; lia|]. split; [auto|]. intros [H|H]; auto.
Qed.
Print Assumptions C100_partial.

(** Without failing requests nothing is asked of the strings, and the result is that of Deserialize. *)
Theorem C100_enough_memory fails g t v o w :
  (forall k, fails k = false) -> usable t -> sound_value v -> otype t o -> (elems o <= alive w)%nat ->
  safe fails g t v o w /\ exists st o' w', deserialize_o fails g t v o w = Ret (st, o', w') /\
    deserialize g t v (seen o) = Ret (st, seen o') /\ otype t o' /\ (alive w' + elems o = alive w + elems o')%nat.
Proof.
  intros N (U1 & U2 & U3) Sv T L.
  destruct (proj1 (deserialize_step fails g) t (conj U1 (conj U2 (conj U3 (or_introl N)))) v Sv o w T (or_introl N) L) as (st & o' & w' & E & A & D).
  destruct D as [(D1 & D2 & D3)|(_ & (k & _ & F) & _)]; [|rewrite N in F; discriminate].
  split.
  - exists st, o', w'. split; [exact E|]. split; [left; auto|]. rewrite (destroy_ok o' (proj1 otype_undead t o' D2)) by lia. unfold less. do 2 f_equal. lia.
  - exists st, o', w'. auto.
Qed.
Print Assumptions C100_enough_memory.

(** A new object, as its initialisers leave it, when the document has only short names. *)
Theorem C100_new_object fails g t v w :
  usable t -> inits short t -> sound_value v -> short_names v \/ plain t ->
  exists o, placed t (fresh g t) = Ret o /\ seen o = fresh g t /\ safe fails g t v o w.
Proof.
  intros U S Sv N. pose proof U as (U1 & U2 & U3).
  destruct (proj1 placed_ok t (fresh g t)) as (o & E & T & So & L & Q).
  { now apply (proj1 (fresh_typed g)). }
  { now apply (proj1 (fresh_bare g)). }
  exists o. split; [exact E|]. split; [exact So|].
  destruct (C100_partial fails g t v o w U S Sv T) as (st & o' & w' & lost & E' & R & D & _ & H).
  { apply Q. now apply (proj1 (fresh_short g)). }
  { lia. }
  specialize (H N). subst lost. rewrite Nat.add_0_r in D. exists st, o', w'. split; [exact E'|]. split; [|exact D]. destruct R as [(R & _)|R]; auto.
Qed.
Print Assumptions C100_new_object.

(** ** Witnesses *)

Definition letters (n : nat) : list Z := repeat 97 n.
Definition held (n : nat) : odata := match string_of (letters n) with Ret s => OString s | _ => ONull end.
Lemma letters_good n : good_key (letters n).
Proof. induction n; constructor; [lia|auto]. Qed.
Lemma held_type n : otype TString (held n).
Proof. unfold held. destruct (string_of_ok (letters n) (letters_good n)) as (x & -> & W & _). exists x. auto. Qed.
Definition start : mem := Mem 0 0.
Definition only (n k : nat) : bool := (k =? n)%nat.

(** A String with a text of 16 or more characters: the old text is deleted before the request that
    fails, and the destructor deletes it again. *)
Theorem C100_String_refuted : exists fails g t v o w,
  usable t /\ inits short t /\ sound_value v /\ otype t o /\ (elems o <= alive w)%nat /\ short_names v /\
  exists o' w', deserialize_o fails g t v o w = Ret (kException, o', w') /\ destroy_o o' w' = UB.
Proof.
  exists (only 0), zeroes, TString, (VString (letters 80)), (held 20), start. split; [repeat split|]. split; [exact I|].
  split; [constructor; apply letters_good|]. split; [apply held_type|]. split; [vm_compute; lia|]. split; [exact I|].
  eexists _, _. split; reflexivity.
Qed.
Print Assumptions C100_String_refuted.

(** The elements of an Array: with a long initialiser the same happens to the temporary, before
    DeserializeTo returns. The object itself is an empty Array. *)
Definition verbose : ty := TArray (TStruct (PItem (Named `"s") (Some (DString (letters 20))) TString PNil)).
Definition verbose_doc : value := VArray [VObject (Node Leaf `"s" (VString (letters 80)) 0 Leaf) [`"s"]].
Theorem C100_Array_refuted : exists fails g t v o w,
  usable t /\ sound_value v /\ otype t o /\ settled o /\ (elems o <= alive w)%nat /\ short_names v /\
  deserialize_o fails g t v o w = UB.
Proof.
  exists (only 2), zeroes, verbose, verbose_doc, (OArray []), start. split.
  { split; [repeat split|]. split; [|repeat split]. cbn. split; [constructor; [reflexivity|constructor]|]. split; [|auto]. exists (letters 20). split; [reflexivity|apply letters_good]. }
  split.
  { constructor. constructor; [|constructor]. constructor.
    - destruct (insert_ok Leaf `"s" (VString (letters 80)) (wf_leaf (A := value))) as (m & f & E & W & _); [constructor; [reflexivity|constructor]|]. cbn in E. injection E as <- <-. exact W.
    - intros k [<-|[]]. now left.
    - intros k v [E|[]]. injection E as <- <-. constructor. apply letters_good. }
  split; [exists []; auto|]. split; [exact I|]. split; [cbn; lia|]. split; [cbn; repeat split; lia|]. reflexivity.
Qed.
Print Assumptions C100_Array_refuted.

(** An ObjectMap: a name of 16 or more characters that cannot be stored loses the new element. *)
Definition long_name_doc : value := VObject (Node Leaf (letters 16) VNull 0 Leaf) [letters 16].
Theorem C100_ObjectMap_refuted : exists fails g t v o w,
  usable t /\ inits short t /\ sound_value v /\ otype t o /\ settled o /\ (elems o <= alive w)%nat /\
  exists o' w' w'', deserialize_o fails g t v o w = Ret (kException, o', w') /\ destroy_o o' w' = Ret w'' /\ alive w'' = (alive w - elems o + 1)%nat.
Proof.
  exists (only 1), zeroes, (TObjectMap TNull), long_name_doc, (OMap Leaf), start. split; [repeat split|]. split; [exact I|]. split.
  { constructor.
    - destruct (insert_ok Leaf (letters 16) VNull (wf_leaf (A := value)) (letters_good 16)) as (m & f & E & W & _). cbn in E. injection E as <- <-. exact W.
    - intros k [<-|[]]. now left.
    - intros k v [E|[]]. injection E as <- <-. constructor. }
  split; [exists Leaf; split; [reflexivity|]; split; [exact (wf_leaf (A := odata))|constructor]|]. split; [exact I|]. split; [cbn; lia|].
  eexists _, _, _. split; [reflexivity|]. split; reflexivity.
Qed.
Print Assumptions C100_ObjectMap_refuted.

(** Trying again after a failure: the String has the size of the text that it could not hold, and
    the second call writes into the 16 characters of the object. *)
Theorem C100_again_refuted : exists fails g t v o w,
  usable t /\ inits short t /\ sound_value v /\ otype t o /\ settled o /\ (elems o <= alive w)%nat /\ short_names v /\
  exists o' w', deserialize_o fails g t v o w = Ret (kException, o', w') /\ undead o' /\
    (forall k, (asked w' <= k)%nat -> fails k = false) /\ deserialize_o fails g t v o' w' = UB.
Proof.
  exists (only 0), zeroes, TString, (VString (letters 80)), (held 0), start. split; [repeat split|]. split; [exact I|].
  split; [constructor; apply letters_good|]. split; [apply held_type|]. split; [reflexivity|]. split; [vm_compute; lia|]. split; [exact I|].
  eexists _, _. split; [reflexivity|]. split; [cbn; discriminate|]. split.
  - intros k H. unfold only. cbn in H. apply Nat.eqb_neq. lia.
  - reflexivity.
Qed.
Print Assumptions C100_again_refuted.

(** A case that meets the hypotheses of [C100_partial]: an object with a member String (empty) and
    an Array of Strings, a document with long texts, and every request that can fail. *)
Definition book : ty := TStruct (PItem (Named `"t") None TString (PItem (Optional `"l") None (TArray TString) PNil)).
Definition book_map : tree value := Node (Node Leaf `"l" (VArray [VString (letters 70)]) 0 Leaf) `"t" (VString (letters 90)) (-1) Leaf.
Definition book_doc : value := VObject book_map [`"t"; `"l"].
Example C100_instance :
  usable book /\ inits short book /\ sound_value book_doc /\ short_names book_doc /\
  exists o, placed book (fresh zeroes book) = Ret o /\ otype book o /\ settled o /\
    map (fun n => match deserialize_o (only n) zeroes book book_doc o start with Ret (st, o', w') => Some (st, asked w') | _ => None end) [0; 1; 2; 3; 4; 5]%nat =
    [Some (kException, 1); Some (kException, 2); Some (kException, 3); Some (kException, 4); Some (kException, 5); Some (kOk, 5)]%nat.
Proof.
  split; [split; [repeat split|]; split; [cbn; repeat split; try (constructor; [reflexivity|constructor])|repeat split]|]. split; [repeat split|]. split.
  { constructor.
    - destruct (insert_ok (Node Leaf `"t" (VString (letters 90)) 0 Leaf) `"l" (VArray [VString (letters 70)])) as (m & f & E & W & _).
      + destruct (insert_ok Leaf `"t" (VString (letters 90)) (wf_leaf (A := value))) as (m & f & E & W & _); [constructor; [reflexivity|constructor]|]. cbn in E. injection E as <- <-. exact W.
      + constructor; [reflexivity|constructor].
      + vm_compute in E. injection E as <- <-. exact W.
    - intros k [<-|[<-|[]]]; vm_compute; auto.
    - intros k v [E|[E|[]]]; injection E as <- <-; repeat (constructor; try apply letters_good). }
  split; [cbn; repeat split; lia|].
  destruct (proj1 placed_ok book (fresh zeroes book)) as (o & E & T & _ & _ & Q).
  { cbn. eexists. split; [reflexivity|]. split; [exists []; split; [reflexivity|constructor]|]. split; [exists []; split; [reflexivity|constructor]|exact I]. }
  { cbn. auto. }
  exists o. split; [exact E|]. split; [exact T|]. split; [apply Q; cbn; repeat split; lia|]. vm_compute in E. injection E as <-. vm_compute. reflexivity.
Qed.
