(** * Properties of the parts of new elements that the document does not give: C108. *)

From Verif Require Import Base SpecNum SpecGrammar SpecMap SpecMeaning MapModel ParserModel AccessModel MapProofs ParserProofs SchemaModel SpecSchema SchemaProofs SpecInitial Str.

Lemma initialised_fresh g g' : (forall t, initialised t -> fresh g t = fresh g' t) /\
  (forall p, initialised_members p -> fresh_proto g p = fresh_proto g' p).
Proof.
  apply ty_proto_ind; cbn [initialised initialised_members fresh fresh_proto]; intros; try reflexivity; try contradiction.
  - now rewrite H.
  - destruct init as [d|]; [now rewrite H0|]. destruct H1. now rewrite H, H0.
Qed.

Lemma status_eqb_eq st : status_eqb st kOk = true -> st = kOk.
Proof. unfold status_eqb. now destruct (status_eq_dec st kOk). Qed.

(** Equal runs, where only the status of a failed one counts. *)
Definition alike {A} (x y : out (status * A)) : Prop :=
  match x, y with
  | Ret (st, a), Ret (st', b) => st = st' /\ (st = kOk -> a = b)
  | UB, UB | OutOfFuel, OutOfFuel => True
  | _, _ => False
  end.

Lemma alike_refl {A} (x : out (status * A)) : alike x x.
Proof. destruct x as [[st a]| |]; cbn; auto. Qed.

Lemma elements_alike (f f' : value -> data -> out (status * data)) temp temp' :
  (forall v, alike (f v temp) (f' v temp')) -> forall l acc, deserialize_elements f temp l acc = deserialize_elements f' temp' l acc.
Proof.
  intros H. induction l as [|v l IH]; intros acc; [reflexivity|]. cbn [deserialize_elements]. specialize (H v).
  destruct (f v temp) as [[st d]| |], (f' v temp') as [[st' d']| |]; cbn in H; try contradiction; cbn [bind]; try reflexivity.
  destruct H as [<- H]. destruct (status_eqb st kOk) eqn:E; [|reflexivity]. rewrite H by now apply status_eqb_eq. apply IH.
Qed.

Lemma members_ext (f f' : value -> data -> out (status * data)) temp : (forall v d, f v d = f' v d) ->
  forall es m, deserialize_members f temp es m = deserialize_members f' temp es m.
Proof.
  intros H. induction es as [|[k v] es IH]; intros m; [reflexivity|]. cbn [deserialize_members]. destruct (find_map_element m k); rewrite H.
  - destruct (f' v d) as [[st d']| |]; cbn [bind]; try reflexivity. destruct (negb _); [reflexivity|apply IH].
  - destruct (f' v temp) as [[st d']| |]; cbn [bind]; try reflexivity. destruct (negb _); [reflexivity|].
    destruct (insert_map_element m k d') as [[m' x]| |]; cbn [bind]; try reflexivity. apply IH.
Qed.
Lemma std_ext (f f' : value -> data -> out (status * data)) temp : (forall v d, f v d = f' v d) ->
  forall es l, deserialize_std f temp es l = deserialize_std f' temp es l.
Proof.
  intros H. induction es as [|[k v] es IH]; intros l; [reflexivity|]. cbn [deserialize_std]. rewrite H.
  destruct (f' v _) as [[st d']| |]; cbn [bind]; try reflexivity. destruct (negb _); [reflexivity|apply IH].
Qed.
Lemma named_ext (f f' : value -> data -> out (status * data)) name v d : (forall v d, f v d = f' v d) ->
  deserialize_named name f v d = deserialize_named name f' v d.
Proof. intros H. unfold deserialize_named. destruct (as_object v) as [[m o]|]; [|reflexivity]. destruct (find_map_element m name); [apply H|reflexivity]. Qed.
Lemma named_alike (f f' : value -> data -> out (status * data)) name v d d' : (forall v, alike (f v d) (f' v d')) ->
  alike (deserialize_named name f v d) (deserialize_named name f' v d').
Proof.
  intros H. unfold deserialize_named. destruct (as_object v) as [[m o]|]; [|cbn; split; [reflexivity|discriminate]].
  destruct (find_map_element m name); [apply H|]. cbn. split; [reflexivity|discriminate].
Qed.
Lemma take_alike {A} (o : option A) make d d' : alike (take o make d) (take o make d').
Proof. destruct o; cbn; split; auto. discriminate. Qed.

(** A required member followed by the rest. *)
Lemma step_alike (x y : out (status * data)) (r r' : out (status * list data)) (l l' : list data) : alike x y -> alike r r' ->
  alike (let! (st, d) := x in if negb (status_eqb st kOk) then Ret (st, d :: l) else let! (st, ds) := r in Ret (st, d :: ds))
        (let! (st, d) := y in if negb (status_eqb st kOk) then Ret (st, d :: l') else let! (st, ds) := r' in Ret (st, d :: ds)).
Proof.
  intros H R. destruct x as [[st d]| |], y as [[st' d']| |]; cbn in H; try contradiction; cbn [bind]; try exact I. destruct H as [<- H].
  destruct (status_eqb st kOk) eqn:E; cbn [negb].
  - apply status_eqb_eq in E. rewrite (H E). destruct r as [[s1 a]| |], r' as [[s2 b]| |]; cbn in R; try contradiction; cbn; auto.
    destruct R as [<- R]. split; [reflexivity|]. intros K. now rewrite R.
  - cbn. split; [reflexivity|]. intros ->. discriminate.
Qed.
Lemma rest_alike (x : out (status * data)) (b : status -> bool) (r r' : out (status * list data)) (l l' : list data) : alike r r' -> b kOk = false ->
  alike (let! (st, d) := x in if b st then Ret (st, d :: l) else let! (st, ds) := r in Ret (st, d :: ds))
        (let! (st, d) := x in if b st then Ret (st, d :: l') else let! (st, ds) := r' in Ret (st, d :: ds)).
Proof.
  intros R B. destruct x as [[st d]| |]; cbn [bind]; try exact I. destruct (b st) eqn:E.
  - cbn. split; [reflexivity|]. intros ->. congruence.
  - destruct r as [[s1 a]| |], r' as [[s2 c]| |]; cbn in R; try contradiction; cbn; auto.
    destruct R as [<- R]. split; [reflexivity|]. intros K. now rewrite R.
Qed.

Lemma struct_step g p v l : deserialize g (TStruct p) v (DStruct l) = let! (st, ds) := deserialize_proto g p v l in Ret (st, DStruct ds).
Proof. reflexivity. Qed.

Definition member_run g (k : mention) t v d : out (status * data) :=
  match k with Anonymous => deserialize g t v d | Named n | Optional n => deserialize_named n (deserialize g t) v d end.
Definition stops (k : mention) (st : status) : bool :=
  match k with Optional _ => negb (status_eqb st kOk) && negb (status_eqb st kNameNotPresent) | _ => negb (status_eqb st kOk) end.
Lemma item_step g k init t p v d ds : deserialize_proto g (PItem k init t p) v (d :: ds) =
  let! (st, d) := member_run g k t v d in
  if stops k st then Ret (st, d :: ds) else let! (st, ds) := deserialize_proto g p v ds in Ret (st, d :: ds).
Proof. destruct k; reflexivity. Qed.

Lemma determined g g' :
  (forall t, settled_type t -> (forall v d, deserialize g t v d = deserialize g' t v d) /\
    (covered t -> forall v, alike (deserialize g t v (fresh g t)) (deserialize g' t v (fresh g' t)))) /\
  (forall p, settled_members p -> (forall v ds, deserialize_proto g p v ds = deserialize_proto g' p v ds) /\
    (covered_members p -> forall v, alike (deserialize_proto g p v (fresh_proto g p)) (deserialize_proto g' p v (fresh_proto g' p)))).
Proof.
  apply ty_proto_ind.
  1-4, 7: intros _; split; [reflexivity|intros _ v; cbn [deserialize fresh]; apply take_alike].
  1, 3: intros t IH (C & S); destruct (IH S) as [E A]; specialize (A C);
    assert (D : forall v d, deserialize g (TArray t) v d = deserialize g' (TArray t) v d /\ deserialize g (TVector t) v d = deserialize g' (TVector t) v d)
      by (intros v d; cbn [deserialize]; destruct (get_array v); [|now split]; now rewrite (elements_alike _ _ _ _ A));
    split; [intros v d; apply D|intros _ v; cbn [fresh]; rewrite (proj1 (D v (DArray []))) || rewrite (proj2 (D v (DArray []))); apply alike_refl].
  - intros t IH S. destruct (IH S) as [E _].
    assert (D : forall v d, deserialize g (TObjectMap t) v d = deserialize g' (TObjectMap t) v d).
    { intros v d. cbn [deserialize]. destruct (as_object v) as [[m o]|]; [|reflexivity]. destruct d; try reflexivity.
      destruct (map_elements m); cbn [bind]; try reflexivity. now rewrite (members_ext _ _ _ E). }
    split; [exact D|]. intros _ v. cbn [fresh]. rewrite D. apply alike_refl.
  - intros t IH S. destruct (IH S) as [E _].
    assert (D : forall v d, deserialize g (TStdMap t) v d = deserialize g' (TStdMap t) v d).
    { intros v d. cbn [deserialize]. destruct (as_object v) as [[m o]|]; [|reflexivity]. destruct d; try reflexivity.
      destruct (map_elements m); cbn [bind]; try reflexivity. now rewrite (std_ext _ _ _ E). }
    split; [exact D|]. intros _ v. cbn [fresh]. rewrite D. apply alike_refl.
  - intros p IH S. destruct (IH S) as [E A]. split.
    + intros v d. destruct d; try reflexivity. now rewrite !struct_step, E.
    + intros C v. specialize (A C v). change (fresh g (TStruct p)) with (DStruct (fresh_proto g p)). change (fresh g' (TStruct p)) with (DStruct (fresh_proto g' p)).
      rewrite !struct_step. revert A.
      destruct (deserialize_proto g p v _) as [[st a]| |]; destruct (deserialize_proto g' p v _) as [[st' b]| |]; cbn; try tauto.
      intros [<- A]. split; [reflexivity|]. intros K. now rewrite A.
  - intros _. split; [reflexivity|intros _ v; apply alike_refl].
  - intros k init t IH p IHp (S & Sp). destruct (IH S) as [E A]. destruct (IHp Sp) as [Ep Ap]. clear IH IHp. split.
    + intros v [|d ds]; [reflexivity|]. rewrite !item_step.
      assert (M : member_run g k t v d = member_run g' k t v d) by (destruct k; cbn [member_run]; [apply (named_ext _ _ _ _ _ E)..|apply E]).
      rewrite M. destruct (member_run g' k t v d) as [[st d']| |]; cbn [bind]; try reflexivity. destruct (stops k st); [reflexivity|]. now rewrite Ep.
    + intros C v.
      assert (M : forall d, member_run g k t v d = member_run g' k t v d) by (intros d; destruct k; cbn [member_run]; [apply (named_ext _ _ _ _ _ E)..|apply E]).
      assert (B : stops k kOk = false) by (destruct k; reflexivity).
      destruct init as [d|].
      * assert (Cp : covered_members p) by (destruct k; exact C).
        change (fresh_proto g (PItem k (Some d) t p)) with (d :: fresh_proto g p). change (fresh_proto g' (PItem k (Some d) t p)) with (d :: fresh_proto g' p).
        rewrite !item_step, M. apply rest_alike; auto.
      * change (fresh_proto g (PItem k None t p)) with (fresh g t :: fresh_proto g p). change (fresh_proto g' (PItem k None t p)) with (fresh g' t :: fresh_proto g' p).
        rewrite !item_step. destruct k; destruct C as [C Cp]; cbn [stops].
        -- apply step_alike; auto. apply named_alike. auto.
        -- rewrite (proj1 (initialised_fresh g g') t C), M. apply (rest_alike _ (stops (Optional name))); auto.
        -- apply step_alike; [apply A; exact C|auto].
Qed.

(** ** C108: what the document does not give.

    Full statement: the status and the contents of the object after DeserializeTo depend on the
    document and the object before the call only, not on what new memory happens to hold ([g]). *)
Theorem C108_partial (g g' : junk) (t : ty) (root : option value) (d : data) : settled_type t ->
  sd_deserialize g t root d = sd_deserialize g' t root d.
Proof. intros H. destruct root as [v|]; [|reflexivity]. apply (proj1 (determined g g') t H). Qed.
Print Assumptions C108_partial.

(** It fails: the numbers and bools of an Array element that are optional, absent in the document
    and without an initialiser. Such a number or bool is read by the program afterwards. *)
Theorem C108_refuted : exists t root d g g' x y, proper t /\ has_type t d /\
  sd_deserialize g t root d = Ret (kOk, x) /\ sd_deserialize g' t root d = Ret (kOk, y) /\ content x <> content y.
Proof.
  exists (TArray (TStruct (PItem (Optional (`"on")) None TBool PNil))), (Some (VArray [VObject Leaf []])), (DArray []),
    (Junk (S754_zero false) true), (Junk (S754_zero false) false). do 2 eexists. split; [cbn; repeat split; repeat constructor; discriminate|].
  split; [exists []; split; [reflexivity|constructor]|]. split; [vm_compute; reflexivity|]. split; [vm_compute; reflexivity|]. discriminate.
Qed.
Print Assumptions C108_refuted.

(** New elements of containers that lack all optional members hold the initialisers, and where
    there are none empty strings, arrays and maps; numbers are zero and bools false in maps. *)
Lemma fresh_starts g known : (known = true -> g = zeroes) ->
  (forall t, starts known t (fresh g t)) /\ (forall p, starts_members known p (fresh_proto g p)).
Proof.
  intros K. apply ty_proto_ind; cbn [fresh fresh_proto]; try (intros; constructor; assumption); try (intros; constructor).
  1-2: intros E; now rewrite (K E).
  intros k [d|] t IH p IHp; constructor; assumption.
Qed.

Lemma absent_not_found (m : tree value) n : good_key n -> Forall good_key (map fst (elements m)) -> ~ In n (map fst (elements m)) -> find_map_element m n = None.
Proof.
  intros G. induction m as [|l IHl k v b r IHr]; intros F N; [reflexivity|]. cbn [elements find_map_element] in *. rewrite map_app in *. cbn [map fst] in *.
  rewrite in_app_iff in N. cbn [In] in N. apply Forall_app in F. destruct F as [Fl F]. inversion F as [|? ? Gk Fr]; subst.
  destruct (text_lt_cases n k G Gk) as [[_ E]|[[E _]|(_ & E1 & E2)]].
  - rewrite E. apply IHl; tauto.
  - subst. tauto.
  - rewrite E1, E2. apply IHr; tauto.
Qed.

Lemma lacks_keeps g p v : all_optional p -> lacks p v -> forall ds, length ds = length (fresh_proto g p) -> deserialize_proto g p v ds = Ret (kOk, ds).
Proof.
  intros O (m & order & -> & F & L). induction p as [|k init t p IH]; intros ds E.
  - destruct ds; [reflexivity|discriminate].
  - destruct k; try contradiction. destruct L as (Gn & L1 & L). apply (absent_not_found m _ Gn F) in L1. destruct ds as [|d ds]; [discriminate|]. rewrite item_step. cbn [member_run]. unfold deserialize_named. cbn [as_object].
    rewrite L1. cbn [bind stops]. change (negb (status_eqb kNameNotPresent kOk) && negb (status_eqb kNameNotPresent kNameNotPresent)) with false. cbn iota.
    rewrite IH; [reflexivity|exact O|exact L|]. injection E as E. exact E.
Qed.

Lemma lacking_element g g' p v : all_optional p -> lacks p v -> deserialize g (TStruct p) v (fresh g' (TStruct p)) = Ret (kOk, fresh g' (TStruct p)).
Proof.
  intros O L. change (fresh g' (TStruct p)) with (DStruct (fresh_proto g' p)). rewrite struct_step, (lacks_keeps g p v O L); [reflexivity|].
  clear. induction p as [|k [d|] t p IH]; [reflexivity|..]; cbn [fresh_proto length]; now rewrite IH.
Qed.

Theorem C108_new_elements (g : junk) (p : proto) : all_optional p ->
  (forall l d, Forall (lacks p) l -> exists ds, length ds = length l /\ Forall (starts false (TStruct p)) ds /\
    sd_deserialize g (TArray (TStruct p)) (Some (VArray l)) d = Ret (kOk, DArray ds) /\
    sd_deserialize g (TVector (TStruct p)) (Some (VArray l)) d = Ret (kOk, DArray ds)) /\
  (forall k v order, lacks p v -> exists x m, starts true (TStruct p) x /\ elements m = [(k, x)] /\
    sd_deserialize g (TObjectMap (TStruct p)) (Some (VObject (Node Leaf k v 0 Leaf) order)) (DMap Leaf) = Ret (kOk, DMap m) /\
    sd_deserialize g (TStdMap (TStruct p)) (Some (VObject (Node Leaf k v 0 Leaf) order)) (DStdMap []) = Ret (kOk, DStdMap [(k, x)])).
Proof.
  intros O. split.
  - intros l d H. exists (repeat (fresh g (TStruct p)) (length l)). split; [apply repeat_length|]. split.
    { apply Forall_forall. intros x Hx. apply repeat_spec in Hx. subst x. apply fresh_starts. discriminate. }
    assert (Q : forall l acc, Forall (lacks p) l -> deserialize_elements (deserialize g (TStruct p)) (fresh g (TStruct p)) l acc =
      Ret (kOk, acc ++ repeat (fresh g (TStruct p)) (length l))).
    { clear l H. induction l as [|v l IH]; intros acc H; [cbn; now rewrite app_nil_r|]. inversion H as [|? ? H1 H2]; subst. cbn [deserialize_elements].
      rewrite lacking_element by assumption. cbn [bind]. change (status_eqb kOk kOk) with true. cbn iota. rewrite IH by assumption. rewrite <- app_assoc. reflexivity. }
    specialize (Q l [] H). cbn [app] in Q.
    assert (R1 : forall d, deserialize g (TArray (TStruct p)) (VArray l) d =
      let! (st, acc) := deserialize_elements (deserialize g (TStruct p)) (fresh g (TStruct p)) l [] in Ret (st, DArray acc)) by reflexivity.
    assert (R2 : forall d, deserialize g (TVector (TStruct p)) (VArray l) d =
      let! (st, acc) := deserialize_elements (deserialize g (TStruct p)) (fresh g (TStruct p)) l [] in Ret (st, DArray acc)) by reflexivity.
    unfold sd_deserialize. now rewrite R1, R2, Q.
  - intros k v order L. exists (fresh zeroes (TStruct p)), (Node Leaf k (fresh zeroes (TStruct p)) 0 Leaf). split; [apply fresh_starts; reflexivity|].
    split; [reflexivity|].
    assert (R1 : deserialize g (TObjectMap (TStruct p)) (VObject (Node Leaf k v 0 Leaf) order) (DMap Leaf) =
      let! (st, dm) := deserialize_members (deserialize g (TStruct p)) (fresh zeroes (TStruct p)) [(k, v)] Leaf in Ret (st, DMap dm)) by reflexivity.
    assert (R2 : deserialize g (TStdMap (TStruct p)) (VObject (Node Leaf k v 0 Leaf) order) (DStdMap []) =
      let! (st, dl) := deserialize_std (deserialize g (TStruct p)) (fresh zeroes (TStruct p)) [(k, v)] [] in Ret (st, DStdMap dl)) by reflexivity.
    unfold sd_deserialize. rewrite R1, R2. cbn [deserialize_members deserialize_std find_map_element std_lookup]. rewrite lacking_element by assumption.
    split; reflexivity.
Qed.
Print Assumptions C108_new_elements.

(** A structure with optional members, one of them with an initialiser, in all four containers. *)
Definition settings : proto :=
  PItem (Optional (`"on")) (Some (DBool true)) TBool (PItem (Optional (`"scale")) None TDouble (PItem (Optional (`"name")) None TString PNil)).
Example C108_instance : all_optional settings /\ lacks settings (VObject (Node Leaf (`"x") VNull 0 Leaf) [`"x"]) /\
  settled_type (TObjectMap (TStruct settings)) /\ ~ settled_type (TArray (TStruct settings)) /\
  settled_type (TArray (TStruct (PItem (Named (`"x")) None TDouble (PItem (Optional (`"on")) (Some (DBool true)) TBool PNil)))) /\
  starts true (TStruct settings) (DStruct [DBool true; DDouble (S754_zero false); DString []]) /\
  ~ starts true (TStruct settings) (DStruct [DBool false; DDouble (S754_zero false); DString []]) /\
  ~ starts true (TStruct (PItem (Optional (`"on")) None TBool PNil)) (DStruct [DBool true]).
Proof.
  split; [exact I|]. split; [do 2 eexists; split; [reflexivity|]; cbn; repeat split; repeat constructor; try discriminate; intuition discriminate|]. split; [cbn; tauto|]. split; [cbn; tauto|]. split; [cbn; tauto|].
  split; [repeat constructor|]. split; intros H; inversion H as [| | | | | | | | |? ? M]; subst; inversion M as [| |? ? ? ? ? D]; subst.
  inversion D as [| | |? E| | | | | |]; subst. now specialize (E eq_refl).
Qed.
