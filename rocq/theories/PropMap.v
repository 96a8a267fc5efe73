(** * Properties C16-C19 and C39: the map behind every JSON object, and the
    order of its keys. *)

From Verif Require Import Base TextModel MapModel SpecMap MapProofs OrderProofs Str.

(** The histories of the theorems below are lists of InsertMapElement calls
    and removals, with keys that a C string can hold. *)
Definition good_history {A} (ops : list (map_op A)) : Prop := Forall (fun o => good_key (op_key o)) ops.

(** A concrete history, used as the non-trivial instance of each theorem: ten
    insertions with rotations in both directions, one duplicate, three removals. *)
Definition sample_ops : list (map_op Z) :=
  [MInsert `"m" 1; MInsert `"f" 2; MInsert `"t" 3; MInsert `"b" 4; MInsert `"h" 5;
   MInsert `"g" 6; MInsert `"z" 7; MInsert `"f" 8; MInsert `"a" 9; MInsert `"ab" 10;
   MRemove `"m"; MRemove `"z"; MRemove `"nope"].

Example sample_good : good_history sample_ops.
Proof. unfold good_history, sample_ops. repeat constructor. Qed.

(** C16: after any history the lookups are those of the association list that
    underwent the same history, and a further insertion adds the element iff
    its key is absent, returns that, and changes no other lookup. *)
Theorem C16_insert_lookup {A : Type} (ops : list (map_op A)) : good_history ops ->
  exists t, map_run ops Leaf = Ret t /\
    (forall k, good_key k -> find_map_element t k = assoc k (fold_left spec_step ops [])) /\
    forall key e, good_key key ->
      exists t' f, insert_map_element t key e = Ret (t', f) /\
        (f = true <-> find_map_element t key = None) /\
        (f = false -> t' = t) /\
        (forall k', good_key k' ->
           find_map_element t' k' =
             if key_eqb k' key
             then match find_map_element t key with Some v => Some v | None => Some e end
             else find_map_element t k').
Proof.
  intros Hg. destruct (map_run_wf ops Leaf wf_leaf Hg) as (t & H1 & H2). exists t.
  split; [exact H1|]. split.
  { apply (map_run_spec ops Leaf [] t wf_leaf Hg); auto. }
  intros key e Hk. destruct (insert_ok t key e H2 Hk) as (t' & f & I1 & I2 & I3 & I4 & I5).
  exists t', f. split; [exact I1|]. split; [|split; [exact I4|]].
  - destruct H2 as (Ha & Hb & Hgk). rewrite find_assoc by auto. split.
    + intros E. apply assoc_none. apply I3. exact E.
    + intros E. apply I3. intros Hin. apply assoc_some_in in Hin. destruct Hin as [v Hv]. congruence.
  - exact (insert_find t key e t' f H2 Hk I1).
Qed.
Print Assumptions C16_insert_lookup.

Example C16_instance :
  (let! t := map_run sample_ops Leaf in
   Ret (map (find_map_element t) [`"f"; `"m"; `"ab"; `"zz"]))
  = Ret [Some 2; None; Some 10; None].
Proof. vm_compute. reflexivity. Qed.

(** C17: iteration from the first element visits each element once in strictly
    increasing byte order of the keys; count, index access and backward
    iteration agree with it. *)
Theorem C17_iteration_sorted {A : Type} (ops : list (map_op A)) t : good_history ops ->
  map_run ops Leaf = Ret t ->
  exists l, iterate (size t) (map_first t) = Ret l /\
    increasing (map fst l) /\
    (forall k v, good_key k -> (In (k, v) l <-> assoc k (fold_left spec_step ops []) = Some v)) /\
    count_from (size t) (map_first t) = Ret (length l) /\
    (forall i, nth_from i (map_first t) = nth_error l i) /\
    iterate_back (size t) (map_last t) = Ret (rev l).
Proof.
  intros Hg Hr. destruct (map_run_wf ops Leaf wf_leaf Hg) as (t1 & H1 & Hwf).
  rewrite Hr in H1. injection H1 as <-. exists (elements t).
  pose proof (iterate_elements t (size t) (le_n _)) as HI.
  split; [exact HI|]. pose proof Hwf as (Ha & Hb & Hk). split; [exact Hb|]. split; [|split; [|split]].
  - intros k v Hgk. rewrite <- (map_run_spec ops Leaf [] t wf_leaf Hg (fun _ _ => eq_refl) Hr k Hgk).
    rewrite find_assoc by auto. split.
    + intros Hin. assert (Hnd : NoDup (map fst (elements t))) by (apply increasing_nodup; exact Hb).
      clear - Hin Hnd. induction (elements t) as [|[a x] l IH]; [destruct Hin|].
      simpl in *. inversion Hnd; subst. destruct Hin as [E|Hin].
      * injection E as -> ->. now rewrite key_eqb_refl.
      * destruct (key_eqb_spec k a) as [->|]; [|auto].
        exfalso. apply H1. apply (in_map fst) in Hin. exact Hin.
    + apply assoc_in.
  - apply count_iterate. exact HI.
  - apply nth_from_elements.
  - apply iterate_back_elements. auto.
Qed.
Print Assumptions C17_iteration_sorted.

Example C17_instance :
  (let! t := map_run sample_ops Leaf in iterate (size t) (map_first t))
  = Ret [(`"a", 9); (`"ab", 10); (`"b", 4); (`"f", 2); (`"g", 6); (`"h", 5); (`"t", 3)].
Proof. vm_compute. reflexivity. Qed.

(** C18: balance factors are the height differences and lie in -1..1, and the
    depth d satisfies 2^d <= (n+1)^2, i.e. d <= 2 log2 (n+1); a lookup makes at
    most d three-way comparisons. *)
Fixpoint tree_height {A} (t : tree A) : Z :=
  match t with Leaf => 0 | Node l _ _ _ r => 1 + Z.max (tree_height l) (tree_height r) end.

Inductive subtree {A} : tree A -> tree A -> Prop :=
| sub_refl t : subtree t t
| sub_left t l k v b r : subtree t l -> subtree t (Node l k v b r)
| sub_right t l k v b r : subtree t r -> subtree t (Node l k v b r).

Theorem C18_balanced {A : Type} (ops : list (map_op A)) t : good_history ops ->
  map_run ops Leaf = Ret t ->
  (forall l k v b r, subtree (Node l k v b r) t ->
     b = tree_height r - tree_height l /\ -1 <= b <= 1) /\
  (forall d, Z.of_nat d <= tree_height t -> 2 ^ Z.of_nat d <= (Z.of_nat (size t) + 1) ^ 2) /\
  (forall key, Z.of_nat (find_comparisons t key) <= tree_height t).
Proof.
  intros Hg Hr. destruct (map_run_wf ops Leaf wf_leaf Hg) as (t1 & H1 & (Ha & _ & _)).
  rewrite Hr in H1. injection H1 as <-.
  assert (EH : forall x : tree A, tree_height x = height x) by (induction x; simpl; congruence).
  split; [|split].
  - intros l k v b r Hs. remember (Node l k v b r) as x. rewrite !EH. clear Hr.
    induction Hs; subst; simpl in Ha; try tauto; apply IHHs; tauto.
  - intros d Hd. rewrite EH, <- depth_height in Hd. apply avl_size; [auto|lia].
  - intros key. rewrite EH, <- depth_height. pose proof (find_comparisons_depth t key). lia.
Qed.
Print Assumptions C18_balanced.

Example C18_instance :
  (let! t := map_run sample_ops Leaf in Ret (size t, tree_height t, find_comparisons t `"ab"))
  = Ret (7%nat, 3, 2%nat).
Proof. vm_compute. reflexivity. Qed.

(** C19: removing an element, given by its position in a reachable map, removes
    exactly that element and changes the lookup of no other key; the number of
    elements drops by one and the map stays usable. *)
Theorem C19_remove_exactly_one {A : Type} (ops : list (map_op A)) t l k v b r up :
  good_history ops -> map_run ops Leaf = Ret t ->
  zip (Node l k v b r) up = t ->
  exists t', remove_map_element (Node l k v b r, up) = Ret t' /\
    find_map_element t k = Some v /\
    (forall k', good_key k' ->
       find_map_element t' k' = if key_eqb k' k then None else find_map_element t k') /\
    S (size t') = size t.
Proof.
  intros Hg Hr Hz. destruct (map_run_wf ops Leaf wf_leaf Hg) as (t1 & H1 & Hwf).
  rewrite Hr in H1. injection H1 as <-. subst t.
  pose proof (remove_map_element_ok l k v b r up Hwf) as (t' & K1 & K2 & K3 & K4).
  exists t'. split; [exact K1|]. destruct Hwf as (Ha & Hb & Hk). destruct K2 as (Ha2 & Hb2 & Hk2).
  assert (Hin : In k (keys (zip (Node l k v b r) up))).
  { unfold keys. rewrite K3, map_app, in_app_iff. simpl. auto. }
  assert (Hkg : good_key k) by (unfold good_keys in Hk; rewrite Forall_forall in Hk; auto).
  assert (Hnd : NoDup (keys (zip (Node l k v b r) up))) by (apply increasing_nodup; exact Hb).
  unfold keys in Hnd. rewrite K3, map_app in Hnd. simpl in Hnd.
  apply NoDup_remove_2 in Hnd. rewrite in_app_iff in Hnd.
  split; [|split].
  - rewrite find_assoc, K3, assoc_app by auto. rewrite assoc_none by tauto. simpl.
    now rewrite key_eqb_refl.
  - intros k' Hk'. rewrite !find_assoc by auto. rewrite K3, K4, !(assoc_app _ (before up ++ elements l)).
    simpl assoc. destruct (key_eqb_spec k' k) as [->|]; [|reflexivity].
    rewrite !assoc_none by tauto. reflexivity.
  - rewrite !size_elements, K3, K4, !app_length. simpl. rewrite !app_length. lia.
Qed.
Print Assumptions C19_remove_exactly_one.

(** The root of the sample map has two subnodes, so removal takes the path
    through the successor. *)
Example C19_instance :
  (let! t := map_run sample_ops Leaf in
   match find_loc t [] `"b" with
   | Some x => let! t' := remove_map_element x in iterate 9 (map_first t')
   | None => UB
   end)
  = Ret [(`"a", 9); (`"ab", 10); (`"f", 2); (`"g", 6); (`"h", 5); (`"t", 3)].
Proof. vm_compute. reflexivity. Qed.

(** C39: on terminated strings CompareTextLessThan is a strict total order (the
    bytewise lexicographic one), CompareText is equality, CompareTextLessEqual
    is their union; no call reads beyond a terminator. *)
Theorem C39_key_order : forall a b c ra rb rc, good_key a -> good_key b -> good_key c ->
  let lt x y := compare_text_less_than x y = Ret true in
  let pa := a ++ 0 :: ra in let pb := b ++ 0 :: rb in let pc := c ++ 0 :: rc in
  (exists x y z, compare_text_less_than pa pb = Ret x /\ compare_text pa pb = Ret y /\
                 compare_text_less_equal pa pb = Ret z /\
                 (x = true <-> lex_lt a b) /\ (y = true <-> a = b) /\ z = y || x) /\
  ~ lt pa pa /\
  (lt pa pb -> lt pb pc -> lt pa pc) /\
  (lt pa pb \/ compare_text pa pb = Ret true \/ lt pb pa).
Proof.
  intros a b c ra rb rc Ha Hb Hc. cbv zeta.
  rewrite !less_than_ok, !compare_text_ok, !less_equal_ok by auto.
  destruct (text_lt_bool a b Ha Hb) as [H1|H1], (text_lt_bool b a Hb Ha) as [H2|H2],
           (text_lt_bool b c Hb Hc) as [H3|H3], (text_lt_bool a c Ha Hc) as [H4|H4],
           (text_lt_bool a a Ha Ha) as [H5|H5]; try (exfalso; eapply lex_irrefl; eassumption).
  all: destruct (key_eqb_spec a b) as [E|E].
  all: split; [do 3 eexists; repeat (split; [reflexivity|]); repeat split; auto; try discriminate; try tauto; try congruence|].
  all: split; [congruence|].
  all: split; [try congruence; try (exfalso; apply H4; apply lex_trans with b; assumption)|].
  all: auto.
  all: destruct (lex_total a b) as [T|[T|T]]; tauto.
Qed.
Print Assumptions C39_key_order.

Example C39_instance :
  compare_text_less_than (buf "ab") (buf "abc") = Ret true /\
  compare_text_less_than ([195; 169; 0]) (buf "z") = Ret false /\
  compare_text_less_equal (buf "ab") (buf "ab") = Ret true.
Proof. vm_compute. auto. Qed.
