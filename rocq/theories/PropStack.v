(** * How deep the functions on trees recurse: C99.

    [delete_d], [write_d], [validate_d], [deserialize_d] and [serialize_d] are the functions of
    the other properties with the number of activations on the stack; [d] in the result of
    [build_parse] is that number for Parse (C84). *)

From Verif Require Import Base TextModel NumModel MapModel ParserModel PortableModel BuildModel SpecNum SpecMap SpecGrammar SpecMeaning SpecRfc SpecBuild
  MapProofs ParserProofs RootProofs RfcProofs BuildProofs PropBuild AccessModel WriterModel SchemaModel OwnModel OwnProofs StackModel SpecStack StackProofs Str.

#[local] Arguments Z.eqb : simpl nomatch.

(** The functions are the same. *)
Theorem C99_agrees :
  (forall n w, undone (delete_d n w) = delete n w) /\
  (forall n c v arr, fst (write_d n c v arr) = write n c v arr) /\
  (forall t v, undone (validate_d t v) = validate t v) /\
  (forall g t v d, undone (deserialize_d g t v d) = deserialize g t v d) /\
  (forall t d v, undone (serialize_d t d v) = serialize t d v).
Proof.
  assert (U : forall A (r : out (A * nat)) e b, within r e b -> undone r = e).
  { intros A r e b. unfold within, undone. destruct r as [[x d]| |], e; cbn [bind]; tauto || (intros [-> _]; reflexivity). }
  split; [|split; [|split; [|split]]].
  - intros n w. rewrite delete_d_spec. unfold undone. now destruct (delete n w).
  - apply write_d_agrees.
  - intros t v. eapply U. apply validate_within.
  - intros g t v d. eapply U. apply deserialize_within.
  - intros t d v. eapply U. apply serialize_within.
Qed.
Print Assumptions C99_agrees.

(** [n] arrays around an empty one. *)
Fixpoint tower (n : nat) : jv := match n with O => JArr [] | S n' => JArr [tower n'] end.

Lemma tower_levels n : forall v, represents v (tower n) -> levels v = S n.
Proof.
  induction n as [|n IH]; intros v R; cbn [tower] in R; inversion R as [| | | |vs js F|]; subst; inversion F as [|x y ? ? Hx Ht]; subst; [reflexivity|].
  inversion Ht; subst. cbn [levels list_max]. rewrite (IH x Hx). lia.
Qed.

Lemma tower_grammar str num n : gval str num (nested n) (tower n) /\ nesting (tower n) = S n.
Proof.
  induction n as [|n (H & E)].
  - split; [apply (g_arr0 str num []); constructor|reflexivity].
  - split.
    + replace (nested (S n)) with (91 :: ([] ++ nested n ++ []) ++ [93]).
      * apply g_arr. apply ge_one; [constructor|exact H|constructor].
      * rewrite app_nil_r. transitivity (91 :: (repeat 91 (S n) ++ repeat 93 (S n)) ++ [93]); [reflexivity|]. rewrite <- app_assoc.
        replace (repeat 93 (S n) ++ [93]) with (repeat 93 (S (S n))); [reflexivity|]. exact (repeat_cons (S n) 93).
    + cbn [tower]. rewrite nesting_arr. cbn [deepest]. rewrite E. lia.
Qed.

(** Full claim: a value that Parse made can be written and destroyed whatever the stack.
    False: for every number of activations there is room for, some text of RFC 8259 needs
    more, for Write and for the destructor. *)
Theorem C99_refuted (n : nat) (c : Z) (room : nat) : exists t j,
  rfc_doc t j /\ length t = (2 * S room)%nat /\
  forall root, exists v d, build_parse number_parse root (t ++ [0]) = Ret (PR kOk 0 0, Some v, d) /\
    (forall arr, (room < snd (write_d n c v arr))%nat) /\
    (forall nd w r, OwnModel.erase nd = v -> holds w (ids nd ++ r) -> exists w' k, delete_d nd w = Ret (w', k) /\ (room < k)%nat).
Proof.
  exists (nested room), (tower room).
  assert (HG : forall str num, gdoc str num (nested room) (tower room)).
  { intros str num. replace (nested room) with ([] ++ nested room ++ []) by now rewrite app_nil_r.
    constructor; [constructor|apply tower_grammar|constructor]. }
  split; [apply HG|]. split; [apply nested_length|]. intros root.
  destruct (reader_accepts true root (nested room) (tower room) []) as (v & P & [R [W _]]); [apply HG|rewrite nested_length; lia|now exists []| |].
  { apply Forall_app. split; [apply nested_bytes|]. repeat constructor; lia. }
  pose proof (tower_levels room v R) as L. exists v, (nesting (tower room)). split; [exact P|]. split.
  - intros arr. destruct (write_depth_eq n c v W arr) as (o & a & ->). cbn [snd]. lia.
  - intros nd w r <- H. destruct (delete_ok nd w r H) as (w' & E & _). rewrite delete_d_spec, E. cbn [bind]. exists w', (delete_depth nd). split; [reflexivity|].
    pose proof (delete_depth_ge nd). lia.
Qed.
Print Assumptions C99_refuted.

(** What holds: Write needs no more activations than Parse needed, and the destructor no more
    than that times twice the logarithm of the length of the text. (Both builds.) *)
Theorem C99_parsed_partial (system : bool) (root : option value) (buf : list Z) (l col : Z) (v : value) (d : nat) : bytes buf ->
  build_parse (reader system) root buf = Ret (PR kOk l col, Some v, d) ->
  (forall n c arr, exists o arr', write_d n c v arr = ((kOk, o, arr'), levels v)) /\ (levels v <= d)%nat /\
  (forall nd w r, OwnModel.erase nd = v -> holds w (ids nd ++ r) ->
     exists w' k, delete_d nd w = Ret (w', k) /\ holds w' r /\ (levels v <= k <= d * (2 + 2 * Nat.log2 (length buf)))%nat).
Proof.
  intros HB E. destruct (reader_sound system root buf (Some v) l col d HB E) as (t & rest & j & v' & -> & _ & _ & HG & [= <-] & [R [W _]] & -> & _).
  destruct (shown_bounds v W j R) as [B1 B2]. pose proof (widest_doc _ _ _ _ HG) as B3.
  split; [intros n c arr; now apply write_depth_eq|]. split; [exact B1|].
  intros nd w r <- H. destruct (delete_ok nd w r H) as (w' & E' & _ & H'). rewrite delete_d_spec, E'. cbn [bind]. exists w', (delete_depth nd).
  split; [reflexivity|]. split; [exact H'|]. split; [apply delete_depth_ge|].
  etransitivity; [apply (delete_depth_le (length t)); [exact W|lia]|]. apply Nat.mul_le_mono; [exact B1|]. unfold object_cost.
  pose proof (Nat.log2_le_mono (S (length t)) (length (t ++ 0 :: rest)) ltac:(rewrite app_length; cbn [length]; lia)). lia.
Qed.
Print Assumptions C99_parsed_partial.

(** Write never recurses deeper than the tree is. *)
Theorem C99_write (n : nat) (c : Z) (v : value) (arr : list Z) : (snd (write_d n c v arr) <= levels v)%nat.
Proof. apply write_depth_le. Qed.
Print Assumptions C99_write.

(** Validate, Deserialize and Serialize recurse along the type: for each type there is a
    number of activations that is enough, whatever the tree and the object. *)
Theorem C99_schema (t : ty) :
  (forall v st k, validate_d t v = Ret (st, k) -> (k <= type_levels t)%nat) /\
  (forall g v d st d' k, deserialize_d g t v d = Ret (st, d', k) -> (k <= type_levels t)%nat) /\
  (forall d v st v' k, serialize_d t d v = Ret (st, v', k) -> (k <= type_levels t)%nat).
Proof.
  assert (U : forall A (r : out (A * nat)) e b x k, within r e b -> r = Ret (x, k) -> (k <= b)%nat).
  { intros A r e b x k H ->. unfold within in H. destruct e; tauto. }
  split; [|split].
  - intros v st k E. eapply U; [apply validate_within|exact E].
  - intros g v d st d' k E. eapply U; [apply (deserialize_within g)|exact E].
  - intros d v st v' k E. eapply U; [apply serialize_within|exact E].
Qed.
Print Assumptions C99_schema.

(** Instances: a text with arrays and objects; a type with three levels of structures. *)
Definition stack_text : list Z := buf "{""a"":[1,[2,{""b"":{}}]],""c"":1,""d"":2,""e"":[],""f"":true,""g"":null,""h"":""x""}".
Definition stack_type : ty := TStruct (PItem (Named (`"a")) None (TArray TDouble) (PItem (Optional (`"b")) None (TStdMap TBool) PNil)).

Example C99_instance :
  (exists v nd w k, build_parse number_parse None stack_text = Ret (PR kOk 0 0, Some v, 5%nat) /\ levels v = 5%nat /\
     snd (write_d 2 32 v []) = 5%nat /\
     sd_parse_o (fun _ => false) None stack_text (World 0 []) = Ret (PR kOk 0 0, Some nd, w) /\ OwnModel.erase nd = v /\
     holds w (ids nd ++ []) /\ delete_d nd w = Ret (World (tick w) [], k) /\ k = 9%nat) /\
  type_levels stack_type = 5%nat /\
  (exists m order, validate_d stack_type (VObject m order) = Ret (kOk, 5%nat)).
Proof.
  split; [|split; [reflexivity|]].
  - do 4 eexists. split; [vm_compute; reflexivity|]. split; [vm_compute; reflexivity|]. split; [vm_compute; reflexivity|]. split; [vm_compute; reflexivity|].
    split; [vm_compute; reflexivity|]. split; [|split; vm_compute; reflexivity].
    split; [split|].
    + vm_compute. repeat constructor; cbn; intuition discriminate.
    + vm_compute. repeat constructor.
    + vm_compute. apply Permutation.NoDup_Permutation; [repeat constructor; cbn; intuition discriminate|repeat constructor; cbn; intuition discriminate|].
      intros x. cbn. tauto.
  - exists (Node (Node Leaf (`"a") (VArray [VNumber (S754_zero false)]) 0 Leaf) (`"b") (VObject (Node Leaf (`"x") (VBool true) 0 Leaf) []) (-1) Leaf), [].
    vm_compute. reflexivity.
Qed.
