(** * Proofs about Deserialize when memory runs out. *)

From Verif Require Import Base TextModel NumModel MapModel ParserModel SpecMap SpecGrammar SpecMeaning MapProofs AccessModel SchemaModel SpecSchema SchemaProofs
  SpecText StringProofs StringModel DynModel DynProofs StrFailModel SpecStrFail StrFailProofs OwnModel OwnProofs ParserProofs DeserFailModel SpecDeserFail.

#[local] Arguments Z.eqb : simpl nomatch.

(** ** Lists and trees *)

Lemma all_Forall {A} (P : A -> Prop) l : all P l <-> Forall P l.
Proof. induction l as [|x l IH]; cbn [all]; [split; constructor|]. rewrite IH. split; [intros []; now constructor|intros H; now inversion H]. Qed.

Lemma tree_all_elements {A} (P : A -> Prop) m : tree_all P m <-> Forall (fun e => P (snd e)) (elements m).
Proof.
  induction m as [|l IHl k v b r IHr]; cbn [tree_all elements]; [split; constructor|]. rewrite Forall_app, Forall_cons_iff. cbn [snd]. rewrite <- IHl, <- IHr. tauto.
Qed.

Fixpoint sum_of {A} (f : A -> nat) (l : list A) : nat := match l with [] => 0%nat | x :: l' => (f x + sum_of f l')%nat end.
Lemma sum_app {A} (f : A -> nat) l1 l2 : sum_of f (l1 ++ l2) = (sum_of f l1 + sum_of f l2)%nat.
Proof. induction l1; cbn [app sum_of]; lia. Qed.
Lemma tsum_elements {A} (f : A -> nat) m : tsum f m = sum_of (fun e => f (snd e)) (elements m).
Proof. induction m as [|l IHl k v b r IHr]; cbn [tsum elements]; [reflexivity|]. rewrite sum_app. cbn [sum_of snd]. fold (tsum f l) (tsum f r). lia. Qed.

Definition pairs (l : list (list Z * odata)) : list (list Z * data) := map (fun kd => (fst kd, seen (snd kd))) l.

Lemma seen_std l : seen (OStdMap l) = DStdMap (pairs l).
Proof. cbn [seen]. f_equal. induction l as [|[k x] l IH]; [reflexivity|]. unfold pairs in *. cbn [map fst snd]. now rewrite <- IH. Qed.
Lemma elems_list l : elems (OArray l) = sum_of elems l.
Proof. cbn [elems]. induction l as [|x l IH]; [reflexivity|]. cbn [sum_of]. now rewrite <- IH. Qed.
Lemma elems_struct l : elems (OStruct l) = sum_of elems l.
Proof. exact (elems_list l). Qed.
Lemma elems_std l : elems (OStdMap l) = sum_of (fun e => elems (snd e)) l.
Proof. cbn [elems]. induction l as [|[k x] l IH]; [reflexivity|]. cbn [sum_of snd]. now rewrite <- IH. Qed.
Lemma elems_map m : elems (OMap m) = sum_of (fun e => S (elems (snd e))) (elements m).
Proof. cbn [elems]. apply (tsum_elements (fun x => S (elems x))). Qed.

Lemma every_std deep P l : every deep P (OStdMap l) <-> Forall (fun e => every deep P (snd e)) l.
Proof. cbn [every]. induction l as [|[k x] l IH]; [split; constructor|]. rewrite Forall_cons_iff, <- IH. reflexivity. Qed.
Lemma every_map deep P m : every deep P (OMap m) <-> Forall (fun e => every deep P (snd e)) (elements m).
Proof. apply tree_all_elements. Qed.
Lemma every_struct deep P l : every deep P (OStruct l) <-> Forall (every deep P) l.
Proof. apply all_Forall. Qed.
Lemma undead_array l : undead (OArray l) <-> Forall undead l.
Proof. apply all_Forall. Qed.

Lemma tree_all_true {A} (P : A -> Prop) (H : forall a, P a) : forall m, tree_all P m.
Proof. intros m. induction m; cbn; auto. Qed.

Section Induct.
Variable P : odata -> Prop.
Hypotheses (H1 : forall s, P (OString s)) (H2 : forall s, P (OStd s)) (H3 : forall d, P (ODouble d)) (H4 : forall b, P (OBool b)) (H5 : P ONull)
  (H6 : forall l, Forall P l -> P (OArray l)) (H7 : forall m, tree_all P m -> P (OMap m))
  (H8 : forall l, Forall (fun e => P (snd e)) l -> P (OStdMap l)) (H9 : forall l, Forall P l -> P (OStruct l)).
Fixpoint odata_induct (o : odata) : P o :=
  match o with
  | OString s => H1 s | OStd s => H2 s | ODouble d => H3 d | OBool b => H4 b | ONull => H5
  | OArray l => H6 l ((fix go l : Forall P l := match l with [] => Forall_nil _ | x :: l' => Forall_cons _ (odata_induct x) (go l') end) l)
  | OMap m => H7 m ((fix go m : tree_all P m := match m with Leaf => I | Node l _ v _ r => conj (go l) (conj (odata_induct v) (go r)) end) m)
  | OStdMap l => H8 l ((fix go l : Forall (fun e => P (snd e)) l :=
                   match l with [] => Forall_nil _ | (k, x) :: l' => Forall_cons (k, x) (odata_induct x) (go l') end) l)
  | OStruct l => H9 l ((fix go l : Forall P l := match l with [] => Forall_nil _ | x :: l' => Forall_cons _ (odata_induct x) (go l') end) l)
  end.
End Induct.

(** ** Destructors *)

Definition less (w : mem) (n : nat) : mem := Mem (asked w) (alive w - n).

Lemma destroy_ok o : undead o -> forall w, (elems o <= alive w)%nat -> destroy_o o w = Ret (less w (elems o)).
Proof.
  assert (Z0 : forall w, w = less w 0) by (intros []; unfold less; cbn; now rewrite Nat.sub_0_r).
  induction o as [s|s|d|b| |l IH|m IH|l IH|l IH] using odata_induct; intros U w L.
  - unfold undead in U. cbn [every] in U. cbn [destroy_o elems]. unfold f_destroy, f_delete. destruct (f_store s); [| |congruence]; cbn [bind]; now rewrite <- Z0.
  - cbn. now rewrite <- Z0.
  - cbn. now rewrite <- Z0.
  - cbn. now rewrite <- Z0.
  - cbn. now rewrite <- Z0.
  - apply undead_array in U. rewrite elems_list in *. cbn [destroy_o]. revert w L. induction IH as [|x l Hx _ IHl]; intros w L; [cbn; now rewrite <- Z0|].
    inversion U; subst. cbn [sum_of] in *. rewrite Hx by (auto; lia). cbn [bind]. rewrite IHl by (auto; cbn; lia). unfold less. cbn. do 2 f_equal. lia.
  - assert (U' : tree_all undead m) by exact U. clear U. change (elems (OMap m)) with (tsum (fun x => S (elems x)) m) in *. cbn [destroy_o]. revert w L.
    induction m as [|l IHl k v b r IHr]; intros w L; [cbn; now rewrite <- Z0|]. cbn [tree_all] in IH, U'. destruct IH as (I1 & I2 & I3), U' as (U1 & U2 & U3).
    cbn [tsum] in *. fold (tsum (fun x => S (elems x)) l) (tsum (fun x => S (elems x)) r) in *.
    rewrite (IHl I1 U1) by lia. cbn [bind]. rewrite (IHr I3 U3) by (cbn; lia). cbn [bind]. rewrite (I2 U2) by (cbn; lia). cbn [bind less alive asked].
    set (a := (alive w - tsum (fun x => S (elems x)) l - tsum (fun x => S (elems x)) r - elems v)%nat). destruct a as [|n] eqn:E; subst a; [lia|].
    unfold less. do 2 f_equal. cbn. lia.
  - apply every_std in U. rewrite elems_std in *. cbn [destroy_o]. revert w L. induction IH as [|[k x] l Hx _ IHl]; intros w L; [cbn; now rewrite <- Z0|].
    inversion U; subst. cbn [sum_of snd] in *. rewrite Hx by (auto; lia). cbn [bind]. rewrite IHl by (auto; cbn; lia). unfold less. cbn. do 2 f_equal. lia.
  - apply every_struct in U. rewrite elems_struct in *. cbn [destroy_o]. revert w L. induction IH as [|x l Hx _ IHl]; intros w L; [cbn; now rewrite <- Z0|].
    inversion U; subst. cbn [sum_of] in *. rewrite Hx by (auto; lia). cbn [bind]. rewrite IHl by (auto; cbn; lia). unfold less. cbn. do 2 f_equal. lia.
Qed.

Lemma destroy_all_ok l : Forall undead l -> forall w, (sum_of elems l <= alive w)%nat -> destroy_all l w = Ret (less w (sum_of elems l)).
Proof.
  intros U w L. pose proof (destroy_ok (OArray l) (proj2 (undead_array l) U) w ltac:(now rewrite elems_list)) as D. rewrite elems_list in D. rewrite <- D. cbn [destroy_o].
  clear. revert w. induction l as [|x l IH]; intros w; [reflexivity|]. cbn [destroy_all]. destruct (destroy_o x w); cbn [bind]; auto.
Qed.

(** ** Strings *)

Lemma whole_text s d t : s = embed d -> exact d t -> text_of s = t.
Proof.
  intros -> (_ & H & _). apply holds_nul in H. destruct H as [_ H]. rewrite <- H. unfold text_of, embed, chars. cbn [f_store f_local]. destruct (heap d); reflexivity.
Qed.
Lemma whole_undead s : whole s -> f_store s <> Freed.
Proof. intros (d & t & -> & _). unfold embed. cbn [f_store]. destruct (heap d); discriminate. Qed.

Lemma good_nul_free t : good_key t -> nul_free t.
Proof. apply Forall_impl. intros; lia. Qed.

Lemma block_length n : 0 <= n -> Z.of_nat (length (block n)) = n.
Proof. intros H. unfold block. rewrite repeat_length. lia. Qed.

Lemma cstr_end s : good_key s -> cstr (s ++ [0]) = s /\ In 0 (s ++ [0]).
Proof.
  intros H. split; [|apply in_or_app; cbn; auto]. induction H as [|c s Hc _ IH]; [reflexivity|]. cbn [app cstr]. destruct (Z.eqb_spec c 0); [lia|]. now rewrite IH.
Qed.

Lemma string_of_ok s : good_key s -> exists x, string_of s = Ret x /\ whole x /\ text_of x = s /\ ((length s < 16)%nat -> f_store x = Local).
Proof.
  intros G. destruct (cstr_end s G) as [E I0]. destruct (new_text_ok block block_length (s ++ [0]) I0) as (d & Ed & X). rewrite E in X.
  unfold string_of. rewrite Ed. cbn [bind]. exists (embed d). split; [reflexivity|]. split; [exists d, s; auto|]. split; [now apply (whole_text _ d)|].
  intros L. unfold new_text in Ed. rewrite text_length in Ed by exact I0. rewrite E in Ed. cbn [bind] in Ed. unfold new_sized in Ed.
  destruct (Z.ltb_spec 16 (Z.of_nat (length s) + 1)); [lia|]. destruct (copy_n _ _ _ _); try discriminate. cbn [bind] in Ed. injection Ed as <-. reflexivity.
Qed.

Lemma copy_string_ok s : whole s -> exists d d', as_dyn s = Ret d /\ new_copy block d = Ret d' /\ whole (embed d') /\ text_of (embed d') = text_of s.
Proof.
  intros (d & t & -> & X & G). destruct (new_copy_ok block block_length d (exact_sound d t X)) as (d' & E & _ & H). exists d, d'. split.
  - unfold as_dyn, embed. cbn [f_store f_logical f_physical f_local]. destruct d as [l p [h|] lo]; reflexivity.
  - split; [exact E|]. split; [exists d', t; auto|]. now rewrite (whole_text _ d' t eq_refl (H t X)), (whole_text _ d t eq_refl X).
Qed.

(** ** What types say of objects *)

Lemma otype_undead : (forall t o, otype t o -> undead o) /\ (forall p l, otypes p l -> Forall undead l).
Proof.
  apply ty_proto_ind.
  - intros o (s & -> & H). now apply whole_undead.
  - intros o (x & ->). exact I.
  - intros o (x & ->). exact I.
  - intros o ->. exact I.
  - intros t IH o (l & -> & H). apply undead_array. revert H. apply Forall_impl. exact IH.
  - intros t IH o (m & -> & _ & H). apply every_map. revert H. apply Forall_impl. intros e. apply IH.
  - intros o (x & -> & _). exact I.
  - intros t IH o (l & -> & H). apply undead_array. revert H. apply Forall_impl. exact IH.
  - intros t IH o (l & -> & _ & _ & H). apply every_std. revert H. apply Forall_impl. intros e. apply IH.
  - intros p IH o (l & -> & H). apply every_struct. apply IH, H.
  - intros [|o l] H; [constructor|destruct H].
  - intros k i t IH p IHp [|o l] H; [destruct H|]. destruct H. constructor; [apply IH|apply IHp]; assumption.
Qed.

Lemma sum_zero {A} (f : A -> nat) l : Forall (fun x => f x = 0%nat) l -> sum_of f l = 0%nat.
Proof. induction 1 as [|x l E _ IH]; cbn [sum_of]; lia. Qed.

Lemma plain_elems : (forall t, plain t -> forall o, otype t o -> elems o = 0%nat) /\
  (forall p, plain_proto p -> forall l, otypes p l -> sum_of elems l = 0%nat).
Proof.
  apply ty_proto_ind.
  - intros _ o (s & -> & H). reflexivity.
  - intros _ o (x & ->). reflexivity.
  - intros _ o (x & ->). reflexivity.
  - intros _ o ->. reflexivity.
  - intros t IH P o (l & -> & H). rewrite elems_list. apply sum_zero. revert H. apply Forall_impl. now apply IH.
  - intros t IH [].
  - intros _ o (x & -> & _). reflexivity.
  - intros t IH P o (l & -> & H). rewrite elems_list. apply sum_zero. revert H. apply Forall_impl. now apply IH.
  - intros t IH P o (l & -> & _ & _ & H). rewrite elems_std. apply sum_zero. revert H. apply Forall_impl. intros e. now apply IH.
  - intros p IH P o (l & -> & H). rewrite elems_struct. now apply IH.
  - intros _ [|o l] H; [reflexivity|destruct H].
  - intros k i t IH p IHp [P1 P2] [|o l] H; [destruct H|]. destruct H as [H1 H2]. cbn [sum_of]. rewrite (IH P1 o H1), (IHp P2 l H2). reflexivity.
Qed.

Lemma plain_compiles : (forall t, plain t -> compiles t) /\ (forall p, plain_proto p -> compiles_proto p).
Proof. apply ty_proto_ind; cbn; tauto. Qed.

(** ** New objects and copies *)

Lemma placed_ok :
  (forall t d, has_type t d -> bare d -> exists o, placed t d = Ret o /\ otype t o /\ seen o = d /\ elems o = 0%nat /\ (short t d -> settled o)) /\
  (forall p ds, has_types p ds -> all bare ds -> exists l, placed_items p ds = Ret l /\ otypes p l /\ map seen l = ds /\ sum_of elems l = 0%nat /\
     (short_items p ds -> Forall settled l)).
Proof.
  assert (AR : forall t, (forall d, has_type t d -> bare d -> exists o, placed t d = Ret o /\ otype t o /\ seen o = d /\ elems o = 0%nat /\ (short t d -> settled o)) ->
    forall l, Forall (has_type t) l -> all bare l -> exists os, ((fix go (l : list data) : out (list odata) :=
                   match l with
                   | [] => Ret []
                   | d :: l' => let! o := placed t d in let! os := go l' in Ret (o :: os)
                   end) l) = Ret os /\ Forall (otype t) os /\ map seen os = l /\ sum_of elems os = 0%nat).
  { intros t IH l H B. induction H as [|d l Hd _ IHl]; [exists []; auto|]. destruct B as [B1 B2]. destruct (IH d Hd B1) as (o & E & T & S & L & _).
    destruct (IHl B2) as (os & E' & T' & S' & L'). rewrite E. cbn [bind]. rewrite E'. cbn [bind]. exists (o :: os). split; [reflexivity|].
    split; [now constructor|]. cbn [map sum_of]. split; [congruence|lia]. }
  apply ty_proto_ind.
  - intros d (s & -> & G) _. destruct (string_of_ok s G) as (x & E & W & T & L). cbn [placed]. rewrite E. cbn [bind]. exists (OString x).
    split; [reflexivity|]. split; [exists x; auto|]. cbn [seen elems]. rewrite T. do 2 (split; [auto|]). exact L.
  - intros d (x & ->) _. exists (ODouble x). split; [reflexivity|]. split; [now exists x|]. do 2 (split; [reflexivity|]). intros _. exact I.
  - intros d (x & ->) _. exists (OBool x). split; [reflexivity|]. split; [now exists x|]. do 2 (split; [reflexivity|]). intros _. exact I.
  - intros d E _. cbn [has_type] in E. subst d. exists ONull. do 4 (split; [reflexivity|]). intros _. exact I.
  - intros t IH d (l & -> & H) B. destruct (AR t IH l H B) as (os & E & T & S & L). cbn [placed]. rewrite E. cbn [bind]. exists (OArray os).
    split; [reflexivity|]. split; [exists os; auto|]. rewrite elems_list. cbn [seen]. rewrite S. do 2 (split; [auto|]). intros _. exact I.
  - intros t IH d (m & -> & W & H) B. cbn [bare] in B. subst m. exists (OMap Leaf). split; [reflexivity|]. split; [exists Leaf; split; [reflexivity|]; split; [exact W|constructor]|]. do 2 (split; [reflexivity|]). intros _. exact I.
  - intros d (s & -> & G) _. exists (OStd s). split; [reflexivity|]. split; [exists s; auto|]. do 2 (split; [reflexivity|]). intros _. exact I.
  - intros t IH d (l & -> & H) B. destruct (AR t IH l H B) as (os & E & T & S & L). cbn [placed]. rewrite E. cbn [bind]. exists (OArray os).
    split; [reflexivity|]. split; [exists os; auto|]. rewrite elems_list. cbn [seen]. rewrite S. do 2 (split; [auto|]). intros _. exact I.
  - intros t IH d (l & -> & I1 & I2 & H) B. cbn [placed].
    assert (X : exists os, ((fix go (l : list (list Z * data)) : out (list (list Z * odata)) :=
                   match l with
                   | [] => Ret []
                   | (k, d) :: l' => let! o := placed t d in let! os := go l' in Ret ((k, o) :: os)
                   end) l) = Ret os /\ Forall (fun e => otype t (snd e)) os /\ pairs os = l /\ sum_of (fun e => elems (snd e)) os = 0%nat /\
                   (all (fun kd => short t (snd kd)) l -> Forall (fun e => settled (snd e)) os)).
    { clear I1 I2. cbn [bare] in B. induction H as [|[k d] l Hd _ IHl]; [exists []; repeat split; constructor|]. destruct B as [B1 B2]. cbn [snd] in Hd.
      destruct (IH d Hd B1) as (o & E & T & S & L & Q). destruct (IHl B2) as (os & E' & T' & S' & L' & Q'). rewrite E. cbn [bind]. rewrite E'. cbn [bind].
      exists ((k, o) :: os). split; [reflexivity|]. split; [now constructor|]. unfold pairs in *. cbn [map sum_of fst snd]. split; [congruence|]. split; [lia|].
      intros [Y1 Y2]. cbn [snd] in *. constructor; auto. }
    destruct X as (os & E & T & S & L & Q). rewrite E. cbn [bind]. exists (OStdMap os). split; [reflexivity|].
    assert (K : map fst os = map fst l). { rewrite <- S. unfold pairs. rewrite map_map. reflexivity. }
    split; [exists os; rewrite K; auto|]. rewrite seen_std, elems_std, S. do 2 (split; [auto|]). intros Y. apply every_std, Q, Y.
  - intros p IH d (l & -> & H) B. destruct (IH l H B) as (os & E & T & S & L & Q). cbn [placed]. rewrite E. cbn [bind]. exists (OStruct os).
    split; [reflexivity|]. split; [exists os; auto|]. rewrite elems_struct. cbn [seen]. rewrite S. do 2 (split; [auto|]). intros Y. apply every_struct, Q, Y.
  - intros [|d ds] H B; [|destruct H]. exists []. repeat split. intros _. constructor.
  - intros k i t IH p IHp [|d ds] H B; [destruct H|]. destruct H as [H1 H2], B as [B1 B2].
    destruct (IH d H1 B1) as (o & E & T & S & L & Q). destruct (IHp ds H2 B2) as (os & E' & T' & S' & L' & Q').
    cbn [placed_items]. rewrite E. cbn [bind]. rewrite E'. cbn [bind]. exists (o :: os). split; [reflexivity|]. split; [split; auto|].
    cbn [map sum_of]. split; [congruence|]. split; [lia|]. intros [Y1 Y2]. constructor; auto.
Qed.

Lemma copied_ok :
  (forall t, plain t -> forall o, otype t o -> exists o', copied o = Ret o' /\ otype t o' /\ seen o' = seen o) /\
  (forall p, plain_proto p -> forall l, otypes p l -> exists l', ((fix go (l : list odata) : out (list odata) :=
                   match l with [] => Ret [] | x :: l' => let! x := copied x in let! l' := go l' in Ret (x :: l') end) l) = Ret l' /\
     otypes p l' /\ map seen l' = map seen l).
Proof.
  assert (AR : forall t, (forall o, otype t o -> exists o', copied o = Ret o' /\ otype t o' /\ seen o' = seen o) ->
    forall l, Forall (otype t) l -> exists l', ((fix go (l : list odata) : out (list odata) :=
                   match l with [] => Ret [] | x :: l' => let! x := copied x in let! l' := go l' in Ret (x :: l') end) l) = Ret l' /\
     Forall (otype t) l' /\ map seen l' = map seen l).
  { intros t IH l H. induction H as [|x l Hx _ IHl]; [exists []; auto|]. destruct (IH x Hx) as (o & E & T & S). destruct IHl as (os & E' & T' & S').
    rewrite E. cbn [bind]. rewrite E'. cbn [bind]. exists (o :: os). split; [reflexivity|]. split; [now constructor|]. cbn [map]. congruence. }
  apply ty_proto_ind.
  - intros _ o (s & -> & W). destruct (copy_string_ok s W) as (d & d' & E1 & E2 & W' & T). cbn [copied]. rewrite E1. cbn [bind]. rewrite E2. cbn [bind].
    exists (OString (embed d')). split; [reflexivity|]. split; [exists (embed d'); auto|]. cbn [seen]. congruence.
  - intros _ o (x & ->). exists (ODouble x). repeat split. now exists x.
  - intros _ o (x & ->). exists (OBool x). repeat split. now exists x.
  - intros _ o E. cbn [otype] in E. subst o. exists ONull. repeat split.
  - intros t IH P o (l & -> & H). destruct (AR t (IH P) l H) as (os & E & T & S). cbn [copied]. rewrite E. cbn [bind]. exists (OArray os).
    split; [reflexivity|]. split; [exists os; auto|]. cbn [seen]. congruence.
  - intros t IH [].
  - intros _ o (s & -> & G). exists (OStd s). repeat split. exists s. auto.
  - intros t IH P o (l & -> & H). destruct (AR t (IH P) l H) as (os & E & T & S). cbn [copied]. rewrite E. cbn [bind]. exists (OArray os).
    split; [reflexivity|]. split; [exists os; auto|]. cbn [seen]. congruence.
  - intros t IH P o (l & -> & I1 & I2 & H). cbn [copied].
    assert (X : exists os, ((fix go (l : list (list Z * odata)) : out (list (list Z * odata)) :=
                   match l with [] => Ret [] | (k, x) :: l' => let! x := copied x in let! l' := go l' in Ret ((k, x) :: l') end) l) = Ret os /\
                   Forall (fun e => otype t (snd e)) os /\ pairs os = pairs l).
    { clear I1 I2. induction H as [|[k d] l Hd _ IHl]; [exists []; repeat split; constructor|]. cbn [snd] in Hd.
      destruct (IH P d Hd) as (o & E & T & S). destruct IHl as (os & E' & T' & S'). rewrite E. cbn [bind]. rewrite E'. cbn [bind].
      exists ((k, o) :: os). split; [reflexivity|]. split; [now constructor|]. unfold pairs in *. cbn [map fst snd]. congruence. }
    destruct X as (os & E & T & S). rewrite E. cbn [bind]. exists (OStdMap os). split; [reflexivity|].
    assert (K : map fst os = map fst l). { transitivity (map fst (pairs os)); [unfold pairs; rewrite map_map; reflexivity|]. rewrite S. unfold pairs. rewrite map_map. reflexivity. }
    split; [exists os; rewrite K; auto|]. rewrite !seen_std. congruence.
  - intros p IH P o (l & -> & H). destruct (IH P l H) as (os & E & T & S). cbn [copied]. rewrite E. cbn [bind]. exists (OStruct os).
    split; [reflexivity|]. split; [exists os; auto|]. cbn [seen]. congruence.
  - intros _ [|o l] H; [|destruct H]. exists []. repeat split.
  - intros k i t IH p IHp [P1 P2] [|d ds] H; [destruct H|]. destruct H as [H1 H2].
    destruct (IH P1 d H1) as (o & E & T & S). destruct (IHp P2 ds H2) as (os & E' & T' & S').
    rewrite E. cbn [bind]. rewrite E'. cbn [bind]. exists (o :: os). split; [reflexivity|]. split; [split; auto|]. cbn [map]. congruence.
Qed.

Lemma fresh_bare g : (forall t, inits (fun _ d => bare d) t -> bare (fresh g t)) /\
  (forall p, inits_proto (fun _ d => bare d) p -> all bare (fresh_proto g p)).
Proof.
  apply ty_proto_ind; try (intros; exact I); try (intros; reflexivity).
  - intros p IH H. exact (IH H).
  - intros k [d|] t IH p IHp (H1 & H2 & H3); cbn [fresh_proto all]; split; auto.
Qed.
Lemma fresh_short g : (forall t, inits short t -> short t (fresh g t)) /\ (forall p, inits_proto short p -> short_items p (fresh_proto g p)).
Proof.
  apply ty_proto_ind; try (intros; exact I).
  - intros _. cbn. lia.
  - intros p IH H. exact (IH H).
  - intros k [d|] t IH p IHp (H1 & H2 & H3); cbn [fresh_proto short_items]; split; auto.
Qed.

(** ** Maps *)

Lemma find_tmap {A B} (f : A -> B) m k : find_map_element (tmap f m) k = option_map f (find_map_element m k).
Proof. induction m as [|l IHl k' v b r IHr]; [reflexivity|]. cbn [tmap find_map_element]. destruct (text_lt k k'); [exact IHl|]. destruct (text_lt k' k); [exact IHr|reflexivity]. Qed.
Lemma replace_tmap {A B} (f : A -> B) m k k1 x : tmap f (replace_node m k k1 x) = replace_node (tmap f m) k k1 (f x).
Proof.
  induction m as [|l IHl k' v b r IHr]; [reflexivity|]. cbn [tmap replace_node].
  destruct (text_lt k k'); [cbn [tmap]; now rewrite IHl|]. destruct (text_lt k' k); cbn [tmap]; [now rewrite IHr|reflexivity].
Qed.

Lemma found_split {A} (m : tree A) k o x : wf_map m -> good_key k -> find_map_element m k = Some o ->
  exists L R, elements m = L ++ (k, o) :: R /\ elements (replace_node m k k x) = L ++ (k, x) :: R /\ wf_map (replace_node m k k x).
Proof.
  intros Hw Hk Hf. pose proof Hw as (Ha & Hb & Hg). rewrite find_assoc in Hf by auto.
  assert (Hin : In k (keys m)) by (apply assoc_in, (in_map fst) in Hf; exact Hf).
  destruct (replace_node_elements m k k x Hk Hg Hb Hin) as (L & v & R & E1 & E2).
  assert (Hk2 : keys (replace_node m k k x) = keys m) by (unfold keys; rewrite E1, E2, !map_app; reflexivity).
  assert (HnL : ~ In k (map fst L)).
  { unfold bst in Hb. unfold keys in Hb. rewrite E1, map_app in Hb. simpl in Hb. apply increasing_nodup, NoDup_remove_2 in Hb.
    rewrite in_app_iff in Hb. tauto. }
  rewrite E1, assoc_app, (assoc_none k L) in Hf by auto. cbn [assoc] in Hf. rewrite key_eqb_refl in Hf. injection Hf as ->.
  exists L, R. split; [exact E1|]. split; [exact E2|]. split; [apply replace_node_avl; auto|]. unfold bst, good_keys. rewrite Hk2. auto.
Qed.
Lemma absent_split {A} (m : tree A) k x : wf_map m -> good_key k -> find_map_element m k = None ->
  exists m' L R, insert_map_element m k x = Ret (m', true) /\ elements m = L ++ R /\ elements m' = L ++ (k, x) :: R /\ wf_map m'.
Proof.
  intros Hw Hk Hf. destruct (insert_ok m k x Hw Hk) as (m' & f & E & Hw' & Hin & _ & Ht).
  pose proof Hw as (_ & Hb & Hg). rewrite find_assoc in Hf by auto.
  assert (f = true) as -> by (apply Hin; intros Hi; apply assoc_some_in in Hi; destruct Hi; congruence).
  destruct (Ht eq_refl) as (L & R & E1 & E2). exists m', L, R. auto.
Qed.

Lemma olookup_pairs k l : std_lookup k (pairs l) = option_map seen (olookup k l).
Proof. induction l as [|[k' x] l IH]; [reflexivity|]. cbn [pairs map fst snd std_lookup olookup]. destruct (text_lt k k'); [reflexivity|]. destruct (text_lt k' k); [exact IH|reflexivity]. Qed.
Lemma ostore_pairs k o l : pairs (ostore k o l) = std_store k (seen o) (pairs l).
Proof.
  induction l as [|[k' x] l IH]; [reflexivity|]. cbn [pairs map fst snd std_store ostore]. destruct (text_lt k k'); [reflexivity|].
  destruct (text_lt k' k); [|reflexivity]. unfold pairs in *. cbn [map fst snd]. now rewrite <- IH.
Qed.
Lemma ostore_forall (P : odata -> Prop) k x l : P x -> Forall (fun e => P (snd e)) l -> Forall (fun e => P (snd e)) (ostore k x l).
Proof.
  intros Px. induction l as [|[k' y] l IH]; intros H; cbn [ostore]; [auto|]. inversion H; subst.
  destruct (text_lt k k'); [auto|]. destruct (text_lt k' k); auto.
Qed.
Lemma pairs_sorted l : sorted l <-> sorted (pairs l).
Proof. unfold sorted, pairs. rewrite map_map. reflexivity. Qed.
Lemma lookup_some k o l x : good_key k -> sorted l -> olookup k l = Some o ->
  exists L R, l = L ++ (k, o) :: R /\ ostore k x l = L ++ (k, x) :: R.
Proof.
  intros Hk. induction l as [|[k' y] l IH]; intros S E; [discriminate|]. apply sorted_cons in S. destruct S as (Hg & Hl & S). cbn [olookup ostore] in *.
  destruct (text_lt_cases k k' Hk Hg) as [(HL & E1)|[(HE & E1 & E2)|(HL & E1 & E2)]]; rewrite E1 in *; try rewrite E2 in *.
  - discriminate.
  - injection E as ->. subst. exists [], l. auto.
  - destruct (IH S E) as (L & R & -> & ->). exists ((k', y) :: L), R. auto.
Qed.
Lemma lookup_none k l x : good_key k -> sorted l -> olookup k l = None ->
  exists L R, l = L ++ R /\ ostore k x l = L ++ (k, x) :: R.
Proof.
  intros Hk. induction l as [|[k' y] l IH]; intros S E; [exists [], []; auto|]. apply sorted_cons in S. destruct S as (Hg & Hl & S). cbn [olookup ostore] in *.
  destruct (text_lt_cases k k' Hk Hg) as [(HL & E1)|[(HE & E1 & E2)|(HL & E1 & E2)]]; rewrite E1 in *; try rewrite E2 in *.
  - exists [], ((k', y) :: l). auto.
  - discriminate.
  - destruct (IH S E) as (L & R & -> & ->). exists ((k', y) :: L), R. auto.
Qed.
Lemma ostore_sorted k o l : good_key k -> sorted l -> sorted (ostore k o l).
Proof. intros Hk S. apply pairs_sorted. rewrite ostore_pairs. apply std_store_sorted; [auto|]. now apply pairs_sorted. Qed.
Lemma olookup_assoc k l : good_key k -> sorted l -> olookup k l = assoc k l.
Proof.
  intros Hk. induction l as [|[k' x] l IH]; intros Hs; simpl; [reflexivity|].
  apply sorted_cons in Hs. destruct Hs as (Hg & Hl & Hs).
  destruct (text_lt_cases k k' Hk Hg) as [(HL & E)|[(HE & E1 & E2)|(HL & E1 & E2)]].
  - rewrite E. destruct (key_eqb_spec k k') as [->|]; [exfalso; eapply lex_irrefl; eauto|].
    symmetry. apply assoc_none. intros Hin. apply Hl in Hin. apply (lex_irrefl k'). eapply lex_trans; eauto.
  - subst. rewrite E1, key_eqb_refl. reflexivity.
  - rewrite E1, E2, IH by auto. destruct (key_eqb_spec k k') as [->|]; [exfalso; eapply lex_irrefl; eauto|]. reflexivity.
Qed.

(** In [L ++ (k, x) :: R] the pairs with other keys are those of [L ++ R] and of [L ++ (k, y) :: R]. *)
Lemma assoc_other {A} k k' (x y : A) L R : k' <> k -> assoc k' (L ++ (k, x) :: R) = assoc k' (L ++ (k, y) :: R) /\ assoc k' (L ++ (k, x) :: R) = assoc k' (L ++ R).
Proof. intros N. rewrite !assoc_app. cbn [assoc]. destruct (key_eqb_spec k' k); [contradiction|]. auto. Qed.

Section Fails.
Variable fails : nat -> bool.

Definition never : Prop := forall k, fails k = false.
Definition faulted (w w' : mem) : Prop := exists k, (asked w <= k < asked w')%nat /\ fails k = true.

Lemma source_exact s : good_key s -> exact (source s) s.
Proof.
  intros G. split; [|split].
  - split; [reflexivity|]. split; [cbn; rewrite app_length; cbn; lia|discriminate].
  - split; [now apply good_nul_free|]. exists []. reflexivity.
  - reflexivity.
Qed.

Lemma assign_ok x s w : whole x -> good_key s -> exists ok x', assign_text fails x s w = Ret (ok, x', Mem (S (asked w)) (alive w)) /\
  (ok = true -> whole x' /\ text_of x' = s) /\
  (ok = false -> fails (asked w) = true /\ (f_store x = Local -> f_store x' <> Freed)).
Proof.
  intros (d & t & -> & X & G) Hs. unfold assign_text. assert (GA : grants (answer fails w)).
  { intros n b Hn E. unfold answer in E. destruct (fails (asked w)); [discriminate|]. injection E as <-. now apply block_length. }
  destruct (cmd_split (answer fails w) (FAssign (source s)) d) as [E|[(x' & E & T) (n & N)]]; cbn [f_cmd] in E; rewrite E.
  - destruct (dyn_assign_ok (fill (answer fails w)) (fill_length _ GA) d (source s) (exact_sound _ _ X) (exact_sound _ _ (source_exact s Hs))) as (d' & E' & _ & H').
    cbn [dyn_fcmd]. rewrite E'. cbn [lift bind]. exists true, (embed d'). split; [reflexivity|]. specialize (H' s (source_exact s Hs)).
    split; [intros _|discriminate]. split; [exists d', s; auto|now apply (whole_text _ d')].
  - cbn [bind]. exists false, x'. split; [reflexivity|]. split; [discriminate|]. intros _. unfold answer in N. destruct (fails (asked w)); [|discriminate].
    split; [reflexivity|]. intros L. destruct T as (_ & T & _). rewrite T by exact I. unfold embed in L. cbn [f_store] in L. destruct (heap d); discriminate.
Qed.

Lemma faulted_later w w1 w' : (asked w <= asked w1)%nat -> faulted w1 w' -> faulted w w'.
Proof. intros L (k & K & F). exists k. split; [lia|auto]. Qed.
Lemma faulted_sooner w w1 w' : (asked w1 <= asked w')%nat -> faulted w w1 -> faulted w w'.
Proof. intros L (k & K & F). exists k. split; [lia|auto]. Qed.
Lemma faulted_now w w' : (asked w < asked w')%nat -> fails (asked w) = true -> faulted w w'.
Proof. intros L F. exists (asked w). split; [lia|auto]. Qed.

(** ** What one call does *)

Definition calm (o : odata) : Prop := never \/ settled o.

Definition step (t : ty) (v : value) (o : odata) (w : mem) (r : out (status * odata * mem)) (ref : out (status * data)) : Prop :=
  exists st o' w', r = Ret (st, o', w') /\ (asked w <= asked w')%nat /\
    ((ref = Ret (st, seen o') /\ otype t o' /\ (alive w' + elems o = alive w + elems o')%nat) \/
     (st = kException /\ faulted w w' /\ undead o' /\ exists lost, (lost <= 1)%nat /\ (alive w' + elems o = alive w + elems o' + lost)%nat /\
        (short_names v -> lost = 0%nat) /\ (plain t -> lost = 0%nat))).

Definition works (t : ty) (f : value -> odata -> mem -> out (status * odata * mem)) (ref : value -> data -> out (status * data)) (v : value) : Prop :=
  forall o w, otype t o -> calm o -> (elems o <= alive w)%nat -> step t v o w (f v o w) (ref v (seen o)).

Section Loops.
Variables (t : ty) (temp : data) (f : value -> odata -> mem -> out (status * odata * mem)) (ref : value -> data -> out (status * data)).
Hypothesis Htemp : has_type t temp /\ bare temp /\ (never \/ short t temp).

Lemma construct_ok w : exists r, construct fails t temp w = Ret (r, Mem (S (asked w)) (alive w)) /\
  match r with
  | Some o => otype t o /\ seen o = temp /\ elems o = 0%nat /\ calm o
  | None => fails (asked w) = true
  end.
Proof.
  destruct Htemp as (H1 & H2 & H3). unfold construct, request. destruct (fails (asked w)) eqn:F; cbn [negb].
  - exists None. auto.
  - destruct (proj1 placed_ok t temp H1 H2) as (o & E & T & S & L & Q). rewrite E. cbn [bind]. exists (Some o). split; [reflexivity|].
    do 3 (split; [assumption|]). destruct H3; [left|right]; auto.
Qed.

Lemma elements_ok copy (Hp : plain t) l : Forall (works t f ref) l -> forall acc w, Forall (otype t) acc ->
  exists st acc' w', elements_o fails copy t temp f l acc w = Ret (st, acc', w') /\ (asked w <= asked w')%nat /\ alive w' = alive w /\
    ((deserialize_elements ref temp l (map seen acc) = Ret (st, map seen acc') /\ Forall (otype t) acc') \/
     (st = kException /\ faulted w w' /\ Forall (otype t) acc')).
Proof.
  induction 1 as [|v l Hv _ IH]; intros acc w Ha.
  - exists kOk, acc, w. cbn. auto 6.
  - cbn [elements_o deserialize_elements]. destruct (construct_ok w) as ([o|] & E & C); rewrite E; cbn [bind]; [|].
    2:{ exists kException, acc, (Mem (S (asked w)) (alive w)). split; [reflexivity|]. cbn [asked alive]. split; [lia|]. split; [auto|]. right.
        split; [auto|]. split; [|auto]. apply faulted_now; [cbn; lia|auto]. }
    destruct C as (T & S & L & C). set (w1 := Mem (Datatypes.S (asked w)) (alive w)).
    destruct (Hv o w1 T C ltac:(rewrite L; lia)) as (st & o' & w2 & E2 & A2 & D). rewrite S in D. rewrite E2. cbn [bind]. cbn [asked alive] in *.
    destruct D as [(D1 & D2 & D3)|(-> & D2 & D3 & lost & D4 & D5 & D6 & D7)].
    + rewrite D1. cbn [bind]. pose proof (proj1 plain_elems t Hp o' D2) as L'. assert (A3 : alive w2 = alive w) by (subst w1; cbn [alive] in *; lia).
      pose proof (destroy_ok o' (proj1 otype_undead t o' D2)) as DE. rewrite L' in DE.
      destruct (status_eqb st kOk) eqn:Es; cbn [negb].
      * destruct copy.
        -- unfold copy_o, request. destruct (fails (asked w2)) eqn:F; cbn [negb].
           ++ cbn [bind]. rewrite DE by lia. unfold less; cbn [bind asked alive]. eexists kException, acc, _. split; [reflexivity|]. cbn [asked alive]. subst w1. cbn [asked alive] in *.
              split; [lia|]. split; [lia|]. right. split; [auto|]. split; [|auto]. apply (faulted_later w w2); [lia|]. apply faulted_now; [cbn; lia|auto].
           ++ destruct (proj1 copied_ok t Hp o' D2) as (e & Ee & Te & Se). rewrite Ee. cbn [bind]. rewrite DE by lia. unfold less; cbn [bind asked alive].
              destruct (IH (acc ++ [e]) (Mem (Datatypes.S (asked w2)) (alive w2 - 0))) as (st' & acc' & w' & E' & A' & B' & D').
              { apply Forall_app. auto. }
              exists st', acc', w'. split; [exact E'|]. subst w1. cbn [asked alive] in *. split; [lia|]. split; [lia|].
              rewrite map_app in D'. cbn [map] in D'. rewrite Se in D'. destruct D' as [D'|(D'1 & D'2 & D'3)]; [left; exact D'|right]. split; [auto|]. split; [|auto].
              apply (faulted_later w (Mem (Datatypes.S (asked w2)) (alive w2 - 0))); [cbn; lia|auto].
        -- destruct (IH (acc ++ [o']) w2) as (st' & acc' & w' & E' & A' & B' & D').
           { apply Forall_app. auto. }
           exists st', acc', w'. split; [exact E'|]. subst w1. cbn [asked alive] in *. split; [lia|]. split; [lia|].
           rewrite map_app in D'. cbn [map] in D'. destruct D' as [D'|(D'1 & D'2 & D'3)]; [left; exact D'|right]. split; [auto|]. split; [|auto].
           apply (faulted_later w w2); [lia|auto].
      * rewrite DE by lia. cbn [bind]. exists st, acc, (less w2 0). split; [reflexivity|]. unfold less; subst w1; cbn [asked alive] in *. split; [lia|]. split; [lia|]. left. auto.
    + cbn [status_eqb negb]. rewrite (D7 Hp) in D5. rewrite (destroy_ok o' D3) by (subst w1; cbn [alive] in *; lia). cbn [bind].
      exists kException, acc, (less w2 (elems o')). split; [reflexivity|]. unfold less; subst w1; cbn [asked alive] in *. split; [lia|]. split; [lia|]. right.
      split; [auto|]. split; [|auto]. destruct D2 as (k & K & F). exists k. cbn [asked] in *. split; [lia|auto].
Qed.

Definition weigh (m : tree odata) : nat := sum_of (fun e => S (elems (snd e))) (elements m).

Lemma members_ok es : Forall (fun e => works t f ref (snd e)) es -> Forall good_key (map fst es) -> NoDup (map fst es) ->
  forall m w, wf_map m -> Forall (fun e => otype t (snd e)) (elements m) ->
  (forall k o, In k (map fst es) -> find_map_element m k = Some o -> calm o) -> (weigh m <= alive w)%nat ->
  exists st m' w', members_o fails t temp f es m w = Ret (st, m', w') /\ (asked w <= asked w')%nat /\
    ((deserialize_members ref temp es (tmap seen m) = Ret (st, tmap seen m') /\ wf_map m' /\ Forall (fun e => otype t (snd e)) (elements m') /\
      (alive w' + weigh m = alive w + weigh m')%nat) \/
     (st = kException /\ faulted w w' /\ Forall (fun e => undead (snd e)) (elements m') /\ exists lost, (lost <= 1)%nat /\
        (alive w' + weigh m = alive w + weigh m' + lost)%nat /\
        (Forall (fun e => (length (fst e) < 16)%nat /\ short_names (snd e)) es -> lost = 0%nat))).
Proof.
  assert (UN : forall l : list (list Z * odata), Forall (fun e => otype t (snd e)) l -> Forall (fun e => undead (snd e)) l).
  { intros l. apply Forall_impl. intros e. apply (proj1 otype_undead). }
  induction es as [|[key v] es IH]; intros Hv Hg Hn m w Hw Ht Hc Hm.
  { exists kOk, m, w. cbn. split; [auto|]. split; [lia|]. left. auto. }
  inversion Hv as [|? ? Hv1 Hv2]; subst. cbn [map fst snd] in *. inversion Hg as [|? ? Hg1 Hg2]; subst. inversion Hn as [|? ? Hn1 Hn2]; subst.
  cbn [members_o deserialize_members]. rewrite find_tmap. destruct (find_map_element m key) as [o|] eqn:Ef; cbn [option_map].
  - assert (To : otype t o /\ (elems o <= alive w)%nat).
    { destruct (found_split m key o o Hw Hg1 Ef) as (L & R & E1 & _). unfold weigh in Hm. rewrite E1 in Ht, Hm. apply Forall_app in Ht. destruct Ht as [_ Ht].
      inversion Ht; subst. cbn [snd] in *. split; [auto|]. rewrite sum_app in Hm. cbn [sum_of snd] in Hm. lia. }
    destruct To as [To Lo]. destruct (Hv1 o w To (Hc key o (or_introl eq_refl) Ef) Lo) as (st & o' & w1 & E1 & A1 & D). rewrite E1. cbn [bind].
    destruct (found_split m key o o' Hw Hg1 Ef) as (L & R & S1 & S2 & W2).
    assert (We : (weigh (replace_node m key key o') + elems o = weigh m + elems o')%nat) by (unfold weigh; rewrite S1, S2, !sum_app; cbn [sum_of snd]; lia).
    assert (Ot : otype t o' -> Forall (fun e => otype t (snd e)) (elements (replace_node m key key o'))).
    { intros T. rewrite S2. rewrite S1 in Ht. apply Forall_app in Ht. destruct Ht as [Ht1 Ht2]. inversion Ht2; subst. apply Forall_app. split; [auto|]. constructor; auto. }
    destruct D as [(D1 & D2 & D3)|(-> & D2 & D3 & lost & D4 & D5 & D6 & D7)].
    + rewrite D1. cbn [bind]. rewrite <- (replace_tmap seen). destruct (negb (status_eqb st kOk)).
      * exists st, (replace_node m key key o'), w1. split; [reflexivity|]. split; [auto|]. left. do 3 (split; [auto|]). lia.
      * destruct (IH Hv2 Hg2 Hn2 (replace_node m key key o') w1 W2 (Ot D2)) as (st' & m' & w' & E' & A' & D').
        { intros k x Ik Fk. apply (Hc k x); [now right|]. pose proof Hw as (_ & Hb & Hgm). pose proof W2 as (_ & Hb2 & Hgm2).
          assert (Gk : good_key k) by (rewrite Forall_forall in Hg2; auto). rewrite find_assoc in Fk |- * by auto. rewrite S2 in Fk. rewrite S1.
          rewrite <- Fk. apply assoc_other. intros ->. contradiction. }
        { lia. }
        exists st', m', w'. split; [exact E'|]. split; [lia|]. destruct D' as [(F1 & F2 & F3 & F4)|(F1 & F2 & F3 & lost & F4 & F5 & F6)]; [left|right].
        -- do 3 (split; [auto|]). lia.
        -- split; [auto|]. split; [now apply (faulted_later w w1)|]. split; [auto|]. exists lost. split; [auto|]. split; [lia|]. intros H. inversion H; subst. auto.
    + cbn [status_eqb negb]. exists kException, (replace_node m key key o'), w1. split; [reflexivity|]. split; [auto|]. right. split; [auto|]. split; [auto|]. split.
      * apply UN in Ht. rewrite S2. rewrite S1 in Ht. apply Forall_app in Ht. destruct Ht as [Ht1 Ht2]. inversion Ht2; subst. apply Forall_app. split; [auto|]. constructor; auto.
      * exists lost. split; [auto|]. split; [lia|]. intros H. inversion H as [|? ? [_ H1] _]; subst. auto.
  - destruct (construct_ok w) as ([o|] & E & C); rewrite E; cbn [bind].
    2:{ exists kException, m, (Mem (S (asked w)) (alive w)). split; [reflexivity|]. cbn [asked alive]. split; [lia|]. right. split; [auto|].
        split; [apply faulted_now; [cbn; lia|auto]|]. split; [auto|]. exists 0%nat. split; [lia|]. split; [lia|auto]. }
    destruct C as (T & S & L & C). cbn [asked alive].
    assert (Q : exists n, (n <= 1)%nat /\ (if (length key <? 16)%nat then (true, Mem (Datatypes.S (asked w)) (Datatypes.S (alive w)))
        else request fails (Mem (Datatypes.S (asked w)) (Datatypes.S (alive w)))) =
        (if (length key <? 16)%nat then true else negb (fails (Datatypes.S (asked w))), Mem (n + Datatypes.S (asked w)) (Datatypes.S (alive w))) /\
        ((length key <? 16)%nat = false -> n = 1%nat)).
    { destruct (length key <? 16)%nat; [exists 0%nat|exists 1%nat]; (split; [lia|]); (split; [reflexivity|]); [discriminate|reflexivity]. }
    destruct Q as (n & Hn3 & -> & Hn4).
    destruct (if (length key <? 16)%nat then true else negb (fails (Datatypes.S (asked w)))) eqn:Eok; cbn [negb].
    2:{ destruct (Nat.ltb_spec (length key) 16) as [|Hlong]; [discriminate|]. specialize (Hn4 eq_refl). subst n.
        eexists kException, m, _. split; [reflexivity|]. cbn [asked alive]. split; [lia|]. right. split; [auto|]. split.
        { exists (Datatypes.S (asked w)). cbn [asked]. split; [lia|]. destruct (fails (Datatypes.S (asked w))); [auto|discriminate]. }
        split; [auto|]. exists 1%nat. split; [lia|]. split; [lia|]. intros H. inversion H as [|? ? [H1 _] _]; subst. cbn [fst] in H1. lia. }
    set (w1 := Mem (n + Datatypes.S (asked w)) (Datatypes.S (alive w))).
    destruct (Hv1 o w1 T C ltac:(rewrite L; lia)) as (st & o' & w2 & E2 & A2 & D). rewrite S in D. rewrite E2. cbn [bind].
    destruct D as [(D1 & D2 & D3)|(-> & D2 & D3 & lost & D4 & D5 & D6 & D7)].
    + rewrite D1. cbn [bind]. destruct (negb (status_eqb st kOk)).
      * rewrite (destroy_ok o' (proj1 otype_undead t o' D2)) by (subst w1; cbn [alive] in *; lia). unfold less; cbn [bind asked alive].
        destruct (alive w2 - elems o')%nat as [|a] eqn:Ea; [subst w1; cbn [alive] in *; lia|].
        eexists st, m, _. split; [reflexivity|]. subst w1. cbn [asked alive] in *. split; [lia|]. left. do 3 (split; [auto|]). lia.
      * destruct (absent_split m key o' Hw Hg1 Ef) as (m1 & LL & RR & I1 & I2 & I3 & I4). rewrite I1. cbn [bind].
        rewrite (insert_map_map seen m key o' m1 true I1). cbn [bind].
        assert (We : (weigh m1 = weigh m + 1 + elems o')%nat) by (unfold weigh; rewrite I2, I3, !sum_app; cbn [sum_of snd]; lia).
        assert (Ot : Forall (fun e => otype t (snd e)) (elements m1)).
        { rewrite I3. rewrite I2 in Ht. apply Forall_app in Ht. destruct Ht as [Ht1 Ht2]. apply Forall_app. split; [auto|]. constructor; auto. }
        destruct (IH Hv2 Hg2 Hn2 m1 w2 I4 Ot) as (st' & m' & w' & E' & A' & D').
        { intros k x Ik Fk. apply (Hc k x); [now right|]. pose proof Hw as (_ & Hb & Hgm). pose proof I4 as (_ & Hb2 & Hgm2).
          assert (Gk : good_key k) by (rewrite Forall_forall in Hg2; auto). rewrite find_assoc in Fk |- * by auto. rewrite I3 in Fk. rewrite I2.
          rewrite <- Fk. symmetry. apply (assoc_other key k o' o'). intros ->. contradiction. }
        { subst w1. cbn [alive] in *. lia. }
        exists st', m', w'. subst w1. cbn [asked alive] in *. split; [exact E'|]. split; [lia|].
        destruct D' as [(F1 & F2 & F3 & F4)|(F1 & F2 & F3 & lost & F4 & F5 & F6)]; [left|right].
        -- do 3 (split; [auto|]). lia.
        -- split; [auto|]. split; [apply (faulted_later w w2); [lia|auto]|]. split; [auto|]. exists lost. split; [auto|]. split; [lia|]. intros H. inversion H; subst. auto.
    + cbn [status_eqb negb]. rewrite (destroy_ok o' D3) by (subst w1; cbn [alive] in *; lia). unfold less; cbn [bind asked alive].
      destruct (alive w2 - elems o')%nat as [|a] eqn:Ea; [subst w1; cbn [alive] in *; lia|].
      eexists kException, m, _. split; [reflexivity|]. subst w1. cbn [asked alive] in *. split; [lia|]. right. split; [auto|]. split.
      { destruct D2 as (k & K & F). exists k. cbn [asked] in *. split; [lia|auto]. }
      split; [auto|]. exists lost. split; [auto|]. split; [lia|]. intros H. inversion H as [|? ? [_ H1] _]; subst. auto.
Qed.

Definition heft (l : list (list Z * odata)) : nat := sum_of (fun e => elems (snd e)) l.

Lemma std_ok es : Forall (fun e => works t f ref (snd e)) es -> Forall good_key (map fst es) -> NoDup (map fst es) ->
  forall l w, sorted l -> Forall (fun e => otype t (snd e)) l ->
  (forall k o, In k (map fst es) -> olookup k l = Some o -> calm o) -> (heft l <= alive w)%nat ->
  exists st l' w', std_o fails t temp f es l w = Ret (st, l', w') /\ (asked w <= asked w')%nat /\
    ((deserialize_std ref temp es (pairs l) = Ret (st, pairs l') /\ sorted l' /\ Forall (fun e => otype t (snd e)) l' /\
      (alive w' + heft l = alive w + heft l')%nat) \/
     (st = kException /\ faulted w w' /\ Forall (fun e => undead (snd e)) l' /\ exists lost, (lost <= 1)%nat /\
        (alive w' + heft l = alive w + heft l' + lost)%nat /\
        (Forall (fun e => short_names (snd e)) es -> lost = 0%nat) /\ (plain t -> lost = 0%nat))).
Proof.
  assert (UN : forall l : list (list Z * odata), Forall (fun e => otype t (snd e)) l -> Forall (fun e => undead (snd e)) l).
  { intros l. apply Forall_impl. intros e. apply (proj1 otype_undead). }
  induction es as [|[key v] es IH]; intros Hv Hg Hn l w Hs Ht Hc Hm.
  { exists kOk, l, w. cbn. split; [auto|]. split; [lia|]. left. auto. }
  inversion Hv as [|? ? Hv1 Hv2]; subst. cbn [map fst snd] in *. inversion Hg as [|? ? Hg1 Hg2]; subst. inversion Hn as [|? ? Hn1 Hn2]; subst.
  cbn [std_o deserialize_std]. rewrite olookup_pairs.
  (* the element *)
  assert (Q : exists r, (match olookup key l with
                      | Some o => let '(ok, w) := request fails w in Ret (if ok then Some o else None, w)
                      | None => construct fails t temp w
                      end) = Ret (r, Mem (S (asked w)) (alive w)) /\
    match r with
    | None => fails (asked w) = true
    | Some o => otype t o /\ calm o /\ (elems o <= alive w)%nat /\ seen o = match option_map seen (olookup key l) with Some d => d | None => temp end /\
        forall x, (heft (ostore key x l) + elems o = heft l + elems x)%nat
    end).
  { destruct (olookup key l) as [o|] eqn:Ef; cbn [option_map].
    - unfold request. destruct (fails (asked w)) eqn:F; cbn [negb].
      + exists None. auto.
      + exists (Some o). split; [reflexivity|]. destruct (lookup_some key o l o Hg1 Hs Ef) as (L & R & E1 & _). split.
        { rewrite E1 in Ht. apply Forall_app in Ht. destruct Ht as [_ Ht]. inversion Ht; subst. auto. }
        split; [apply (Hc key); [now left|auto]|]. split; [unfold heft in Hm; rewrite E1, sum_app in Hm; cbn [sum_of snd] in Hm; lia|]. split; [reflexivity|].
        intros x. destruct (lookup_some key o l x Hg1 Hs Ef) as (L' & R' & E2 & E3). unfold heft. rewrite E3. rewrite E2 at 1. rewrite !sum_app. cbn [sum_of snd]. lia.
    - destruct (construct_ok w) as ([o|] & E & C); rewrite E; [|exists None; auto]. exists (Some o). split; [reflexivity|]. destruct C as (T & S & L & C).
      split; [auto|]. split; [auto|]. split; [lia|]. split; [auto|]. intros x. destruct (lookup_none key l x Hg1 Hs Ef) as (L' & R' & E2 & E3).
      unfold heft. rewrite E3. rewrite E2 at 1. rewrite !sum_app. cbn [sum_of snd]. lia. }
  destruct Q as ([o|] & -> & C); cbn [bind].
  2:{ exists kException, l, (Mem (S (asked w)) (alive w)). split; [reflexivity|]. cbn [asked alive]. split; [lia|]. right. split; [auto|].
      split; [apply faulted_now; [cbn; lia|auto]|]. split; [auto|]. exists 0%nat. split; [lia|]. split; [lia|auto]. }
  destruct C as (T & C & L & S & We). rewrite <- S. set (w1 := Mem (Datatypes.S (asked w)) (alive w)).
  assert (St : forall (P : odata -> Prop) x, P x -> Forall (fun e => P (snd e)) l -> Forall (fun e => P (snd e)) (ostore key x l)).
  { intros P x. apply (ostore_forall P). }
  destruct (Hv1 o w1 T C ltac:(subst w1; cbn; lia)) as (st & o' & w2 & E2 & A2 & D). rewrite E2. cbn [bind]. specialize (We o').
  destruct D as [(D1 & D2 & D3)|(-> & D2 & D3 & lost & D4 & D5 & D6 & D7)].
  - rewrite D1. cbn [bind]. rewrite <- ostore_pairs. destruct (negb (status_eqb st kOk)).
    + exists st, (ostore key o' l), w2. split; [reflexivity|]. subst w1. cbn [asked alive] in *. split; [lia|]. left. split; [auto|]. split; [now apply ostore_sorted|]. split; [auto|]. lia.
    + destruct (IH Hv2 Hg2 Hn2 (ostore key o' l) w2) as (st' & l' & w' & E' & A' & D').
      { now apply ostore_sorted. }
      { auto. }
      { intros k x Ik Fk. apply (Hc k x); [now right|]. assert (Gk : good_key k) by (rewrite Forall_forall in Hg2; auto).
        rewrite olookup_assoc in Fk by (auto using ostore_sorted). rewrite olookup_assoc by auto. rewrite <- Fk.
        assert (N : k <> key) by (intros ->; contradiction). destruct (olookup key l) as [y|] eqn:Ef.
        - destruct (lookup_some key y l o' Hg1 Hs Ef) as (L' & R' & -> & ->). apply assoc_other, N.
        - destruct (lookup_none key l o' Hg1 Hs Ef) as (L' & R' & -> & ->). symmetry. apply (assoc_other key k o' o'), N. }
      { subst w1. cbn [alive] in *. lia. }
      exists st', l', w'. subst w1. cbn [asked alive] in *. split; [exact E'|]. split; [lia|].
      destruct D' as [(F1 & F2 & F3 & F4)|(F1 & F2 & F3 & lost & F4 & F5 & F6 & F7)]; [left|right].
      * do 3 (split; [auto|]). lia.
      * split; [auto|]. split; [apply (faulted_later w w2); [lia|auto]|]. split; [auto|]. exists lost. split; [auto|]. split; [lia|]. split; [|auto]. intros H. inversion H; subst. auto.
  - cbn [status_eqb negb]. exists kException, (ostore key o' l), w2. split; [reflexivity|]. subst w1. cbn [asked alive] in *. split; [lia|]. right. split; [auto|]. split.
    { destruct D2 as (k & K & F). exists k. cbn [asked] in *. split; [lia|auto]. }
    split; [auto|]. exists lost. split; [auto|]. split; [lia|]. split; [|auto]. intros H. inversion H; subst. auto.
Qed.
End Loops.

(** ** Deserialize *)

Lemma short_members m order : short_names (VObject m order) -> Forall (fun e => (length (fst e) < 16)%nat /\ short_names (snd e)) (elements m).
Proof.
  cbn [short_names]. induction m as [|l IHl k v b r IHr]; intros H; cbn [elements]; [constructor|]. destruct H as (H1 & H2 & H3).
  apply Forall_app. split; [auto|]. constructor; auto.
Qed.

Lemma calm_find m k o : wf_map m -> good_key k -> calm (OMap m) -> find_map_element m k = Some o -> calm o.
Proof.
  intros W G [C|C] E; [now left|right]. destruct (found_split m k o o W G E) as (L & R & E1 & _). apply every_map in C. rewrite E1 in C.
  apply Forall_app in C. destruct C as [_ C]. inversion C; subst. auto.
Qed.
Lemma calm_lookup l k o : sorted l -> good_key k -> calm (OStdMap l) -> olookup k l = Some o -> calm o.
Proof.
  intros W G [C|C] E; [now left|right]. destruct (lookup_some k o l o G W E) as (L & R & E1 & _). apply every_std in C. rewrite E1 in C.
  apply Forall_app in C. destruct C as [_ C]. inversion C; subst. auto.
Qed.

Variable g : junk.

Definition quiet (t : ty) : Prop := compiles t /\ proper t /\ inits (fun _ d => bare d) t /\ (never \/ inits short t).

Lemma temp_ok g' t : quiet t -> has_type t (fresh g' t) /\ bare (fresh g' t) /\ (never \/ short t (fresh g' t)).
Proof.
  intros (_ & H1 & H2 & H3). split; [now apply (proj1 (fresh_typed g'))|]. split; [now apply (proj1 (fresh_bare g'))|].
  destruct H3; [left; auto|right; now apply (proj1 (fresh_short g'))].
Qed.

Definition steps (p : proto) (v : value) (os : list odata) (w : mem) (r : out (status * list odata * mem)) (ref : out (status * list data)) : Prop :=
  exists st os' w', r = Ret (st, os', w') /\ (asked w <= asked w')%nat /\
    ((ref = Ret (st, map seen os') /\ otypes p os' /\ (alive w' + sum_of elems os = alive w + sum_of elems os')%nat) \/
     (st = kException /\ faulted w w' /\ Forall undead os' /\ exists lost, (lost <= 1)%nat /\
        (alive w' + sum_of elems os = alive w + sum_of elems os' + lost)%nat /\ (short_names v -> lost = 0%nat) /\ (plain_proto p -> lost = 0%nat))).

Lemma step_other t v o w st d : otype t o -> seen o = d -> step t v o w (Ret (st, o, w)) (Ret (st, d)).
Proof. intros T <-. exists st, o, w. split; [reflexivity|]. split; [lia|]. left. auto. Qed.

Lemma array_step (copy : bool) t v o w (HT : otype (TArray t) o) :
  quiet t -> plain t -> (forall v, sound_value v -> works t (deserialize_o fails g t) (deserialize g t) v) -> sound_value v ->
  (elems o <= alive w)%nat ->
  step (TArray t) v o w
    (match get_array v, o with
      | None, _ => Ret (kInvalidValueType, o, w)
      | Some l, OArray old =>
          let! w := destroy_all old w in
          let '(ok, w) := request fails w in
          if negb ok then Ret (kException, OArray [], w)
          else let! (st, acc, w) := elements_o fails copy t (fresh g t) (deserialize_o fails g t) l [] w in Ret (st, OArray acc, w)
      | _, _ => UB
      end) (deserialize g (TArray t) v (seen o)).
Proof.
  intros Q P IH Sv L. cbn [deserialize]. destruct (get_array v) as [l|] eqn:E.
  2:{ now apply step_other. }
  destruct HT as (old & -> & To). rewrite elems_list in L. rewrite destroy_all_ok by (auto; revert To; apply Forall_impl, (proj1 otype_undead)). cbn [bind].
  unfold request, less. cbn [asked alive]. destruct (fails (asked w)) eqn:F; cbn [negb].
  - eexists kException, (OArray []), _. split; [reflexivity|]. cbn [asked alive]. split; [lia|]. right. split; [auto|]. split; [apply faulted_now; [cbn; lia|auto]|].
    split; [exact I|]. exists 0%nat. split; [lia|]. rewrite !elems_list. cbn [sum_of]. split; [lia|auto].
  - assert (Sl : Forall sound_value l). { destruct v; try discriminate. injection E as ->. now inversion Sv. }
    destruct (elements_ok t (fresh g t) (deserialize_o fails g t) (deserialize g t) (temp_ok g t Q) copy P l) with (acc := @nil odata)
      (w := Mem (S (asked w)) (alive w - sum_of elems old)) as (st & acc & w' & E' & A' & B' & D).
    { revert Sl. apply Forall_impl, IH. }
    { constructor. }
    rewrite E'. cbn [bind]. exists st, (OArray acc), w'. split; [reflexivity|]. cbn [asked alive] in *. split; [lia|].
    assert (Z0 : Forall (otype t) acc -> sum_of elems acc = 0%nat).
    { intros H. apply sum_zero. revert H. apply Forall_impl. intros x. now apply (proj1 plain_elems). }
    destruct D as [[D1 D2]|(-> & D1 & D2)]; [left|right].
    + cbn [map] in D1. rewrite D1. cbn [bind]. split; [reflexivity|]. split; [exists acc; auto|]. rewrite !elems_list, Z0 by auto. lia.
    + split; [auto|]. split; [destruct D1 as (k & K & F1); exists k; cbn [asked] in *; split; [lia|auto]|]. split.
      * apply undead_array. revert D2. apply Forall_impl, (proj1 otype_undead).
      * exists 0%nat. split; [lia|]. rewrite !elems_list, Z0 by auto. split; [lia|auto].
Qed.

Lemma items_item k i t rest v o os w : deserialize_items_o fails g (PItem k i t rest) v (o :: os) w =
  (let! (st, o, w) := (match k with Anonymous => deserialize_o fails g t v o w | Named n | Optional n => named_o n (deserialize_o fails g t) v o w end) in
   if negb (status_eqb st kOk) && match k with Optional _ => negb (status_eqb st kNameNotPresent) | _ => true end then Ret (st, o :: os, w)
   else let! (st, os, w) := deserialize_items_o fails g rest v os w in Ret (st, o :: os, w)).
Proof.
  assert (X : forall x : out (status * odata * mem),
    (let! (st, o, w) := x in if negb (status_eqb st kOk) then Ret (st, o :: os, w)
     else let! (st, os, w) := deserialize_items_o fails g rest v os w in Ret (st, o :: os, w)) =
    (let! (st, o, w) := x in if negb (status_eqb st kOk) && true then Ret (st, o :: os, w)
     else let! (st, os, w) := deserialize_items_o fails g rest v os w in Ret (st, o :: os, w))).
  { intros [[[st o'] w']| |]; cbn [bind]; try reflexivity. now rewrite Bool.andb_true_r. }
  destruct k as [n|n|]; [apply (X (named_o n (deserialize_o fails g t) v o w))|reflexivity|apply (X (deserialize_o fails g t v o w))].
Qed.
Lemma proto_item_ref k i t rest v d ds : deserialize_proto g (PItem k i t rest) v (d :: ds) =
  (let! (st, d) := (match k with Anonymous => deserialize g t v d | Named n | Optional n => deserialize_named n (deserialize g t) v d end) in
   if negb (status_eqb st kOk) && match k with Optional _ => negb (status_eqb st kNameNotPresent) | _ => true end then Ret (st, d :: ds)
   else let! (st, ds) := deserialize_proto g rest v ds in Ret (st, d :: ds)).
Proof.
  assert (X : forall x : out (status * data),
    (let! (st, d) := x in if negb (status_eqb st kOk) then Ret (st, d :: ds)
     else let! (st, ds) := deserialize_proto g rest v ds in Ret (st, d :: ds)) =
    (let! (st, d) := x in if negb (status_eqb st kOk) && true then Ret (st, d :: ds)
     else let! (st, ds) := deserialize_proto g rest v ds in Ret (st, d :: ds))).
  { intros [[st o']| |]; cbn [bind]; try reflexivity. now rewrite Bool.andb_true_r. }
  destruct k as [n|n|]; [apply (X (deserialize_named n (deserialize g t) v d))|reflexivity|apply (X (deserialize g t v d))].
Qed.

Lemma named_step n t v o w : otype t o -> calm o -> (elems o <= alive w)%nat -> sound_value v ->
  (forall v, sound_value v -> works t (deserialize_o fails g t) (deserialize g t) v) ->
  step t v o w (named_o n (deserialize_o fails g t) v o w) (deserialize_named n (deserialize g t) v (seen o)).
Proof.
  intros T C L Sv IH. unfold named_o, deserialize_named. destruct v as [| | | | |m order]; cbn [as_object]; try now apply step_other.
  destruct (find_map_element m n) as [v'|] eqn:E; [|now apply step_other].
  destruct (IH v' (sound_find m order n v' Sv E) o w T C L) as (st & o' & w' & E' & A' & D). exists st, o', w'. split; [exact E'|]. split; [exact A'|].
  destruct D as [D|(D1 & D2 & D3 & lost & D4 & D5 & D6 & D7)]; [left; exact D|right]. do 3 (split; [auto|]). exists lost. do 2 (split; [auto|]). split; [|auto].
  intros H. apply D6. apply short_members in H. rewrite Forall_forall in H. destruct (find_in m n v' E) as [k' Hin]. apply (H _ Hin).
Qed.

Lemma deserialize_step :
  (forall t, quiet t -> forall v, sound_value v -> works t (deserialize_o fails g t) (deserialize g t) v) /\
  (forall p, quiet (TStruct p) -> forall v, sound_value v -> forall os w, otypes p os -> (never \/ Forall settled os) -> (sum_of elems os <= alive w)%nat ->
     steps p v os w (deserialize_items_o fails g p v os w) (deserialize_proto g p v (map seen os))).
Proof.
  apply ty_proto_ind.
  - intros Q v Sv o w T C L. destruct T as (x & -> & W). cbn [deserialize_o deserialize]. destruct (get_string v) as [s|] eqn:E; cbn [take].
    2:{ apply step_other; [|reflexivity]. exists x. auto. }
    assert (G : good_key s). { destruct v; try discriminate. injection E as ->. now inversion Sv. }
    destruct (assign_ok x s w W G) as (ok & x' & E' & H1 & H2). rewrite E'. cbn [bind]. destruct ok.
    + destruct (H1 eq_refl) as [W' T']. eexists kOk, (OString x'), _. split; [reflexivity|]. cbn [asked alive]. split; [lia|]. left. cbn [seen elems]. rewrite T'.
      split; [reflexivity|]. split; [exists x'; auto|lia].
    + destruct (H2 eq_refl) as [F St]. eexists kException, (OString x'), _. split; [reflexivity|]. cbn [asked alive]. split; [lia|]. right. split; [auto|].
      split; [apply faulted_now; [cbn; lia|auto]|]. split.
      * destruct C as [C|C]; [rewrite C in F; discriminate|]. exact (St C).
      * exists 0%nat. cbn [elems]. split; [lia|]. split; [lia|auto].
  - intros Q v Sv o w T C L. cbn [deserialize_o deserialize]. destruct (get_double v) as [x|]; cbn [take]; [|now apply step_other].
    destruct T as (y & ->). eexists kOk, (ODouble x), w. split; [reflexivity|]. split; [lia|]. left. split; [reflexivity|]. split; [now exists x|reflexivity].
  - intros Q v Sv o w T C L. cbn [deserialize_o deserialize]. destruct (get_bool v) as [x|]; cbn [take]; [|now apply step_other].
    destruct T as (y & ->). eexists kOk, (OBool x), w. split; [reflexivity|]. split; [lia|]. left. split; [reflexivity|]. split; [now exists x|reflexivity].
  - intros Q v Sv o w T C L. cbn [deserialize_o deserialize]. destruct (get_null v) as [x|]; cbn [take]; [|now apply step_other].
    cbn [otype] in T. subst o. eexists kOk, ONull, w. split; [reflexivity|]. split; [lia|]. left. split; [reflexivity|]. split; [reflexivity|reflexivity].
  - intros t IH Q v Sv o w T C L. apply (array_step true); auto; [|apply Q|].
    + destruct Q as (Q1 & Q2). split; [now apply plain_compiles|exact Q2].
    + intros v' Sv'. apply IH; [|auto]. destruct Q as (Q1 & Q2). split; [now apply plain_compiles|exact Q2].
  - intros t IH Q v Sv o w T C L. destruct T as (om & -> & W & T). cbn [deserialize_o deserialize seen]. destruct v as [| | | | |m order]; cbn [as_object];
      try (apply step_other; [exists om; auto|reflexivity]).
    rewrite map_elements_ok. cbn [bind]. destruct (sound_elements m order Sv) as (S1 & S2 & S3 & S4). rewrite elems_map in L.
    destruct (members_ok t (fresh zeroes t) (deserialize_o fails g t) (deserialize g t) (temp_ok zeroes t Q) (elements m)) with (m := om) (w := w)
      as (st & om' & w' & E' & A' & D); auto.
    { rewrite Forall_map in S2. revert S2. apply Forall_impl. intros e. now apply IH. }
    { intros k o Ik Ek. apply (calm_find om k o W); auto. rewrite Forall_forall in S3. auto. }
    rewrite E'. cbn [bind]. exists st, (OMap om'), w'. split; [reflexivity|]. split; [exact A'|]. rewrite !elems_map. fold (weigh om) (weigh om').
    destruct D as [(D1 & D2 & D3 & D4)|(-> & D1 & D2 & lost & D3 & D4 & D5)]; [left|right].
    + rewrite D1. cbn [bind seen]. split; [reflexivity|]. split; [exists om'; auto|exact D4].
    + do 2 (split; [auto|]). split; [now apply every_map|]. exists lost. do 2 (split; [auto|]). split; [|intros []]. intros H. apply D5. now apply short_members in H.
  - intros Q v Sv o w T C L. cbn [deserialize_o deserialize]. destruct (get_string v) as [s|] eqn:E; cbn [take]; [|now apply step_other].
    assert (G : good_key s). { destruct v; try discriminate. injection E as ->. now inversion Sv. }
    unfold request. destruct (fails (asked w)) eqn:F; cbn [negb].
    + eexists kException, o, _. split; [reflexivity|]. cbn [asked alive]. split; [lia|]. right. split; [auto|]. split; [apply faulted_now; [cbn; lia|auto]|].
      split; [now apply (proj1 otype_undead TStdString)|]. exists 0%nat. split; [lia|]. split; [lia|auto].
    + destruct T as (y & -> & _). eexists kOk, (OStd (cstr s)), _. split; [reflexivity|]. cbn [asked alive]. split; [lia|]. left. split; [reflexivity|]. split; [|reflexivity].
      exists (cstr s). split; [reflexivity|]. now rewrite cstr_good.
  - intros t IH Q v Sv o w T C L. apply (array_step false); auto; [|apply Q|].
    + destruct Q as (Q1 & Q2). split; [now apply plain_compiles|exact Q2].
    + intros v' Sv'. apply IH; [|auto]. destruct Q as (Q1 & Q2). split; [now apply plain_compiles|exact Q2].
  - intros t IH Q v Sv o w T C L. destruct T as (ol & -> & I1 & I2 & T). assert (W : sorted ol) by (split; auto). cbn [deserialize_o deserialize].
    rewrite seen_std. destruct v as [| | | | |m order]; cbn [as_object];
      try (apply step_other; [exists ol; auto|apply seen_std]).
    rewrite map_elements_ok. cbn [bind]. destruct (sound_elements m order Sv) as (S1 & S2 & S3 & S4). rewrite elems_std in L.
    destruct (std_ok t (fresh zeroes t) (deserialize_o fails g t) (deserialize g t) (temp_ok zeroes t Q) (elements m)) with (l := ol) (w := w)
      as (st & ol' & w' & E' & A' & D); auto.
    { rewrite Forall_map in S2. revert S2. apply Forall_impl. intros e. now apply IH. }
    { intros k o Ik Ek. apply (calm_lookup ol k o W); auto. rewrite Forall_forall in S3. auto. }
    rewrite E'. cbn [bind]. exists st, (OStdMap ol'), w'. split; [reflexivity|]. split; [exact A'|]. rewrite !elems_std. fold (heft ol) (heft ol').
    destruct D as [(D1 & D2 & D3 & D4)|(-> & D1 & D2 & lost & D3 & D4 & D5 & D6)]; [left|right].
    + rewrite D1. cbn [bind]. rewrite seen_std. split; [reflexivity|]. destruct D2. split; [exists ol'; auto|exact D4].
    + do 2 (split; [auto|]). split; [now apply every_std|]. exists lost. do 2 (split; [auto|]). split; [|exact D6]. intros H. apply D5. apply short_members in H.
      revert H. apply Forall_impl. tauto.
  - intros p IH Q v Sv o w T C L. destruct T as (os & -> & T). cbn [deserialize_o deserialize seen]. fold (deserialize_items_o fails g) (deserialize_proto g).
    rewrite elems_struct in L. destruct (IH Q v Sv os w T) as (st & os' & w' & E' & A' & D).
    { destruct C as [C|C]; [left; auto|right]. now apply every_struct. }
    { exact L. }
    rewrite E'. cbn [bind]. exists st, (OStruct os'), w'. split; [reflexivity|]. split; [exact A'|]. rewrite !elems_struct.
    destruct D as [(D1 & D2 & D3)|(-> & D1 & D2 & lost & D3 & D4 & D5 & D6)]; [left|right].
    + rewrite D1. cbn [bind seen]. split; [reflexivity|]. split; [exists os'; auto|exact D3].
    + do 2 (split; [auto|]). split; [now apply every_struct|]. exists lost. auto.
  - intros Q v Sv os w T C L. destruct os as [|o os]; [|destruct T]. exists kOk, [], w. split; [reflexivity|]. split; [lia|]. left. repeat split.
  - intros k i t IH rest IHr Q v Sv os w T C L. destruct os as [|o os]; [destruct T|]. destruct T as [T1 T2]. cbn [sum_of] in L.
    assert (Q1 : quiet t /\ quiet (TStruct rest)).
    { destruct Q as ((Q1 & Q2) & (_ & _ & Q3 & Q4) & (_ & Q5 & Q6) & Q7). split; (split; [auto|]; split; [auto|]; split; [auto|]); destruct Q7 as [Q7|(_ & Q7 & Q8)]; auto. }
    destruct Q1 as [Q1 Q2]. assert (C1 : calm o /\ (never \/ Forall settled os)).
    { destruct C as [C|C]; [split; left; auto|]. inversion C; subst. split; right; auto. }
    destruct C1 as [C1 C2]. rewrite items_item. cbn [map]. rewrite proto_item_ref.
    assert (D : step t v o w (match k with Anonymous => deserialize_o fails g t v o w | Named n | Optional n => named_o n (deserialize_o fails g t) v o w end)
      (match k with Anonymous => deserialize g t v (seen o) | Named n | Optional n => deserialize_named n (deserialize g t) v (seen o) end)).
    { destruct k; [apply named_step; auto; lia|apply named_step; auto; lia|apply (IH Q1 v Sv); auto; lia]. }
    destruct D as (st & o' & w1 & E1 & A1 & D). rewrite E1. cbn [bind].
    assert (UD : Forall undead os) by (apply (proj2 otype_undead rest), T2).
    destruct D as [(D1 & D2 & D3)|(-> & D1 & D2 & lost & D3 & D4 & D5 & D6)].
    + rewrite D1. cbn [bind]. destruct (negb (status_eqb st kOk) && _)%bool.
      * exists st, (o' :: os), w1. split; [reflexivity|]. split; [auto|]. left. cbn [map sum_of]. split; [reflexivity|]. split; [split; auto|lia].
      * destruct (IHr Q2 v Sv os w1 T2 C2 ltac:(lia)) as (st' & os' & w' & E' & A' & D'). rewrite E'. cbn [bind]. exists st', (o' :: os'), w'.
        split; [reflexivity|]. split; [lia|]. cbn [map sum_of]. destruct D' as [(F1 & F2 & F3)|(-> & F1 & F2 & lost & F3 & F4 & F5 & F6)]; [left|right].
        -- rewrite F1. cbn [bind]. split; [reflexivity|]. split; [split; auto|lia].
        -- split; [auto|]. split; [apply (faulted_later w w1); auto|]. split; [constructor; [now apply (proj1 otype_undead t)|auto]|]. exists lost. split; [auto|]. split; [lia|].
           split; [auto|]. intros [_ H]. auto.
    + replace (_ && _)%bool with true by (destruct k; reflexivity). exists kException, (o' :: os), w1. split; [reflexivity|]. split; [auto|]. right. split; [auto|]. split; [auto|].
      split; [constructor; auto|]. cbn [sum_of]. exists lost. split; [auto|]. split; [lia|]. split; [auto|]. intros [H _]. auto.
Qed.
End Fails.
