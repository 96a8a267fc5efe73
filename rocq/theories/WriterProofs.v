(** * Write produces the specified layout, and that layout is a document. *)

From Verif Require Import Base TextModel NumModel MapModel ParserModel WriterModel SpecUtf8 SpecNum SpecMap SpecGrammar
  SpecMeaning SpecRfc SpecWrite TextProofs MapProofs StrtodProofs RoundProofs LexProofs ParserProofs RfcProofs FormatProofs.

#[local] Arguments Z.eqb : simpl nomatch.
#[local] Arguments Z.ltb : simpl nomatch.

(** ** Induction on abstract values *)

Section JvInd.
Variable P : jv -> Prop.
Hypothesis Hstr : forall s, P (JStr s).
Hypothesis Hnum : forall d, P (JNum d).
Hypothesis Hbool : forall b, P (JBool b).
Hypothesis Hnull : P JNull.
Hypothesis Harr : forall l, Forall P l -> P (JArr l).
Hypothesis Hobj : forall ms, Forall (fun m => P (snd m)) ms -> P (JObj ms).

Fixpoint jv_induct (j : jv) : P j :=
  match j with
  | JStr s => Hstr s
  | JNum d => Hnum d
  | JBool b => Hbool b
  | JNull => Hnull
  | JArr l => Harr l ((fix go l : Forall P l :=
                         match l with [] => Forall_nil _ | x :: r => Forall_cons x (jv_induct x) (go r) end) l)
  | JObj ms => Hobj ms ((fix go ms : Forall (fun m => P (snd m)) ms :=
                           match ms with
                           | [] => Forall_nil _
                           | x :: r => Forall_cons x (jv_induct (snd x)) (go r)
                           end) ms)
  end.
End JvInd.

(** ** Lookup in the mapped tree *)

Lemma find_named_map {A B} (f : A -> B) (t : @tree A) key :
  find_named (map_tree f t) key = option_map (fun x => (fst x, f (snd x))) (find_named t key).
Proof.
  induction t as [|l IHl k v b r IHr]; simpl; [reflexivity|].
  destruct (text_lt key k); [apply IHl|]. destruct (text_lt k key); [apply IHr|]. reflexivity.
Qed.

Lemma find_named_key {A} (t : @tree A) key : good_key key -> good_keys t ->
  find_named t key = option_map (fun v => (key, v)) (find_map_element t key).
Proof.
  intros Hk. induction t as [|l IHl k v b r IHr]; intros Hg; [reflexivity|].
  apply good_keys_node in Hg. destruct Hg as (Hgl & Hgk & Hgr). simpl.
  destruct (text_lt_cases key k Hk Hgk) as [(HL & E)|[(HE & E1 & E2)|(HL & E1 & E2)]].
  - rewrite E. auto.
  - subst key. rewrite E1. reflexivity.
  - rewrite E1, E2. auto.
Qed.

Lemma cstr_id s : good_key s -> cstr s = s.
Proof.
  intros H. induction H as [|c s Hc _ IH]; simpl; [reflexivity|].
  destruct (Z.eqb_spec c 0); [lia|]. now rewrite IH.
Qed.

Lemma shrink_expand arr c n : shrink_array (expand_array arr c n) n = arr.
Proof.
  unfold shrink_array, expand_array. rewrite app_length, repeat_length.
  replace (length arr + n - n)%nat with (length arr) by lia. rewrite firstn_app, firstn_all, Nat.sub_diag. simpl.
  apply app_nil_r.
Qed.

(** ** Write *)

Section W.
Variables (n : nat) (c : Z).
Let unit := repeat c n.
Let pretty := indented (snprintf17g 32) unit.

Definition writes (w : list Z -> wresult) (j : jv) : Prop :=
  forall arr, exists out, w arr = (kOk, out, arr) /\ concat out = pretty arr j.

Lemma write_elements_ok ws l : Forall2 writes ws l -> forall arr,
  exists out, write_elements ws arr = (kOk, out, arr) /\ concat out = lines (map (fun x => arr ++ pretty arr x) l).
Proof.
  induction 1 as [|w j ws l Hw HF IH]; intros arr; [exists []; split; reflexivity|].
  destruct (Hw arr) as (o1 & E1 & C1). destruct (IH arr) as (o2 & E2 & C2).
  cbn [write_elements]. rewrite E1. cbn [negb status_eqb status_eq_dec]. rewrite E2.
  eexists. split; [reflexivity|]. cbn [concat]. rewrite concat_app. cbn [concat]. rewrite C1, C2.
  destruct HF; cbn [map lines comma]; rewrite <- ?app_assoc; reflexivity.
Qed.

Lemma write_members_ok m ms :
  Forall (fun x => good_key (fst x) /\ exists w, find_named m (fst x) = Some (fst x, w) /\ writes w (snd x)) ms ->
  forall arr, exists out, write_members m (map fst ms) arr = (kOk, out, arr) /\
    concat out = lines (map (fun x => arr ++ 34 :: fst x ++ [34; 32; 58; 32] ++ pretty arr (snd x)) ms).
Proof.
  induction 1 as [|[k j] ms (Hk & w & Hf & Hw) HF IH]; intros arr; [exists []; split; reflexivity|].
  cbn [fst snd] in *. destruct (Hw arr) as (o1 & E1 & C1). destruct (IH arr) as (o2 & E2 & C2).
  cbn [map write_members fst]. rewrite Hf, E1. cbn [negb status_eqb status_eq_dec]. rewrite E2.
  eexists. split; [reflexivity|]. unfold put_text. rewrite cstr_id by auto.
  rewrite !concat_app. cbn [concat]. rewrite C1, C2.
  destruct HF; cbn [map lines comma fst snd]; rewrite <- ?app_assoc; simpl; rewrite <- ?app_assoc; reflexivity.
Qed.

Lemma write_obj m order : write n c (VObject m order) = fun arr =>
  let '(st, out, arr1) := write_members (map_tree (write n c) m) order (expand_array arr c n) in
  if negb (status_eqb st kOk) then (st, [123; 10] :: out, arr1)
  else let arr2 := shrink_array arr1 n in (kOk, [123; 10] :: out ++ [arr2; [125]], arr2).
Proof. reflexivity. Qed.

Lemma assoc_map {A B} (f : A -> B) k ms :
  assoc k (map (fun m => (fst m, f (snd m))) ms) = option_map f (assoc k ms).
Proof.
  induction ms as [|[k' x] ms IH]; simpl; [reflexivity|]. destruct (key_eqb k k'); auto.
Qed.

Theorem write_layout j : forall v, represents v j -> wf_value v -> writes (write n c v) (normal j).
Proof.
  induction j as [s|d|b| |l IH|ms IH] using jv_induct; intros v Hr Hw arr; inversion Hr; subst; clear Hr.
  - inversion Hw; subst. eexists. split; [reflexivity|]. unfold put_text. rewrite cstr_id by auto. reflexivity.
  - eexists. split; [reflexivity|]. cbn [concat]. rewrite app_nil_r. reflexivity.
  - eexists. split; [reflexivity|]. destruct b; reflexivity.
  - eexists. split; reflexivity.
  - inversion Hw as [| | | |? Hl|]; subst l0.
    assert (HF : Forall2 writes (map (write n c) vs) (map normal l)).
    { clear Hw. revert Hl IH. induction H1 as [|v j vs l Hv _ IHl]; intros Hl IH; simpl; [constructor|].
      inversion Hl; subst. inversion IH; subst. constructor; auto. }
    destruct (write_elements_ok _ _ HF (expand_array arr c n)) as (o & E & C).
    cbn [write]. rewrite E. cbn [negb status_eqb status_eq_dec]. rewrite shrink_expand.
    eexists. split; [reflexivity|]. cbn [concat]. rewrite concat_app, C. cbn [concat].
    rewrite app_nil_r. reflexivity.
  - inversion Hw as [| | | | |? ? Hm Ho Hf]; subst m0 order.
    set (ns := first_values (map (fun x => (fst x, normal (snd x))) ms)).
    assert (Hns : map fst ms = map fst ns).
    { unfold ns, first_values. rewrite !map_map. reflexivity. }
    assert (HF : Forall (fun x => good_key (fst x) /\ exists w, find_named (map_tree (write n c) m) (fst x) = Some (fst x, w)
                                  /\ writes w (snd x)) ns).
    { unfold ns, first_values. apply Forall_forall. intros x Hx. apply in_map_iff in Hx. destruct Hx as ([k j1] & <- & Hx).
      cbn [fst snd]. apply in_map_iff in Hx. destruct Hx as ([k' j0] & E & Hx). cbn [fst snd] in E. injection E as Ek Ej. subst k' j1.
      assert (Hk : good_key k).
      { destruct Hm as (_ & _ & Hg). unfold good_keys in Hg. rewrite Forall_forall in Hg. apply Hg. apply Ho.
        apply (in_map fst) in Hx. exact Hx. }
      split; [auto|].
      destruct (assoc_some_in k ms) as (j2 & E2); [apply (in_map fst) in Hx; exact Hx|].
      rewrite assoc_map, E2. cbn [option_map].
      match goal with H : forall k j, _ -> assoc k ms = Some j -> _ |- _ => destruct (H k j2 Hk E2) as (v & Hv & Hr) end.
      exists (write n c v). rewrite find_named_map, find_named_key by (auto; apply Hm). rewrite Hv. split; [reflexivity|].
      rewrite Forall_forall in IH. apply (IH (k, j2)); [apply assoc_in; exact E2|exact Hr|].
      destruct (find_in m k v Hv) as (k2 & Hin). eauto. }
    destruct (write_members_ok _ _ HF (expand_array arr c n)) as (o & E & C).
    rewrite write_obj, Hns, E. cbn [negb status_eqb status_eq_dec]. rewrite shrink_expand.
    eexists. split; [reflexivity|]. cbn [concat]. rewrite concat_app, C. cbn [concat].
    rewrite app_nil_r. reflexivity.
Qed.
End W.

(** ** The layout of a value with plain strings and finite numbers is a document *)

Lemma plain_body raw u cps : Forall raw cps -> string_body raw u (flat_map utf8 cps) (flat_map utf8 cps).
Proof. induction 1; simpl; constructor; auto. Qed.

Lemma snprintf_core d : finite_number d -> core_num (snprintf17g 32 d) d.
Proof.
  intros [H1 H2]. destruct (fmt17g_ok d H1 H2) as [H3 H4]. unfold snprintf17g. rewrite firstn_all2 by lia. exact H3.
Qed.

Section G.
Variables (S : list Z -> Prop) (N : spec_float -> Prop).
Variables (str : list Z -> list Z -> Prop) (num : list Z -> spec_float -> Prop) (number : spec_float -> list Z).
Hypothesis HS : forall s, S s -> str s s.
Hypothesis HN : forall d, N d -> num (number d) d.

Lemma layout_elems unit arr l : ws arr ->
  Forall (fun x => gval str num (indented number unit arr x) x) l ->
  forall w0 w1, l <> [] -> ws w0 -> ws w1 ->
  gelems str num (w0 ++ lines (map (fun x => arr ++ indented number unit arr x) l) ++ w1) l.
Proof.
  intros Ha HF. induction HF as [|x l Hx HF IH]; intros w0 w1 Hn H0 H1; [congruence|].
  destruct l as [|y l].
  - cbn [map lines].
    replace (w0 ++ ((arr ++ indented number unit arr x) ++ [10]) ++ w1) with ((w0 ++ arr) ++ indented number unit arr x ++ ([10] ++ w1))
      by (rewrite <- !app_assoc; reflexivity).
    apply ge_one; [apply Forall_app; auto|auto|]. apply Forall_app. split; [repeat constructor; unfold wsc; lia|auto].
  - change (lines (map (fun x0 => arr ++ indented number unit arr x0) (x :: y :: l))) with
      ((arr ++ indented number unit arr x) ++ [44; 10] ++ lines (map (fun x0 => arr ++ indented number unit arr x0) (y :: l))).
    match goal with |- gelems _ _ (w0 ++ ((arr ++ ?L) ++ [44; 10] ++ ?R) ++ w1) _ =>
      replace (w0 ++ ((arr ++ L) ++ [44; 10] ++ R) ++ w1) with ((w0 ++ arr) ++ L ++ [] ++ 44 :: ([10] ++ R ++ w1))
        by (rewrite <- !app_assoc; reflexivity) end.
    apply ge_cons; [apply Forall_app; auto|auto|constructor|].
    apply IH; [discriminate|repeat constructor; unfold wsc; lia|auto].
Qed.

Lemma layout_members unit arr ms : ws arr ->
  Forall (fun x => S (fst x) /\ gval str num (indented number unit arr (snd x)) (snd x)) ms ->
  forall w0 w1, ms <> [] -> ws w0 -> ws w1 ->
  gmembers str num (w0 ++ lines (map (fun x => arr ++ 34 :: fst x ++ [34; 32; 58; 32] ++ indented number unit arr (snd x)) ms) ++ w1) ms.
Proof.
  intros Ha HF. induction HF as [|[k x] ms [Hk Hx] HF IH]; intros w0 w1 Hn H0 H1; [congruence|]. cbn [fst snd] in *.
  assert (W32 : ws [32]) by (repeat constructor; unfold wsc; lia).
  assert (W10 : ws [10]) by (repeat constructor; unfold wsc; lia).
  destruct ms as [|y ms].
  - cbn [map lines fst snd].
    replace (w0 ++ ((arr ++ 34 :: k ++ [34; 32; 58; 32] ++ indented number unit arr x) ++ [10]) ++ w1)
      with ((w0 ++ arr) ++ 34 :: k ++ 34 :: [32] ++ 58 :: [32] ++ indented number unit arr x ++ ([10] ++ w1))
      by (rewrite <- !app_assoc; simpl; rewrite <- ?app_assoc; reflexivity).
    apply gm_one; auto; apply Forall_app; auto.
  - match goal with |- context [lines (map ?f (?a :: ?b :: ?r))] =>
      change (lines (map f (a :: b :: r))) with (f a ++ [44; 10] ++ lines (map f (b :: r))) end.
    cbn [fst snd].
    match goal with |- gmembers _ _ (w0 ++ ((arr ++ 34 :: k ++ [34; 32; 58; 32] ++ ?L) ++ [44; 10] ++ ?R) ++ w1) _ =>
      replace (w0 ++ ((arr ++ 34 :: k ++ [34; 32; 58; 32] ++ L) ++ [44; 10] ++ R) ++ w1)
        with ((w0 ++ arr) ++ 34 :: k ++ 34 :: [32] ++ 58 :: [32] ++ L ++ [] ++ 44 :: ([10] ++ R ++ w1))
        by (rewrite <- !app_assoc; simpl; rewrite <- ?app_assoc; reflexivity) end.
    apply gm_cons; auto; [apply Forall_app; auto|constructor|].
    apply IH; [discriminate|auto|auto].
Qed.

Theorem layout_gval unit j : ws unit -> tokens S N j -> forall arr, ws arr -> gval str num (indented number unit arr j) j.
Proof.
  intros Hu. assert (W10 : ws [10]) by (repeat constructor; unfold wsc; lia).
  induction j as [s|d|b| |l IH|ms IH] using jv_induct; intros HT arr Ha; inversion HT; subst; clear HT.
  - cbn [indented]. apply g_str. auto.
  - apply g_num. apply HN. auto.
  - destruct b; constructor.
  - constructor.
  - assert (Ha' : ws (arr ++ unit)) by (apply Forall_app; auto).
    destruct l as [|x l].
    + apply (g_arr0 str num ([10] ++ arr)). apply Forall_app. auto.
    + cbn [indented].
      match goal with |- gval _ _ ([91; 10] ++ ?L ++ arr ++ [93]) _ =>
        replace ([91; 10] ++ L ++ arr ++ [93]) with (91 :: ([10] ++ L ++ arr) ++ [93]) by (simpl; rewrite <- app_assoc; reflexivity) end.
      apply g_arr. apply layout_elems; auto; [|discriminate].
      rewrite Forall_forall in *. auto.
  - assert (Ha' : ws (arr ++ unit)) by (apply Forall_app; auto).
    destruct ms as [|x ms].
    + apply (g_obj0 str num ([10] ++ arr)). apply Forall_app. auto.
    + cbn [indented].
      match goal with |- gval _ _ ([123; 10] ++ ?L ++ arr ++ [125]) _ =>
        replace ([123; 10] ++ L ++ arr ++ [125]) with (123 :: ([10] ++ L ++ arr) ++ [125]) by (simpl; rewrite <- app_assoc; reflexivity) end.
      apply g_obj. apply layout_members; auto; [|discriminate].
      rewrite Forall_forall in *. intros y Hy. specialize (H0 y Hy). specialize (IH y Hy). tauto || (split; [apply H0|apply IH; [apply H0|auto]]).
Qed.
End G.

Lemma tokens_normal S N j : tokens S N j -> tokens S N (normal j).
Proof.
  induction j as [s|d|b| |l IH|ms IH] using jv_induct; intros HT; auto; inversion HT; subst; clear HT; simpl; constructor.
  - apply Forall_forall. intros x Hx. apply in_map_iff in Hx. destruct Hx as (y & <- & Hy).
    rewrite Forall_forall in *. auto.
  - rewrite Forall_forall in *. intros x Hx. unfold first_values in Hx. apply in_map_iff in Hx.
    destruct Hx as (y & <- & Hy). apply in_map_iff in Hy. destruct Hy as (z & <- & Hz). cbn [fst snd].
    split; [apply H0; auto|]. rewrite assoc_map.
    destruct (assoc_some_in (fst z) ms) as (j2 & E2); [apply in_map; auto|].
    rewrite E2. cbn [option_map]. apply assoc_in in E2. apply (IH _ E2). apply (H0 _ E2).
Qed.

(** ** The tree built from a value *)

Definition any_number (d : spec_float) : Prop := True.

Lemma build_state ms : Forall (fun m => good_key (fst m) /\ good (build (snd m)) (snd m)) ms ->
  obj_state (build_members ms Leaf) (map fst ms) ms.
Proof.
  induction ms as [|[k j] ms IH] using rev_ind; intros HF; [apply obj_state_nil|].
  apply Forall_app in HF. destruct HF as [HF HL]. inversion HL as [|? ? [Hk Hg] _]; subst. cbn [fst snd] in *.
  destruct (insert_state _ _ _ k (build j) j (IH HF) Hk Hg) as (m' & f & E & Hs & _).
  rewrite build_members_app, map_app. unfold add_member. unfold insert_accounted in E.
  destruct (insert_map_element (build_members ms Leaf) k (build j)) as [[m1 f1]| |] eqn:E1; try discriminate.
  cbn [bind] in E. injection E as -> _. exact Hs.
Qed.

Theorem build_good j : tokens good_key any_number j -> good (build j) j.
Proof.
  induction j as [s|d|b| |l IH|ms IH] using jv_induct; intros HT; inversion HT; subst; clear HT.
  - apply good_str; auto.
  - apply good_num.
  - apply good_bool.
  - apply good_null.
  - cbn [build]. apply good_arr. induction l as [|x l IHl]; simpl; [constructor|].
    inversion IH; subst. inversion H0; subst. constructor; auto.
  - rewrite build_obj. apply build_state. rewrite Forall_forall in *. intros x Hx. specialize (H0 x Hx). split; [apply H0|].
    apply IH; [auto|apply H0].
Qed.

Lemma build_first ms : Forall (fun m => good_key (fst m) /\ good (build (snd m)) (snd m)) ms ->
  build_members (first_values ms) Leaf = build_members ms Leaf.
Proof.
  intros HF. unfold first_values.
  assert (H : forall suf pre, ms = pre ++ suf ->
    build_members (map (fun m => (fst m, match assoc (fst m) ms with Some j => j | None => snd m end)) suf)
      (build_members pre Leaf) = build_members suf (build_members pre Leaf)).
  { induction suf as [|[k j] suf IH]; intros pre E; [reflexivity|]. cbn [map fst snd build_members].
    pose proof HF as HF'. rewrite E in HF'. apply Forall_app in HF'. destruct HF' as [HP HL].
    inversion HL as [|? ? [Hk Hg] _]; subst x l. cbn [fst snd] in Hk, Hg.
    pose proof (build_state pre HP) as (_ & Hw & _). inversion Hw as [| | | | |? ? Hm Ho Hf]; subst m order.
    assert (Ea : add_member (build_members pre Leaf) k (build (match assoc k ms with Some j => j | None => j end)) =
                 add_member (build_members pre Leaf) k (build j)).
    { destruct (assoc k pre) as [j0|] eqn:Ep.
      - assert (Hin : In k (keys (build_members pre Leaf))).
        { apply Ho. apply assoc_in in Ep. apply (in_map fst) in Ep. exact Ep. }
        assert (Hd : forall e, add_member (build_members pre Leaf) k e = build_members pre Leaf).
        { intros e. unfold add_member. destruct (insert_ok _ k e Hm Hk) as (t' & f & H1 & _ & H3 & H4 & _).
          rewrite H1. destruct f; [|apply H4; reflexivity]. exfalso. apply H3; auto. }
        now rewrite !Hd.
      - rewrite E, assoc_app, Ep. simpl. now rewrite key_eqb_refl. }
    rewrite Ea, <- build_members_app. apply IH. rewrite <- app_assoc. exact E. }
  apply (H ms []). reflexivity.
Qed.

Theorem build_normal j : tokens good_key any_number j -> build (normal j) = build j.
Proof.
  induction j as [s|d|b| |l IH|ms IH] using jv_induct; intros HT; auto; inversion HT; subst; clear HT.
  - cbn [normal build]. f_equal. rewrite map_map. apply map_ext_in. intros x Hx. rewrite Forall_forall in *. auto.
  - cbn [normal]. rewrite !build_obj.
    assert (Eb : forall m, build_members (map (fun m => (fst m, normal (snd m))) ms) m = build_members ms m).
    { induction ms as [|[k j] ms IHm]; intros m; [reflexivity|]. inversion IH; subst. inversion H0 as [|? ? [? ?] ?]; subst.
      cbn [map build_members fst snd] in *. rewrite H2 by auto. apply IHm; auto. }
    rewrite build_first, Eb.
    + f_equal. unfold first_values. rewrite !map_map. reflexivity.
    + rewrite Forall_forall in *. intros x Hx. apply in_map_iff in Hx. destruct Hx as (y & <- & Hy). cbn [fst snd].
      split; [apply H0; auto|]. apply build_good. apply tokens_normal. apply H0. auto.
Qed.

(** What the documents of the library denote. *)
Lemma lib_val_tokens : 
  (forall t j, lib_val t j -> tokens good_key valid_double j) /\
  (forall t l, gelems lib_str lib_num t l -> Forall (tokens good_key valid_double) l) /\
  (forall t ms, gmembers lib_str lib_num t ms -> Forall (fun m => good_key (fst m) /\ tokens good_key valid_double (snd m)) ms).
Proof.
  apply grammar_mind; intros; try (constructor; auto; fail).
  - constructor. eapply lib_str_good; eauto.
  - constructor. inversion H; subst. match goal with H : rounds _ _ _ _ |- _ => apply H end.
  - constructor; [|constructor]. split; [eapply lib_str_good; eauto|auto].
  - constructor; [|auto]. split; [eapply lib_str_good; eauto|auto].
Qed.

Lemma tokens_mono (S S' : list Z -> Prop) (N N' : spec_float -> Prop) j :
  (forall s, S s -> S' s) -> (forall d, N d -> N' d) -> tokens S N j -> tokens S' N' j.
Proof.
  intros HS HN. induction j as [s|d|b| |l IH|ms IH] using jv_induct; intros HT; inversion HT; subst; constructor; auto.
  - rewrite Forall_forall in *. auto.
  - rewrite Forall_forall in *. intros x Hx. destruct (H0 x Hx). auto.
Qed.

Lemma tokens_and (S S' : list Z -> Prop) (N N' : spec_float -> Prop) j :
  tokens S N j -> tokens S' N' j -> tokens (fun s => S s /\ S' s) (fun d => N d /\ N' d) j.
Proof.
  induction j as [s|d|b| |l IH|ms IH] using jv_induct; intros H1 H2; inversion H1; inversion H2; subst; constructor; auto.
  - rewrite Forall_forall in *. auto.
  - rewrite Forall_forall in *. intros x Hx. 
    match goal with H : forall x, In x ms -> S (fst x) /\ _ |- _ => destruct (H x Hx) end.
    match goal with H : forall x, In x ms -> S' (fst x) /\ _ |- _ => destruct (H x Hx) end. auto.
Qed.

Lemma lib_doc_tokens t j : lib_doc t j -> tokens good_key valid_double j.
Proof. intros H. destruct H. eapply (proj1 lib_val_tokens); eauto. Qed.

(** A tree shows the value with first values as well. *)
Lemma represents_normal j : forall v, represents v j -> represents v (normal j).
Proof.
  induction j as [s|d|b| |l IH|ms IH] using jv_induct; intros v Hr; inversion Hr as [| | | |vs js HF|m order ms' Ho Hn Hs]; subst;
    cbn [normal]; try (constructor; fail).
  - constructor. clear Hr. induction HF as [|v j vs l Hv HF IHF]; simpl; [constructor|].
    inversion IH; subst. constructor; auto.
  - assert (Ea : forall k, assoc k (first_values (map (fun x => (fst x, normal (snd x))) ms)) = option_map normal (assoc k ms)).
    { intros k. rewrite <- assoc_map. generalize (map (fun x : list Z * jv => (fst x, normal (snd x))) ms). clear.
      intros ms. unfold first_values.
      destruct (assoc k ms) as [j|] eqn:E.
      - pose proof (assoc_in _ _ _ E) as Hin. revert E.
        assert (G : forall l, In k (map fst l) -> forall g : list Z * jv -> jv, (forall x, fst x = k -> g x = j) ->
          assoc k (map (fun m => (fst m, g m)) l) = Some j).
        { induction l as [|[k' x] l IH]; simpl; intros Hk g Hg; [tauto|].
          destruct (key_eqb_spec k k') as [->|N]; [rewrite Hg; auto|]. apply IH; auto. destruct Hk; [congruence|auto]. }
        intros E. apply (G ms); [apply (in_map fst) in Hin; exact Hin|]. intros x <-. now rewrite E.
      - apply assoc_none. rewrite map_map. cbn [fst]. intros Hin. apply assoc_some_in in Hin. destruct Hin. congruence. }
    constructor.
    + unfold first_values. rewrite !map_map. reflexivity.
    + intros k Hk. rewrite Ea. destruct (assoc k ms) eqn:E; [discriminate|]. auto.
    + intros k j Hk. rewrite Ea. destruct (assoc k ms) as [j0|] eqn:E; [|discriminate]. simpl. intros E'. injection E' as <-.
      destruct (Hs k j0 Hk E) as (v & Hv & Hr'). exists v. split; [auto|].
      apply assoc_in in E. rewrite Forall_forall in IH. apply (IH _ E). exact Hr'.
Qed.

(** String bodies that denote themselves have no escapes. *)
Lemma string_body_self (raw u : Z -> Prop) t s : string_body raw u t s ->
  (length s <= length t)%nat /\ (length s = length t -> exists cps, Forall raw cps /\ s = flat_map utf8 cps).
Proof.
  intros H. induction H as [|cp t s Hc H IH|c x t s Hc H IH|h cp t s Hh Hu H IH].
  - split; [lia|]. intros _. exists []. split; [constructor|reflexivity].
  - destruct IH as [IH1 IH2]. rewrite !app_length. split; [lia|]. intros E. destruct IH2 as (cps & HF & ->); [lia|].
    exists (cp :: cps). split; [constructor; auto|reflexivity].
  - simpl. split; [lia|]. intros E. exfalso. lia.
  - destruct IH as [IH1 _]. assert (length (utf8 cp) <= 4)%nat.
    { unfold utf8. repeat destruct (_ <=? _) || destruct (_ <? _); simpl; lia. }
    assert (length h = 4)%nat by (inversion Hh; reflexivity).
    simpl. rewrite !app_length. split; [lia|]. intros E. exfalso. lia.
Qed.
