(** * The layout written in builds without system conversions. *)

From Verif Require Import Base TextModel NumModel MapModel ParserModel WriterModel FloatTextModel NarrowModel SpecUtf8 SpecNum SpecMap SpecGrammar
  SpecMeaning SpecRfc SpecWrite TextProofs MapProofs StrtodProofs RoundProofs LexProofs ParserProofs RfcProofs FormatProofs WriterProofs.

#[local] Arguments Z.eqb : simpl nomatch.
#[local] Arguments Z.ltb : simpl nomatch.

Section W.
Variables (strict : bool) (scale : Z -> Z * Z) (junk : list Z) (n : nat) (c : Z).
Variables (number : spec_float -> list Z) (N : spec_float -> Prop).
Hypothesis HN : forall d, N d -> narrow_text strict scale junk d = Ret (number d).
Let unit := repeat c n.
Let pretty := indented number unit.
Let nwrite := narrow_write strict scale junk n c.

Definition nwrites (w : list Z -> out wresult) (j : jv) : Prop :=
  forall arr, exists out, w arr = Ret (kOk, out, arr) /\ concat out = pretty arr j.

Lemma narrow_elements_ok ws l : Forall2 nwrites ws l -> forall arr,
  exists out, narrow_elements ws arr = Ret (kOk, out, arr) /\ concat out = lines (map (fun x => arr ++ pretty arr x) l).
Proof.
  induction 1 as [|w j ws l Hw HF IH]; intros arr; [exists []; split; reflexivity|].
  destruct (Hw arr) as (o1 & E1 & C1). destruct (IH arr) as (o2 & E2 & C2).
  cbn [narrow_elements]. rewrite E1. cbn [bind negb status_eqb status_eq_dec]. rewrite E2. cbn [bind].
  eexists. split; [reflexivity|]. cbn [concat]. rewrite concat_app. cbn [concat]. rewrite C1, C2.
  destruct HF; cbn [map lines comma]; rewrite <- ?app_assoc; reflexivity.
Qed.

Lemma narrow_members_ok m ms :
  Forall (fun x => good_key (fst x) /\ exists w, find_named m (fst x) = Some (fst x, w) /\ nwrites w (snd x)) ms ->
  forall arr, exists out, narrow_members m (map fst ms) arr = Ret (kOk, out, arr) /\
    concat out = lines (map (fun x => arr ++ 34 :: fst x ++ [34; 32; 58; 32] ++ pretty arr (snd x)) ms).
Proof.
  induction 1 as [|[k j] ms (Hk & w & Hf & Hw) HF IH]; intros arr; [exists []; split; reflexivity|].
  cbn [fst snd] in *. destruct (Hw arr) as (o1 & E1 & C1). destruct (IH arr) as (o2 & E2 & C2).
  cbn [map narrow_members fst]. rewrite Hf, E1. cbn [bind negb status_eqb status_eq_dec]. rewrite E2. cbn [bind].
  eexists. split; [reflexivity|]. unfold put_text. rewrite cstr_id by auto.
  rewrite !concat_app. cbn [concat]. rewrite C1, C2.
  destruct HF; cbn [map lines comma fst snd]; rewrite <- ?app_assoc; simpl; rewrite <- ?app_assoc; reflexivity.
Qed.

Lemma narrow_obj m order : nwrite (VObject m order) = fun arr =>
  let! (st, out, arr1) := narrow_members (map_tree nwrite m) order (expand_array arr c n) in
  if negb (status_eqb st kOk) then Ret (st, [123; 10] :: out, arr1)
  else let arr2 := shrink_array arr1 n in Ret (kOk, [123; 10] :: out ++ [arr2; [125]], arr2).
Proof. reflexivity. Qed.

Theorem narrow_layout S j : forall v, tokens S N j -> represents v j -> wf_value v -> nwrites (nwrite v) (normal j).
Proof.
  induction j as [s|d|b| |l IH|ms IH] using jv_induct; intros v HT Hr Hw arr; inversion HT; subst; clear HT; inversion Hr; subst; clear Hr.
  - inversion Hw; subst. eexists. split; [reflexivity|]. unfold put_text. rewrite cstr_id by auto. reflexivity.
  - cbn [nwrite narrow_write]. unfold nwrite. cbn [narrow_write]. rewrite HN by auto. cbn [bind].
    eexists. split; [reflexivity|]. cbn [concat]. rewrite app_nil_r. reflexivity.
  - eexists. split; [reflexivity|]. destruct b; reflexivity.
  - eexists. split; reflexivity.
  - inversion Hw as [| | | |? Hl|]; subst l0.
    match goal with H : Forall (tokens S N) l |- _ => rename H into HTl end.
    match goal with H : Forall2 represents vs l |- _ => rename H into HR end.
    assert (HF : Forall2 nwrites (map nwrite vs) (map normal l)).
    { clear Hw. revert Hl IH HTl. induction HR as [|v j vs l Hv _ IHl]; intros Hl IH HTl; simpl; [constructor|].
      inversion Hl; subst. inversion IH; subst. inversion HTl; subst. constructor; auto. }
    destruct (narrow_elements_ok _ _ HF (expand_array arr c n)) as (o & E & C).
    unfold nwrite. cbn [narrow_write]. fold nwrite. rewrite E. cbn [bind negb status_eqb status_eq_dec]. rewrite shrink_expand.
    eexists. split; [reflexivity|]. cbn [concat]. rewrite concat_app, C. cbn [concat].
    rewrite app_nil_r. reflexivity.
  - inversion Hw as [| | | | |? ? Hm Ho Hf]; subst m0 order.
    match goal with H : Forall _ ms |- _ => match type of H with Forall (fun m => S (fst m) /\ _) _ => rename H into HTl end end.
    set (ns := first_values (map (fun x => (fst x, normal (snd x))) ms)).
    assert (Hns : map fst ms = map fst ns).
    { unfold ns, first_values. rewrite !map_map. reflexivity. }
    assert (HF : Forall (fun x => good_key (fst x) /\ exists w, find_named (map_tree nwrite m) (fst x) = Some (fst x, w)
                                  /\ nwrites w (snd x)) ns).
    { unfold ns, first_values. apply Forall_forall. intros x Hx. apply in_map_iff in Hx. destruct Hx as ([k j1] & <- & Hx).
      cbn [fst snd]. apply in_map_iff in Hx. destruct Hx as ([k' j0] & E & Hx). cbn [fst snd] in E. injection E as Ek Ej. subst k' j1.
      assert (Hk : good_key k).
      { destruct Hm as (_ & _ & Hg). unfold good_keys in Hg. rewrite Forall_forall in Hg. apply Hg. apply Ho.
        apply (in_map fst) in Hx. exact Hx. }
      split; [auto|].
      destruct (assoc_some_in k ms) as (j2 & E2); [apply (in_map fst) in Hx; exact Hx|].
      rewrite assoc_map, E2. cbn [option_map].
      match goal with H : forall k j, _ -> assoc k ms = Some j -> _ |- _ => destruct (H k j2 Hk E2) as (v & Hv & Hr) end.
      exists (nwrite v). rewrite find_named_map, find_named_key by (auto; apply Hm). rewrite Hv. split; [reflexivity|].
      rewrite Forall_forall in IH, HTl. apply (IH (k, j2)); [apply assoc_in; exact E2|apply (HTl (k, j2)); apply assoc_in; exact E2|exact Hr|].
      destruct (find_in m k v Hv) as (k2 & Hin). eauto. }
    destruct (narrow_members_ok _ _ HF (expand_array arr c n)) as (o & E & C).
    rewrite narrow_obj, Hns, E. cbn [bind negb status_eqb status_eq_dec]. rewrite shrink_expand.
    eexists. split; [reflexivity|]. cbn [concat]. rewrite concat_app, C. cbn [concat].
    rewrite app_nil_r. reflexivity.
Qed.
End W.
