(** * Properties of histories of calls: C24, C25, C50, C51. *)

From Verif Require Import Base Str NumModel MapModel ParserModel WriterModel SpecMap SpecGrammar MapProofs LexProofs SpecMeaning
  ParserProofs RootProofs SpecWrite WriterProofs PropWrite SchemaModel SpecSchema SchemaProofs StoreProofs PropSchema
  FileModel FileProofs HistoryModel SpecHistory HistoryProofs.

(** ** C24: after any history, every call has exactly the effect that [effect]
    describes: Parse replaces the document, keeps it or drops it depending on the
    status; SerializeFrom replaces it; the other calls keep it. *)
Theorem C24_what_is_held (h : list call) (op : call) (sts : list status) (st : status) (after : option value) :
  Forall legal (h ++ [op]) -> run None (h ++ [op]) = Ret (sts ++ [st], after) ->
  exists before, run None h = Ret (sts, before) /\ effect before op st after.
Proof.
  intros HL E. rewrite run_app in E. destruct (run None h) as [[sts' before]| |]; try discriminate. simpl in E.
  destruct (step before op) as [[st' a]| |] eqn:Es; try discriminate. injection E as E <-.
  apply app_inj_tail in E. destruct E as [<- <-]. exists before. split; [reflexivity|].
  apply step_effect; auto. apply Forall_app in HL. destruct HL as [_ HL]. inversion HL; auto.
Qed.
Print Assumptions C24_what_is_held.

(** The consequences for Parse, by status. *)
Theorem C24_by_status (before : option value) (buf : list Z) (st : status) (after : option value) :
  parse_effect before buf st after ->
  (st = kOk -> exists t rest j v, buf = t ++ 0 :: rest /\ lib_doc t j /\ after = Some v /\ represents v j) /\
  (st = kTextBufferContentsInvalid \/ st = kUnterminatedTextBuffer -> after = before) /\
  (st = kExpectedEndOfFile -> exists w t rest j v, buf = w ++ t ++ rest /\ ws w /\ lib_val t j /\ after = Some v /\ represents v j) /\
  (syntax_error st -> after = None).
Proof.
  intros H. inversion H; subst; (split; [|split; [|split]]); intros Hst; try discriminate; try (destruct Hst; discriminate); auto;
    try (inversion Hst; fail).
  - do 4 eexists. repeat split; eauto.
  - do 5 eexists. repeat split; eauto.
  - exfalso. subst. match goal with H : syntax_error kOk |- _ => inversion H end.
  - destruct Hst; subst; match goal with H : syntax_error _ |- _ => inversion H end.
  - exfalso. subst. match goal with H : syntax_error kExpectedEndOfFile |- _ => inversion H end.
Qed.
Print Assumptions C24_by_status.

Definition history : list call :=
  [CParse (shape_text ++ [0]); CParse [0]; CParseFile NoFile; CValidate tshape; CParse (`"[1]," ++ [0]);
   CParse (`"{""a""}" ++ [0]); CSerialize tshape shape_data; CWrite (ASink [] (repeat (Some 9%nat) 300)) 2 32; CParse (`"null" ++ [0])].

Example C24_instance : Forall legal history /\
  (exists root, run None history =
    Ret ([kOk; kTextBufferContentsInvalid; KFileOpenError; kOk; kExpectedEndOfFile; kExpectedColon; kOk; kOk; kOk], root) /\ root = Some VNull) /\
  (exists root, run None (firstn 5 history) = Ret ([kOk; kTextBufferContentsInvalid; KFileOpenError; kOk; kExpectedEndOfFile], root) /\
     root = Some (VArray [VNumber one])) /\
  (exists sts, run None (firstn 6 history) = Ret (sts, None)).
Proof.
  split.
  - unfold history. repeat match goal with |- Forall legal (_ :: _) => apply Forall_cons | |- Forall legal [] => apply Forall_nil end; try (apply bytes_forallb; reflexivity); try exact I; try apply tshape_proper.
    split; apply C29_instance.
  - split; [eexists; split; vm_compute; reflexivity|]. split; [eexists; split; vm_compute; reflexivity|].
    eexists. vm_compute. reflexivity.
Qed.

(** ** C25 *)

(** Not so: with an anonymous ObjectMap member after a named one the recorded
    name is no longer in the map, and Write fails. *)
Theorem C25_refuted : exists t d v, proper t /\ has_type t d /\
  run None [CSerialize t d] = Ret ([kOk], Some v) /\ ~ sound_value v /\
  fst (sd_write (Some v) 0 32) = kMissingObjectElement.
Proof.
  exists (TStruct (PItem (Named `"a") None TDouble (PItem Anonymous None (TObjectMap TDouble) PNil))).
  exists (DStruct [DDouble one; DMap Leaf]). eexists. split; [repeat split; repeat constructor; auto|].
  split; [typed; try apply wf_leaf; constructor|]. split; [vm_compute; reflexivity|].
  split; [|vm_compute; reflexivity]. intros H.
  assert (HO : forall m order, sound_value (VObject m order) -> forall k, In k order -> In k (keys m)) by (intros m order HS; inversion HS; auto).
  apply (HO _ _ H `"a"). left. reflexivity.
Qed.
Print Assumptions C25_refuted.

(** For all histories in which no serialized type has an anonymous map member: the
    document is well formed at every time, and Write never returns
    kMissingObjectElement. *)
Theorem C25_well_formed_partial (h : list call) (sts : list status) (root : option value) :
  Forall legal h -> Forall tidy_call h -> run None h = Ret (sts, root) ->
  match root with
  | Some v => sound_value v /\ forall n c, exists out, sd_write (Some v) n c = (kOk, out)
  | None => forall n c, sd_write None n c = (kInvalidStructuredData, [])
  end.
Proof.
  intros HL HT E. pose proof (run_sound h None sts root I HL HT E) as HS. destruct root as [v|]; [|reflexivity].
  split; [exact HS|]. intros n c. destruct (write_sound n c v HS []) as (out & Ew). exists out. unfold sd_write. rewrite Ew. reflexivity.
Qed.
Print Assumptions C25_well_formed_partial.

Example C25_instance : Forall tidy_call history /\ exists sts v, run None (firstn 8 history) = Ret (sts, Some v) /\
  text (snd (sd_write (Some v) 0 32)) = `"{
""name"" : ""n"",
""points"" : [
{
""x"" : 1,
""y"" : 2
}
],
""flags"" : {
},
""x"" : 2,
""y"" : 1
}".
Proof.
  split; [repeat constructor; simpl; auto|]. do 2 eexists. split; [vm_compute; reflexivity|]. vm_compute. reflexivity.
Qed.

(** ** C50: the only undefined behaviour in such histories is Validate or
    DeserializeTo when the StructuredData holds no document. *)
Theorem C50_only_null_document (h : list call) : Forall legal h -> Forall tidy_call h -> run None h = UB ->
  exists h1 op h2 sts, h = h1 ++ op :: h2 /\ run None h1 = Ret (sts, None) /\ needs_document op.
Proof.
  intros HL HT E.
  assert (HG : forall h root, Forall legal h -> Forall tidy_call h -> sound_root root -> run root h = UB ->
    exists h1 op h2 sts, h = h1 ++ op :: h2 /\ run root h1 = Ret (sts, None) /\ needs_document op).
  { clear. intros h. induction h as [|op h IH]; intros root HL HT HS E; [discriminate|]. inversion HL; subst. inversion HT; subst. simpl in E.
    destruct (step_sound root op) as [(st & r & Es & Hr & _)|[Es|(Es & -> & Hn)]]; auto.
    - rewrite Es in E. simpl in E. destruct (run r h) as [[sts' r']| |] eqn:Er; try discriminate.
      destruct (IH r) as (h1 & op' & h2 & sts & -> & E1 & Hn); auto. exists (op :: h1), op', h2, (st :: sts).
      split; [reflexivity|]. split; [|auto]. simpl. rewrite Es. simpl. rewrite E1. reflexivity.
    - rewrite Es in E. discriminate.
    - exists [], op, h, []. auto. }
  apply (HG h None); auto. exact I.
Qed.
Print Assumptions C50_only_null_document.

(** And it is one: on a StructuredData without document. *)
Theorem C50_null_document_refuted (t : ty) (g : junk) (d : data) (buf : list Z) :
  run None [CValidate t] = UB /\ run None [CDeserialize g t d] = UB /\
  run None [CParse (`"{""a""}" ++ [0]); CValidate t] = UB.
Proof.
  split; [reflexivity|]. split; [reflexivity|].
  assert (E : step None (CParse (`"{""a""}" ++ [0])) = Ret (kExpectedColon, None)) by (vm_compute; reflexivity).
  cbn [run]. rewrite E. reflexivity.
Qed.
Print Assumptions C50_null_document_refuted.

Example C50_instance : run None [CValidate tshape; CParse [0]] = UB /\ needs_document (CValidate tshape).
Proof. split; [reflexivity|exact I]. Qed.

(** ** C51: the statuses that Parse of an array can return, and no others; each of
    them is returned for some text. *)
Inductive parse_status : status -> Prop :=
| ps_ok : parse_status kOk
| ps_short : parse_status kTextBufferContentsInvalid
| ps_open : parse_status kUnterminatedTextBuffer
| ps_more : parse_status kExpectedEndOfFile
| ps_syntax st : syntax_error st -> parse_status st.

Theorem C51_parse_statuses (root : option value) (buf : list Z) : bytes buf ->
  exists r after, sd_parse root buf = Ret (r, after) /\ parse_status (pr_status r).
Proof.
  intros HB. destruct (parse_effective root buf HB) as (r & after & E & He & _). exists r, after. split; [exact E|].
  inversion He; constructor; auto.
Qed.
Print Assumptions C51_parse_statuses.

Theorem C51_all_reached (st : status) : parse_status st -> exists buf r after, bytes buf /\ sd_parse None buf = Ret (r, after) /\ pr_status r = st.
Proof.
  assert (H : forall buf st, forallb (fun c => (0 <=? c) && (c <? 256)) buf = true ->
    match sd_parse None buf with Ret (r, _) => pr_status r = st | _ => False end ->
    exists buf r after, bytes buf /\ sd_parse None buf = Ret (r, after) /\ pr_status r = st).
  { intros buf st' HB E. exists buf. destruct (sd_parse None buf) as [[r after]| |]; try destruct E. exists r, after.
    split; [now apply bytes_forallb|auto]. }
  destruct 1 as [| | | |st' Hs]; [| | | |destruct Hs].
  - apply (H (`"[]" ++ [0])); vm_compute; reflexivity.
  - apply (H [49; 0]); vm_compute; reflexivity.
  - apply (H `"[ ]"); vm_compute; reflexivity.
  - apply (H (`"[]]" ++ [0])); vm_compute; reflexivity.
  - apply (H (`"""ab" ++ [0])); vm_compute; reflexivity.
  - apply (H [34; 10; 34; 0]); vm_compute; reflexivity.
  - apply (H (`"""\q""" ++ [0])); vm_compute; reflexivity.
  - apply (H (`"01" ++ [0])); vm_compute; reflexivity.
  - apply (H (`"[1,]" ++ [0])); vm_compute; reflexivity.
  - apply (H (`"[1" ++ [0])); vm_compute; reflexivity.
  - apply (H (`"{""a"":1" ++ [0])); vm_compute; reflexivity.
  - apply (H (`"{""a""}" ++ [0])); vm_compute; reflexivity.
  - apply (H (`"{a" ++ [0])); vm_compute; reflexivity.
Qed.
Print Assumptions C51_all_reached.

Example C51_instance : parse_status kExpectedColon /\ ~ parse_status kFloatInvalid /\ ~ parse_status kExpectedEndingDoubleQuotes.
Proof. repeat split; [repeat constructor| |]; intros H; inversion H as [| | | |? Hs]; inversion Hs. Qed.
