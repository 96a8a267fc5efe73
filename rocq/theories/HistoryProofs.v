(** * Proofs about histories. *)

From Verif Require Import Base NumModel MapModel ParserModel WriterModel SpecMap SpecGrammar MapProofs LexProofs SpecMeaning
  ParserProofs RootProofs SpecWrite WriterProofs SchemaModel SpecSchema SchemaProofs StoreProofs FileModel FileProofs HistoryModel SpecHistory.

#[local] Arguments Z.eqb : simpl nomatch.
#[local] Arguments Z.ltb : simpl nomatch.

(** ** Write of a sound tree succeeds *)

Lemma write_sound n c : forall v, sound_value v -> forall arr, exists out, write n c v arr = (kOk, out, arr).
Proof.
  fix IH 2. intros v [s Hs|d|b0| |l Hl|m order Hw Ho Hv] arr; cbn [write]; eauto.
  - assert (HE : forall arr, exists out, write_elements (map (write n c) l) arr = (kOk, out, arr)).
    { clear arr. induction Hl as [|x l Hx _ IHl]; intros arr; simpl; [eauto|].
      destruct (IH x Hx arr) as (out & ->). rewrite status_eqb_refl. simpl. destruct (IHl arr) as (out' & ->). eauto. }
    destruct (HE (expand_array arr c n)) as (out & ->). rewrite status_eqb_refl. simpl negb. cbv iota zeta. rewrite shrink_expand. eauto.
  - assert (HE : forall arr, exists out, write_members (map_tree (write n c) m) order arr = (kOk, out, arr)).
    { clear arr. induction order as [|k order IHo]; intros arr; simpl; [eauto|].
      assert (Hk : In k (keys m)) by (apply Ho; left; auto).
      assert (Hg : good_key k) by (apply (proj1 (Forall_forall _ _) (proj2 (proj2 Hw))); auto).
      destruct (find_named m k) as [[k' y]|] eqn:Ef.
      - rewrite find_named_map, Ef. simpl. rewrite find_named_key in Ef by (auto; apply Hw).
        destruct (find_map_element m k) as [v0|] eqn:Efm; [|discriminate]. injection Ef as <- <-.
        destruct (find_in m k v0 Efm) as (k1 & Hin).
        destruct (IH v0 (Hv k1 v0 Hin) arr) as (out & ->). rewrite status_eqb_refl. simpl.
        destruct (IHo (fun k' H => Ho k' (or_intror H)) arr) as (out' & ->). eauto.
      - exfalso. rewrite find_named_key in Ef by (auto; apply Hw).
        unfold keys in Hk. apply in_map_iff in Hk. destruct Hk as ([k0 v0] & E0 & Hin). simpl in E0. subst k0.
        rewrite (in_find m k v0) in Ef; auto. discriminate. }
    destruct (HE (expand_array arr c n)) as (out & ->). rewrite status_eqb_refl. simpl negb. cbv iota zeta. rewrite shrink_expand. eauto.
Qed.

(** ** The effect of each call *)

Lemma failed_syntax st : failed st -> syntax_error st.
Proof. unfold failed. simpl. intuition; subst; constructor. Qed.

Lemma parse_effective root buf : bytes buf ->
  exists r after, sd_parse root buf = Ret (r, after) /\ parse_effect root buf (pr_status r) after /\
    (after = root \/ match after with Some v => sound_value v | None => True end).
Proof.
  intros HB. destruct (le_lt_dec 3 (length buf)) as [HL|HL].
  2:{ rewrite sd_short by auto. do 2 eexists. split; [reflexivity|]. split; [now apply pe_short|auto]. }
  destruct (Z.eq_dec (last buf 0) 0) as [E0|E0].
  2:{ rewrite sd_open by auto. do 2 eexists. split; [reflexivity|]. split; [now apply pe_open|auto]. }
  assert (HT : terminated buf) by (apply last_terminated; [intros ->; simpl in HL; lia|auto]).
  destruct (root_spec root buf HB HL HT) as (w & u & text & st & ov & Eb & Hw & Hn & Hn' & Ht & E & Hp).
  rewrite E. do 2 eexists. split; [reflexivity|].
  assert (Es : pr_status (report st u) = st).
  { unfold report. destruct (status_eqb st kOk) eqn:Ek; [|reflexivity]. simpl. unfold status_eqb in Ek. destruct (status_eq_dec st kOk); congruence. }
  rewrite Es. destruct ov as [v|].
  - destruct Hp as (t & w2 & j & -> & Hw2 & Hv & Hg & Hc). split; [|right; apply wf_sound; apply Hg].
    destruct Hc as [(-> & r & ->)|(-> & c & r & -> & Hc)].
    + apply (pe_ok _ _ (w ++ t ++ w2) r j v); auto; [|constructor; auto|apply Hg]. rewrite Eb. now rewrite <- !app_assoc.
    + apply (pe_more _ _ w t w2 c r j v); auto; [|destruct Hn' as (c' & r' & Ec & Hc'); congruence|apply Hg]. rewrite Eb. now rewrite <- !app_assoc.
  - split; [|right; exact I]. apply pe_error; auto. now apply failed_syntax.
Qed.

Lemma last_repeat n : last (repeat 0 n) 0 = 0.
Proof. induction n as [|[|n] IH]; auto. Qed.

Lemma bytes_repeat n : bytes (repeat 0 n).
Proof. apply Forall_forall. intros x Hx. apply repeat_spec in Hx. subst. unfold is_byte. lia. Qed.

Lemma read_loop_fails oracle : forall togo buf rest buf', read_loop oracle togo buf rest = Ret (false, buf') -> In None oracle.
Proof.
  induction oracle as [|[k|] oracle IH]; intros [|togo] buf rest buf' E; try discriminate.
  - simpl in E. destruct (wrs _ _ _) in E; try discriminate. simpl in E. right. eapply IH. exact E.
  - left. reflexivity.
Qed.

Lemma parse_file_effective root s : legal (CParseFile s) ->
  (exists r after, sd_parse_file root s = Ret (r, after) /\ parse_file_effect root s (pr_status r) after /\
     (after = root \/ match after with Some v => sound_value v | None => True end)) \/
  sd_parse_file root s = OutOfFuel.
Proof.
  destruct s as [|fstat contents reads]; intros HL.
  { left. do 2 eexists. split; [reflexivity|]. split; [constructor|auto]. }
  destruct HL as [HN HB]. unfold sd_parse_file. fold (file_size fstat).
  assert (Hs : 0 <= file_size fstat) by (destruct fstat; simpl; lia).
  destruct (Z.ltb_spec max_file_size (file_size fstat)) as [Hm|Hm].
  { left. do 2 eexists. split; [reflexivity|]. split; [|auto]. destruct fstat as [n|]; [|unfold max_file_size in Hm; simpl in Hm; lia].
    constructor. unfold max_file_size in Hm. simpl in Hm. lia. }
  unfold read_file. destruct (Z.ltb_spec max_file_size (file_size fstat)) as [Hm'|_]; [lia|].
  set (buf0 := repeat 0 (Z.to_nat (file_size fstat + 1))).
  assert (Hl0 : length buf0 = S (Z.to_nat (file_size fstat))) by (unfold buf0; rewrite repeat_length; lia).
  destruct (read_loop_safe reads (Z.to_nat (file_size fstat)) buf0 contents) as [(ok & buf & E & El)|E]; [lia| |].
  2:{ right. rewrite E. reflexivity. }
  left. rewrite E. cbn [bind].
  destruct ok.
  - assert (Hle : (Z.to_nat (file_size fstat) <= length buf0)%nat) by lia.
    pose proof (read_loop_bytes _ _ _ _ _ _ Hle (bytes_repeat _) HB E) as Hb.
    assert (Hla : last buf 0 = 0).
    { pose proof (read_loop_last reads (Z.to_nat (file_size fstat)) buf0 contents true buf) as HR. rewrite HR; auto; [apply last_repeat|lia]. }
    destruct (parse_effective root buf Hb) as (r & after & Ep & He & Hs'). rewrite Ep. do 2 eexists. split; [reflexivity|]. split; [|auto].
    apply (pf_parse _ _ _ _ buf); auto.
    + change (Z.of_nat (length buf) = file_size fstat + 1). rewrite El, Hl0. lia.
    + rewrite El, Hl0. unfold max_file_size in Hm. lia.
  - do 2 eexists. split; [reflexivity|]. split; [|auto]. simpl. apply pf_read. eapply read_loop_fails. exact E.
Qed.

Definition sound_root (root : option value) : Prop := match root with Some v => sound_value v | None => True end.

Lemma step_effect root op st after : legal op -> step root op = Ret (st, after) -> effect root op st after.
Proof.
  intros HL E. destruct op as [buf|s|s n c|t|g t d|t d]; simpl in E.
  - destruct (parse_effective root buf HL) as (r & a & Er & He & _). rewrite Er in E. injection E as <- <-. exact He.
  - destruct (parse_file_effective root s HL) as [(r & a & Er & He & _)|Er]; rewrite Er in E; [|discriminate]. injection E as <- <-. exact He.
  - destruct (sd_write_file root s n c) as [[st' o]| |]; try discriminate. injection E as <- <-. reflexivity.
  - destruct (sd_validate t root) as [st'| |]; try discriminate. injection E as <- <-. reflexivity.
  - destruct (sd_deserialize g t root d) as [[st' o]| |]; try discriminate. injection E as <- <-. reflexivity.
  - destruct HL as [Hp Hd]. unfold sd_serialize in E. destruct (serialize t d (create_value t)) as [[st' v]| |] eqn:Es; try discriminate.
    injection E as <- <-. exists v. split; [reflexivity|]. intros Hr ->. apply (proj1 (proj1 report_all t Hr Hp) d v Hd Es).
Qed.

(** Only Validate and DeserializeTo without a document have undefined behaviour. *)
Definition needs_document (op : call) : Prop := match op with CValidate _ | CDeserialize _ _ _ => True | _ => False end.

Lemma write_loop_no_ub oracle : forall data contents offset, write_loop oracle data contents offset <> UB.
Proof.
  induction oracle as [|[k|] oracle IH]; intros [|x data] contents offset; try discriminate. simpl. apply IH.
Qed.

Lemma write_chunks_no_ub chunks : forall oracle contents offset, write_chunks oracle chunks contents offset <> UB.
Proof.
  induction chunks as [|c chunks IH]; intros oracle contents offset; simpl; [discriminate|].
  destruct (write_loop oracle c contents offset) as [[[c1 o1] oo]| |] eqn:E; simpl; [apply IH|now apply write_loop_no_ub in E|discriminate].
Qed.

Definition writes (op : call) : Prop := match op with CWrite _ _ _ => True | _ => False end.

Lemma step_sound root op : sound_root root -> legal op -> tidy_call op ->
  (exists st after, step root op = Ret (st, after) /\ sound_root after /\ (writes op -> st <> kMissingObjectElement)) \/
  step root op = OutOfFuel \/
  (step root op = UB /\ root = None /\ needs_document op).
Proof.
  intros HS HL HT. destruct op as [buf|s|s n c|t|g t d|t d]; simpl.
  - left. destruct (parse_effective root buf HL) as (r & a & Er & He & Ha). rewrite Er. do 2 eexists. split; [reflexivity|].
    split; [destruct Ha as [->|Ha]; auto|intros []].
  - destruct (parse_file_effective root s HL) as [(r & a & Er & He & Ha)|Er]; rewrite Er; [|auto]. left. do 2 eexists. split; [reflexivity|].
    split; [destruct Ha as [->|Ha]; auto|intros []].
  - unfold sd_write_file. destruct s as [|contents ws]; [left; do 2 eexists; split; [reflexivity|split; [auto|discriminate]]|].
    assert (Hst : fst (sd_write root n c) <> kMissingObjectElement).
    { unfold sd_write. destruct root as [v|]; [|discriminate]. destruct (write_sound n c v HS []) as (out & ->). discriminate. }
    destruct (sd_write root n c) as [st chunks]. simpl in Hst.
    destruct (write_chunks ws chunks contents 0) as [[[c1 o1] oo]| |] eqn:E; simpl.
    + left. do 2 eexists. split; [reflexivity|split; auto].
    + now apply write_chunks_no_ub in E.
    + auto.
  - destruct root as [v|]; [|right; right; split; [reflexivity|split; [reflexivity|exact I]]]. left. simpl.
    destruct (proj1 (agree zeroes) t HL v HS) as [E _]. rewrite E. simpl. do 2 eexists. split; [reflexivity|]. split; [auto|intros []].
  - destruct root as [v|]; [|right; right; split; [reflexivity|split; [reflexivity|exact I]]]. left. simpl. destruct HL as [Hp Hd].
    destruct (proj1 (agree g) t Hp v HS) as [_ E]. destruct (E d Hd) as (d' & E' & _). rewrite E'. simpl. do 2 eexists. split; [reflexivity|].
    split; [auto|intros []].
  - destruct HL as [Hp Hd]. left. destruct (outcome_create t (proj1 all_outcomes t HT Hp) d Hd) as (st & v & E & Hv).
    unfold sd_serialize. rewrite E. simpl. do 2 eexists. split; [reflexivity|]. split; [exact Hv|intros []].
Qed.

Lemma run_app h : forall root h', run root (h ++ h') =
  let! (sts, root) := run root h in let! (sts', root) := run root h' in Ret (sts ++ sts', root).
Proof.
  induction h as [|op h IH]; intros root h'; simpl.
  - destruct (run root h') as [[sts r]| |]; reflexivity.
  - destruct (step root op) as [[st r]| |]; try reflexivity. simpl. rewrite IH.
    destruct (run r h) as [[sts r']| |]; try reflexivity. simpl. destruct (run r' h') as [[sts' r'']| |]; reflexivity.
Qed.

Lemma run_sound h : forall root sts after, sound_root root -> Forall legal h -> Forall tidy_call h ->
  run root h = Ret (sts, after) -> sound_root after.
Proof.
  induction h as [|op h IH]; intros root sts after HS HL HT E; simpl in E; [injection E as _ <-; auto|].
  inversion HL; subst. inversion HT; subst.
  destruct (step_sound root op) as [(st & r & Es & Hr & _)|[Es|(Es & _)]]; auto; rewrite Es in E; try discriminate. simpl in E.
  destruct (run r h) as [[sts' r']| |] eqn:Er; try discriminate. injection E as _ <-. eapply IH; eauto.
Qed.
