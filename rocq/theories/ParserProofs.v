(** * The parser accepts exactly the library grammar and builds its meaning. *)

From Verif Require Import Base TextModel NumModel MapModel ParserModel SpecUtf8 SpecNum SpecMap SpecGrammar SpecMeaning
  TextProofs MapProofs StrtodProofs RoundProofs LexProofs.

#[local] Arguments Z.eqb : simpl nomatch.
#[local] Arguments Z.ltb : simpl nomatch.

(** Well-formed value trees. *)
Inductive wf_value : value -> Prop :=
| wfv_str s : good_key s -> wf_value (VString s)
| wfv_num d : wf_value (VNumber d)
| wfv_bool b : wf_value (VBool b)
| wfv_null : wf_value VNull
| wfv_arr l : Forall wf_value l -> wf_value (VArray l)
| wfv_obj m order : wf_map m -> (forall k, In k order <-> In k (keys m)) ->
    (forall k v, In (k, v) (elements m) -> wf_value v) ->
    wf_value (VObject m order).

(** The tree that inserting the members one after the other builds. *)
Definition add_member (m : tree value) (k : list Z) (v : value) : tree value :=
  match insert_map_element m k v with Ret (m', _) => m' | _ => m end.

Fixpoint build (j : jv) : value :=
  match j with
  | JStr s => VString s
  | JNum d => VNumber d
  | JBool b => VBool b
  | JNull => VNull
  | JArr l => VArray (map build l)
  | JObj ms => VObject ((fix go (ms : list (list Z * jv)) (m : tree value) : tree value :=
                           match ms with
                           | [] => m
                           | (k, j) :: ms' => go ms' (add_member m k (build j))
                           end) ms Leaf) (map fst ms)
  end.

Fixpoint build_members (ms : list (list Z * jv)) (m : tree value) : tree value :=
  match ms with
  | [] => m
  | (k, j) :: ms' => build_members ms' (add_member m k (build j))
  end.

Lemma build_obj ms : build (JObj ms) = VObject (build_members ms Leaf) (map fst ms).
Proof. reflexivity. Qed.

Lemma build_members_app ms k j : forall m,
  build_members (ms ++ [(k, j)]) m = add_member (build_members ms m) k (build j).
Proof. induction ms as [|[k' j'] ms IH]; intros m; simpl; [reflexivity|]. apply IH. Qed.

(** Results of the parsing functions. *)
Definition good (v : value) (j : jv) : Prop := represents v j /\ wf_value v /\ v = build j.

Lemma good_str s : good_key s -> good (VString s) (JStr s).
Proof. repeat split; try constructor; auto. Qed.
Lemma good_num d : good (VNumber d) (JNum d).
Proof. repeat split; constructor. Qed.
Lemma good_bool b : good (VBool b) (JBool b).
Proof. repeat split; constructor. Qed.
Lemma good_null : good VNull JNull.
Proof. repeat split; constructor. Qed.
Lemma good_arr vs l : Forall2 good vs l -> good (VArray vs) (JArr l).
Proof.
  intros H. split; [|split].
  - constructor. induction H; constructor; auto. apply H.
  - constructor. induction H; constructor; auto. apply H.
  - simpl. f_equal. induction H as [|v j vs l (_ & _ & ->) _ IH]; simpl; congruence.
Qed.

(** The state of an object under construction. *)
Definition obj_state (m : tree value) (order : list (list Z)) (ms : list (list Z * jv)) : Prop :=
  good (VObject m order) (JObj ms).

Lemma obj_state_nil : obj_state Leaf [] [].
Proof.
  split; [|split].
  - constructor; [reflexivity|reflexivity|]. intros k j _ H. discriminate.
  - constructor; [apply wf_leaf|simpl; tauto|]. intros k v H. destruct H.
  - reflexivity.
Qed.

(** Lookups only ever return values stored under good keys, when asked with a
    good key; with other keys nothing is claimed, so lookups are restricted. *)
Lemma find_in (m : tree value) k v : find_map_element m k = Some v -> exists k', In (k', v) (elements m).
Proof.
  induction m as [|l IHl k' v' b r IHr]; simpl; [discriminate|].
  destruct (text_lt k k'); [intros H; destruct (IHl H) as [x Hx]; exists x; rewrite in_app_iff; auto|].
  destruct (text_lt k' k); [intros H; destruct (IHr H) as [x Hx]; exists x; rewrite in_app_iff; simpl; auto|].
  intros H. injection H as ->. exists k'. rewrite in_app_iff. simpl. auto.
Qed.

Lemma in_find (m : tree value) k v : wf_map m -> In (k, v) (elements m) -> find_map_element m k = Some v.
Proof.
  intros (Ha & Hb & Hg) Hin.
  assert (Hk : good_key k).
  { unfold good_keys, keys in Hg. rewrite Forall_forall in Hg. apply Hg. apply (in_map fst) in Hin. exact Hin. }
  rewrite find_assoc by auto.
  assert (Hnd : NoDup (map fst (elements m))) by (apply increasing_nodup; exact Hb).
  clear - Hin Hnd. induction (elements m) as [|[a x] l IH]; [destruct Hin|].
  simpl in *. inversion Hnd; subst. destruct Hin as [E|Hin].
  - injection E as -> ->. now rewrite key_eqb_refl.
  - destruct (key_eqb_spec k a) as [->|]; [|auto].
    exfalso. apply H1. apply (in_map fst) in Hin. exact Hin.
Qed.

Lemma insert_state m order ms name v j : obj_state m order ms -> good_key name -> good v j ->
  exists m' f, insert_accounted m order name v = Ret (m', order ++ [name], f) /\
    obj_state m' (order ++ [name]) (ms ++ [(name, j)]) /\
    (f = true <-> ~ In name order).
Proof.
  intros (Hr & Hw & Hb) Hk (Hv & Hwv & Hbv). inversion Hw as [| | | | |? ? Hm Ho Hf]; subst m0 order0.
  inversion Hr as [| | | | |? ? ? Eo Hn Hs]; subst m0 order0 ms0.
  rewrite build_obj in Hb. injection Hb as Hb _.
  destruct (insert_ok m name v Hm Hk) as (m' & f & I1 & I2 & I3 & I4 & I5).
  exists m', f. unfold insert_accounted. rewrite I1. cbn [bind]. split; [reflexivity|].
  pose proof (insert_find m name v m' f Hm Hk I1) as HF.
  split; [split; [|split]|].
  - constructor.
    + rewrite Eo, map_app. reflexivity.
    + intros k Hgk Ha. rewrite assoc_app in Ha. destruct (assoc k ms) eqn:Ek; [discriminate|]. simpl in Ha.
      rewrite HF by auto. destruct (key_eqb k name); [discriminate|]. auto.
    + intros k j0 Hgk Ha. rewrite assoc_app in Ha. rewrite HF by auto.
      destruct (assoc k ms) as [j1|] eqn:Ek.
      * injection Ha as <-. destruct (Hs k j1 Hgk Ek) as (v1 & Hv1 & Hr1).
        destruct (key_eqb_spec k name) as [->|]; [rewrite Hv1|]; eauto.
      * simpl in Ha. destruct (key_eqb_spec k name) as [->|]; [|discriminate]. injection Ha as <-.
        rewrite (Hn name Hgk Ek). eauto.
  - constructor; [exact I2| |].
    + intros k. rewrite in_app_iff. simpl. rewrite Ho. destruct f.
      * destruct (I5 eq_refl) as (l1 & l2 & E1 & E2). unfold keys. rewrite E1, E2, !map_app, !in_app_iff. simpl. tauto.
      * rewrite (I4 eq_refl). split; [|auto]. intros [|[<-|[]]]; [auto|].
        destruct (in_dec (list_eq_dec Z.eq_dec) name (keys m)); [auto|].
        exfalso. apply I3 in n. discriminate.
    + intros k v1 Hin. destruct f.
      * destruct (I5 eq_refl) as (l1 & l2 & E1 & E2). rewrite E2 in Hin. rewrite in_app_iff in Hin. simpl in Hin.
        destruct Hin as [Hin|[E|Hin]].
        -- apply (Hf k). rewrite E1, in_app_iff. auto.
        -- injection E as -> ->. auto.
        -- apply (Hf k). rewrite E1, in_app_iff. auto.
      * rewrite (I4 eq_refl) in Hin. eauto.
  - rewrite build_obj, build_members_app, map_app, <- Hb, <- Hbv, Eo. unfold add_member. rewrite I1. reflexivity.
  - rewrite I3, Ho. tauto.
Qed.

(** ** Tokens in front *)

Lemma gval_head t j : lib_val t j -> exists c r, t = c :: r /\ ~ wsc c /\ c <> 93 /\ c <> 125 /\ c <> 44 /\ c <> 0 /\
  (c = 34 \/ float_char c \/ c = 116 \/ c = 102 \/ c = 110 \/ c = 91 \/ c = 123).
Proof.
  intros H. unfold lib_val in H.
  assert (HF : forall c, float_char c -> ~ wsc c /\ c <> 93 /\ c <> 125 /\ c <> 44 /\ c <> 0).
  { unfold float_char, digit, wsc. intros; lia. }
  inversion H; subst; try (do 2 eexists; split; [reflexivity|]; unfold wsc; lia).
  destruct (lib_num_head _ _ H0) as (c & r & -> & Hc). exists c, r. split; [auto|].
  destruct (HF c Hc) as (? & ? & ? & ? & ?). auto 10.
Qed.

(** The result of the number attempt on a text that starts with no float
    character and no quotation mark. *)
Lemma not_number c r : ~ float_char c -> c <> 34 -> terminated (c :: r) -> bytes (c :: r) ->
  string_parse (c :: r) = Ret (kExpectedBeginingDoubleQuotes, [], c :: r) /\
  number_parse (c :: r) = Ret (kFloatInvalid, S754_nan, c :: r).
Proof.
  intros H1 H2 HT HB. split; [|now apply number_parse_nonfloat].
  unfold string_parse. rewrite rd0. cbn [bind]. destruct (Z.eqb_spec c 34); [congruence|reflexivity].
Qed.

(** ** Soundness *)

Definition failed (st : status) : Prop :=
  In st [kPrematureNullTerminator; kStringIllegalChar; kStringIllegalEscape; kNumbersCannotHaveLeadingZeros; kExpectedJsonValue;
         kExpectedClosingSquareBracketsOrComma; kExpectedClosingCurlyBracesOrComma; kExpectedColon; kExpectedBeginingDoubleQuotes].

Definition any_post (p : ptr) (r : out presult) : Prop :=
  exists st ov p', r = Ret (st, ov, p') /\ terminated p' /\ (exists u, p = u ++ p') /\
    match ov with
    | Some v => st = kOk /\ exists t w j, p = t ++ w ++ p' /\ ws w /\ lib_val t j /\ good v j
    | None => failed st
    end.

Definition array_post (acc : list value) (empty : bool) (p : ptr) (r : out presult) : Prop :=
  exists st ov p', r = Ret (st, ov, p') /\ terminated p' /\ (exists u, p = u ++ p') /\
    match ov with
    | Some v => st = kOk /\ exists c t l vs, p = c :: t ++ 93 :: p' /\ v = VArray (acc ++ vs) /\ Forall2 good vs l /\
                  (empty = true /\ ws t /\ l = [] \/ gelems lib_str lib_num t l)
    | None => failed st
    end.

Definition object_post (empty : bool) (p : ptr) (ms : list (list Z * jv)) (r : out presult) : Prop :=
  exists st ov p', r = Ret (st, ov, p') /\ terminated p' /\ (exists u, p = u ++ p') /\
    match ov with
    | Some v => st = kOk /\ exists c t l m o, p = c :: t ++ 125 :: p' /\ v = VObject m o /\ obj_state m o (ms ++ l) /\
                  (empty = true /\ ws t /\ l = [] \/ gmembers lib_str lib_num t l)
    | None => failed st
    end.

Ltac flat := repeat first [rewrite <- app_assoc | rewrite <- app_comm_cons]; simpl app; try reflexivity.

Ltac fail_st := unfold failed; simpl; intuition congruence.

Lemma status_eqb_refl st : status_eqb st st = true.
Proof. unfold status_eqb. destruct (status_eq_dec st st); congruence. Qed.

Lemma status_eqb_neq a b : a <> b -> status_eqb a b = false.
Proof. unfold status_eqb. destruct (status_eq_dec a b); congruence. Qed.

Lemma any_none p st u p' : terminated p' -> p = u ++ p' -> failed st -> any_post p (Ret (st, None, p')).
Proof. intros H1 H2 H3. exists st, None, p'. repeat split; eauto; apply H3. Qed.

Lemma any_some p v t w j p' : terminated p' -> p = t ++ w ++ p' -> ws w -> lib_val t j -> good v j ->
  any_post p (Ret (kOk, Some v, p')).
Proof.
  intros H1 H2 H3 H4 H5. exists kOk, (Some v), p'. split; [reflexivity|]. split; [auto|].
  split; [exists (t ++ w); now rewrite <- app_assoc|]. split; [reflexivity|]. eauto 10.
Qed.

Lemma parse_sound fuel :
  (forall p, terminated p -> bytes p -> (2 * length p < fuel)%nat -> any_post p (parse_any fuel p)) /\
  (forall acc empty c p, c <> 0 -> terminated (c :: p) -> bytes p -> (2 * length (c :: p) <= fuel)%nat ->
     array_post acc empty (c :: p) (array_loop fuel acc empty (c :: p))) /\
  (forall m o ms empty c p, obj_state m o ms -> c <> 0 -> terminated (c :: p) -> bytes p -> (2 * length (c :: p) <= fuel)%nat ->
     object_post empty (c :: p) ms (object_loop fuel m o empty (c :: p))).
Proof.
  induction fuel as [|fuel (IHv & IHa & IHo)].
  { split; [|split]; intros; simpl in *; lia. }
  split; [|split].
  - (* parse_any *)
    intros p HT HB HL. cbn [parse_any].
    destruct (string_parse_spec p HT HB) as [(E & Hn)|[(st & r & -> & E & Hst & Htr)|(t & s & rest & -> & Hs & E & Htr)]].
    2:{ rewrite E. cbn [bind]. rewrite !status_eqb_neq by (destruct Hst as [->|[->| ->]]; discriminate). simpl.
        apply (any_none _ st [34]); auto. destruct Hst as [->|[->| ->]]; fail_st. }
    2:{ rewrite E. cbn [bind]. rewrite status_eqb_refl.
        apply (any_some _ _ (34 :: t ++ [34]) [] (JStr s)); auto; [simpl; now rewrite <- app_assoc|constructor|now constructor|].
        apply good_str. eapply lib_str_good; eauto. }
    rewrite E. cbn [bind]. change (status_eqb kExpectedBeginingDoubleQuotes kOk) with false.
    change (negb (status_eqb kExpectedBeginingDoubleQuotes kExpectedBeginingDoubleQuotes)) with false. cbv iota. clear E.
    destruct (number_parse_spec p HT) as [(st & d & p1 & E & Hst & Ht1 & (u & Hu))|(t & d & w & rest & -> & Hnum & Hw & Hnw & Htr & Hnf & E)].
    2:{ rewrite E. cbn [bind]. rewrite status_eqb_refl.
        apply (any_some _ _ t w (JNum d)); auto; [now constructor|]. apply good_num. }
    rewrite E. cbn [bind]. rewrite status_eqb_neq by (destruct Hst as [->| ->]; discriminate).
    destruct Hst as [->| ->].
    2:{ rewrite status_eqb_refl. apply (any_none _ _ u); auto. fail_st. }
    rewrite status_eqb_neq by discriminate. clear E u p1 d Ht1 Hu.
    destruct (bool_parse_spec p HT) as [E|[(r & -> & Hr & E)|(r & -> & Hr & E)]]; rewrite E; cbn [bind].
    2:{ rewrite status_eqb_refl. apply (any_some _ _ [116; 114; 117; 101] [] (JBool true)); auto; [constructor|constructor|apply good_bool]. }
    2:{ rewrite status_eqb_refl. apply (any_some _ _ [102; 97; 108; 115; 101] [] (JBool false)); auto; [constructor|constructor|apply good_bool]. }
    rewrite status_eqb_neq by discriminate. clear E.
    destruct (null_parse_spec p HT) as [E|(r & -> & Hr & E)]; rewrite E; cbn [bind].
    2:{ rewrite status_eqb_refl. apply (any_some _ _ [110; 117; 108; 108] [] JNull); auto; [constructor|constructor|apply good_null]. }
    rewrite status_eqb_neq by discriminate. clear E.
    destruct (terminated_head p HT) as (c & r & ->). rewrite rd0. cbn [bind].
    inversion HB as [|? ? Bc HBr]; subst.
    destruct (Z.eqb_spec c 91) as [->|H91]; simpl negb; cbv iota.
    { destruct (IHa [] true 91 r) as (st & ov & p' & E & Ht' & (u & Hu) & Hp); auto; [lia|lia|].
      rewrite E. cbn [bind].
      destruct ov as [v|].
      - destruct Hp as (-> & c & t & l & vs & E2 & -> & Hvs & Hl). rewrite status_eqb_refl. simpl.
        injection E2 as <- E2.
        apply (any_some _ _ (91 :: t ++ [93]) [] (JArr l)); auto; [simpl; rewrite <- app_assoc; simpl; congruence|constructor| |].
        + destruct Hl as [(_ & Hw & ->)|Hg]; [now apply g_arr0|now apply g_arr].
        + now apply good_arr.
      - rewrite status_eqb_neq by (clear - Hp; unfold failed in Hp; simpl in Hp; intuition congruence). rewrite status_eqb_neq by (clear - Hp; unfold failed in Hp; simpl in Hp; intuition congruence). simpl.
        apply (any_none _ _ u); auto. }
    cbn [bind]. change (status_eqb kExpectedOpeningSquareBrackets kOk || negb (status_eqb kExpectedOpeningSquareBrackets kExpectedOpeningSquareBrackets)) with false.
    cbv iota. rewrite rd0. cbn [bind].
    destruct (Z.eqb_spec c 123) as [->|H123]; simpl negb; cbv iota.
    { destruct (IHo Leaf [] [] true 123 r) as (st & ov & p' & E & Ht' & (u & Hu) & Hp); auto; [apply obj_state_nil|lia|lia|].
      rewrite E. cbn [bind].
      destruct ov as [v|].
      - destruct Hp as (-> & c & t & l & m & o & E2 & -> & Hvs & Hl). rewrite status_eqb_refl. simpl.
        injection E2 as <- E2. simpl in Hvs.
        apply (any_some _ _ (123 :: t ++ [125]) [] (JObj l)); auto; [simpl; rewrite <- app_assoc; simpl; congruence|constructor|].
        destruct Hl as [(_ & Hw & ->)|Hg]; [now apply g_obj0|now apply g_obj].
      - rewrite status_eqb_neq by (clear - Hp; unfold failed in Hp; simpl in Hp; intuition congruence). rewrite (status_eqb_neq st kExpectedOpeningCurlyBraces) by (clear - Hp; unfold failed in Hp; simpl in Hp; intuition congruence). simpl.
        apply (any_none _ _ u); auto. }
    cbn [bind]. change (status_eqb kExpectedOpeningCurlyBraces kOk || negb (status_eqb kExpectedOpeningCurlyBraces kExpectedOpeningCurlyBraces)
      || status_eqb kExpectedOpeningCurlyBraces kNumbersCannotHaveLeadingZeros) with false. cbv iota.
    apply (any_none _ _ []); auto. fail_st.
  - (* array_loop *)
    intros acc empty c p Hc HT HB HL. cbn [array_loop]. cbn [skipn].
    apply terminated_tail in HT; auto.
    destruct (skip_ws_spec p HT) as (w1 & p1 & E1 & -> & Hw1 & Hn1 & Ht1). rewrite E1. cbn [bind]. clear E1.
    apply bytes_app in HB. destruct HB as [_ HB1].
    destruct (terminated_head p1 Ht1) as (c1 & r1 & ->). rewrite rd0. cbn [bind].
    simpl in HL. rewrite app_length in HL. simpl in HL.
    destruct (Z.eqb_spec c1 93) as [->|H93].
    { destruct empty; simpl negb; cbv iota.
      - exists kOk, (Some (VArray acc)), r1. cbn [skipn]. split; [reflexivity|].
        split; [eapply terminated_tail; [|exact Ht1]; lia|].
        split; [exists (c :: w1 ++ [93]); simpl; rewrite <- ?app_assoc; simpl; rewrite <- ?app_assoc; reflexivity|]. split; [reflexivity|].
        exists c, w1, [], []. rewrite app_nil_r. auto 10.
      - exists kExpectedJsonValue, None, (93 :: r1). split; [reflexivity|]. split; [auto|].
        split; [exists (c :: w1); reflexivity|]. fail_st. }
    destruct (IHv (c1 :: r1) Ht1 HB1) as (st & ov & p2 & E2 & Ht2 & (u2 & Hu2) & Hp2); [simpl; lia|].
    rewrite E2. cbn [bind]. clear E2.
    destruct ov as [v|].
    2:{ exists st, None, p2. split; [reflexivity|]. split; [auto|].
        split; [exists (c :: w1 ++ u2); simpl; rewrite <- app_assoc, <- Hu2; reflexivity|]. auto. }
    destruct Hp2 as (-> & t & w & j & Ep & Hw & Hval & Hgood).
    destruct (skip_ws_spec p2 Ht2) as (w2 & p3 & E3 & -> & Hw2 & Hn3 & Ht3). rewrite E3. cbn [bind]. clear E3.
    destruct (terminated_head p3 Ht3) as (c3 & r3 & ->). rewrite rd0. cbn [bind].
    assert (HB3 : bytes (c3 :: r3)).
    { rewrite Ep in HB1. unfold bytes in *. rewrite !Forall_app in HB1. tauto. }
    assert (HLen : (length t + length w + length w2 + length (c3 :: r3) = S (length r1))%nat).
    { change (S (length r1)) with (length (c1 :: r1)). rewrite Ep, !app_length. lia. }
    assert (HLt : (1 <= length t)%nat).
    { destruct (gval_head t j Hval) as (x & y & -> & _). simpl. lia. }
    assert (Eall : c :: w1 ++ c1 :: r1 = c :: (w1 ++ t ++ w ++ w2) ++ c3 :: r3).
    { rewrite Ep. now rewrite <- !app_assoc. }
    rewrite Eall.
    destruct (Z.eqb_spec c3 44) as [->|H44].
    { destruct (IHa (acc ++ [v]) false 44 r3) as (st & ov & p' & E & Ht' & (u & Hu) & Hp); auto; [lia|now inversion HB3|simpl in *; lia|].
      rewrite E. exists st, ov, p'. split; [reflexivity|]. split; [auto|].
      split; [exists (c :: (w1 ++ t ++ w ++ w2) ++ u); rewrite Hu; simpl; rewrite <- ?app_assoc; simpl; rewrite <- ?app_assoc; reflexivity|].
      destruct ov as [v'|]; [|auto].
      destruct Hp as (-> & c' & t' & l & vs & E2 & -> & Hvs & Hl). split; [reflexivity|].
      injection E2 as <- E2. subst r3.
      destruct Hl as [(? & _)|Hl]; [discriminate|].
      exists c, (w1 ++ t ++ (w ++ w2) ++ 44 :: t'), (j :: l), (v :: vs).
      split; [f_equal; rewrite <- !app_assoc; simpl; reflexivity|].
      split; [now rewrite <- app_assoc|]. split; [constructor; auto|]. right.
      apply ge_cons; auto. apply Forall_app; auto. }
    destruct (Z.eqb_spec c3 93) as [->|H93']; simpl negb; cbv iota.
    { cbn [skipn]. exists kOk, (Some (VArray (acc ++ [v]))), r3. split; [reflexivity|].
      split; [eapply terminated_tail; [|exact Ht3]; lia|].
      split; [exists (c :: (w1 ++ t ++ w ++ w2) ++ [93]); simpl; rewrite <- ?app_assoc; simpl; rewrite <- ?app_assoc; reflexivity|]. split; [reflexivity|].
      exists c, (w1 ++ t ++ (w ++ w2)), [j], [v].
      split; [f_equal; rewrite <- !app_assoc; reflexivity|]. split; [reflexivity|].
      split; [constructor; auto|]. right. apply ge_one; auto. apply Forall_app; auto. }
    exists kExpectedClosingSquareBracketsOrComma, None, (c3 :: r3). split; [reflexivity|]. split; [auto|].
    split; [exists (c :: w1 ++ t ++ w ++ w2); reflexivity|]. fail_st.
  - (* object_loop *)
    intros m o ms empty c p Hst Hc HT HB HL. cbn [object_loop]. cbn [skipn].
    apply terminated_tail in HT; auto.
    destruct (skip_ws_spec p HT) as (w1 & p1 & E1 & -> & Hw1 & Hn1 & Ht1). rewrite E1. cbn [bind]. clear E1.
    apply bytes_app in HB. destruct HB as [_ HB1].
    destruct (terminated_head p1 Ht1) as (c1 & r1 & ->). rewrite rd0. cbn [bind].
    simpl in HL. rewrite app_length in HL. simpl in HL.
    destruct (Z.eqb_spec c1 125) as [->|H125].
    { destruct empty; simpl negb; cbv iota.
      - exists kOk, (Some (VObject m o)), r1. cbn [skipn]. split; [reflexivity|].
        split; [eapply terminated_tail; [|exact Ht1]; lia|].
        split; [exists (c :: w1 ++ [125]); simpl; rewrite <- ?app_assoc; simpl; rewrite <- ?app_assoc; reflexivity|]. split; [reflexivity|].
        exists c, w1, [], m, o. rewrite app_nil_r. auto 10.
      - exists kExpectedJsonValue, None, (125 :: r1). split; [reflexivity|]. split; [auto|].
        split; [exists (c :: w1); reflexivity|]. fail_st. }
    destruct (string_parse_spec (c1 :: r1) Ht1 HB1) as [(E & Hn)|[(st & r & Er & E & Hbs & Htr)|(nt & nm & rest & Er & Hs & E & Htr)]];
      rewrite E; cbn [bind]; clear E.
    { rewrite status_eqb_neq by discriminate. simpl negb. cbv iota.
      exists kExpectedBeginingDoubleQuotes, None, (c1 :: r1). split; [reflexivity|]. split; [auto|].
      split; [exists (c :: w1); reflexivity|]. fail_st. }
    { rewrite status_eqb_neq by (destruct Hbs as [->|[->| ->]]; discriminate). simpl negb. cbv iota.
      exists st, None, r. split; [reflexivity|]. split; [auto|].
      split; [exists (c :: w1 ++ [34]); rewrite Er; simpl; rewrite <- ?app_assoc; simpl; rewrite <- ?app_assoc; reflexivity|].
      destruct Hbs as [->|[->| ->]]; fail_st. }
    rewrite status_eqb_refl. simpl negb. cbv iota.
    assert (HBr : bytes rest).
    { rewrite Er in HB1. inversion HB1 as [|? ? _ HB']; subst. apply bytes_app in HB'. destruct HB' as [_ HB']. now inversion HB'. }
    destruct (skip_ws_spec rest Htr) as (w2 & p2 & E2 & -> & Hw2 & Hn2 & Ht2). rewrite E2. cbn [bind]. clear E2.
    destruct (terminated_head p2 Ht2) as (c2 & r2 & ->). rewrite rd0. cbn [bind].
    apply bytes_app in HBr. destruct HBr as [_ HBr]. inversion HBr as [|? ? _ HBr2]; subst.
    assert (Hlen1 : (length r1 = length nt + S (length w2 + S (length r2)))%nat).
    { injection Er as _ ->. rewrite app_length. simpl. rewrite app_length. reflexivity. }
    destruct (Z.eqb_spec c2 58) as [->|H58]; simpl negb; cbv iota.
    2:{ exists kExpectedColon, None, (c2 :: r2). split; [reflexivity|]. split; [auto|].
        split; [exists (c :: w1 ++ 34 :: nt ++ 34 :: w2); rewrite Er; flat|]. fail_st. }
    cbn [skipn]. assert (Ht2' : terminated r2) by (eapply terminated_tail; [|exact Ht2]; lia).
    destruct (skip_ws_spec r2 Ht2') as (w3 & p3 & E3 & -> & Hw3 & Hn3 & Ht3). rewrite E3. cbn [bind]. clear E3.
    apply bytes_app in HBr2. destruct HBr2 as [_ HB3]. rewrite app_length in Hlen1.
    destruct (IHv p3 Ht3 HB3) as (st & ov & p4 & E4 & Ht4 & (u4 & Hu4) & Hp4); [lia|].
    rewrite E4. cbn [bind]. clear E4.
    destruct ov as [v|].
    2:{ exists st, None, p4. split; [reflexivity|]. split; [auto|].
        split; [exists (c :: w1 ++ 34 :: nt ++ 34 :: w2 ++ 58 :: w3 ++ u4); rewrite Er, Hu4; flat|]. auto. }
    destruct Hp4 as (-> & t & w & j & Ep & Hw & Hval & Hgood).
    destruct (insert_state m o ms nm v j Hst (lib_str_good _ _ Hs) Hgood) as (m' & f & Ei & Hst' & _).
    rewrite Ei. cbn [bind]. clear Ei.
    destruct (skip_ws_spec p4 Ht4) as (w4 & p5 & E5 & -> & Hw4 & Hn5 & Ht5). rewrite E5. cbn [bind]. clear E5.
    destruct (terminated_head p5 Ht5) as (c5 & r5 & ->). rewrite rd0. cbn [bind].
    assert (HB5 : bytes (c5 :: r5)).
    { rewrite Ep in HB3. unfold bytes in *. rewrite !Forall_app in HB3. tauto. }
    assert (HLen : (length t + length w + length w4 + length (c5 :: r5) = length p3)%nat).
    { rewrite Ep, !app_length. lia. }
    set (pre := w1 ++ 34 :: nt ++ 34 :: w2 ++ 58 :: w3 ++ t ++ w ++ w4).
    assert (Eall : c :: w1 ++ c1 :: r1 = c :: pre ++ c5 :: r5).
    { unfold pre. rewrite Er, Ep. f_equal. flat. }
    rewrite Eall.
    destruct (Z.eqb_spec c5 44) as [->|H44].
    { destruct (IHo m' (o ++ [nm]) (ms ++ [(nm, j)]) false 44 r5) as (st & ov & p' & E & Ht' & (u & Hu) & Hp); auto; [lia|now inversion HB5|simpl in *; lia|].
      rewrite E. exists st, ov, p'. split; [reflexivity|]. split; [auto|].
      split; [exists (c :: pre ++ u); rewrite Hu; simpl; rewrite <- ?app_assoc; simpl; rewrite <- ?app_assoc; reflexivity|].
      destruct ov as [v'|]; [|auto].
      destruct Hp as (-> & c' & t' & l & m'' & o'' & E2 & -> & Hvs & Hl). split; [reflexivity|].
      injection E2 as <- E2. subst r5.
      destruct Hl as [(? & _)|Hl]; [discriminate|].
      exists c, (w1 ++ 34 :: nt ++ 34 :: w2 ++ 58 :: w3 ++ t ++ (w ++ w4) ++ 44 :: t'), ((nm, j) :: l), m'', o''.
      split. { f_equal. unfold pre. flat. }
      split; [reflexivity|]. split; [now rewrite <- app_assoc in Hvs|]. right.
      apply gm_cons; auto. apply Forall_app; auto. }
    destruct (Z.eqb_spec c5 125) as [->|H125']; simpl negb; cbv iota.
    { cbn [skipn]. exists kOk, (Some (VObject m' (o ++ [nm]))), r5. split; [reflexivity|].
      split; [eapply terminated_tail; [|exact Ht5]; lia|].
      split; [exists (c :: pre ++ [125]); simpl; rewrite <- ?app_assoc; simpl; rewrite <- ?app_assoc; reflexivity|]. split; [reflexivity|].
      exists c, (w1 ++ 34 :: nt ++ 34 :: w2 ++ 58 :: w3 ++ t ++ (w ++ w4)), [(nm, j)], m', (o ++ [nm]).
      split; [unfold pre; flat|]. split; [reflexivity|].
      split; [auto|]. right. apply gm_one; auto. apply Forall_app; auto. }
    exists kExpectedClosingCurlyBracesOrComma, None, (c5 :: r5). split; [reflexivity|]. split; [auto|].
    split; [exists (c :: pre); reflexivity|]. fail_st.
Qed.

(** ** Completeness *)

Lemma float_cases c : float_char c -> c <> 116 /\ c <> 102 /\ c <> 110 /\ c <> 91 /\ c <> 123 /\ c <> 34.
Proof. unfold float_char, digit. lia. Qed.

Lemma string_parse_other c r : c <> 34 -> string_parse (c :: r) = Ret (kExpectedBeginingDoubleQuotes, [], c :: r).
Proof. intros H. unfold string_parse. rewrite rd0. cbn [bind]. destruct (Z.eqb_spec c 34); [congruence|reflexivity]. Qed.

Lemma bool_parse_other c r : c <> 116 -> c <> 102 -> bool_parse (c :: r) = Ret (kExpectedTrueOrFalse, true, c :: r).
Proof.
  intros H1 H2. unfold bool_parse. cbn [looking_at]. rewrite rd0. cbn [bind].
  destruct (Z.eqb_spec c 116); [congruence|]. cbn [bind]. destruct (Z.eqb_spec c 102); [congruence|]. reflexivity.
Qed.

Lemma null_parse_other c r : c <> 110 -> null_parse (c :: r) = Ret (kExpectedNull, c :: r).
Proof.
  intros H. unfold null_parse. cbn [looking_at]. rewrite rd0. cbn [bind].
  destruct (Z.eqb_spec c 110); [congruence|]. reflexivity.
Qed.

Lemma any_bracket fuel c r : c = 91 \/ c = 123 ->
  parse_any (S fuel) (c :: r) =
  if c =? 91 then
    let! (st, v, p1) := array_loop fuel [] true (c :: r) in
    if status_eqb st kOk || negb (status_eqb st kExpectedOpeningSquareBrackets) then Ret (st, v, p1)
    else let! c := rd p1 0 in
         let! (st, v, p2) := (if negb (c =? 123) then Ret (kExpectedOpeningCurlyBraces, None, p1)
                              else object_loop fuel Leaf [] true p1) in
         if status_eqb st kOk || negb (status_eqb st kExpectedOpeningCurlyBraces)
            || status_eqb st kNumbersCannotHaveLeadingZeros
         then Ret (st, v, p2)
         else Ret (kExpectedJsonValue, None, p2)
  else
    let! (st, v, p2) := object_loop fuel Leaf [] true (c :: r) in
    if status_eqb st kOk || negb (status_eqb st kExpectedOpeningCurlyBraces)
       || status_eqb st kNumbersCannotHaveLeadingZeros
    then Ret (st, v, p2)
    else Ret (kExpectedJsonValue, None, p2).
Proof.
  intros Hc. cbn [parse_any].
  rewrite string_parse_other by lia. cbn [bind].
  rewrite !(status_eqb_neq kExpectedBeginingDoubleQuotes kOk) by discriminate. rewrite status_eqb_refl. simpl negb. cbv iota.
  rewrite number_parse_nonfloat by (unfold float_char, digit; lia). cbn [bind].
  rewrite !(status_eqb_neq kFloatInvalid) by discriminate.
  rewrite bool_parse_other by lia. cbn [bind]. rewrite status_eqb_neq by discriminate.
  rewrite null_parse_other by lia. cbn [bind]. rewrite status_eqb_neq by discriminate.
  rewrite rd0. cbn [bind].
  destruct (Z.eqb_spec c 91) as [->|H]; simpl negb; cbv iota.
  - destruct (array_loop fuel [] true (91 :: r)) as [[[st v] p1]| |]; cbn [bind]; try reflexivity.
  - cbn [bind]. rewrite status_eqb_refl. rewrite status_eqb_neq by discriminate. simpl orb. cbv iota. rewrite rd0. cbn [bind].
    destruct (Z.eqb_spec c 123); [|lia]. simpl negb. cbv iota. reflexivity.
Qed.

Definition val_complete (t : list Z) (j : jv) : Prop :=
  forall fuel w rest, (2 * length t < fuel)%nat -> ws w -> nonws_head rest -> nonfloat_head (w ++ rest) ->
    exists v w', parse_any fuel (t ++ w ++ rest) = Ret (kOk, Some v, w' ++ rest) /\ ws w' /\ good v j.

Definition elems_complete (t : list Z) (l : list jv) : Prop :=
  forall fuel acc empty c rest, (2 * length t + 2 <= fuel)%nat ->
    exists vs, array_loop fuel acc empty (c :: t ++ 93 :: rest) = Ret (kOk, Some (VArray (acc ++ vs)), rest) /\
      Forall2 good vs l.

Definition members_complete (t : list Z) (l : list (list Z * jv)) : Prop :=
  forall fuel m o ms empty c rest, (2 * length t + 2 <= fuel)%nat -> obj_state m o ms ->
    exists m' o', object_loop fuel m o empty (c :: t ++ 125 :: rest) = Ret (kOk, Some (VObject m' o'), rest) /\
      obj_state m' o' (ms ++ l).

Lemma nonws_cons c r : ~ wsc c -> nonws_head (c :: r).
Proof. intros H. exists c, r. auto. Qed.

Lemma nonfloat_follow w c r : ws w -> ~ float_char c -> nonfloat_head (w ++ c :: r).
Proof.
  intros Hw Hc. destruct Hw as [|x w Hx Hw]; [exists c, r; auto|].
  exists x, (w ++ c :: r). split; [reflexivity|]. intros Hf. apply float_not_ws in Hf. tauto.
Qed.

Lemma value_head t j rest : lib_val t j -> nonws_head (t ++ rest).
Proof. intros H. destruct (gval_head t j H) as (c & r & -> & Hc & _). simpl. now apply nonws_cons. Qed.

Ltac notws := unfold wsc; lia.
Ltac notfloat := unfold float_char, digit; lia.

Lemma parse_complete :
  (forall t j, lib_val t j -> val_complete t j) /\
  (forall t l, gelems lib_str lib_num t l -> elems_complete t l) /\
  (forall t l, gmembers lib_str lib_num t l -> members_complete t l).
Proof.
  assert (HH : forall t j, lib_val t j -> exists c r, t = c :: r /\ c <> 93 /\ c <> 125).
  { intros t j H. destruct (gval_head t j H) as (c & r & -> & _ & H1 & H2 & _). eauto. }
  cut ((forall t j, lib_val t j -> lib_val t j /\ val_complete t j) /\
  (forall t l, gelems lib_str lib_num t l -> gelems lib_str lib_num t l /\ elems_complete t l) /\
  (forall t l, gmembers lib_str lib_num t l -> gmembers lib_str lib_num t l /\ members_complete t l)).
  { intros (H1 & H2 & H3). split; [|split]; intros; [apply H1|apply H2|apply H3]; auto. }
  unfold lib_val.
  apply (grammar_mind lib_str lib_num
    (fun t j => gval lib_str lib_num t j /\ val_complete t j)
    (fun t l => gelems lib_str lib_num t l /\ elems_complete t l)
    (fun t l => gmembers lib_str lib_num t l /\ members_complete t l)).
  - (* string *)
    intros t s Hs. split; [now constructor|]. intros fuel w rest Hf Hw Hr Hnf.
    destruct fuel; [lia|]. cbn [parse_any].
    replace ((34 :: t ++ [34]) ++ w ++ rest) with (34 :: t ++ 34 :: (w ++ rest)) by flat.
    rewrite string_parse_complete with (s := s) by auto. cbn [bind]. rewrite status_eqb_refl.
    exists (VString s), w. split; [reflexivity|]. split; [auto|]. apply good_str. eapply lib_str_good; eauto.
  - (* number *)
    intros t d Hd. split; [now constructor|]. intros fuel w rest Hf Hw Hr Hnf.
    destruct fuel; [lia|]. cbn [parse_any].
    destruct (lib_num_head t d Hd) as (c & r & E & Hc). destruct (float_cases c Hc) as (_ & _ & _ & _ & _ & H34).
    assert (string_parse (t ++ w ++ rest) = Ret (kExpectedBeginingDoubleQuotes, [], t ++ w ++ rest)) as ->.
    { rewrite E. simpl. now apply string_parse_other. }
    cbn [bind]. rewrite status_eqb_neq by discriminate. rewrite status_eqb_refl. simpl negb. cbv iota.
    rewrite number_parse_complete with (d := d) by auto. cbn [bind]. rewrite status_eqb_refl.
    exists (VNumber d), []. split; [reflexivity|]. split; [constructor|]. apply good_num.
  - (* true *)
    split; [constructor|]. intros fuel w rest Hf Hw Hr Hnf.
    destruct fuel; [lia|]. cbn [parse_any]. simpl app.
    rewrite string_parse_other by lia. cbn [bind]. rewrite status_eqb_neq by discriminate. rewrite status_eqb_refl. simpl negb. cbv iota.
    rewrite number_parse_nonfloat by notfloat. cbn [bind]. rewrite !status_eqb_neq by discriminate.
    exists (VBool true), w. split; [reflexivity|]. split; [auto|]. apply good_bool.
  - (* false *)
    split; [constructor|]. intros fuel w rest Hf Hw Hr Hnf.
    destruct fuel; [lia|]. cbn [parse_any]. simpl app.
    rewrite string_parse_other by lia. cbn [bind]. rewrite status_eqb_neq by discriminate. rewrite status_eqb_refl. simpl negb. cbv iota.
    rewrite number_parse_nonfloat by notfloat. cbn [bind]. rewrite !status_eqb_neq by discriminate.
    exists (VBool false), w. split; [reflexivity|]. split; [auto|]. apply good_bool.
  - (* null *)
    split; [constructor|]. intros fuel w rest Hf Hw Hr Hnf.
    destruct fuel; [lia|]. cbn [parse_any]. simpl app.
    rewrite string_parse_other by lia. cbn [bind]. rewrite status_eqb_neq by discriminate. rewrite status_eqb_refl. simpl negb. cbv iota.
    rewrite number_parse_nonfloat by notfloat. cbn [bind]. rewrite !status_eqb_neq by discriminate.
    exists VNull, w. split; [reflexivity|]. split; [auto|]. apply good_null.
  - (* empty array *)
    intros w0 Hw0. split; [now constructor|]. intros fuel w rest Hf Hw Hr Hnf.
    destruct fuel; [lia|]. simpl app. rewrite any_bracket by auto. change (91 =? 91) with true. cbv iota.
    destruct fuel; [simpl in Hf; lia|]. cbn [array_loop]. cbn [skipn]. rewrite <- app_assoc. simpl app.
    rewrite skip_ws_app by (auto; apply nonws_cons; notws). cbn [bind]. rewrite rd0. cbn [bind].
    change (93 =? 93) with true. simpl negb. cbv iota. cbn [bind skipn]. rewrite status_eqb_refl. simpl orb. cbv iota.
    exists (VArray []), w. split; [reflexivity|]. split; [auto|]. apply good_arr. constructor.
  - (* array *)
    intros t l _ [Hg IH]. split; [now constructor|]. intros fuel w rest Hf Hw Hr Hnf.
    destruct fuel; [lia|]. simpl app. rewrite any_bracket by auto. change (91 =? 91) with true. cbv iota.
    simpl in Hf. rewrite app_length in Hf. simpl in Hf.
    rewrite <- app_assoc. simpl app.
    destruct (IH fuel [] true 91 (w ++ rest) ltac:(lia)) as (vs & E & Hvs). rewrite E. cbn [bind]. rewrite status_eqb_refl. simpl orb. cbv iota.
    exists (VArray ([] ++ vs)), w. split; [reflexivity|]. split; [auto|]. simpl app.
    now apply good_arr.
  - (* empty object *)
    intros w0 Hw0. split; [now constructor|]. intros fuel w rest Hf Hw Hr Hnf.
    destruct fuel; [lia|]. simpl app. rewrite any_bracket by auto. change (123 =? 91) with false. cbv iota.
    destruct fuel; [simpl in Hf; lia|]. cbn [object_loop]. cbn [skipn]. rewrite <- app_assoc. simpl app.
    rewrite skip_ws_app by (auto; apply nonws_cons; notws). cbn [bind]. rewrite rd0. cbn [bind].
    change (125 =? 125) with true. simpl negb. cbv iota. cbn [bind skipn]. rewrite status_eqb_refl. simpl orb. cbv iota.
    exists (VObject Leaf []), w. split; [reflexivity|]. split; [auto|]. apply obj_state_nil.
  - (* object *)
    intros t l _ [Hg IH]. split; [now constructor|]. intros fuel w rest Hf Hw Hr Hnf.
    destruct fuel; [lia|]. simpl app. rewrite any_bracket by auto. change (123 =? 91) with false. cbv iota.
    simpl in Hf. rewrite app_length in Hf. simpl in Hf.
    rewrite <- app_assoc. simpl app.
    destruct (IH fuel Leaf [] [] true 123 (w ++ rest) ltac:(lia) obj_state_nil) as (m' & o' & E & Hst). rewrite E. cbn [bind]. rewrite status_eqb_refl. simpl orb. cbv iota.
    exists (VObject m' o'), w. split; [reflexivity|]. split; [auto|]. exact Hst.
  - (* one element *)
    intros w1 t w2 v Hw1 _ [Hg IH] Hw2. split; [now constructor|]. intros fuel acc empty c rest Hf.
    destruct fuel; [lia|]. cbn [array_loop]. cbn [skipn]. rewrite !app_length in Hf.
    replace ((w1 ++ t ++ w2) ++ 93 :: rest) with (w1 ++ t ++ w2 ++ 93 :: rest) by flat.
    rewrite skip_ws_app by (auto; eapply value_head; eauto). cbn [bind].
    destruct (HH t v Hg) as (x & y & E & H93 & _).
    assert (rd (t ++ w2 ++ 93 :: rest) 0 = Ret x) as -> by (rewrite E; reflexivity). cbn [bind].
    destruct (Z.eqb_spec x 93); [congruence|].
    destruct (IH fuel w2 (93 :: rest)) as (v' & w' & E' & Hw' & Hgood); auto; [lia|apply nonws_cons; notws|apply nonfloat_follow; auto; notfloat|].
    rewrite E'. cbn [bind]. rewrite skip_ws_app by (auto; apply nonws_cons; notws). cbn [bind]. rewrite rd0. cbn [bind].
    change (93 =? 44) with false. change (negb (93 =? 93)) with false. cbv iota. cbn [skipn].
    exists [v']. split; [reflexivity|]. constructor; [auto|constructor].
  - (* more elements *)
    intros w1 t w2 v t' l Hw1 _ [Hg IH] Hw2 _ [Hg' IH']. split; [now constructor|]. intros fuel acc empty c rest Hf.
    destruct fuel; [lia|]. cbn [array_loop]. cbn [skipn]. rewrite !app_length in Hf. simpl in Hf.
    replace ((w1 ++ t ++ w2 ++ 44 :: t') ++ 93 :: rest) with (w1 ++ t ++ w2 ++ 44 :: t' ++ 93 :: rest) by flat.
    rewrite skip_ws_app by (auto; eapply value_head; eauto). cbn [bind].
    destruct (HH t v Hg) as (x & y & E & H93 & _).
    assert (HL : (1 <= length t)%nat) by (rewrite E; simpl; lia).
    assert (rd (t ++ w2 ++ 44 :: t' ++ 93 :: rest) 0 = Ret x) as -> by (rewrite E; reflexivity). cbn [bind].
    destruct (Z.eqb_spec x 93); [congruence|].
    destruct (IH fuel w2 (44 :: t' ++ 93 :: rest)) as (v' & w' & E' & Hw' & Hgood); auto; [lia|apply nonws_cons; notws|apply nonfloat_follow; auto; notfloat|].
    rewrite E'. cbn [bind]. rewrite skip_ws_app by (auto; apply nonws_cons; notws). cbn [bind]. rewrite rd0. cbn [bind].
    change (44 =? 44) with true. cbv iota.
    destruct (IH' fuel (acc ++ [v']) false 44 rest ltac:(lia)) as (vs & Evs & Hvs). rewrite Evs.
    exists (v' :: vs). split; [now rewrite <- app_assoc|]. constructor; auto.
  - (* one member *)
    intros w1 n nm w2 w3 t w4 v Hw1 Hs Hw2 Hw3 _ [Hg IH] Hw4. split; [now constructor|]. intros fuel m o ms empty c rest Hf Hst.
    destruct fuel; [lia|]. cbn [object_loop]. cbn [skipn].
    repeat (rewrite app_length in Hf || simpl in Hf).
    replace ((w1 ++ 34 :: n ++ 34 :: w2 ++ 58 :: w3 ++ t ++ w4) ++ 125 :: rest)
      with (w1 ++ 34 :: n ++ 34 :: w2 ++ 58 :: w3 ++ t ++ w4 ++ 125 :: rest) by flat.
    rewrite skip_ws_app by (auto; apply nonws_cons; notws). cbn [bind]. rewrite rd0. cbn [bind].
    change (34 =? 125) with false. cbv iota.
    rewrite string_parse_complete with (s := nm) by auto. cbn [bind]. rewrite status_eqb_refl. simpl negb. cbv iota.
    rewrite skip_ws_app by (auto; apply nonws_cons; notws). cbn [bind]. rewrite rd0. cbn [bind].
    change (58 =? 58) with true. simpl negb. cbv iota. cbn [skipn].
    rewrite skip_ws_app by (auto; eapply value_head; eauto). cbn [bind].
    destruct (IH fuel w4 (125 :: rest)) as (v' & w' & E' & Hw' & Hgood); auto; [lia|apply nonws_cons; notws|apply nonfloat_follow; auto; notfloat|].
    rewrite E'. cbn [bind].
    destruct (insert_state m o ms nm v' v Hst (lib_str_good _ _ Hs) Hgood) as (m' & f & Ei & Hst' & _). rewrite Ei. cbn [bind].
    rewrite skip_ws_app by (auto; apply nonws_cons; notws). cbn [bind]. rewrite rd0. cbn [bind].
    change (125 =? 44) with false. change (negb (125 =? 125)) with false. cbv iota. cbn [skipn].
    exists m', (o ++ [nm]). split; [reflexivity|]. exact Hst'.
  - (* more members *)
    intros w1 n nm w2 w3 t w4 v t' l Hw1 Hs Hw2 Hw3 _ [Hg IH] Hw4 _ [Hg' IH']. split; [now constructor|]. intros fuel m o ms empty c rest Hf Hst.
    destruct fuel; [lia|]. cbn [object_loop]. cbn [skipn].
    repeat (rewrite app_length in Hf || simpl in Hf).
    replace ((w1 ++ 34 :: n ++ 34 :: w2 ++ 58 :: w3 ++ t ++ w4 ++ 44 :: t') ++ 125 :: rest)
      with (w1 ++ 34 :: n ++ 34 :: w2 ++ 58 :: w3 ++ t ++ w4 ++ 44 :: t' ++ 125 :: rest) by flat.
    rewrite skip_ws_app by (auto; apply nonws_cons; notws). cbn [bind]. rewrite rd0. cbn [bind].
    change (34 =? 125) with false. cbv iota.
    rewrite string_parse_complete with (s := nm) by auto. cbn [bind]. rewrite status_eqb_refl. simpl negb. cbv iota.
    rewrite skip_ws_app by (auto; apply nonws_cons; notws). cbn [bind]. rewrite rd0. cbn [bind].
    change (58 =? 58) with true. simpl negb. cbv iota. cbn [skipn].
    rewrite skip_ws_app by (auto; eapply value_head; eauto). cbn [bind].
    destruct (IH fuel w4 (44 :: t' ++ 125 :: rest)) as (v' & w' & E' & Hw' & Hgood); auto; [lia|apply nonws_cons; notws|apply nonfloat_follow; auto; notfloat|].
    rewrite E'. cbn [bind].
    destruct (insert_state m o ms nm v' v Hst (lib_str_good _ _ Hs) Hgood) as (m' & f & Ei & Hst' & _). rewrite Ei. cbn [bind].
    rewrite skip_ws_app by (auto; apply nonws_cons; notws). cbn [bind]. rewrite rd0. cbn [bind].
    change (44 =? 44) with true. cbv iota.
    destruct (IH' fuel m' (o ++ [nm]) (ms ++ [(nm, v)]) false 44 rest ltac:(lia) Hst') as (m2 & o2 & E2 & Hst2). rewrite E2.
    exists m2, o2. split; [reflexivity|]. now rewrite <- app_assoc in Hst2.
Qed.
