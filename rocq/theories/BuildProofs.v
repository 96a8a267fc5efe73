(** * The parser of either build: the language it accepts, what it builds and how
    deep it recurses. *)

From Verif Require Import Base TextModel NumModel MapModel ParserModel BuildModel SpecUtf8 SpecNum SpecMap SpecGrammar SpecMeaning SpecPortable SpecBuild
  TextProofs MapProofs StrtodProofs RoundProofs LexProofs ParserProofs RootProofs.

#[local] Arguments Z.eqb : simpl nomatch.
#[local] Arguments Z.ltb : simpl nomatch.
#[local] Arguments Nat.max : simpl never.

Lemma openings_app a b : openings (a ++ b) = (openings a + openings b)%nat.
Proof. unfold openings. now rewrite filter_app, app_length. Qed.

Lemma openings_cons c a : openings (c :: a) = ((if opening c then 1 else 0) + openings a)%nat.
Proof. unfold openings. cbn [filter]. destruct (opening c); reflexivity. Qed.

Lemma open91 a : openings (91 :: a) = S (openings a).
Proof. reflexivity. Qed.

Lemma open123 a : openings (123 :: a) = S (openings a).
Proof. reflexivity. Qed.

(** What follows a value: white space, a comma, a closing bracket or the end. *)
Definition stop (c : Z) : Prop := wsc c \/ c = 44 \/ c = 93 \/ c = 125 \/ c = 0.
Definition stop_head (p : ptr) : Prop := exists c r, p = c :: r /\ stop c.

Lemma stop_nonfloat p : stop_head p -> nonfloat_head p.
Proof. intros (c & r & -> & H). exists c, r. split; [auto|]. unfold stop, wsc, float_char, digit in *. lia. Qed.

Lemma stop_follow w c r : ws w -> stop c -> stop_head (w ++ c :: r).
Proof.
  intros Hw Hc. destruct Hw as [|x w Hx Hw]; [exists c, r; auto|].
  exists x, (w ++ c :: r). split; [reflexivity|]. left. auto.
Qed.

Section Build.
Variable num_parse : ptr -> out (status * double * ptr).
Variable num : list Z -> spec_float -> Prop.
Hypothesis num_head : forall t d, num t d -> exists c r, t = c :: r /\ float_char c.
Hypothesis num_spec : forall p, terminated p -> bytes p ->
  (exists st d p1, num_parse p = Ret (st, d, p1) /\ bad_number st /\ terminated p1 /\ (exists u, p = u ++ p1)) \/
  (exists t d w rest, p = t ++ w ++ rest /\ num t d /\ ws w /\ terminated rest /\ num_parse p = Ret (kOk, d, rest)).
Hypothesis num_complete : forall t d w rest, num t d -> bytes (t ++ w ++ rest) -> ws w -> nonws_head rest -> stop_head (w ++ rest) ->
  num_parse (t ++ w ++ rest) = Ret (kOk, d, rest).
Hypothesis num_other : forall c r, c = 116 \/ c = 102 \/ c = 110 \/ c = 91 \/ c = 123 -> exists d, num_parse (c :: r) = Ret (kFloatInvalid, d, c :: r).

Local Notation bval := (gval lib_str num).
Local Notation belems := (gelems lib_str num).
Local Notation bmembers := (gmembers lib_str num).
Local Notation parse_value := (parse_value num_parse).
Local Notation elements_loop := (elements_loop num_parse).
Local Notation members_loop := (members_loop num_parse).

Lemma bval_head t j : bval t j -> exists c r, t = c :: r /\ ~ wsc c /\ c <> 93 /\ c <> 125 /\ c <> 44 /\ c <> 0.
Proof.
  intros H.
  assert (HF : forall c, float_char c -> ~ wsc c /\ c <> 93 /\ c <> 125 /\ c <> 44 /\ c <> 0).
  { unfold float_char, digit, wsc. intros; lia. }
  inversion H; subst; try (do 2 eexists; split; [reflexivity|]; unfold wsc; lia).
  destruct (num_head _ _ H0) as (c & r & -> & Hc). exists c, r. split; [auto|]. now apply HF.
Qed.

(** ** Soundness and depth *)

Definition value_post (p : ptr) (r : out (presult * nat)) : Prop :=
  exists st ov p' d, r = Ret ((st, ov, p'), d) /\ terminated p' /\ (exists u, p = u ++ p' /\ (d <= S (openings u))%nat) /\
    match ov with
    | Some v => st = kOk /\ exists t w j, p = t ++ w ++ p' /\ ws w /\ bval t j /\ good v j /\ d = nesting j
    | None => failed st
    end.

Definition elements_post (acc : list value) (empty : bool) (d0 : nat) (c : Z) (p : ptr) (r : out (presult * nat)) : Prop :=
  exists st ov p' d, r = Ret ((st, ov, p'), d) /\ terminated p' /\ (exists u, p = u ++ p' /\ (d <= Nat.max d0 (S (openings u)))%nat) /\
    match ov with
    | Some v => st = kOk /\ exists t l vs, p = t ++ 93 :: p' /\ v = VArray (acc ++ vs) /\ Forall2 good vs l /\
                  (empty = true /\ ws t /\ l = [] \/ belems t l) /\ d = Nat.max d0 (deepest l)
    | None => failed st
    end.

Definition members_post (empty : bool) (d0 : nat) (c : Z) (p : ptr) (ms : list (list Z * jv)) (r : out (presult * nat)) : Prop :=
  exists st ov p' d, r = Ret ((st, ov, p'), d) /\ terminated p' /\ (exists u, p = u ++ p' /\ (d <= Nat.max d0 (S (openings u)))%nat) /\
    match ov with
    | Some v => st = kOk /\ exists t l m o, p = t ++ 125 :: p' /\ v = VObject m o /\ obj_state m o (ms ++ l) /\
                  (empty = true /\ ws t /\ l = [] \/ bmembers t l) /\ d = Nat.max d0 (deepest_member l)
    | None => failed st
    end.

Lemma value_none p st u p' d : terminated p' -> p = u ++ p' -> (d <= S (openings u))%nat -> failed st -> value_post p (Ret ((st, None, p'), d)).
Proof. intros H1 H2 H3 H4. exists st, None, p', d. split; [reflexivity|]. split; [auto|]. split; [eauto|auto]. Qed.

Lemma value_some p v t w j p' d : terminated p' -> p = t ++ w ++ p' -> ws w -> bval t j -> good v j -> d = nesting j -> (d <= S (openings t))%nat ->
  value_post p (Ret ((kOk, Some v, p'), d)).
Proof.
  intros H1 H2 H3 H4 H5 H6 H7. exists kOk, (Some v), p', d. split; [reflexivity|]. split; [auto|].
  split; [exists (t ++ w); split; [now rewrite <- app_assoc|rewrite openings_app; lia]|]. split; [reflexivity|]. exists t, w, j. auto 10.
Qed.

Ltac open_le := rewrite ?openings_cons, ?openings_app; cbn [opening Z.eqb Pos.eqb orb]; lia.

Lemma value_sound fuel :
  (forall p, terminated p -> bytes p -> (2 * length p < fuel)%nat -> value_post p (parse_value fuel p)) /\
  (forall acc empty d c p, c <> 0 -> terminated (c :: p) -> bytes p -> (2 * length (c :: p) <= fuel)%nat ->
     elements_post acc empty d c p (elements_loop fuel acc empty d (c :: p))) /\
  (forall m o ms empty d c p, obj_state m o ms -> c <> 0 -> terminated (c :: p) -> bytes p -> (2 * length (c :: p) <= fuel)%nat ->
     members_post empty d c p ms (members_loop fuel m o empty d (c :: p))).
Proof.
  induction fuel as [|fuel (IHv & IHa & IHo)].
  { split; [|split]; intros; simpl in *; lia. }
  split; [|split].
  - (* parse_value *)
    intros p HT HB HL. cbn [BuildModel.parse_value].
    destruct (string_parse_spec p HT HB) as [(E & Hn)|[(st & r & -> & E & Hst & Htr)|(t & s & rest & -> & Hs & E & Htr)]].
    2:{ rewrite E. cbn [bind]. rewrite !status_eqb_neq by (destruct Hst as [->|[->| ->]]; discriminate). cbn [negb].
        apply (value_none _ st [34]); auto; try lia. destruct Hst as [->|[->| ->]]; fail_st. }
    2:{ rewrite E. cbn [bind]. rewrite status_eqb_refl.
        apply (value_some _ _ (34 :: t ++ [34]) [] (JStr s)); [auto|simpl; now rewrite <- app_assoc|constructor|now constructor| |reflexivity|lia].
        apply good_str. eapply lib_str_good; eauto. }
    rewrite E. cbn [bind]. change (status_eqb kExpectedBeginingDoubleQuotes kOk) with false.
    change (negb (status_eqb kExpectedBeginingDoubleQuotes kExpectedBeginingDoubleQuotes)) with false. cbv iota. clear E.
    destruct (num_spec p HT HB) as [(st & d & p1 & E & Hst & Ht1 & (u & Hu))|(t & d & w & rest & -> & Hnum & Hw & Htr & E)].
    2:{ rewrite E. cbn [bind]. rewrite status_eqb_refl.
        apply (value_some _ _ t w (JNum d)); [auto|auto|auto|now constructor|apply good_num|reflexivity|lia]. }
    rewrite E. cbn [bind]. rewrite status_eqb_neq by (destruct Hst as [->| ->]; discriminate).
    destruct Hst as [->| ->].
    2:{ rewrite status_eqb_refl. apply (value_none _ _ u); auto; try lia. fail_st. }
    rewrite status_eqb_neq by discriminate. clear E u p1 d Ht1 Hu.
    destruct (bool_parse_spec p HT) as [E|[(r & -> & Hr & E)|(r & -> & Hr & E)]]; rewrite E; cbn [bind].
    2:{ rewrite status_eqb_refl. apply (value_some _ _ [116; 114; 117; 101] [] (JBool true)); [auto|reflexivity|constructor|constructor|apply good_bool|reflexivity|lia]. }
    2:{ rewrite status_eqb_refl. apply (value_some _ _ [102; 97; 108; 115; 101] [] (JBool false)); [auto|reflexivity|constructor|constructor|apply good_bool|reflexivity|lia]. }
    rewrite status_eqb_neq by discriminate. clear E.
    destruct (null_parse_spec p HT) as [E|(r & -> & Hr & E)]; rewrite E; cbn [bind].
    2:{ rewrite status_eqb_refl. apply (value_some _ _ [110; 117; 108; 108] [] JNull); [auto|reflexivity|constructor|constructor|apply good_null|reflexivity|lia]. }
    rewrite status_eqb_neq by discriminate. clear E.
    destruct (terminated_head p HT) as (c & r & ->). rewrite rd0. cbn [bind].
    inversion HB as [|? ? Bc HBr]; subst.
    destruct (Z.eqb_spec c 91) as [->|H91]; simpl negb; cbv iota.
    { destruct (IHa [] true O 91 r) as (st & ov & p' & d & E & Ht' & (u & Hu & Hd) & Hp); auto; [lia|lia|].
      rewrite E. cbn [bind].
      destruct ov as [v|].
      - destruct Hp as (-> & t & l & vs & E2 & -> & Hvs & Hl & ->). rewrite status_eqb_refl. simpl orb. cbv iota.
        assert (Eu : u = t ++ [93]). { rewrite Hu in E2. change (93 :: p') with ([93] ++ p') in E2. rewrite app_assoc in E2. now apply app_inv_tail in E2. }
        apply (value_some _ _ (91 :: t ++ [93]) [] (JArr l)); auto; [simpl; rewrite <- app_assoc; simpl; congruence|constructor| | |].
        + destruct Hl as [(_ & Hw & ->)|Hg]; [now apply g_arr0|now apply g_arr].
        + now apply good_arr.
        + subst u. rewrite open91. lia.
      - rewrite status_eqb_neq by (clear - Hp; unfold failed in Hp; simpl in Hp; intuition congruence). rewrite status_eqb_neq by (clear - Hp; unfold failed in Hp; simpl in Hp; intuition congruence). simpl orb. cbv iota.
        apply (value_none _ _ (91 :: u)); auto; [simpl; congruence|]. rewrite open91. lia. }
    cbn [bind]. change (status_eqb kExpectedOpeningSquareBrackets kOk || negb (status_eqb kExpectedOpeningSquareBrackets kExpectedOpeningSquareBrackets)) with false.
    cbv iota. rewrite rd0. cbn [bind].
    destruct (Z.eqb_spec c 123) as [->|H123]; simpl negb; cbv iota.
    { destruct (IHo Leaf [] [] true O 123 r) as (st & ov & p' & d & E & Ht' & (u & Hu & Hd) & Hp); auto; [apply obj_state_nil|lia|lia|].
      rewrite E. cbn [bind]. rewrite Nat.max_0_l.
      destruct ov as [v|].
      - destruct Hp as (-> & t & l & m & o & E2 & -> & Hvs & Hl & ->). rewrite status_eqb_refl. simpl orb. cbv iota.
        assert (Eu : u = t ++ [125]). { rewrite Hu in E2. change (125 :: p') with ([125] ++ p') in E2. rewrite app_assoc in E2. now apply app_inv_tail in E2. }
        simpl in Hvs.
        apply (value_some _ _ (123 :: t ++ [125]) [] (JObj l)); auto; [simpl; rewrite <- app_assoc; simpl; congruence|constructor| |].
        + destruct Hl as [(_ & Hw & ->)|Hg]; [now apply g_obj0|now apply g_obj].
        + subst u. rewrite open123. lia.
      - rewrite status_eqb_neq by (clear - Hp; unfold failed in Hp; simpl in Hp; intuition congruence). rewrite (status_eqb_neq st kExpectedOpeningCurlyBraces) by (clear - Hp; unfold failed in Hp; simpl in Hp; intuition congruence). simpl orb. cbv iota.
        apply (value_none _ _ (123 :: u)); auto; [simpl; congruence|]. rewrite open123. lia. }
    cbn [bind]. change (status_eqb kExpectedOpeningCurlyBraces kOk || negb (status_eqb kExpectedOpeningCurlyBraces kExpectedOpeningCurlyBraces)
      || status_eqb kExpectedOpeningCurlyBraces kNumbersCannotHaveLeadingZeros) with false. cbv iota.
    apply (value_none _ _ []); auto; try lia. fail_st.
  - (* elements_loop *)
    intros acc empty d c p Hc HT HB HL. cbn [BuildModel.elements_loop]. cbn [skipn].
    apply terminated_tail in HT; auto.
    destruct (skip_ws_spec p HT) as (w1 & p1 & E1 & -> & Hw1 & Hn1 & Ht1). rewrite E1. cbn [bind]. clear E1.
    apply bytes_app in HB. destruct HB as [_ HB1].
    destruct (terminated_head p1 Ht1) as (c1 & r1 & ->). rewrite rd0. cbn [bind].
    simpl in HL. rewrite app_length in HL. simpl in HL.
    destruct (Z.eqb_spec c1 93) as [->|H93].
    { destruct empty; simpl negb; cbv iota.
      - exists kOk, (Some (VArray acc)), r1, d. cbn [skipn]. split; [reflexivity|].
        split; [eapply terminated_tail; [|exact Ht1]; lia|].
        split; [exists (w1 ++ [93]); split; [now rewrite <- app_assoc|lia]|]. split; [reflexivity|].
        exists w1, [], []. rewrite app_nil_r. split; [reflexivity|]. split; [reflexivity|]. split; [constructor|]. split; [left; auto|]. cbn [deepest]. lia.
      - exists kExpectedJsonValue, None, (93 :: r1), d. split; [reflexivity|]. split; [auto|].
        split; [exists w1; split; [reflexivity|lia]|]. fail_st. }
    destruct (IHv (c1 :: r1) Ht1 HB1) as (st & ov & p2 & d2 & E2 & Ht2 & (u2 & Hu2 & Hd2) & Hp2); [simpl; lia|].
    rewrite E2. cbn [bind]. clear E2.
    destruct ov as [v|].
    2:{ exists st, None, p2, (Nat.max d d2). split; [reflexivity|]. split; [auto|].
        split; [exists (w1 ++ u2); split; [rewrite <- app_assoc, <- Hu2; reflexivity|rewrite openings_app; lia]|]. auto. }
    destruct Hp2 as (-> & t & w & j & Ep & Hw & Hval & Hgood & Hnest).
    destruct (skip_ws_spec p2 Ht2) as (w2 & p3 & E3 & -> & Hw2 & Hn3 & Ht3). rewrite E3. cbn [bind]. clear E3.
    destruct (terminated_head p3 Ht3) as (c3 & r3 & ->). rewrite rd0. cbn [bind].
    assert (HB3 : bytes (c3 :: r3)).
    { rewrite Ep in HB1. unfold bytes in *. rewrite !Forall_app in HB1. tauto. }
    assert (HLen : (length t + length w + length w2 + length (c3 :: r3) = S (length r1))%nat).
    { change (S (length r1)) with (length (c1 :: r1)). rewrite Ep, !app_length. lia. }
    assert (HLt : (1 <= length t)%nat).
    { destruct (bval_head t j Hval) as (x & y & -> & _). simpl. lia. }
    assert (Eu2 : u2 = t ++ w).
    { rewrite Hu2 in Ep. rewrite !app_assoc in Ep. apply app_inv_tail in Ep. now apply app_inv_tail in Ep. }
    assert (Eall : w1 ++ c1 :: r1 = (w1 ++ t ++ w ++ w2) ++ c3 :: r3).
    { rewrite Ep. now rewrite <- !app_assoc. }
    assert (Ho : (d2 <= S (openings (w1 ++ t ++ w ++ w2)))%nat).
    { rewrite Eu2 in Hd2. rewrite !openings_app in *. lia. }
    rewrite Eall.
    destruct (Z.eqb_spec c3 44) as [->|H44].
    { destruct (IHa (acc ++ [v]) false (Nat.max d d2) 44 r3) as (st & ov & p' & d' & E & Ht' & (u & Hu & Hd) & Hp); auto; [lia|now inversion HB3|simpl in *; lia|].
      rewrite E. exists st, ov, p', d'. split; [reflexivity|]. split; [auto|].
      split; [exists ((w1 ++ t ++ w ++ w2) ++ 44 :: u); split; [rewrite Hu, <- !app_assoc; reflexivity|rewrite openings_app, openings_cons; lia]|].
      destruct ov as [v'|]; [|auto].
      destruct Hp as (-> & t' & l & vs & E2 & -> & Hvs & Hl & Hd'). split; [reflexivity|].
      subst r3.
      destruct Hl as [(? & _)|Hl]; [discriminate|].
      exists (w1 ++ t ++ (w ++ w2) ++ 44 :: t'), (j :: l), (v :: vs).
      split; [rewrite E2, <- !app_assoc; simpl; reflexivity|].
      split; [now rewrite <- app_assoc|]. split; [constructor; auto|]. split.
      - right. apply ge_cons; auto. apply Forall_app; auto.
      - cbn [deepest]. lia. }
    destruct (Z.eqb_spec c3 93) as [->|H93']; simpl negb; cbv iota.
    { cbn [skipn]. exists kOk, (Some (VArray (acc ++ [v]))), r3, (Nat.max d d2). split; [reflexivity|].
      split; [eapply terminated_tail; [|exact Ht3]; lia|].
      split; [exists ((w1 ++ t ++ w ++ w2) ++ [93]); split; [flat|rewrite openings_app; lia]|]. split; [reflexivity|].
      exists (w1 ++ t ++ (w ++ w2)), [j], [v].
      split; [rewrite <- !app_assoc; reflexivity|]. split; [reflexivity|].
      split; [constructor; auto|]. split; [right; apply ge_one; auto; apply Forall_app; auto|]. cbn [deepest]. lia. }
    exists kExpectedClosingSquareBracketsOrComma, None, (c3 :: r3), (Nat.max d d2). split; [reflexivity|]. split; [auto|].
    split; [exists (w1 ++ t ++ w ++ w2); split; [reflexivity|lia]|]. fail_st.
  - (* members_loop *)
    intros m o ms empty d c p Hst Hc HT HB HL. cbn [BuildModel.members_loop]. cbn [skipn].
    apply terminated_tail in HT; auto.
    destruct (skip_ws_spec p HT) as (w1 & p1 & E1 & -> & Hw1 & Hn1 & Ht1). rewrite E1. cbn [bind]. clear E1.
    apply bytes_app in HB. destruct HB as [_ HB1].
    destruct (terminated_head p1 Ht1) as (c1 & r1 & ->). rewrite rd0. cbn [bind].
    simpl in HL. rewrite app_length in HL. simpl in HL.
    destruct (Z.eqb_spec c1 125) as [->|H125].
    { destruct empty; simpl negb; cbv iota.
      - exists kOk, (Some (VObject m o)), r1, d. cbn [skipn]. split; [reflexivity|].
        split; [eapply terminated_tail; [|exact Ht1]; lia|].
        split; [exists (w1 ++ [125]); split; [now rewrite <- app_assoc|lia]|]. split; [reflexivity|].
        exists w1, [], m, o. rewrite app_nil_r. split; [reflexivity|]. split; [reflexivity|]. split; [auto|]. split; [left; auto|]. cbn [deepest_member]. lia.
      - exists kExpectedJsonValue, None, (125 :: r1), d. split; [reflexivity|]. split; [auto|].
        split; [exists w1; split; [reflexivity|lia]|]. fail_st. }
    destruct (string_parse_spec (c1 :: r1) Ht1 HB1) as [(E & Hn)|[(st & r & Er & E & Hbs & Htr)|(nt & nm & rest & Er & Hs & E & Htr)]];
      rewrite E; cbn [bind]; clear E.
    { rewrite status_eqb_neq by discriminate. simpl negb. cbv iota.
      exists kExpectedBeginingDoubleQuotes, None, (c1 :: r1), d. split; [reflexivity|]. split; [auto|].
      split; [exists w1; split; [reflexivity|lia]|]. fail_st. }
    { rewrite status_eqb_neq by (destruct Hbs as [->|[->| ->]]; discriminate). simpl negb. cbv iota.
      exists st, None, r, d. split; [reflexivity|]. split; [auto|].
      split; [exists (w1 ++ [34]); split; [rewrite Er, <- app_assoc; reflexivity|lia]|].
      destruct Hbs as [->|[->| ->]]; fail_st. }
    rewrite status_eqb_refl. simpl negb. cbv iota.
    assert (HBr : bytes rest).
    { rewrite Er in HB1. inversion HB1 as [|? ? _ HB']; subst. apply bytes_app in HB'. destruct HB' as [_ HB']. now inversion HB'. }
    destruct (skip_ws_spec rest Htr) as (w2 & p2 & E2 & -> & Hw2 & Hn2 & Ht2). rewrite E2. cbn [bind]. clear E2.
    destruct (terminated_head p2 Ht2) as (c2 & r2 & ->). rewrite rd0. cbn [bind].
    apply bytes_app in HBr. destruct HBr as [_ HBr]. inversion HBr as [|? ? _ HBr2]; subst.
    assert (Hlen1 : (length r1 = length nt + S (length w2 + S (length r2)))%nat).
    { injection Er as _ ->. rewrite app_length. simpl. rewrite app_length. reflexivity. }
    destruct (Z.eqb_spec c2 58) as [->|H58]; simpl negb; cbv iota.
    2:{ exists kExpectedColon, None, (c2 :: r2), d. split; [reflexivity|]. split; [auto|].
        split; [exists (w1 ++ 34 :: nt ++ 34 :: w2); split; [rewrite Er; flat|lia]|]. fail_st. }
    cbn [skipn]. assert (Ht2' : terminated r2) by (eapply terminated_tail; [|exact Ht2]; lia).
    destruct (skip_ws_spec r2 Ht2') as (w3 & p3 & E3 & -> & Hw3 & Hn3 & Ht3). rewrite E3. cbn [bind]. clear E3.
    apply bytes_app in HBr2. destruct HBr2 as [_ HB3]. rewrite app_length in Hlen1.
    destruct (IHv p3 Ht3 HB3) as (st & ov & p4 & d4 & E4 & Ht4 & (u4 & Hu4 & Hd4) & Hp4); [lia|].
    rewrite E4. cbn [bind]. clear E4.
    destruct ov as [v|].
    2:{ exists st, None, p4, (Nat.max d d4). split; [reflexivity|]. split; [auto|].
        split; [exists (w1 ++ 34 :: nt ++ 34 :: w2 ++ 58 :: w3 ++ u4); split; [rewrite Er, Hu4; flat|repeat rewrite ?openings_app, ?openings_cons; lia]|]. auto. }
    destruct Hp4 as (-> & t & w & j & Ep & Hw & Hval & Hgood & Hnest).
    destruct (insert_state m o ms nm v j Hst (lib_str_good _ _ Hs) Hgood) as (m' & f & Ei & Hst' & _).
    rewrite Ei. cbn [bind]. clear Ei.
    destruct (skip_ws_spec p4 Ht4) as (w4 & p5 & E5 & -> & Hw4 & Hn5 & Ht5). rewrite E5. cbn [bind]. clear E5.
    destruct (terminated_head p5 Ht5) as (c5 & r5 & ->). rewrite rd0. cbn [bind].
    assert (HB5 : bytes (c5 :: r5)).
    { rewrite Ep in HB3. unfold bytes in *. rewrite !Forall_app in HB3. tauto. }
    assert (HLen : (length t + length w + length w4 + length (c5 :: r5) = length p3)%nat).
    { rewrite Ep, !app_length. lia. }
    assert (Eu4 : u4 = t ++ w).
    { rewrite Hu4 in Ep. rewrite !app_assoc in Ep. apply app_inv_tail in Ep. now apply app_inv_tail in Ep. }
    set (pre := w1 ++ 34 :: nt ++ 34 :: w2 ++ 58 :: w3 ++ t ++ w ++ w4).
    assert (Eall : w1 ++ c1 :: r1 = pre ++ c5 :: r5).
    { unfold pre. rewrite Er, Ep. flat. }
    assert (Ho : (d4 <= S (openings pre))%nat).
    { unfold pre. rewrite Eu4 in Hd4. repeat rewrite ?openings_app, ?openings_cons in *. lia. }
    rewrite Eall.
    destruct (Z.eqb_spec c5 44) as [->|H44].
    { destruct (IHo m' (o ++ [nm]) (ms ++ [(nm, j)]) false (Nat.max d d4) 44 r5) as (st & ov & p' & d' & E & Ht' & (u & Hu & Hd) & Hp); auto; [lia|now inversion HB5|simpl in *; lia|].
      rewrite E. exists st, ov, p', d'. split; [reflexivity|]. split; [auto|].
      split; [exists (pre ++ 44 :: u); split; [rewrite Hu, <- !app_assoc; reflexivity|rewrite openings_app, openings_cons; lia]|].
      destruct ov as [v'|]; [|auto].
      destruct Hp as (-> & t' & l & m'' & o'' & E2 & -> & Hvs & Hl & Hd'). split; [reflexivity|].
      subst r5.
      destruct Hl as [(? & _)|Hl]; [discriminate|].
      exists (w1 ++ 34 :: nt ++ 34 :: w2 ++ 58 :: w3 ++ t ++ (w ++ w4) ++ 44 :: t'), ((nm, j) :: l), m'', o''.
      split. { rewrite E2. unfold pre. flat. }
      split; [reflexivity|]. split; [now rewrite <- app_assoc in Hvs|]. split.
      - right. apply gm_cons; auto. apply Forall_app; auto.
      - cbn [deepest_member]. lia. }
    destruct (Z.eqb_spec c5 125) as [->|H125']; simpl negb; cbv iota.
    { cbn [skipn]. exists kOk, (Some (VObject m' (o ++ [nm]))), r5, (Nat.max d d4). split; [reflexivity|].
      split; [eapply terminated_tail; [|exact Ht5]; lia|].
      split; [exists (pre ++ [125]); split; [flat|rewrite openings_app; lia]|]. split; [reflexivity|].
      exists (w1 ++ 34 :: nt ++ 34 :: w2 ++ 58 :: w3 ++ t ++ (w ++ w4)), [(nm, j)], m', (o ++ [nm]).
      split; [unfold pre; flat|]. split; [reflexivity|].
      split; [auto|]. split; [right; apply gm_one; auto; apply Forall_app; auto|]. cbn [deepest_member]. lia. }
    exists kExpectedClosingCurlyBracesOrComma, None, (c5 :: r5), (Nat.max d d4). split; [reflexivity|]. split; [auto|].
    split; [exists pre; split; [reflexivity|lia]|]. fail_st.
Qed.

(** ** Completeness *)

Lemma value_bracket fuel c r : c = 91 \/ c = 123 ->
  parse_value (S fuel) (c :: r) =
  if c =? 91 then
    let! (r, d1) := elements_loop fuel [] true O (c :: r) in
    let '(st, v, p1) := r in
    if status_eqb st kOk || negb (status_eqb st kExpectedOpeningSquareBrackets) then Ret ((st, v, p1), S d1)
    else let! c := rd p1 0 in
         let! (r, d2) := (if negb (c =? 123) then Ret ((kExpectedOpeningCurlyBraces, None, p1), O)
                          else members_loop fuel Leaf [] true O p1) in
         let '(st, v, p2) := r in
         if status_eqb st kOk || negb (status_eqb st kExpectedOpeningCurlyBraces)
            || status_eqb st kNumbersCannotHaveLeadingZeros
         then Ret ((st, v, p2), S (Nat.max d1 d2))
         else Ret ((kExpectedJsonValue, None, p2), S (Nat.max d1 d2))
  else
    let! (r, d2) := members_loop fuel Leaf [] true O (c :: r) in
    let '(st, v, p2) := r in
    if status_eqb st kOk || negb (status_eqb st kExpectedOpeningCurlyBraces)
       || status_eqb st kNumbersCannotHaveLeadingZeros
    then Ret ((st, v, p2), S (Nat.max O d2))
    else Ret ((kExpectedJsonValue, None, p2), S (Nat.max O d2)).
Proof.
  intros Hc. cbn [BuildModel.parse_value].
  rewrite string_parse_other by (destruct Hc; subst; lia). cbn [bind].
  rewrite status_eqb_neq by discriminate. rewrite status_eqb_refl. simpl negb. cbv iota.
  destruct (num_other c r ltac:(lia)) as (d & ->). cbn [bind].
  rewrite !status_eqb_neq by discriminate.
  destruct Hc as [->| ->]; reflexivity.
Qed.

Definition val_complete (t : list Z) (j : jv) : Prop :=
  forall fuel w rest, (2 * length t < fuel)%nat -> bytes (t ++ w ++ rest) -> ws w -> nonws_head rest -> stop_head (w ++ rest) ->
    exists v w', parse_value fuel (t ++ w ++ rest) = Ret ((kOk, Some v, w' ++ rest), nesting j) /\ ws w' /\ good v j.

Definition elems_complete (t : list Z) (l : list jv) : Prop :=
  forall fuel acc empty d c rest, (2 * length t + 2 <= fuel)%nat -> bytes (t ++ 93 :: rest) ->
    exists vs, elements_loop fuel acc empty d (c :: t ++ 93 :: rest) = Ret ((kOk, Some (VArray (acc ++ vs)), rest), Nat.max d (deepest l)) /\
      Forall2 good vs l.

Definition members_complete (t : list Z) (l : list (list Z * jv)) : Prop :=
  forall fuel m o ms empty d c rest, (2 * length t + 2 <= fuel)%nat -> bytes (t ++ 125 :: rest) -> obj_state m o ms ->
    exists m' o', members_loop fuel m o empty d (c :: t ++ 125 :: rest) = Ret ((kOk, Some (VObject m' o'), rest), Nat.max d (deepest_member l)) /\
      obj_state m' o' (ms ++ l).

Lemma value_head t j rest : bval t j -> nonws_head (t ++ rest).
Proof. intros H. destruct (bval_head t j H) as (c & r & -> & Hc & _). simpl. now apply nonws_cons. Qed.

Ltac bytes_in HB := unfold bytes in *; repeat (rewrite ?Forall_app, ?Forall_cons_iff in * ); tauto.
Ltac depth := rewrite ?nesting_arr, ?nesting_obj; cbn [deepest deepest_member]; first [reflexivity | do 2 f_equal; lia].

Lemma value_complete :
  (forall t j, bval t j -> val_complete t j) /\
  (forall t l, belems t l -> elems_complete t l) /\
  (forall t l, bmembers t l -> members_complete t l).
Proof.
  assert (HH : forall t j, bval t j -> exists c r, t = c :: r /\ c <> 93 /\ c <> 125).
  { intros t j H. destruct (bval_head t j H) as (c & r & -> & _ & H1 & H2 & _). eauto. }
  cut ((forall t j, bval t j -> bval t j /\ val_complete t j) /\
  (forall t l, belems t l -> belems t l /\ elems_complete t l) /\
  (forall t l, bmembers t l -> bmembers t l /\ members_complete t l)).
  { intros (H1 & H2 & H3). split; [|split]; intros; [apply H1|apply H2|apply H3]; auto. }
  apply (grammar_mind lib_str num
    (fun t j => bval t j /\ val_complete t j)
    (fun t l => belems t l /\ elems_complete t l)
    (fun t l => bmembers t l /\ members_complete t l)).
  - (* string *)
    intros t s Hs. split; [now constructor|]. intros fuel w rest Hf HB Hw Hr Hnf.
    destruct fuel; [lia|]. cbn [BuildModel.parse_value].
    replace ((34 :: t ++ [34]) ++ w ++ rest) with (34 :: t ++ 34 :: (w ++ rest)) by flat.
    rewrite string_parse_complete with (s := s) by auto. cbn [bind]. rewrite status_eqb_refl.
    exists (VString s), w. split; [depth|]. split; [auto|]. apply good_str. eapply lib_str_good; eauto.
  - (* number *)
    intros t d Hd. split; [now constructor|]. intros fuel w rest Hf HB Hw Hr Hnf.
    destruct fuel; [lia|]. cbn [BuildModel.parse_value].
    destruct (num_head t d Hd) as (c & r & E & Hc). destruct (float_cases c Hc) as (_ & _ & _ & _ & _ & H34).
    assert (string_parse (t ++ w ++ rest) = Ret (kExpectedBeginingDoubleQuotes, [], t ++ w ++ rest)) as ->.
    { rewrite E. simpl. now apply string_parse_other. }
    cbn [bind]. rewrite status_eqb_neq by discriminate. rewrite status_eqb_refl. simpl negb. cbv iota.
    rewrite num_complete with (d := d) by auto. cbn [bind]. rewrite status_eqb_refl.
    exists (VNumber d), []. split; [depth|]. split; [constructor|]. apply good_num.
  - (* true *)
    split; [constructor|]. intros fuel w rest Hf HB Hw Hr Hnf.
    destruct fuel; [lia|]. cbn [BuildModel.parse_value]. simpl app.
    rewrite string_parse_other by lia. cbn [bind]. rewrite status_eqb_neq by discriminate. rewrite status_eqb_refl. simpl negb. cbv iota.
    match goal with |- context [num_parse (116 :: ?r)] => destruct (num_other 116 r ltac:(lia)) as (? & ->) end. cbn [bind]. rewrite !status_eqb_neq by discriminate.
    exists (VBool true), w. split; [depth|]. split; [auto|]. apply good_bool.
  - (* false *)
    split; [constructor|]. intros fuel w rest Hf HB Hw Hr Hnf.
    destruct fuel; [lia|]. cbn [BuildModel.parse_value]. simpl app.
    rewrite string_parse_other by lia. cbn [bind]. rewrite status_eqb_neq by discriminate. rewrite status_eqb_refl. simpl negb. cbv iota.
    match goal with |- context [num_parse (102 :: ?r)] => destruct (num_other 102 r ltac:(lia)) as (? & ->) end. cbn [bind]. rewrite !status_eqb_neq by discriminate.
    exists (VBool false), w. split; [depth|]. split; [auto|]. apply good_bool.
  - (* null *)
    split; [constructor|]. intros fuel w rest Hf HB Hw Hr Hnf.
    destruct fuel; [lia|]. cbn [BuildModel.parse_value]. simpl app.
    rewrite string_parse_other by lia. cbn [bind]. rewrite status_eqb_neq by discriminate. rewrite status_eqb_refl. simpl negb. cbv iota.
    match goal with |- context [num_parse (110 :: ?r)] => destruct (num_other 110 r ltac:(lia)) as (? & ->) end. cbn [bind]. rewrite !status_eqb_neq by discriminate.
    exists VNull, w. split; [depth|]. split; [auto|]. apply good_null.
  - (* empty array *)
    intros w0 Hw0. split; [now constructor|]. intros fuel w rest Hf HB Hw Hr Hnf.
    destruct fuel; [lia|]. simpl app. rewrite value_bracket by auto. change (91 =? 91) with true. cbv iota.
    destruct fuel; [simpl in Hf; lia|]. cbn [BuildModel.elements_loop]. cbn [skipn]. rewrite <- app_assoc. simpl app.
    rewrite skip_ws_app by (auto; apply nonws_cons; notws). cbn [bind]. rewrite rd0. cbn [bind].
    change (93 =? 93) with true. simpl negb. cbv iota. cbn [bind skipn]. rewrite status_eqb_refl. simpl orb. cbv iota.
    exists (VArray []), w. split; [depth|]. split; [auto|]. apply good_arr. constructor.
  - (* array *)
    intros t l _ [Hg IH]. split; [now constructor|]. intros fuel w rest Hf HB Hw Hr Hnf.
    destruct fuel; [lia|]. simpl app. rewrite value_bracket by auto. change (91 =? 91) with true. cbv iota.
    simpl in Hf. rewrite app_length in Hf. simpl in Hf.
    rewrite <- app_assoc. simpl app.
    destruct (IH fuel [] true O 91 (w ++ rest) ltac:(lia)) as (vs & E & Hvs); [bytes_in HB|]. rewrite E. cbn [bind]. rewrite status_eqb_refl. simpl orb. cbv iota.
    exists (VArray ([] ++ vs)), w. split; [depth|]. split; [auto|]. simpl app.
    now apply good_arr.
  - (* empty object *)
    intros w0 Hw0. split; [now constructor|]. intros fuel w rest Hf HB Hw Hr Hnf.
    destruct fuel; [lia|]. simpl app. rewrite value_bracket by auto. change (123 =? 91) with false. cbv iota.
    destruct fuel; [simpl in Hf; lia|]. cbn [BuildModel.members_loop]. cbn [skipn]. rewrite <- app_assoc. simpl app.
    rewrite skip_ws_app by (auto; apply nonws_cons; notws). cbn [bind]. rewrite rd0. cbn [bind].
    change (125 =? 125) with true. simpl negb. cbv iota. cbn [bind skipn]. rewrite status_eqb_refl. simpl orb. cbv iota.
    exists (VObject Leaf []), w. split; [depth|]. split; [auto|]. apply obj_state_nil.
  - (* object *)
    intros t l _ [Hg IH]. split; [now constructor|]. intros fuel w rest Hf HB Hw Hr Hnf.
    destruct fuel; [lia|]. simpl app. rewrite value_bracket by auto. change (123 =? 91) with false. cbv iota.
    simpl in Hf. rewrite app_length in Hf. simpl in Hf.
    rewrite <- app_assoc. simpl app.
    destruct (IH fuel Leaf [] [] true O 123 (w ++ rest) ltac:(lia)) as (m' & o' & E & Hst); [bytes_in HB|apply obj_state_nil|]. rewrite E. cbn [bind]. rewrite status_eqb_refl. simpl orb. cbv iota.
    exists (VObject m' o'), w. split; [depth|]. split; [auto|]. exact Hst.
  - (* one element *)
    intros w1 t w2 v Hw1 _ [Hg IH] Hw2. split; [now constructor|]. intros fuel acc empty d c rest Hf HB.
    destruct fuel; [lia|]. cbn [BuildModel.elements_loop]. cbn [skipn]. rewrite !app_length in Hf.
    replace ((w1 ++ t ++ w2) ++ 93 :: rest) with (w1 ++ t ++ w2 ++ 93 :: rest) by flat.
    rewrite skip_ws_app by (auto; eapply value_head; eauto). cbn [bind].
    destruct (HH t v Hg) as (x & y & E & H93 & _).
    assert (rd (t ++ w2 ++ 93 :: rest) 0 = Ret x) as -> by (rewrite E; reflexivity). cbn [bind].
    destruct (Z.eqb_spec x 93); [congruence|].
    destruct (IH fuel w2 (93 :: rest)) as (v' & w' & E' & Hw' & Hgood); auto; [lia|bytes_in HB|apply nonws_cons; notws|apply stop_follow; auto; unfold stop; lia|].
    rewrite E'. cbn [bind]. rewrite skip_ws_app by (auto; apply nonws_cons; notws). cbn [bind]. rewrite rd0. cbn [bind].
    change (93 =? 44) with false. change (negb (93 =? 93)) with false. cbv iota. cbn [skipn].
    exists [v']. split; [depth|]. constructor; [auto|constructor].
  - (* more elements *)
    intros w1 t w2 v t' l Hw1 _ [Hg IH] Hw2 _ [Hg' IH']. split; [now constructor|]. intros fuel acc empty d c rest Hf HB.
    destruct fuel; [lia|]. cbn [BuildModel.elements_loop]. cbn [skipn]. rewrite !app_length in Hf. simpl in Hf.
    replace ((w1 ++ t ++ w2 ++ 44 :: t') ++ 93 :: rest) with (w1 ++ t ++ w2 ++ 44 :: t' ++ 93 :: rest) by flat.
    rewrite skip_ws_app by (auto; eapply value_head; eauto). cbn [bind].
    destruct (HH t v Hg) as (x & y & E & H93 & _).
    assert (HL : (1 <= length t)%nat) by (rewrite E; simpl; lia).
    assert (rd (t ++ w2 ++ 44 :: t' ++ 93 :: rest) 0 = Ret x) as -> by (rewrite E; reflexivity). cbn [bind].
    destruct (Z.eqb_spec x 93); [congruence|].
    destruct (IH fuel w2 (44 :: t' ++ 93 :: rest)) as (v' & w' & E' & Hw' & Hgood); auto; [lia|bytes_in HB|apply nonws_cons; notws|apply stop_follow; auto; unfold stop; lia|].
    rewrite E'. cbn [bind]. rewrite skip_ws_app by (auto; apply nonws_cons; notws). cbn [bind]. rewrite rd0. cbn [bind].
    change (44 =? 44) with true. cbv iota.
    destruct (IH' fuel (acc ++ [v']) false (Nat.max d (nesting v)) 44 rest ltac:(lia)) as (vs & Evs & Hvs); [bytes_in HB|]. rewrite Evs.
    exists (v' :: vs). split; [rewrite <- app_assoc; depth|]. constructor; auto.
  - (* one member *)
    intros w1 n nm w2 w3 t w4 v Hw1 Hs Hw2 Hw3 _ [Hg IH] Hw4. split; [now constructor|]. intros fuel m o ms empty d c rest Hf HB Hst.
    destruct fuel; [lia|]. cbn [BuildModel.members_loop]. cbn [skipn].
    repeat (rewrite app_length in Hf || simpl in Hf).
    replace ((w1 ++ 34 :: n ++ 34 :: w2 ++ 58 :: w3 ++ t ++ w4) ++ 125 :: rest)
      with (w1 ++ 34 :: n ++ 34 :: w2 ++ 58 :: w3 ++ t ++ w4 ++ 125 :: rest) by flat.
    rewrite skip_ws_app by (auto; apply nonws_cons; notws). cbn [bind]. rewrite rd0. cbn [bind].
    change (34 =? 125) with false. cbv iota.
    rewrite string_parse_complete with (s := nm) by auto. cbn [bind]. rewrite status_eqb_refl. simpl negb. cbv iota.
    rewrite skip_ws_app by (auto; apply nonws_cons; notws). cbn [bind]. rewrite rd0. cbn [bind].
    change (58 =? 58) with true. simpl negb. cbv iota. cbn [skipn].
    rewrite skip_ws_app by (auto; eapply value_head; eauto). cbn [bind].
    destruct (IH fuel w4 (125 :: rest)) as (v' & w' & E' & Hw' & Hgood); auto; [lia|bytes_in HB|apply nonws_cons; notws|apply stop_follow; auto; unfold stop; lia|].
    rewrite E'. cbn [bind].
    destruct (insert_state m o ms nm v' v Hst (lib_str_good _ _ Hs) Hgood) as (m' & f & Ei & Hst' & _). rewrite Ei. cbn [bind].
    rewrite skip_ws_app by (auto; apply nonws_cons; notws). cbn [bind]. rewrite rd0. cbn [bind].
    change (125 =? 44) with false. change (negb (125 =? 125)) with false. cbv iota. cbn [skipn].
    exists m', (o ++ [nm]). split; [depth|]. exact Hst'.
  - (* more members *)
    intros w1 n nm w2 w3 t w4 v t' l Hw1 Hs Hw2 Hw3 _ [Hg IH] Hw4 _ [Hg' IH']. split; [now constructor|]. intros fuel m o ms empty d c rest Hf HB Hst.
    destruct fuel; [lia|]. cbn [BuildModel.members_loop]. cbn [skipn].
    repeat (rewrite app_length in Hf || simpl in Hf).
    replace ((w1 ++ 34 :: n ++ 34 :: w2 ++ 58 :: w3 ++ t ++ w4 ++ 44 :: t') ++ 125 :: rest)
      with (w1 ++ 34 :: n ++ 34 :: w2 ++ 58 :: w3 ++ t ++ w4 ++ 44 :: t' ++ 125 :: rest) by flat.
    rewrite skip_ws_app by (auto; apply nonws_cons; notws). cbn [bind]. rewrite rd0. cbn [bind].
    change (34 =? 125) with false. cbv iota.
    rewrite string_parse_complete with (s := nm) by auto. cbn [bind]. rewrite status_eqb_refl. simpl negb. cbv iota.
    rewrite skip_ws_app by (auto; apply nonws_cons; notws). cbn [bind]. rewrite rd0. cbn [bind].
    change (58 =? 58) with true. simpl negb. cbv iota. cbn [skipn].
    rewrite skip_ws_app by (auto; eapply value_head; eauto). cbn [bind].
    destruct (IH fuel w4 (44 :: t' ++ 125 :: rest)) as (v' & w' & E' & Hw' & Hgood); auto; [lia|bytes_in HB|apply nonws_cons; notws|apply stop_follow; auto; unfold stop; lia|].
    rewrite E'. cbn [bind].
    destruct (insert_state m o ms nm v' v Hst (lib_str_good _ _ Hs) Hgood) as (m' & f & Ei & Hst' & _). rewrite Ei. cbn [bind].
    rewrite skip_ws_app by (auto; apply nonws_cons; notws). cbn [bind]. rewrite rd0. cbn [bind].
    change (44 =? 44) with true. cbv iota.
    destruct (IH' fuel m' (o ++ [nm]) (ms ++ [(nm, v)]) false (Nat.max d (nesting v)) 44 rest ltac:(lia)) as (m2 & o2 & E2 & Hst2); [bytes_in HB|exact Hst'|]. rewrite E2.
    exists m2, o2. split; [depth|]. now rewrite <- app_assoc in Hst2.
Qed.

(** ** The root *)

Hypothesis num_nul_free : forall t d, num t d -> nul_free t.

Lemma build_short root buf : (length buf < 3)%nat -> build_parse num_parse root buf = Ret (PR kTextBufferContentsInvalid 0 0, root, O).
Proof. intros H. unfold build_parse. destruct (Z.ltb_spec (Z.of_nat (length buf)) 3); [reflexivity|lia]. Qed.

Lemma build_open root buf : (3 <= length buf)%nat -> last buf 0 <> 0 -> build_parse num_parse root buf = Ret (PR kUnterminatedTextBuffer 0 0, root, O).
Proof.
  intros H1 H2. unfold build_parse. destruct (Z.ltb_spec (Z.of_nat (length buf)) 3); [lia|].
  destruct (Z.eqb_spec (last buf 0) 0); [congruence|reflexivity].
Qed.

Lemma build_root root buf : (3 <= length buf)%nat -> terminated buf ->
  build_parse num_parse root buf =
    (let! start := skip_ws buf in
    let! (r, d) := parse_value (parse_fuel start) start in
    let '(st, v, text) := r in
    let! text := skip_ws text in
    let! st := (if status_eqb st kOk
                then let! c := rd text 0 in
                     Ret (if negb (c =? 0) then kExpectedEndOfFile else kOk)
                else Ret st) in
    if negb (status_eqb st kOk) then
      let between := firstn (length start - length text) start in
      let '(line, column) := error_walk (rev between) 1 1 in
      Ret (PR st line column, v, d)
    else Ret (PR st 0 0, v, d)).
Proof.
  intros H1 H2. unfold build_parse, parse_root.
  destruct (Z.ltb_spec (Z.of_nat (length buf)) 3); [lia|].
  destruct (Z.eqb_spec (last buf 0) 0) as [_|E]; [reflexivity|].
  exfalso. apply E. apply last_terminated; auto. intros ->. simpl in H1. lia.
Qed.

Definition build_post (root : option value) (buf : list Z) : Prop :=
  exists w u text st ov d,
    buf = w ++ u ++ text /\ ws w /\ nonws_head (u ++ text) /\ nonws_head text /\ terminated text /\
    build_parse num_parse root buf = Ret (report st u, ov, d) /\ (d <= S (openings u))%nat /\
    match ov with
    | None => failed st
    | Some v => exists t w2 j, u = t ++ w2 /\ ws w2 /\ bval t j /\ good v j /\ d = nesting j /\
                  (st = kOk /\ (exists r, text = 0 :: r) \/
                   st = kExpectedEndOfFile /\ (exists c r, text = c :: r /\ c <> 0))
    end.

Lemma build_spec root buf : bytes buf -> (3 <= length buf)%nat -> terminated buf -> build_post root buf.
Proof.
  intros HB HL HT. pose proof (build_root root buf HL HT) as ES. unfold build_post.
  destruct (skip_ws_spec buf HT) as (w & p & E & -> & Hw & Hn & Ht). rewrite E in ES. cbn [bind] in ES. clear E.
  apply bytes_app in HB. destruct HB as [_ HB].
  destruct (proj1 (value_sound (parse_fuel p)) p Ht HB) as (st & ov & p1 & d & E & Ht1 & (u & Hu & Hd) & Hp); [unfold parse_fuel; lia|].
  rewrite E in ES. cbn [bind] in ES. clear E.
  destruct (skip_ws_spec p1 Ht1) as (w1 & text & E & -> & Hw1 & Hn1 & Ht2). rewrite E in ES. cbn [bind] in ES. clear E.
  assert (Efirst : firstn (length p - length text) p = u ++ w1).
  { rewrite Hu, app_assoc, app_length. replace (length (u ++ w1) + length text - length text)%nat with (length (u ++ w1)) by lia.
    rewrite firstn_app, Nat.sub_diag, firstn_all. simpl. now rewrite app_nil_r. }
  rewrite Efirst in ES.
  assert (Hp' : p = (u ++ w1) ++ text) by (rewrite Hu; flat).
  assert (Er : forall st, st <> kOk -> Ret (report st (u ++ w1), ov, d) =
     (let '(line, column) := error_walk (rev (u ++ w1)) 1 1 in Ret (PR st line column, ov, d))).
  { intros s Hs. unfold report. rewrite status_eqb_neq by auto. now destruct (error_walk (rev (u ++ w1)) 1 1). }
  assert (Hd' : (d <= S (openings (u ++ w1)))%nat) by (rewrite openings_app; lia).
  exists w, (u ++ w1), text.
  destruct ov as [v|].
  - destruct Hp as (-> & t & w2 & j & Ep & Hw2 & Hv & Hg & Hnest).
    assert (Eu : u ++ w1 = t ++ (w2 ++ w1)).
    { assert (p = (t ++ (w2 ++ w1)) ++ text) as E1 by (rewrite Ep; flat).
      rewrite Hp' in E1. apply app_inv_tail in E1. exact E1. }
    destruct (terminated_head text Ht2) as (c & r & ->). rewrite status_eqb_refl, rd0 in ES. cbn [bind] in ES.
    destruct (Z.eqb_spec c 0) as [->|Hc]; simpl negb in ES; cbv iota in ES.
    + exists kOk, (Some v), d.
      split; [now rewrite <- Hp'|]. split; [auto|]. split; [now rewrite <- Hp'|]. split; [auto|]. split; [auto|].
      split; [rewrite ES; unfold report; now rewrite status_eqb_refl|]. split; [auto|].
      exists t, (w2 ++ w1), j. split; [auto|]. split; [apply Forall_app; auto|]. eauto 10.
    + exists kExpectedEndOfFile, (Some v), d.
      split; [now rewrite <- Hp'|]. split; [auto|]. split; [now rewrite <- Hp'|]. split; [auto|]. split; [auto|].
      split; [rewrite ES; symmetry; apply Er; discriminate|]. split; [auto|].
      exists t, (w2 ++ w1), j. split; [auto|]. split; [apply Forall_app; auto|].
      split; [auto|]. split; [auto|]. split; [auto|]. right. eauto.
  - rewrite status_eqb_neq in ES by now apply failed_ok. cbn [bind] in ES.
    rewrite status_eqb_neq in ES by now apply failed_ok. simpl negb in ES. cbv iota in ES.
    exists st, None, d.
    split; [now rewrite <- Hp'|]. split; [auto|]. split; [now rewrite <- Hp'|]. split; [auto|]. split; [auto|].
    split; [rewrite ES; symmetry; apply Er; now apply failed_ok|]. auto.
Qed.

Lemma build_nul_free : (forall t j, bval t j -> nul_free t) /\
  (forall t l, belems t l -> nul_free t) /\
  (forall t l, bmembers t l -> nul_free t).
Proof.
  apply (grammar_mind lib_str num (fun t _ => nul_free t) (fun t _ => nul_free t) (fun t _ => nul_free t)); intros;
    try (match goal with H : lib_str _ _ |- _ => apply lib_str_nul_free in H end);
    try (match goal with H : num _ _ |- _ => apply num_nul_free in H end);
    repeat (match goal with H : ws _ |- _ => apply ws_nul_free in H end); nf.
Qed.

Lemma build_doc_nul_free t j : gdoc lib_str num t j -> nul_free t.
Proof.
  intros H. destruct H as [w1 t w2 v H1 H2 H3]. apply build_nul_free in H2. apply ws_nul_free in H1, H3. nf.
Qed.

Lemma build_complete root t j rest : gdoc lib_str num t j -> (2 <= length t + length rest)%nat -> terminated (0 :: rest) -> bytes (t ++ 0 :: rest) ->
  exists v, build_parse num_parse root (t ++ 0 :: rest) = Ret (PR kOk 0 0, Some v, nesting j) /\ good v j.
Proof.
  intros Hd HL HT HB. destruct Hd as [w1 t w2 j H1 H2 H3].
  rewrite build_root; [|rewrite app_length; cbn [length]; lia|now apply terminated_app].
  replace ((w1 ++ t ++ w2) ++ 0 :: rest) with (w1 ++ t ++ w2 ++ 0 :: rest) in * by flat.
  rewrite skip_ws_app by (auto; eapply value_head; eauto). cbn [bind].
  destruct (proj1 value_complete t j H2 (parse_fuel (t ++ w2 ++ 0 :: rest)) w2 (0 :: rest)) as (v & w' & E & Hw' & Hg); auto.
  - unfold parse_fuel. rewrite app_length. lia.
  - bytes_in HB.
  - apply nonws_cons. unfold wsc. lia.
  - apply stop_follow; auto. unfold stop. lia.
  - rewrite E. cbn [bind]. rewrite skip_ws_app by (auto; apply nonws_cons; unfold wsc; lia). cbn [bind].
    rewrite status_eqb_refl, rd0. cbn [bind]. change (negb (0 =? 0)) with false. cbv iota. cbn [bind].
    rewrite status_eqb_refl. simpl negb. cbv iota. eauto.
Qed.

Lemma build_sound root buf ov l c d : bytes buf -> build_parse num_parse root buf = Ret (PR kOk l c, ov, d) ->
  exists t rest j v, buf = t ++ 0 :: rest /\ terminated buf /\ (2 <= length t + length rest)%nat /\
    gdoc lib_str num t j /\ ov = Some v /\ good v j /\ d = nesting j /\ l = 0 /\ c = 0.
Proof.
  intros HB H.
  destruct (le_lt_dec 3 (length buf)) as [HL|HL]; [|rewrite build_short in H by auto; discriminate].
  destruct (Z.eq_dec (last buf 0) 0) as [E0|E0]; [|rewrite build_open in H by auto; discriminate].
  apply last_terminated in E0; [|intros ->; simpl in HL; lia].
  destruct (build_spec root buf HB HL E0) as (w & u & text & st & ov' & d' & -> & Hw & Hn & Hn' & Ht & E & _ & Hp).
  rewrite E in H. unfold report in H.
  destruct (status_eq_dec st kOk) as [->|Hst].
  2:{ rewrite status_eqb_neq in H by auto. congruence. }
  rewrite status_eqb_refl in H. injection H as <- <- <- <-.
  destruct ov' as [v|]; [|now apply failed_ok in Hp].
  destruct Hp as (t & w2 & j & -> & Hw2 & Hv & Hg & Hd & [(_ & r & ->)|(? & _)]); [|congruence].
  exists (w ++ t ++ w2), r, j, v. split; [flat|]. split; [auto|].
  split. { rewrite !app_length in *. simpl in *. lia. }
  split; [now constructor|]. auto 10.
Qed.

Lemma build_total root buf : bytes buf -> exists r, build_parse num_parse root buf = Ret r.
Proof.
  intros HB.
  destruct (le_lt_dec 3 (length buf)) as [HL|HL]; [|rewrite build_short by auto; eauto].
  destruct (Z.eq_dec (last buf 0) 0) as [E0|E0]; [|rewrite build_open by auto; eauto].
  apply last_terminated in E0; [|intros ->; simpl in HL; lia].
  destruct (build_spec root buf HB HL E0) as (w & u & text & st & ov' & d & _ & _ & _ & _ & _ & E & _). eauto.
Qed.

(** At most one level more than the brackets opened. *)
Lemma build_depth root buf r d : bytes buf -> build_parse num_parse root buf = Ret (r, d) -> (d <= S (openings buf))%nat.
Proof.
  intros HB H.
  destruct (le_lt_dec 3 (length buf)) as [HL|HL]; [|rewrite build_short in H by auto; injection H as _ <-; lia].
  destruct (Z.eq_dec (last buf 0) 0) as [E0|E0]; [|rewrite build_open in H by auto; injection H as _ <-; lia].
  apply last_terminated in E0; [|intros ->; simpl in HL; lia].
  destruct (build_spec root buf HB HL E0) as (w & u & text & st & ov' & d' & -> & _ & _ & _ & _ & E & Hd & _).
  rewrite E in H. injection H as _ <-. rewrite !openings_app. lia.
Qed.

End Build.

(** ** With system conversions *)

Lemma std_spec p : terminated p -> bytes p ->
  (exists st d p1, number_parse p = Ret (st, d, p1) /\ bad_number st /\ terminated p1 /\ (exists u, p = u ++ p1)) \/
  (exists t d w rest, p = t ++ w ++ rest /\ lib_num t d /\ ws w /\ terminated rest /\ number_parse p = Ret (kOk, d, rest)).
Proof.
  intros HT _. destruct (number_parse_spec p HT) as [(st & d & p1 & E & H)|(t & d & w & rest & -> & Hn & Hw & _ & Htr & _ & E)]; [left; eauto 10|right; exists t, d, w, rest; auto 10].
Qed.

Lemma std_complete t d w rest : lib_num t d -> bytes (t ++ w ++ rest) -> ws w -> nonws_head rest -> stop_head (w ++ rest) ->
  number_parse (t ++ w ++ rest) = Ret (kOk, d, rest).
Proof. intros H _ Hw Hr Hs. apply number_parse_complete; auto. now apply stop_nonfloat. Qed.

Lemma std_other c r : c = 116 \/ c = 102 \/ c = 110 \/ c = 91 \/ c = 123 -> exists d, number_parse (c :: r) = Ret (kFloatInvalid, d, c :: r).
Proof. intros H. eexists. apply number_parse_nonfloat. unfold float_char, digit. lia. Qed.

(** The parser with [number_parse] is the one of ParserModel.v. *)
Definition erase {A} (o : out (A * nat)) : out A := let! (r, _) := o in Ret r.

Lemma value_erase fuel :
  (forall p, erase (parse_value number_parse fuel p) = parse_any fuel p) /\
  (forall acc empty d p, erase (elements_loop number_parse fuel acc empty d p) = array_loop fuel acc empty p) /\
  (forall m o empty d p, erase (members_loop number_parse fuel m o empty d p) = object_loop fuel m o empty p).
Proof.
  induction fuel as [|fuel (IHv & IHa & IHo)]; [split; [|split]; reflexivity|].
  split; [|split].
  - intros p. cbn [parse_value parse_any].
    destruct (string_parse p) as [[[st s] p1]| |]; cbn [bind]; try reflexivity.
    destruct (status_eqb st kOk); [reflexivity|]. destruct (negb (status_eqb st kExpectedBeginingDoubleQuotes)); [reflexivity|].
    destruct (number_parse p) as [[[st2 d] p2]| |]; cbn [bind]; try reflexivity.
    destruct (status_eqb st2 kOk); [reflexivity|]. destruct (status_eqb st2 kNumbersCannotHaveLeadingZeros); [reflexivity|].
    destruct (bool_parse p) as [[[st3 b] p3]| |]; cbn [bind]; try reflexivity.
    destruct (status_eqb st3 kOk); [reflexivity|].
    destruct (null_parse p) as [[st4 p4]| |]; cbn [bind]; try reflexivity.
    destruct (status_eqb st4 kOk); [reflexivity|].
    destruct (rd p 0) as [c| |]; cbn [bind]; try reflexivity.
    rewrite <- (IHa [] true O p).
    destruct (c =? 91); cbn [negb].
    2:{ cbn [bind]. rewrite status_eqb_refl. rewrite (status_eqb_neq kExpectedOpeningSquareBrackets kOk) by discriminate. simpl orb. cbv iota.
        destruct (rd p 0) as [c2| |]; cbn [bind]; try reflexivity.
        rewrite <- (IHo Leaf [] true O p).
        destruct (c2 =? 123); cbn [negb bind]; [|reflexivity].
        destruct (members_loop number_parse fuel Leaf [] true O p) as [[[[st5 v5] p5] d5]| |]; cbn [bind erase]; try reflexivity.
        destruct (status_eqb st5 kOk || negb (status_eqb st5 kExpectedOpeningCurlyBraces) || status_eqb st5 kNumbersCannotHaveLeadingZeros); reflexivity. }
    destruct (elements_loop number_parse fuel [] true O p) as [[[[st5 v5] p5] d5]| |]; cbn [bind erase]; try reflexivity.
    destruct (status_eqb st5 kOk || negb (status_eqb st5 kExpectedOpeningSquareBrackets)); [reflexivity|].
    destruct (rd p5 0) as [c2| |]; cbn [bind]; try reflexivity.
    rewrite <- (IHo Leaf [] true O p5).
    destruct (c2 =? 123); cbn [negb bind]; [|reflexivity].
    destruct (members_loop number_parse fuel Leaf [] true O p5) as [[[[st6 v6] p6] d6]| |]; cbn [bind erase]; try reflexivity.
    destruct (status_eqb st6 kOk || negb (status_eqb st6 kExpectedOpeningCurlyBraces) || status_eqb st6 kNumbersCannotHaveLeadingZeros); reflexivity.
  - intros acc empty d p. cbn [elements_loop array_loop].
    destruct (skip_ws (skipn 1 p)) as [p1| |]; cbn [bind]; try reflexivity.
    destruct (rd p1 0) as [c| |]; cbn [bind]; try reflexivity.
    destruct (c =? 93); [destruct (negb empty); reflexivity|].
    rewrite <- IHv.
    destruct (parse_value number_parse fuel p1) as [[[[st v] p2] d2]| |]; cbn [bind erase]; try reflexivity.
    destruct v as [v|]; [|reflexivity].
    destruct (skip_ws p2) as [p3| |]; cbn [bind]; try reflexivity.
    destruct (rd p3 0) as [c3| |]; cbn [bind]; try reflexivity.
    destruct (c3 =? 44); [apply IHa|]. destruct (negb (c3 =? 93)); reflexivity.
  - intros m o empty d p. cbn [members_loop object_loop].
    destruct (skip_ws (skipn 1 p)) as [p1| |]; cbn [bind]; try reflexivity.
    destruct (rd p1 0) as [c| |]; cbn [bind]; try reflexivity.
    destruct (c =? 125); [destruct (negb empty); reflexivity|].
    destruct (string_parse p1) as [[[st s] p2]| |]; cbn [bind]; try reflexivity.
    destruct (negb (status_eqb st kOk)); [reflexivity|].
    destruct (skip_ws p2) as [p3| |]; cbn [bind]; try reflexivity.
    destruct (rd p3 0) as [c3| |]; cbn [bind]; try reflexivity.
    destruct (negb (c3 =? 58)); [reflexivity|].
    destruct (skip_ws (skipn 1 p3)) as [p4| |]; cbn [bind]; try reflexivity.
    rewrite <- IHv.
    destruct (parse_value number_parse fuel p4) as [[[[st2 v] p5] d2]| |]; cbn [bind erase]; try reflexivity.
    destruct v as [v|]; [|reflexivity].
    destruct (insert_accounted m o s v) as [[[m2 o2] f]| |]; cbn [bind]; try reflexivity.
    destruct (skip_ws p5) as [p6| |]; cbn [bind]; try reflexivity.
    destruct (rd p6 0) as [c6| |]; cbn [bind]; try reflexivity.
    destruct (c6 =? 44); [apply IHo|]. destruct (negb (c6 =? 125)); reflexivity.
Qed.

Lemma build_erase root buf : erase (build_parse number_parse root buf) = sd_parse root buf.
Proof.
  unfold build_parse, sd_parse, parse_root, parse_json_root.
  destruct (Z.of_nat (length buf) <? 3); [reflexivity|].
  destruct (negb (last buf 0 =? 0)); [reflexivity|].
  destruct (skip_ws buf) as [p| |]; cbn [bind erase]; try reflexivity.
  rewrite <- (proj1 (value_erase (parse_fuel p)) p).
  destruct (parse_value number_parse (parse_fuel p) p) as [[[[st v] p2] d]| |]; cbn [bind erase]; try reflexivity.
  destruct (skip_ws p2) as [p3| |]; cbn [bind erase]; try reflexivity.
  assert (Ev : match v with Some v => Some v | None => None end = v) by now destruct v.
  destruct (status_eqb st kOk).
  - destruct (rd p3 0) as [c| |]; cbn [bind erase]; try reflexivity.
    destruct (negb (c =? 0)).
    + change (negb (status_eqb kExpectedEndOfFile kOk)) with true. cbv iota. destruct (error_walk _ 1 1). cbn [bind]. now destruct v.
    + rewrite status_eqb_refl. cbn [negb bind]. now destruct v.
  - cbn [bind]. destruct (negb (status_eqb st kOk)); [destruct (error_walk _ 1 1)|]; cbn [bind]; now destruct v.
Qed.
