(** * The parser with allocations: safety, agreement with the parser without
    them, and the balance of value objects. *)

From Coq Require Import Permutation.
From Verif Require Import Base TextModel NumModel MapModel ParserModel SpecUtf8 SpecNum SpecMap SpecGrammar SpecMeaning
  TextProofs MapProofs StrtodProofs RoundProofs LexProofs ParserProofs RootProofs OwnModel SpecOwn OwnProofs.

#[local] Arguments Z.eqb : simpl nomatch.
#[local] Arguments Z.ltb : simpl nomatch.

(** ** The specification *)

Lemma repeats_suffix u q : repeats q -> repeats (u ++ q).
Proof.
  intros (b & t & ms & a & -> & H1 & H2). exists (u ++ b), t, ms, a. split; [now rewrite <- app_assoc|auto].
Qed.

Lemma kept_snoc ms k j : forall seen,
  kept_members kept seen (ms ++ [(k, j)]) =
  (kept_members kept seen ms + (if in_dec (list_eq_dec Z.eq_dec) k (map fst ms ++ seen) then 0 else kept j))%nat.
Proof.
  induction ms as [|[k' j'] ms IH]; intros seen.
  - cbn [app kept_members map]. destruct (in_dec _ k seen); lia.
  - cbn [app kept_members map fst]. rewrite IH.
    destruct (in_dec (list_eq_dec Z.eq_dec) k (map fst ms ++ k' :: seen)) as [H|H];
      destruct (in_dec (list_eq_dec Z.eq_dec) k (k' :: map fst ms ++ seen)) as [H'|H']; try lia; exfalso.
    + apply H'. rewrite in_app_iff in H. cbn in *. rewrite in_app_iff. tauto.
    + apply H. rewrite in_app_iff. cbn in *. rewrite in_app_iff in H'. tauto.
Qed.

Lemma gmembers_snoc t l : gmembers lib_str lib_num t l ->
  forall w1 n nm w2 w3 tv w4 v, ws w1 -> lib_str n nm -> ws w2 -> ws w3 -> lib_val tv v -> ws w4 ->
  gmembers lib_str lib_num (t ++ 44 :: w1 ++ 34 :: n ++ 34 :: w2 ++ 58 :: w3 ++ tv ++ w4) (l ++ [(nm, v)]).
Proof.
  intros H. induction H using gmembers_mind with (P := fun _ _ => True) (P0 := fun _ _ => True); auto.
  - intros w1' n' nm' w2' w3' tv' w4' v' G1 G2 G3 G4 G5 G6.
    match goal with |- gmembers _ _ ?a ?b => replace a with (w1 ++ 34 :: n ++ 34 :: w2 ++ 58 :: w3 ++ t ++ w4 ++ 44 ::
      (w1' ++ 34 :: n' ++ 34 :: w2' ++ 58 :: w3' ++ tv' ++ w4')) by flat end.
    apply (gm_cons lib_str lib_num w1 n nm w2 w3 t w4 v _ [(nm', v')]); auto. now apply gm_one.
  - intros w1' n' nm' w2' w3' tv' w4' v' G1 G2 G3 G4 G5 G6.
    match goal with |- gmembers _ _ ?a ?b => replace a with (w1 ++ 34 :: n ++ 34 :: w2 ++ 58 :: w3 ++ t ++ w4 ++ 44 ::
      (t' ++ 44 :: w1' ++ 34 :: n' ++ 34 :: w2' ++ 58 :: w3' ++ tv' ++ w4')) by flat end.
    apply (gm_cons lib_str lib_num w1 n nm w2 w3 t w4 v _ (l ++ [(nm', v')])); auto.
Qed.

(** ** Results *)

Section Own.
Variable fails : nat -> bool.
Notation faulty := (faulty fails).

Definition okv {A} (st : status) (v : A) : option A := if status_eqb st kOk then Some v else None.

(** Either what the parser without failures gives, or an error because a request
    failed. *)
Definition agrees (st : status) (ov : option value) (p' : ptr) (plain : out presult) (a b : nat) : Prop :=
  plain = Ret (st, ov, p') \/ (ov = None /\ (st = kException \/ st = kExpectedJsonValue) /\ faulty a b).

Definition leaked (p : ptr) (st : status) (L : list nat) : Prop := L = [] \/ repeats p \/ st = kException.

Definition any_post_o (fuel : nat) (p : ptr) (w : world) (l : list nat) : Prop :=
  exists st on p' w' L,
    parse_any_o fails fuel p w = Ret (st, on, p', w') /\ (tick w <= tick w')%nat /\ holds w' (oids on ++ L ++ l) /\
    terminated p' /\ (exists u, p = u ++ p') /\ leaked p st L /\
    agrees st (option_map erase on) p' (parse_any fuel p) (tick w) (tick w') /\
    match on with
    | Some n => st = kOk /\ exists t w2 j, p = t ++ w2 ++ p' /\ ws w2 /\ lib_val t j /\ good (erase n) j /\
                  length (ids n) = kept j /\ (length (ids n) + length L)%nat = all_values j
    | None => st <> kOk
    end.

Definition array_post_o (fuel : nat) (id : nat) (acc : list node) (empty : bool) (p : ptr) (w : world) (l : list nat) : Prop :=
  exists st acc' p' w' L,
    array_loop_o fails fuel id acc empty p w = Ret (st, NArray id acc', p', w') /\ (tick w <= tick w')%nat /\
    holds w' (ids (NArray id acc') ++ L ++ l) /\
    terminated p' /\ (exists u, p = u ++ p') /\ leaked p st L /\
    agrees st (okv st (VArray (map erase acc'))) p' (array_loop fuel (map erase acc) empty p) (tick w) (tick w') /\
    st <> kExpectedOpeningSquareBrackets /\
    (st = kOk -> exists c t js ns, p = c :: t ++ 93 :: p' /\ acc' = acc ++ ns /\ Forall2 good (map erase ns) js /\
       (empty = true /\ ws t /\ js = [] \/ gelems lib_str lib_num t js) /\
       length (flat_map ids ns) = list_sum (map kept js) /\
       (length (flat_map ids ns) + length L)%nat = list_sum (map all_values js)).

(** The part of an object read so far, from the opening brace on. *)
Definition so_far (whole : ptr) (c : Z) (p : ptr) (ms : list (list Z * jv)) : Prop :=
  (c = 123 /\ ms = [] /\ whole = 123 :: p) \/
  (c = 44 /\ exists t, gmembers lib_str lib_num t ms /\ whole = 123 :: t ++ 44 :: p).

Definition object_post_o (fuel : nat) (id : nat) (m : tree node) (order : list (list Z)) (empty : bool) (c : Z) (p : ptr)
    (w : world) (l : list nat) (ms : list (list Z * jv)) (whole : ptr) : Prop :=
  exists st m' o' p' w' L,
    object_loop_o fails fuel id m order empty (c :: p) w = Ret (st, NObject id m' o', p', w') /\ (tick w <= tick w')%nat /\
    holds w' (ids (NObject id m' o') ++ L ++ l) /\
    terminated p' /\ (exists u, c :: p = u ++ p') /\ leaked whole st L /\
    agrees st (okv st (VObject (tmap erase m') o')) p' (object_loop fuel (tmap erase m) order empty (c :: p)) (tick w) (tick w') /\
    st <> kExpectedOpeningCurlyBraces /\
    (st = kOk -> exists t js, p = t ++ 125 :: p' /\ obj_state (tmap erase m') o' (ms ++ js) /\
       (empty = true /\ ws t /\ js = [] \/ gmembers lib_str lib_num t js) /\
       length (tflat ids m') = kept_members kept [] (ms ++ js) /\
       (length (tflat ids m') + length L)%nat = (length (tflat ids m) + list_sum (map (fun x => all_values (snd x)) js))%nat).

(** ** Lemmas for the steps *)

(** One step of each function. *)
Lemma any_o_S fuel p w : parse_any_o fails (S fuel) p w =
  (let! (r, w) := parse_scalar fails p w in
      match r with
      | Some (st, n, p1) => Ret (st, n, p1, w)
      | None =>
          let! (st, n, p1, w) := parse_value fails p w (fun id w =>
            let! c := rd p 0 in
            if negb (c =? 91) then Ret (kExpectedOpeningSquareBrackets, NArray id [], p, w)
            else array_loop_o fails fuel id [] true p w) in
          if status_eqb st kOk || negb (status_eqb st kExpectedOpeningSquareBrackets)
          then Ret (st, n, p1, w)
          else
          let! (st, n, p2, w) := parse_value fails p1 w (fun id w =>
            let! c := rd p1 0 in
            if negb (c =? 123) then Ret (kExpectedOpeningCurlyBraces, NObject id Leaf [], p1, w)
            else object_loop_o fails fuel id Leaf [] true p1 w) in
          if status_eqb st kOk || negb (status_eqb st kExpectedOpeningCurlyBraces)
             || status_eqb st kNumbersCannotHaveLeadingZeros
          then Ret (st, n, p2, w)
          else Ret (kExpectedJsonValue, None, p2, w)
      end).
Proof. reflexivity. Qed.

Lemma array_o_S fuel id acc empty p w : array_loop_o fails (S fuel) id acc empty p w =
  (let! p := skip_ws (skipn 1 p) in
      let! c := rd p 0 in
      if c =? 93 then
        if negb empty then Ret (kExpectedJsonValue, NArray id acc, p, w)
        else Ret (kOk, NArray id acc, skipn 1 p, w)
      else
      let! (st, v, p, w) := parse_any_o fails fuel p w in
      match v with
      | Some v =>
          let '(ok, w) := ask fails w in
          if negb ok then Ret (kException, NArray id acc, p, w)
          else
          let acc := acc ++ [v] in
          let! p := skip_ws p in
          let! c := rd p 0 in
          if c =? 44 then array_loop_o fails fuel id acc false p w
          else if negb (c =? 93) then Ret (kExpectedClosingSquareBracketsOrComma, NArray id acc, p, w)
          else Ret (kOk, NArray id acc, skipn 1 p, w)
      | None => Ret (st, NArray id acc, p, w)
      end).
Proof. reflexivity. Qed.

Lemma object_o_S fuel id m order empty p w : object_loop_o fails (S fuel) id m order empty p w =
  (let! p := skip_ws (skipn 1 p) in
      let! c := rd p 0 in
      if c =? 125 then
        if negb empty then Ret (kExpectedJsonValue, NObject id m order, p, w)
        else Ret (kOk, NObject id m order, skipn 1 p, w)
      else
      let! (st, name, p, w) := string_parse_o fails p w in
      if negb (status_eqb st kOk) then Ret (st, NObject id m order, p, w)
      else
      let! p := skip_ws p in
      let! c := rd p 0 in
      if negb (c =? 58) then Ret (kExpectedColon, NObject id m order, p, w)
      else
      let! p := skip_ws (skipn 1 p) in
      let! (st, v, p, w) := parse_any_o fails fuel p w in
      match v with
      | Some v =>
          let! (ok, m, order, w) := insert_accounted_o fails m order name v w in
          if negb ok then Ret (kException, NObject id m order, p, w)
          else
          let! p := skip_ws p in
          let! c := rd p 0 in
          if c =? 44 then object_loop_o fails fuel id m order false p w
          else if negb (c =? 125) then Ret (kExpectedClosingCurlyBracesOrComma, NObject id m order, p, w)
          else Ret (kOk, NObject id m order, skipn 1 p, w)
      | None => Ret (st, NObject id m order, p, w)
      end).
Proof. reflexivity. Qed.

Lemma insert_o_spec m order name v w l : wf_map m -> good_key name -> holds w l ->
  exists ok m' o' w', insert_accounted_o fails m order name v w = Ret (ok, m', o', w') /\ (tick w <= tick w')%nat /\ holds w' l /\
    ((ok = false /\ m' = m /\ o' = order /\ faulty (tick w) (tick w')) \/
     (ok = true /\ o' = order ++ [name] /\ wf_map m' /\ exists f, insert_map_element m name v = Ret (m', f) /\
        (f = true -> exists l1 l2, elements m = l1 ++ l2 /\ elements m' = l1 ++ (name, v) :: l2) /\
        (f = false -> m' = m))).
Proof.
  intros Hm Hk H. unfold insert_accounted_o.
  destruct (ask_spec fails w l H) as ([] & w1 & -> & T1 & H1 & F1); cbn [negb].
  2:{ exists false, m, order, w1. split; [reflexivity|]. split; [lia|]. auto 10. }
  destruct (ask_spec fails w1 l H1) as ([] & w2 & -> & T2 & H2 & F2); cbn [negb].
  2:{ exists false, m, order, w2. split; [reflexivity|]. split; [lia|]. split; [auto|]. left. repeat split; auto.
      eapply faulty_wider; [apply F2; reflexivity|lia|lia]. }
  destruct (ask_spec fails w2 l H2) as ([] & w3 & -> & T3 & H3 & F3); cbn [negb].
  2:{ exists false, m, order, w3. split; [reflexivity|]. split; [lia|]. split; [auto|]. left. repeat split; auto.
      eapply faulty_wider; [apply F3; reflexivity|lia|lia]. }
  destruct (insert_ok m name v Hm Hk) as (m' & f & I1 & I2 & I3 & I4 & I5). rewrite I1. cbn [bind].
  exists true, m', (order ++ [name]), w3. split; [reflexivity|]. split; [lia|]. split; [auto|]. right.
  split; [auto|]. split; [auto|]. split; [auto|]. exists f. auto.
Qed.

Lemma tflat_insert (m m' : tree node) name v l1 l2 : elements m = l1 ++ l2 -> elements m' = l1 ++ (name, v) :: l2 ->
  Permutation (tflat ids m') (ids v ++ tflat ids m).
Proof.
  intros E1 E2. rewrite !tflat_elements, E1, E2, !flat_map_app. cbn [flat_map snd]. rewrite !app_assoc.
  apply Permutation_app_tail. apply Permutation_app_comm.
Qed.

Lemma okv_ok {A} (v : A) : okv kOk v = Some v.
Proof. unfold okv. now rewrite status_eqb_refl. Qed.
Lemma okv_not {A} st (v : A) : st <> kOk -> okv st v = None.
Proof. intros. unfold okv. now rewrite status_eqb_neq. Qed.

Lemma scalar_count v j : scalar v -> represents v j -> kept j = 1%nat /\ all_values j = 1%nat.
Proof. intros H R. inversion R; subst; cbn in *; try tauto; auto. Qed.

(** Permutations of appended lists. *)
Lemma holds_eq w l l' : holds w l -> l = l' -> holds w l'.
Proof. now intros H <-. Qed.

Lemma perm_mid {A} (a b x : list A) : Permutation (x ++ a ++ b) (a ++ x ++ b).
Proof. rewrite !app_assoc. apply Permutation_app_tail, Permutation_app_comm. Qed.

Lemma parse_o_spec fuel :
  (forall p w l, terminated p -> bytes p -> (2 * length p < fuel)%nat -> holds w l -> any_post_o fuel p w l) /\
  (forall id acc empty c p w l, c <> 0 -> terminated (c :: p) -> bytes p -> (2 * length (c :: p) <= fuel)%nat ->
     holds w (ids (NArray id acc) ++ l) -> array_post_o fuel id acc empty (c :: p) w l) /\
  (forall id m order empty c p w l ms whole, c <> 0 -> terminated (c :: p) -> bytes p -> (2 * length (c :: p) <= fuel)%nat ->
     holds w (ids (NObject id m order) ++ l) -> wf_map m -> obj_state (tmap erase m) order ms ->
     length (tflat ids m) = kept_members kept [] ms -> so_far whole c p ms ->
     object_post_o fuel id m order empty c p w l ms whole).
Proof.
  induction fuel as [|fuel (IHv & IHa & IHo)].
  { split; [|split]; intros; simpl in *; lia. }
  split; [|split].
  - (* ParseAnyValue *)
    intros p w l HT HB HL H. unfold any_post_o. rewrite any_o_S.
    destruct (scalar_spec fails p w l HT HB H) as (r & w1 & E & T1 & HS). rewrite E. cbn [bind]. clear E.
    destruct r as [[[st on] p']|].
    { destruct HS as (H1 & Ht & Hu & Hon & Hag). exists st, on, p', w1, [].
      split; [reflexivity|]. split; [lia|]. split; [exact H1|]. split; [auto|]. split; [auto|]. split; [now left|].
      split.
      { destruct Hag as [Hag|(-> & -> & F)]; [left; apply Hag|right; auto]. }
      destruct on as [n|]; [|auto]. destruct Hon as (-> & Hlen & Hsc). split; [reflexivity|].
      destruct Hag as [Hag|(? & _)]; [|discriminate].
      destruct (proj1 (parse_sound (S fuel)) p HT HB HL) as (st2 & ov & p2 & E2 & _ & _ & Hp). rewrite Hag in E2.
      injection E2 as <- <- <-. cbn [option_map] in Hp. destruct Hp as (_ & t & w2 & j & Ep & Hw2 & Hv & Hg).
      exists t, w2, j. destruct (scalar_count (erase n) j Hsc (proj1 Hg)) as [E1 E2]. cbn [length]. rewrite E1, E2, Hlen. auto 10. }
    destruct HS as (H1 & c & r & -> & HC).
    inversion HB as [|? ? Bc HBr]; subst.
    (* the array *)
    lazymatch goal with |- context [parse_value fails (c :: r) w1 ?f] => destruct (parse_value_spec fails (c :: r) w1 l f
      (fun st n p1 t L =>
         (c <> 91 /\ st = kExpectedOpeningSquareBrackets /\ p1 = c :: r /\ L = []) \/
         (c = 91 /\ exists id acc, n = NArray id acc /\ terminated p1 /\ (exists u, c :: r = u ++ p1) /\ leaked (c :: r) st L /\
            agrees st (okv st (VArray (map erase acc))) p1 (array_loop fuel [] true (c :: r)) (tick w) t /\
            st <> kExpectedOpeningSquareBrackets /\
            (st = kOk -> exists tx js, c :: r = 91 :: tx ++ 93 :: p1 /\ Forall2 good (map erase acc) js /\
               (ws tx /\ js = [] \/ gelems lib_str lib_num tx js) /\
               length (flat_map ids acc) = list_sum (map kept js) /\
               (length (flat_map ids acc) + length L)%nat = list_sum (map all_values js)))) H1)
      as (st & on & p1 & w2 & L & E & T2 & H2 & C) end.
    { intros id w2 H2 T2. rewrite rd0. cbn [bind]. destruct (Z.eqb_spec c 91) as [->|Hc]; cbn [negb].
      - destruct (IHa id [] true 91 r w2 l) as (st & acc' & p' & w' & L & E & T & Hh & Ht & Hu & Hl & Hag & Hne & Hok); auto; [lia|lia|].
        exists st, (NArray id acc'), p', w', L. split; [exact E|]. split; [lia|]. split; [exact Hh|]. right. split; [auto|].
        exists id, acc'. split; [auto|]. split; [auto|]. split; [auto|]. split; [auto|]. split.
        { destruct Hag as [Hag|(G1 & G2 & G3)]; [left; auto|right]. split; [auto|]. split; [auto|]. eapply faulty_wider; [exact G3|lia|lia]. }
        split; [auto|]. intros Est. destruct (Hok Est) as (c' & tx & js & ns & E1 & E2 & G1 & G2 & G3 & G4). injection E1 as <- E1. subst r acc'.
        exists tx, js. split; [reflexivity|]. split; [auto|]. split; [tauto|]. auto.
      - exists kExpectedOpeningSquareBrackets, (NArray id []), (c :: r), w2, []. split; [reflexivity|]. split; [lia|]. split; [exact H2|].
        left. auto. }
    rewrite E. cbn [bind]. clear E.
    destruct C as [(-> & -> & -> & -> & F)|(n & C & Hon)].
    { rewrite (neqb kException kOk) by discriminate. rewrite (neqb kException kExpectedOpeningSquareBrackets) by discriminate. cbn [orb negb].
      exists kException, None, (c :: r), w2, []. split; [reflexivity|]. split; [lia|]. split; [exact H2|]. split; [auto|].
      split; [now exists []|]. split; [now left|]. split; [|discriminate]. right. split; [auto|]. split; [auto|].
      eapply faulty_wider; [exact F|lia|lia]. }
    destruct C as [(Hc91 & -> & -> & ->)|(-> & id & acc & -> & Ht & Hu & Hl & Hag & Hne & Hok)].
    2:{ rewrite (neqb st kExpectedOpeningSquareBrackets) by auto. cbn [negb]. rewrite orb_true_r.
        exists st, on, p1, w2, L. split; [reflexivity|]. split; [lia|]. split; [exact H2|]. split; [auto|]. split; [auto|]. split; [auto|].
        assert (Eon : option_map erase on = okv st (VArray (map erase acc))).
        { destruct Hon as [[-> ->]|[Hst ->]]; [now rewrite okv_ok|now rewrite okv_not]. }
        split.
        { rewrite Eon. destruct Hag as [Hag|Hag]; [left|right; exact Hag].
          rewrite any_bracket by auto. change (91 =? 91) with true. cbv iota. rewrite Hag. cbn [bind].
          rewrite (neqb st kExpectedOpeningSquareBrackets) by auto. cbn [negb]. now rewrite orb_true_r. }
        destruct Hon as [[-> ->]|[Hst ->]]; [|auto]. split; [reflexivity|].
        destruct (Hok eq_refl) as (tx & js & Et & G1 & G2 & G3 & G4).
        exists (91 :: tx ++ [93]), [], (JArr js). split; [rewrite Et; flat|]. split; [constructor|].
        split; [destruct G2 as [[G2 ->]|G2]; [now apply g_arr0|now apply g_arr]|].
        split; [now apply good_arr|]. cbn [ids kept all_values length]. lia. }
    destruct Hon as [[? _]|[_ ->]]; [discriminate|]. clear n. rewrite neqb by discriminate. rewrite status_eqb_refl. cbn [orb negb].
    cbn [oids app] in H2.
    (* the object *)
    lazymatch goal with |- context [parse_value fails (c :: r) w2 ?f] => destruct (parse_value_spec fails (c :: r) w2 l f
      (fun st n p1 t L =>
         (c <> 123 /\ st = kExpectedOpeningCurlyBraces /\ p1 = c :: r /\ L = []) \/
         (c = 123 /\ exists id m o, n = NObject id m o /\ terminated p1 /\ (exists u, c :: r = u ++ p1) /\ leaked (c :: r) st L /\
            agrees st (okv st (VObject (tmap erase m) o)) p1 (object_loop fuel Leaf [] true (c :: r)) (tick w) t /\
            st <> kExpectedOpeningCurlyBraces /\
            (st = kOk -> exists tx js, c :: r = 123 :: tx ++ 125 :: p1 /\ obj_state (tmap erase m) o js /\
               (ws tx /\ js = [] \/ gmembers lib_str lib_num tx js) /\
               length (tflat ids m) = kept_members kept [] js /\
               (length (tflat ids m) + length L)%nat = list_sum (map (fun x => all_values (snd x)) js)))) H2)
      as (st & on & p1 & w3 & L & E & T3 & H3 & C) end.
    { intros id w3 H3 T3. rewrite rd0. cbn [bind]. destruct (Z.eqb_spec c 123) as [->|Hc]; cbn [negb].
      - destruct (IHo id Leaf [] true 123 r w3 l [] (123 :: r)) as (st & m' & o' & p' & w' & L & E & T & Hh & Ht & Hu & Hl & Hag & Hne & Hok); auto;
          [lia|lia|apply wf_leaf|apply obj_state_nil|left; auto|].
        exists st, (NObject id m' o'), p', w', L. split; [exact E|]. split; [lia|]. split; [exact Hh|]. right. split; [auto|].
        exists id, m', o'. split; [auto|]. split; [auto|]. split; [auto|]. split; [auto|]. split.
        { destruct Hag as [Hag|(G1 & G2 & G3)]; [left; auto|right]. split; [auto|]. split; [auto|]. eapply faulty_wider; [exact G3|lia|lia]. }
        split; [auto|]. intros Est. destruct (Hok Est) as (tx & js & E1 & G1 & G2 & G3 & G4). subst r.
        exists tx, js. split; [reflexivity|]. split; [auto|]. split; [tauto|]. auto.
      - exists kExpectedOpeningCurlyBraces, (NObject id Leaf []), (c :: r), w3, []. split; [reflexivity|]. split; [lia|]. split; [exact H3|].
        left. auto. }
    rewrite E. cbn [bind]. clear E.
    destruct C as [(-> & -> & -> & -> & F)|(n & C & Hon)].
    { rewrite (neqb kException kOk) by discriminate. rewrite (neqb kException kExpectedOpeningCurlyBraces) by discriminate. cbn [orb negb].
      exists kException, None, (c :: r), w3, []. split; [reflexivity|]. split; [lia|]. split; [exact H3|]. split; [auto|].
      split; [now exists []|]. split; [now left|]. split; [|discriminate]. right. split; [auto|]. split; [auto|].
      eapply faulty_wider; [exact F|lia|lia]. }
    destruct C as [(Hc123 & -> & -> & ->)|(-> & id & m & o & -> & Ht & Hu & Hl & Hag & Hne & Hok)].
    2:{ rewrite (neqb st kExpectedOpeningCurlyBraces) by auto. cbn [negb]. rewrite orb_true_r. cbn [orb].
        exists st, on, p1, w3, L. split; [reflexivity|]. split; [lia|]. split; [exact H3|]. split; [auto|]. split; [auto|]. split; [auto|].
        assert (Eon : option_map erase on = okv st (VObject (tmap erase m) o)).
        { destruct Hon as [[-> ->]|[Hst ->]]; [now rewrite okv_ok|now rewrite okv_not]. }
        split.
        { rewrite Eon. destruct Hag as [Hag|Hag]; [left|right; exact Hag].
          rewrite any_bracket by auto. change (123 =? 91) with false. cbv iota. rewrite Hag. cbn [bind].
          rewrite (neqb st kExpectedOpeningCurlyBraces) by auto. cbn [negb]. now rewrite orb_true_r. }
        destruct Hon as [[-> ->]|[Hst ->]]; [|auto]. split; [reflexivity|].
        destruct (Hok eq_refl) as (tx & js & Et & G1 & G2 & G3 & G4).
        exists (123 :: tx ++ [125]), [], (JObj js). split; [rewrite Et; flat|]. split; [constructor|].
        split; [destruct G2 as [[G2 ->]|G2]; [now apply g_obj0|now apply g_obj]|].
        split; [exact G1|]. cbn [ids kept all_values length]. lia. }
    destruct Hon as [[? _]|[_ ->]]; [discriminate|]. rewrite status_eqb_refl, !neqb by discriminate. cbn [orb negb].
    exists kExpectedJsonValue, None, (c :: r), w3, []. split; [reflexivity|]. split; [lia|]. split; [exact H3|]. split; [auto|].
    split; [now exists []|]. split; [now left|]. split; [|discriminate].
    destruct HC as [[?|?]|(_ & _ & [HC|HC])]; [congruence|congruence|left; apply HC|right]. split; [auto|]. split; [auto|].
    eapply faulty_wider; [exact HC|lia|lia].
  - (* ArrayValue::Parse *)
    intros id acc empty c p w l Hc HT HB HL H. unfold array_post_o. rewrite array_o_S. cbn [array_loop]. cbn [skipn].
    pose proof HT as HT0. apply terminated_tail in HT; auto.
    destruct (skip_ws_spec p HT) as (w1 & p1 & E1 & -> & Hw1 & Hn1 & Ht1). rewrite E1. cbn [bind]. clear E1.
    apply bytes_app in HB. destruct HB as [_ HB1].
    destruct (terminated_head p1 Ht1) as (c1 & r1 & ->). rewrite rd0. cbn [bind].
    simpl in HL. rewrite app_length in HL. simpl in HL.
    destruct (Z.eqb_spec c1 93) as [->|H93].
    { destruct empty; cbn [negb].
      - exists kOk, acc, r1, w, []. cbn [skipn]. split; [reflexivity|]. split; [lia|]. split; [exact H|].
        split; [eapply terminated_tail; [|exact Ht1]; lia|].
        split; [exists (c :: w1 ++ [93]); flat|]. split; [now left|]. split; [left; now rewrite okv_ok|]. split; [discriminate|].
        intros _. exists c, w1, [], []. rewrite app_nil_r. cbn. auto 10.
      - exists kExpectedJsonValue, acc, (93 :: r1), w, []. split; [reflexivity|]. split; [lia|]. split; [exact H|]. split; [auto|].
        split; [exists (c :: w1); flat|]. split; [now left|]. split; [left; now rewrite okv_not|]. split; [discriminate|]. discriminate. }
    destruct (IHv (c1 :: r1) w (ids (NArray id acc) ++ l)) as (st & on & p2 & w2 & L1 & E & T2 & H2 & Ht2 & (u2 & Hu2) & Hl2 & Hag2 & Hon); auto; [simpl; lia|].
    rewrite E. cbn [bind]. clear E.
    assert (Hrep : repeats (c1 :: r1) -> repeats (c :: w1 ++ c1 :: r1)).
    { intros Hr. change (repeats ((c :: w1) ++ c1 :: r1)). now apply repeats_suffix. }
    destruct on as [v|].
    2:{ exists st, acc, p2, w2, L1. split; [reflexivity|]. split; [auto|].
        split; [eapply holds_perm; [exact H2|]; cbn [oids app]; apply perm_mid|]. split; [auto|].
        split; [exists (c :: w1 ++ u2); simpl; rewrite <- app_assoc, <- Hu2; reflexivity|].
        split; [destruct Hl2 as [?|[?|?]]; unfold leaked; auto|].
        rewrite okv_not by auto.
        split.
        { destruct Hag2 as [Hag2|Hag2]; [left|right; exact Hag2]. rewrite Hag2. cbn [bind option_map]. reflexivity. }
        split; [|congruence].
        destruct Hag2 as [Hag2|(_ & [->| ->] & _)]; [|discriminate|discriminate].
        destruct (proj1 (parse_sound fuel) (c1 :: r1) Ht1 HB1) as (st3 & ov3 & p3 & E3 & _ & _ & Hp3); [simpl; lia|].
        rewrite Hag2 in E3. injection E3 as <- <- <-. cbn [option_map] in Hp3. clear - Hp3. unfold failed in Hp3. simpl in Hp3. intuition congruence. }
    destruct Hon as (-> & t & w3 & j & Ep & Hw3 & Hval & Hgood & Hk & Ha).
    assert (Hplain : parse_any fuel (c1 :: r1) = Ret (kOk, Some (erase v), p2)).
    { destruct Hag2 as [?|(? & _)]; [auto|discriminate]. }
    clear Hag2. rewrite Hplain. cbn [bind oids] in H2 |- *.
    assert (Hl1 : L1 = [] \/ repeats (c :: w1 ++ c1 :: r1)) by (destruct Hl2 as [?|[?|?]]; auto; discriminate).
    destruct (ask_spec fails w2 _ H2) as (ok & w4 & Ea & T4 & H4 & F4). rewrite Ea. destruct ok; cbn [negb].
    2:{ exists kException, acc, p2, w4, (ids v ++ L1). split; [reflexivity|]. split; [lia|].
        split; [eapply holds_perm; [exact H4|]; rewrite (app_assoc (ids v)); apply perm_mid|]. split; [auto|].
        split; [exists (c :: w1 ++ u2); simpl; rewrite <- app_assoc, <- Hu2; reflexivity|].
        split; [unfold leaked; auto|]. split; [|split; discriminate]. right. split; [now rewrite okv_not|]. split; [auto|].
        eapply faulty_wider; [apply F4; reflexivity|lia|lia]. }
    clear F4.
    destruct (skip_ws_spec p2 Ht2) as (w5 & p3 & E3 & -> & Hw5 & Hn3 & Ht3). rewrite E3. cbn [bind]. clear E3.
    destruct (terminated_head p3 Ht3) as (c3 & r3 & ->). rewrite rd0. cbn [bind].
    assert (HB3 : bytes (c3 :: r3)).
    { rewrite Ep in HB1. unfold bytes in *. rewrite !Forall_app in HB1. tauto. }
    assert (HLen : (length t + length w3 + length w5 + length (c3 :: r3) = S (length r1))%nat).
    { change (S (length r1)) with (length (c1 :: r1)). rewrite Ep, !app_length. lia. }
    assert (HLt : (1 <= length t)%nat).
    { destruct (gval_head t j Hval) as (x & y & -> & _). simpl. lia. }
    assert (Eall : c :: w1 ++ c1 :: r1 = c :: (w1 ++ t ++ w3 ++ w5) ++ c3 :: r3).
    { rewrite Ep. now rewrite <- !app_assoc. }
    rewrite Eall in Hl1 |- *.
    assert (Hids : forall x, Permutation (ids v ++ L1 ++ ids (NArray id acc) ++ x) (ids (NArray id (acc ++ [v])) ++ L1 ++ x)).
    { intros x. cbn [ids]. rewrite flat_map_app. cbn [flat_map]. rewrite app_nil_r.
      transitivity (L1 ++ ids v ++ (id :: flat_map ids acc) ++ x); [apply perm_mid|].
      transitivity (L1 ++ (id :: flat_map ids acc ++ ids v) ++ x); [|apply perm_mid].
      apply Permutation_app_head. rewrite app_assoc. apply Permutation_app_tail. cbn [app].
      rewrite <- Permutation_middle. constructor. apply Permutation_app_comm. }
    destruct (Z.eqb_spec c3 44) as [->|H44].
    { destruct (IHa id (acc ++ [v]) false 44 r3 w4 (L1 ++ l))
        as (st & acc' & p' & w' & L & E & T & Hh & Ht & (u & Hu) & Hl & Hag & Hne & Hok); auto; [lia|now inversion HB3|simpl in *; lia| |].
      { eapply holds_perm; [exact H4|]. apply Hids. }
      rewrite E. exists st, acc', p', w', (L ++ L1). split; [reflexivity|]. split; [lia|].
      split; [eapply holds_eq; [exact Hh|]; now rewrite <- app_assoc|]. split; [auto|].
      split; [exists (c :: (w1 ++ t ++ w3 ++ w5) ++ u); rewrite Hu; flat|].
      split.
      { destruct Hl1 as [->|Hl1]; [|right; left; exact Hl1]. rewrite app_nil_r. destruct Hl as [Hl|[Hl|Hl]]; unfold leaked; auto.
        right. left. change (repeats ((c :: w1 ++ t ++ w3 ++ w5) ++ 44 :: r3)). now apply repeats_suffix. }
      split.
      { rewrite map_app in Hag. cbn [map] in Hag. destruct Hag as [Hag|(G1 & G2 & G3)]; [left; exact Hag|right]. split; [auto|]. split; [auto|].
        eapply faulty_wider; [exact G3|lia|lia]. }
      split; [auto|]. intros Est. destruct (Hok Est) as (c' & t' & js & ns & E2 & -> & Hvs & Hg & Hk' & Ha').
      injection E2 as <- E2. subst r3.
      destruct Hg as [(? & _)|Hg]; [discriminate|].
      exists c, (w1 ++ t ++ (w3 ++ w5) ++ 44 :: t'), (j :: js), (v :: ns).
      split; [flat|].
      split; [now rewrite <- app_assoc|]. split; [constructor; auto|].
      split; [right; apply ge_cons; auto; apply Forall_app; auto|].
      cbn [flat_map map list_sum fold_right]. unfold list_sum in *. cbn [fold_right]. rewrite !app_length. lia. }
    destruct (Z.eqb_spec c3 93) as [->|H93']; cbn [negb].
    { cbn [skipn]. exists kOk, (acc ++ [v]), r3, w4, L1. split; [reflexivity|]. split; [lia|].
      split; [eapply holds_perm; [exact H4|]; apply Hids|].
      split; [eapply terminated_tail; [|exact Ht3]; lia|].
      split; [exists (c :: (w1 ++ t ++ w3 ++ w5) ++ [93]); flat|].
      split; [destruct Hl1; unfold leaked; auto|].
      split; [left; rewrite okv_ok, map_app; reflexivity|]. split; [discriminate|]. intros _.
      exists c, (w1 ++ t ++ (w3 ++ w5)), [j], [v].
      split; [flat|]. split; [reflexivity|].
      split; [constructor; auto|]. split; [right; apply ge_one; auto; apply Forall_app; auto|].
      cbn [flat_map map]. unfold list_sum. cbn [fold_right]. rewrite !app_length. cbn [length]. lia. }
    exists kExpectedClosingSquareBracketsOrComma, (acc ++ [v]), (c3 :: r3), w4, L1. split; [reflexivity|]. split; [lia|].
    split; [eapply holds_perm; [exact H4|]; apply Hids|]. split; [auto|].
    split; [exists (c :: w1 ++ t ++ w3 ++ w5); reflexivity|]. split; [destruct Hl1; unfold leaked; auto|].
    split; [left; now rewrite okv_not|]. split; discriminate.
  - (* ObjectValue::Parse *)
    intros id m o empty c p w l ms whole Hc HT HB HL H Hm Hst Hcount Hsf. unfold object_post_o. rewrite object_o_S. cbn [object_loop]. cbn [skipn].
    apply terminated_tail in HT; auto.
    destruct (skip_ws_spec p HT) as (w1 & p1 & E1 & -> & Hw1 & Hn1 & Ht1). rewrite E1. cbn [bind]. clear E1.
    apply bytes_app in HB. destruct HB as [_ HB1].
    destruct (terminated_head p1 Ht1) as (c1 & r1 & ->). rewrite rd0. cbn [bind].
    simpl in HL. rewrite app_length in HL. simpl in HL.
    destruct (Z.eqb_spec c1 125) as [->|H125].
    { destruct empty; cbn [negb].
      - exists kOk, m, o, r1, w, []. cbn [skipn]. split; [reflexivity|]. split; [lia|]. split; [exact H|].
        split; [eapply terminated_tail; [|exact Ht1]; lia|].
        split; [exists (c :: w1 ++ [125]); flat|]. split; [now left|]. split; [left; now rewrite okv_ok|]. split; [discriminate|].
        intros _. exists w1, []. rewrite app_nil_r. cbn. auto 10.
      - exists kExpectedJsonValue, m, o, (125 :: r1), w, []. split; [reflexivity|]. split; [lia|]. split; [exact H|]. split; [auto|].
        split; [exists (c :: w1); flat|]. split; [now left|]. split; [left; now rewrite okv_not|]. split; discriminate. }
    destruct (string_o_spec fails (c1 :: r1) w _ Ht1 HB1 H) as (st & nm & p2 & w2 & E & T2 & H2 & C). rewrite E. cbn [bind]. clear E.
    destruct C as [C|(-> & Ep & Ht2 & F)].
    2:{ rewrite neqb by discriminate. cbn [negb]. exists kException, m, o, p2, w2, []. split; [reflexivity|]. split; [auto|]. split; [exact H2|].
        split; [auto|]. split; [exists (c :: w1 ++ [34]); rewrite Ep; flat|]. split; [now left|].
        split; [right; split; [now rewrite okv_not|]; auto|]. split; discriminate. }
    rewrite C. cbn [bind].
    destruct (string_parse_spec (c1 :: r1) Ht1 HB1) as [(E & Hn)|[(st' & r & Er & E & Hbs & Htr)|(nt & nm' & rest & Er & Hs & E & Htr)]];
      rewrite E in C; injection C as <- <- <-; clear E.
    { rewrite neqb by discriminate. cbn [negb].
      exists kExpectedBeginingDoubleQuotes, m, o, (c1 :: r1), w2, []. split; [reflexivity|]. split; [auto|]. split; [exact H2|]. split; [auto|].
      split; [exists (c :: w1); reflexivity|]. split; [now left|]. split; [left; now rewrite okv_not|]. split; discriminate. }
    { assert (Hne : st' <> kOk) by (destruct Hbs as [->|[->| ->]]; discriminate). rewrite neqb by auto. cbn [negb].
      exists st', m, o, r, w2, []. split; [reflexivity|]. split; [auto|]. split; [exact H2|]. split; [auto|].
      split; [exists (c :: w1 ++ [34]); rewrite Er; flat|]. split; [now left|]. split; [left; now rewrite okv_not|].
      split; [destruct Hbs as [->|[->| ->]]; discriminate|congruence]. }
    rewrite status_eqb_refl. cbn [negb].
    assert (HBr : bytes rest).
    { rewrite Er in HB1. inversion HB1 as [|? ? _ HB']; subst. apply bytes_app in HB'. destruct HB' as [_ HB']. now inversion HB'. }
    destruct (skip_ws_spec rest Htr) as (w3 & p2 & E2 & -> & Hw3 & Hn2 & Ht2). rewrite E2. cbn [bind]. clear E2.
    destruct (terminated_head p2 Ht2) as (c2 & r2 & ->). rewrite rd0. cbn [bind].
    apply bytes_app in HBr. destruct HBr as [_ HBr]. inversion HBr as [|? ? _ HBr2]; subst.
    assert (Hlen1 : (length r1 = length nt + S (length w3 + S (length r2)))%nat).
    { injection Er as _ ->. rewrite app_length. simpl. rewrite app_length. reflexivity. }
    destruct (Z.eqb_spec c2 58) as [->|H58]; cbn [negb].
    2:{ exists kExpectedColon, m, o, (c2 :: r2), w2, []. split; [reflexivity|]. split; [auto|]. split; [exact H2|]. split; [auto|].
        split; [exists (c :: w1 ++ 34 :: nt ++ 34 :: w3); rewrite Er; flat|]. split; [now left|]. split; [left; now rewrite okv_not|]. split; discriminate. }
    cbn [skipn]. assert (Ht2' : terminated r2) by (eapply terminated_tail; [|exact Ht2]; lia).
    destruct (skip_ws_spec r2 Ht2') as (w4 & p3 & E3 & -> & Hw4 & Hn3 & Ht3). rewrite E3. cbn [bind]. clear E3.
    apply bytes_app in HBr2. destruct HBr2 as [_ HB3]. rewrite app_length in Hlen1.
    destruct (IHv p3 w2 (ids (NObject id m o) ++ l)) as (st & on & p4 & w5 & L1 & E4 & T5 & H5 & Ht4 & (u4 & Hu4) & Hl4 & Hag4 & Hon); auto; [lia|].
    rewrite E4. cbn [bind]. clear E4.
    assert (Hwhole : exists pre, whole = pre ++ p3 /\ pre <> []).
    { destruct Hsf as [(_ & _ & ->)|(_ & t0 & _ & ->)]; rewrite Er.
      - exists (123 :: w1 ++ 34 :: nt ++ 34 :: w3 ++ 58 :: w4). split; [flat|discriminate].
      - exists (123 :: t0 ++ 44 :: w1 ++ 34 :: nt ++ 34 :: w3 ++ 58 :: w4). split; [flat|discriminate]. }
    assert (Hrep : repeats p3 -> repeats whole).
    { destruct Hwhole as (pre & -> & _). apply repeats_suffix. }
    destruct on as [v|].
    2:{ exists st, m, o, p4, w5, L1. split; [reflexivity|]. split; [lia|].
        split; [eapply holds_perm; [exact H5|]; cbn [oids app]; apply perm_mid|]. split; [auto|].
        split; [exists (c :: w1 ++ 34 :: nt ++ 34 :: w3 ++ 58 :: w4 ++ u4); rewrite Er, Hu4; flat|].
        split; [destruct Hl4 as [?|[?|?]]; unfold leaked; auto|].
        rewrite okv_not by auto.
        split.
        { destruct Hag4 as [Hag4|(G1 & G2 & G3)]; [left|right].
          - rewrite Hag4. cbn [bind option_map]. reflexivity.
          - split; [auto|]. split; [auto|]. eapply faulty_wider; [exact G3|lia|lia]. }
        split; [|congruence].
        destruct Hag4 as [Hag4|(_ & [->| ->] & _)]; [|discriminate|discriminate].
        destruct (proj1 (parse_sound fuel) p3 Ht3 HB3) as (st3 & ov3 & p5 & E5 & _ & _ & Hp3); [lia|].
        rewrite Hag4 in E5. injection E5 as <- <- <-. cbn [option_map] in Hp3. clear - Hp3. unfold failed in Hp3. simpl in Hp3. intuition congruence. }
    destruct Hon as (-> & t & w6 & j & Ep & Hw6 & Hval & Hgood & Hk & Ha).
    assert (Hplain : parse_any fuel p3 = Ret (kOk, Some (erase v), p4)).
    { destruct Hag4 as [?|(? & _)]; [auto|discriminate]. }
    clear Hag4. rewrite Hplain. cbn [bind oids] in H5 |- *.
    assert (Hl1 : L1 = [] \/ repeats whole) by (destruct Hl4 as [?|[?|?]]; auto; discriminate).
    pose proof (lib_str_good _ _ Hs) as Hgk.
    destruct (insert_o_spec m o nm' v w5 _ Hm Hgk H5) as (ok & m' & o' & w7 & Ei & T7 & H7 & Hi). rewrite Ei. cbn [bind].
    destruct Hi as [(-> & -> & -> & F)|(-> & -> & Hm' & f & Ef & Hft & Hff)]; cbn [negb].
    { exists kException, m, o, p4, w7, (ids v ++ L1). split; [reflexivity|]. split; [lia|].
      split; [eapply holds_perm; [exact H7|]; rewrite (app_assoc (ids v)); apply perm_mid|]. split; [auto|].
      split; [exists (c :: w1 ++ 34 :: nt ++ 34 :: w3 ++ 58 :: w4 ++ u4); rewrite Er, Hu4; flat|].
      split; [unfold leaked; auto|]. split; [|split; discriminate]. right. split; [now rewrite okv_not|]. split; [auto|].
      eapply faulty_wider; [exact F|lia|lia]. }
    destruct (insert_state (tmap erase m) o ms nm' (erase v) j Hst Hgk Hgood) as (m2 & f2 & Eacc & Hst' & Hf2).
    assert (Em2 : m2 = tmap erase m' /\ f2 = f).
    { unfold insert_accounted in Eacc. rewrite (insert_map_map erase m nm' v m' f Ef) in Eacc. cbn [bind] in Eacc. injection Eacc as <- <-. auto. }
    destruct Em2 as [-> ->]. rewrite Eacc. cbn [bind].
    assert (Eo : o = map fst ms).
    { destruct Hst as [Hr _]. inversion Hr; subst; auto. }
    destruct (skip_ws_spec p4 Ht4) as (w8 & p5 & E5 & -> & Hw8 & Hn5 & Ht5). rewrite E5. cbn [bind]. clear E5.
    destruct (terminated_head p5 Ht5) as (c5 & r5 & ->). rewrite rd0. cbn [bind].
    assert (HB5 : bytes (c5 :: r5)).
    { rewrite Ep in HB3. unfold bytes in *. rewrite !Forall_app in HB3. tauto. }
    assert (HLen : (length t + length w6 + length w8 + length (c5 :: r5) = length p3)%nat).
    { rewrite Ep, !app_length. lia. }
    (* the member in front of [c5] *)
    set (mt := w1 ++ 34 :: nt ++ 34 :: w3 ++ 58 :: w4 ++ t ++ (w6 ++ w8)).
    assert (Hmt : gmembers lib_str lib_num mt [(nm', j)]).
    { unfold mt. apply gm_one; auto. apply Forall_app; auto. }
    assert (Eall : c :: w1 ++ c1 :: r1 = c :: mt ++ c5 :: r5).
    { unfold mt. rewrite Er, Ep. f_equal. flat. }
    rewrite Eall.
    assert (Hsf' : exists tw, gmembers lib_str lib_num tw (ms ++ [(nm', j)]) /\ whole = 123 :: tw ++ c5 :: r5).
    { destruct Hsf as [(-> & -> & ->)|(-> & t0 & Ht0 & ->)].
      - exists mt. split; [exact Hmt|]. exact Eall.
      - exists (t0 ++ 44 :: mt). split; [unfold mt; apply gmembers_snoc; auto; apply Forall_app; auto|].
        rewrite <- app_assoc. simpl. do 2 f_equal. exact Eall. }
    (* the objects *)
    set (L2 := if f then L1 else ids v ++ L1).
    assert (Hids : forall x, Permutation (ids v ++ L1 ++ ids (NObject id m o) ++ x) (ids (NObject id m' (o ++ [nm'])) ++ L2 ++ x)).
    { intros x. unfold L2. cbn [ids]. destruct f.
      - destruct (Hft eq_refl) as (l1 & l2 & Q1 & Q2). pose proof (tflat_insert m m' nm' v l1 l2 Q1 Q2) as Hp.
        transitivity (L1 ++ ids v ++ (id :: tflat ids m) ++ x); [apply perm_mid|].
        transitivity (L1 ++ (id :: tflat ids m') ++ x); [|apply perm_mid].
        apply Permutation_app_head. rewrite app_assoc. apply Permutation_app_tail.
        rewrite <- Permutation_middle. constructor. now symmetry.
      - rewrite (Hff eq_refl). rewrite (app_assoc (ids v)). apply perm_mid. }
    assert (HL2 : L2 = [] \/ repeats whole).
    { unfold L2. destruct f; [exact Hl1|]. right. destruct Hsf' as (tw & G1 & ->).
      exists [], tw, (ms ++ [(nm', j)]), (c5 :: r5). split; [reflexivity|]. split; [exact G1|].
      rewrite map_app. cbn [map fst]. intros Hnd. rewrite <- Eo in Hnd.
      assert (Hin : ~ In nm' o).
      { intros Hin. apply in_split in Hin. destruct Hin as (a & b & ->).
        rewrite <- app_assoc in Hnd. simpl in Hnd. apply NoDup_remove_2 in Hnd. apply Hnd. rewrite !in_app_iff. simpl. auto. }
      apply Hf2 in Hin. discriminate. }
    assert (Hcount' : length (tflat ids m') = kept_members kept [] (ms ++ [(nm', j)]) /\
                      (length (tflat ids m') + length L2 = length (tflat ids m) + all_values j)%nat).
    { rewrite kept_snoc, app_nil_r, <- Eo. unfold L2. destruct f.
      - destruct (Hft eq_refl) as (l1 & l2 & Q1 & Q2). pose proof (tflat_insert m m' nm' v l1 l2 Q1 Q2) as Hp.
        apply Permutation_length in Hp. rewrite app_length in Hp.
        destruct (in_dec _ nm' o) as [Hin|]; [exfalso; apply Hf2 in Hin; auto|]. lia.
      - rewrite (Hff eq_refl), app_length.
        destruct (in_dec _ nm' o) as [|Hin]; [lia|]. apply Hf2 in Hin. discriminate. }
    destruct Hcount' as [Hcount' Hbal].
    destruct (Z.eqb_spec c5 44) as [->|H44].
    { destruct (IHo id m' (o ++ [nm']) false 44 r5 w7 (L2 ++ l) (ms ++ [(nm', j)]) whole)
        as (st & m3 & o3 & p' & w' & L & E & T & Hh & Ht & (u & Hu) & Hl & Hag & Hne & Hok); auto; [lia|now inversion HB5|simpl in *; lia| | |].
      { eapply holds_perm; [exact H7|]. apply Hids. }
      { right. split; [auto|]. exact Hsf'. }
      rewrite E. exists st, m3, o3, p', w', (L ++ L2). split; [reflexivity|]. split; [lia|].
      split; [eapply holds_eq; [exact Hh|]; now rewrite <- app_assoc|]. split; [auto|].
      split; [exists (c :: mt ++ u); rewrite Hu; flat|].
      split.
      { destruct HL2 as [->|HL2]; [|right; left; exact HL2]. rewrite app_nil_r. exact Hl. }
      split.
      { destruct Hag as [Hag|(G1 & G2 & G3)]; [left; exact Hag|right]. split; [auto|]. split; [auto|].
        eapply faulty_wider; [exact G3|lia|lia]. }
      split; [auto|]. intros Est. destruct (Hok Est) as (t' & js & -> & Hos & Hg & Hk' & Ha').
      destruct Hg as [(? & _)|Hg]; [discriminate|]. rewrite <- app_assoc in Hos, Hk'. cbn [app] in Hos, Hk'.
      exists (mt ++ 44 :: t'), ((nm', j) :: js).
      split; [flat; injection Eall as ->; flat|].
      split; [exact Hos|].
      split.
      { right. unfold mt. match goal with |- gmembers _ _ ?a _ =>
          replace a with (w1 ++ 34 :: nt ++ 34 :: w3 ++ 58 :: w4 ++ t ++ (w6 ++ w8) ++ 44 :: t') by flat end.
        apply gm_cons; auto. apply Forall_app; auto. }
      split; [exact Hk'|]. cbn [map]. unfold list_sum in *. cbn [fold_right snd]. rewrite app_length. lia. }
    destruct (Z.eqb_spec c5 125) as [->|H125']; cbn [negb].
    { cbn [skipn]. exists kOk, m', (o ++ [nm']), r5, w7, L2. split; [reflexivity|]. split; [lia|].
      split; [eapply holds_perm; [exact H7|]; apply Hids|].
      split; [eapply terminated_tail; [|exact Ht5]; lia|].
      split; [exists (c :: mt ++ [125]); flat|].
      split; [destruct HL2; unfold leaked; auto|].
      split; [left; rewrite okv_ok; reflexivity|]. split; [discriminate|]. intros _.
      exists mt, [(nm', j)]. split; [injection Eall as ->; flat|]. split; [exact Hst'|]. split; [auto|].
      split; [exact Hcount'|]. cbn. lia. }
    exists kExpectedClosingCurlyBracesOrComma, m', (o ++ [nm']), (c5 :: r5), w7, L2. split; [reflexivity|]. split; [lia|].
    split; [eapply holds_perm; [exact H7|]; apply Hids|]. split; [auto|].
    split; [exists (c :: mt); reflexivity|]. split; [destruct HL2; unfold leaked; auto|].
    split; [left; now rewrite okv_not|]. split; discriminate.
Qed.

(** ** The root *)

Definition root_post_o (root : option node) (buf : list Z) (w : world) (l : list nat) : Prop :=
  exists st line column root' w' L,
    sd_parse_o fails root buf w = Ret (PR st line column, root', w') /\ (tick w <= tick w')%nat /\
    holds w' (oids root' ++ L ++ l) /\
    leaked buf st L /\
    (sd_parse (option_map erase root) buf = Ret (PR st line column, option_map erase root') \/
     root' = None /\ (st = kException \/ st = kExpectedJsonValue) /\ faulty (tick w) (tick w')) /\
    (st = kOk -> exists t rest j n, buf = t ++ 0 :: rest /\ lib_doc t j /\ root' = Some n /\ represents (erase n) j /\
       length (ids n) = kept j /\ (length (ids n) + length L)%nat = all_values j).

Lemma root_o_spec root buf w l : bytes buf -> holds w (oids root ++ l) -> root_post_o root buf w l.
Proof.
  intros HB H. unfold root_post_o.
  destruct (le_lt_dec 3 (length buf)) as [HL|HL].
  2:{ exists kTextBufferContentsInvalid, 0, 0, root, w, []. rewrite sd_short by auto. unfold sd_parse_o.
      destruct (Z.ltb_spec (Z.of_nat (length buf)) 3); [|lia].
      split; [reflexivity|]. split; [lia|]. split; [exact H|]. split; [now left|]. split; [now left|discriminate]. }
  destruct (Z.eq_dec (last buf 0) 0) as [E0|E0].
  2:{ exists kUnterminatedTextBuffer, 0, 0, root, w, []. rewrite sd_open by auto. unfold sd_parse_o.
      destruct (Z.ltb_spec (Z.of_nat (length buf)) 3); [lia|]. destruct (Z.eqb_spec (last buf 0) 0); [congruence|]. cbn [negb].
      split; [reflexivity|]. split; [lia|]. split; [exact H|]. split; [now left|]. split; [now left|discriminate]. }
  assert (HT : terminated buf) by (apply last_terminated; [intros ->; simpl in HL; lia|auto]).
  rewrite sd_root by auto. unfold sd_parse_o, parse_json_root_o.
  destruct (Z.ltb_spec (Z.of_nat (length buf)) 3); [lia|]. rewrite E0. change (0 =? 0) with true. cbn [negb].
  assert (exists w0, delete_root root w = Ret w0 /\ tick w0 = tick w /\ holds w0 l) as (w0 & -> & T0 & Hw0).
  { unfold delete_root. destruct root as [n|]; [now apply delete_ok|]. exists w. auto. }
  cbn [bind].
  destruct (skip_ws_spec buf HT) as (w1 & p & E & -> & Hw1 & Hn & Ht). rewrite E. cbn [bind]. clear E.
  apply bytes_app in HB. destruct HB as [_ HB].
  destruct (proj1 (parse_o_spec (parse_fuel p)) p w0 l Ht HB) as (st & on & p1 & w2 & L & E & T2 & H2 & Ht1 & (u & Hu) & Hl & Hag & Hon);
    [unfold parse_fuel; lia|auto|].
  rewrite E. cbn [bind]. clear E.
  destruct (skip_ws_spec p1 Ht1) as (w3 & text & E & Ep1 & Hw3 & Hn3 & Ht3). rewrite E. cbn [bind].
  destruct (terminated_head text Ht3) as (c & r & ->). rewrite rd0. cbn [bind].
  assert (Hl' : leaked (w1 ++ p) st L).
  { destruct Hl as [Hl|[Hl|Hl]]; unfold leaked; auto. right. left. now apply repeats_suffix. }
  destruct on as [n|].
  - destruct Hon as (-> & t & w4 & j & Ep & Hw4 & Hval & Hgood & Hk & Ha).
    assert (Hplain : parse_any (parse_fuel p) p = Ret (kOk, Some (erase n), p1)).
    { destruct Hag as [?|(? & _)]; [auto|discriminate]. }
    rewrite Hplain. cbn [bind]. rewrite E. cbn [bind]. rewrite rd0. rewrite !status_eqb_refl. cbn [bind].
    destruct (Z.eqb_spec c 0) as [->|Hc]; cbn [negb].
    + rewrite !status_eqb_refl. cbn [negb]. exists kOk, 0, 0, (Some n), w2, L.
      split; [reflexivity|]. split; [lia|]. split; [exact H2|]. split; [exact Hl'|]. split; [now left|]. intros _.
      exists (w1 ++ t ++ w4 ++ w3), r, j, n. split; [rewrite Ep, Ep1; flat|].
      split; [constructor; auto; apply Forall_app; auto|]. split; [auto|]. split; [apply Hgood|]. auto.
    + rewrite !neqb by discriminate. cbn [negb]. destruct (error_walk _ 1 1) as [line column].
      exists kExpectedEndOfFile, line, column, (Some n), w2, L.
      split; [reflexivity|]. split; [lia|]. split; [exact H2|].
      split; [destruct Hl' as [?|[?|?]]; unfold leaked; auto; discriminate|]. split; [now left|discriminate].
  - rewrite (neqb st kOk) by auto. cbn [bind]. rewrite (neqb st kOk) by auto. cbn [negb].
    destruct (error_walk (rev (firstn (length p - length (c :: r)) p)) 1 1) as [line column] eqn:Ew.
    exists st, line, column, None, w2, L. split; [reflexivity|]. split; [lia|]. split; [exact H2|]. split; [exact Hl'|].
    split; [|intros; congruence].
    destruct Hag as [Hag|(_ & G1 & G2)].
    + left. rewrite Hag. cbn [bind option_map]. rewrite E. cbn [bind]. rewrite (neqb st kOk) by auto. cbn [bind]. rewrite (neqb st kOk) by auto. cbn [negb].
      now rewrite Ew.
    + right. rewrite <- T0. auto.
Qed.
End Own.
