(** * Proofs about the ownership of value objects. *)

From Coq Require Import Permutation.
From Verif Require Import Base TextModel NumModel MapModel ParserModel SpecUtf8 SpecNum SpecMap SpecGrammar SpecMeaning
  TextProofs MapProofs StrtodProofs RoundProofs LexProofs ParserProofs RootProofs OwnModel SpecOwn.

#[local] Arguments Z.eqb : simpl nomatch.
#[local] Arguments Z.ltb : simpl nomatch.

(** ** Trees *)

Section Tree.
Context {A B : Type} (f : A -> B).

Definition fmap (fr : frame A) : frame B :=
  match fr with
  | FL k v b r => FL k (f v) b (tmap f r)
  | FR l k v b => FR (tmap f l) k (f v) b
  end.

Lemma tmap_zip up : forall t, tmap f (zip t up) = zip (tmap f t) (map fmap up).
Proof. induction up as [|[k v b r|l k v b] up IH]; intros t; simpl; [reflexivity| |]; rewrite IH; reflexivity. Qed.

Definition omap {X Y} (g : X -> Y) (o : out X) : out Y :=
  match o with Ret x => Ret (g x) | UB => UB | OutOfFuel => OutOfFuel end.

Lemma zip_bind up x : (let! t := omap (tmap f) x in Ret (zip t (map fmap up))) = omap (tmap f) (let! t := x in Ret (zip t up)).
Proof. destruct x; cbn; now rewrite ?tmap_zip. Qed.

Lemma flag_bind x : (let! t := omap (tmap f) x in Ret (t, true)) =
  omap (fun r => (tmap f (fst r), snd r)) (let! t := x in Ret (t, true)).
Proof. destruct x; reflexivity. Qed.

Lemma rotate_left_map t : rotate_left (tmap f t) = omap (tmap f) (rotate_left t).
Proof. destruct t as [|l k v b [|]]; reflexivity. Qed.
Lemma rotate_right_map t : rotate_right (tmap f t) = omap (tmap f) (rotate_right t).
Proof. destruct t as [|[|] k v b r]; reflexivity. Qed.
Lemma zigzag_left_map t : zigzag_left (tmap f t) = omap (tmap f) (zigzag_left t).
Proof. destruct t as [|l k v b [|[|] ]]; reflexivity. Qed.
Lemma zigzag_right_map t : zigzag_right (tmap f t) = omap (tmap f) (zigzag_right t).
Proof. destruct t as [|[|ll lk lv lb [|]] k v b r]; reflexivity. Qed.

Lemma insert_up_map up : forall d t, insert_up d (tmap f t) (map fmap up) = omap (tmap f) (insert_up d t up).
Proof.
  induction up as [|[k v b r|l k v b] up IH]; intros d t; cbn [insert_up map fmap].
  - reflexivity.
  - destruct (b - 1 =? 0); [cbn [omap]; now rewrite tmap_zip|].
    destruct (Z.abs (b - 1) =? 2).
    + pose proof (rotate_right_map (Node t k v (b - 1) r)) as E1. pose proof (zigzag_right_map (Node t k v (b - 1) r)) as E2.
      cbn [tmap] in E1, E2. destruct d; [rewrite E1|rewrite E2]; apply zip_bind.
    + apply (IH true (Node t k v (b - 1) r)).
  - destruct (b + 1 =? 0); [cbn [omap]; now rewrite tmap_zip|].
    destruct (Z.abs (b + 1) =? 2).
    + pose proof (rotate_left_map (Node l k v (b + 1) t)) as E1. pose proof (zigzag_left_map (Node l k v (b + 1) t)) as E2.
      cbn [tmap] in E1, E2. destruct d; [rewrite E2|rewrite E1]; apply zip_bind.
    + apply (IH false (Node l k v (b + 1) t)).
Qed.

Lemma insert_at_map key e : forall t up,
  insert_at (tmap f t) (map fmap up) key (f e) = omap (fun r => (tmap f (fst r), snd r)) (insert_at t up key e).
Proof.
  induction t as [|l IHl k v b r IHr]; intros up; cbn [insert_at tmap].
  - cbn. now rewrite tmap_zip.
  - destruct (text_lt key k).
    + destruct l as [|ll lk lv lb lr].
      * cbn [tmap]. unfold insert_left_subnode.
        destruct (b - 1 =? 0); cbn [negb].
        -- cbn. now rewrite tmap_zip.
        -- pose proof (insert_up_map up true (Node (Node Leaf key e 0 Leaf) k v (b - 1) r)) as E. cbn [tmap] in E. rewrite E.
           apply flag_bind.
      * apply (IHl (FL k v b r :: up)).
    + destruct (text_lt k key).
      * destruct r as [|rl rk rv rb rr].
        -- cbn [tmap]. unfold insert_right_subnode.
           destruct (b + 1 =? 0); cbn [negb].
           ++ cbn. now rewrite tmap_zip.
           ++ pose proof (insert_up_map up false (Node l k v (b + 1) (Node Leaf key e 0 Leaf))) as E. cbn [tmap] in E. rewrite E.
              apply flag_bind.
        -- apply (IHr (FR l k v b :: up)).
      * cbn. now rewrite tmap_zip.
Qed.

Lemma insert_map_map t key e m b : insert_map_element t key e = Ret (m, b) ->
  insert_map_element (tmap f t) key (f e) = Ret (tmap f m, b).
Proof. intros E. unfold insert_map_element in *. pose proof (insert_at_map key e t []) as H. cbn [map] in H. rewrite H, E. reflexivity. Qed.
End Tree.

Lemma tflat_elements {A B} (f : A -> list B) t : tflat f t = flat_map (fun e => f (snd e)) (elements t).
Proof.
  induction t as [|l IHl k v b r IHr]; cbn [tflat elements]; [reflexivity|].
  rewrite flat_map_app. cbn [flat_map snd]. now rewrite IHl, IHr.
Qed.

(** ** Induction on value objects *)

Definition tall {A} (P : A -> Prop) : tree A -> Prop :=
  fix go (m : tree A) : Prop :=
    match m with
    | Leaf => True
    | Node l _ v _ r => go l /\ P v /\ go r
    end.

Lemma node_induct (P : node -> Prop) :
  (forall id s, P (NString id s)) -> (forall id d, P (NNumber id d)) -> (forall id b, P (NBool id b)) ->
  (forall id, P (NNull id)) -> (forall id l, Forall P l -> P (NArray id l)) ->
  (forall id m order, tall P m -> P (NObject id m order)) -> forall n, P n.
Proof.
  intros H1 H2 H3 H4 H5 H6. fix self 1. intros [id s|id d|id b|id|id l|id m order]; [apply H1|apply H2|apply H3|apply H4| |].
  - apply H5. induction l as [|x l IH]; constructor; [apply self|exact IH].
  - apply H6. induction m as [|l IHl k v b r IHr]; cbn [tall]; [exact I|]. split; [exact IHl|]. split; [apply self|exact IHr].
Qed.

(** ** The heap *)

(** No number is used twice. *)
Definition fresh_world (w : world) : Prop := NoDup (live w) /\ Forall (fun x => (x < tick w)%nat) (live w).

Lemma take_out_ok id : forall l r, Permutation l (id :: r) -> exists l', take_out id l = Some l' /\ Permutation l' r.
Proof.
  assert (H : forall l, In id l -> exists l', take_out id l = Some l' /\ Permutation l (id :: l')).
  { induction l as [|x l IH]; intros Hin; [destruct Hin|]. cbn [take_out].
    destruct (Nat.eqb_spec x id) as [->|Hne]; [eauto|].
    destruct Hin as [|Hin]; [congruence|]. destruct (IH Hin) as (l' & -> & Hp). eexists. split; [reflexivity|].
    rewrite Hp. apply perm_swap. }
  intros l r Hp. destruct (H l) as (l' & E & Hp').
  { rewrite Hp. now left. }
  exists l'. split; [auto|]. apply (Permutation_cons_inv (a := id)). now rewrite <- Hp', Hp.
Qed.

(** [w'] is [w] with the objects [l] instead of [r]. *)
Definition holds (w : world) (l : list nat) : Prop := fresh_world w /\ Permutation (live w) l.

Lemma holds_perm w l l' : holds w l -> Permutation l l' -> holds w l'.
Proof. intros [H1 H2] H. split; [auto|]. now rewrite H2. Qed.

Lemma free_ok id w r : holds w (id :: r) -> exists w', free id w = Ret w' /\ tick w' = tick w /\ holds w' r.
Proof.
  intros [[H1 H2] Hp]. unfold free. destruct (take_out_ok id (live w) r Hp) as (l' & -> & Hp').
  eexists. split; [reflexivity|]. split; [reflexivity|]. split; [|exact Hp'].
  assert (Hl : Permutation (live w) (id :: l')) by (rewrite Hp; now rewrite Hp').
  split; cbn.
  - rewrite Hl in H1. now inversion H1.
  - rewrite Hl in H2. now inversion H2.
Qed.

Lemma delete_ok n : forall w r, holds w (ids n ++ r) -> exists w', delete n w = Ret w' /\ tick w' = tick w /\ holds w' r.
Proof.
  induction n as [id s|id d|id b|id|id l IH|id m order IH] using node_induct; intros w r H; try (apply (free_ok id w r H)).
  - cbn [ids] in H. cbn [delete].
    set (go := fix go (l : list node) (w : world) : out world := match l with [] => Ret w | x :: l' => let! w := delete x w in go l' w end).
    assert (Hgo : forall l, Forall (fun n => forall w r, holds w (ids n ++ r) -> exists w', delete n w = Ret w' /\ tick w' = tick w /\ holds w' r) l ->
      forall w r, holds w (flat_map ids l ++ r) -> exists w', go l w = Ret w' /\ tick w' = tick w /\ holds w' r).
    { clear. induction 1 as [|x l Hx _ IH]; intros w r H; [eexists; split; [reflexivity|]; auto|].
      cbn [flat_map] in H. rewrite <- app_assoc in H. destruct (Hx _ _ H) as (w1 & E1 & T1 & H1).
      destruct (IH _ _ H1) as (w2 & E2 & T2 & H2). exists w2. cbn. rewrite E1. cbn [bind]. split; [exact E2|]. split; [congruence|auto]. }
    destruct (Hgo l IH w (id :: r)) as (w1 & E1 & T1 & H1).
    { eapply holds_perm; [exact H|]. cbn. apply Permutation_middle. }
    rewrite E1. cbn [bind]. destruct (free_ok id w1 r H1) as (w2 & E2 & T2 & H2). exists w2. split; [auto|]. split; [congruence|auto].
  - cbn [ids] in H. cbn [delete].
    set (go := fix go (m : tree node) (w : world) : out world :=
      match m with Leaf => Ret w | Node l _ v _ r => let! w := go l w in let! w := go r w in delete v w end).
    assert (Hgo : forall m, tall (fun n => forall w r, holds w (ids n ++ r) -> exists w', delete n w = Ret w' /\ tick w' = tick w /\ holds w' r) m ->
      forall w r, holds w (tflat ids m ++ r) -> exists w', go m w = Ret w' /\ tick w' = tick w /\ holds w' r).
    { clear. induction m as [|l IHl k v b rt IHr]; intros HA w r H; [eexists; split; [reflexivity|]; auto|].
      destruct HA as (Hl & Hv & Hr). cbn [tflat] in H.
      destruct (IHl Hl w (tflat ids rt ++ ids v ++ r)) as (w1 & E1 & T1 & H1).
      { eapply holds_perm; [exact H|]. rewrite <- !app_assoc. apply Permutation_app_head.
        rewrite !app_assoc. apply Permutation_app_tail. apply Permutation_app_comm. }
      destruct (IHr Hr _ _ H1) as (w2 & E2 & T2 & H2).
      destruct (Hv _ _ H2) as (w3 & E3 & T3 & H3).
      exists w3. cbn. rewrite E1. cbn [bind]. rewrite E2. cbn [bind]. split; [exact E3|]. split; [congruence|auto]. }
    destruct (Hgo m IH w (id :: r)) as (w1 & E1 & T1 & H1).
    { eapply holds_perm; [exact H|]. cbn. apply Permutation_middle. }
    rewrite E1. cbn [bind]. destruct (free_ok id w1 r H1) as (w2 & E2 & T2 & H2). exists w2. split; [auto|]. split; [congruence|auto].
Qed.

(** ** The pieces of the parser *)

Section Own.
Variable fails : nat -> bool.

(** A request between the two moments failed. *)
Definition faulty (a b : nat) : Prop := exists k, (a <= k < b)%nat /\ fails k = true.

Lemma faulty_wider a b a' b' : faulty a b -> (a' <= a)%nat -> (b <= b')%nat -> faulty a' b'.
Proof. intros (k & H1 & H2) H3 H4. exists k. split; [lia|auto]. Qed.

Lemma holds_tick w l t : holds w l -> (tick w <= t)%nat -> holds (World t (live w)) l.
Proof.
  intros [[H1 H2] H3] Ht. split; [|exact H3]. split; [exact H1|]. cbn. eapply Forall_impl; [|exact H2]. cbn. intros; lia.
Qed.

Lemma ask_spec w l : holds w l -> exists ok w', ask fails w = (ok, w') /\ tick w' = S (tick w) /\ holds w' l /\
  (ok = false -> faulty (tick w) (tick w')).
Proof.
  intros H. unfold ask. do 2 eexists. split; [reflexivity|]. split; [reflexivity|]. split; [apply holds_tick; auto|].
  intros E. exists (tick w). split; [cbn; lia|]. now destruct (fails (tick w)).
Qed.

Lemma new_spec w l : holds w l -> exists o w', new_value fails w = (o, w') /\ tick w' = S (tick w) /\
  match o with
  | Some id => holds w' (id :: l)
  | None => holds w' l /\ faulty (tick w) (tick w')
  end.
Proof.
  intros H. unfold new_value. destruct (fails (tick w)) eqn:E; do 2 eexists; (split; [reflexivity|]); (split; [reflexivity|]).
  - split; [apply holds_tick; auto|]. exists (tick w). cbn. auto.
  - destruct H as [[H1 H2] H3]. split; [split|].
    + cbn. constructor; [|auto]. intros Hin. rewrite Forall_forall in H2. apply H2 in Hin. lia.
    + cbn. constructor; [lia|]. eapply Forall_impl; [|exact H2]. cbn. intros; lia.
    + cbn. now constructor.
Qed.

Lemma string_o_cases p w :
  (exists w', (w' = w \/ w' = snd (ask fails w)) /\
     string_parse_o fails p w = let! (st, s, p1) := string_parse p in Ret (st, s, p1, w')) \/
  (fst (ask fails w) = false /\ rd p 0 = Ret 34 /\
     string_parse_o fails p w = Ret (kException, [], skipn 1 p, snd (ask fails w))).
Proof.
  unfold string_parse_o, string_parse.
  destruct (rd p 0) as [c| |]; cbn [bind]; [|left; exists w; auto|left; exists w; auto].
  destruct (Z.eqb_spec c 34) as [->|Hc]; cbn [negb]; [|left; exists w; auto].
  destruct (read_string_literal (length (skipn 1 p)) (skipn 1 p) 0 0 None) as [[[st [[tl sl]|]] dst]| |]; cbn [bind];
    [|left; exists w; auto|left; exists w; auto|left; exists w; auto].
  destruct (ask fails w) as [ok w'] eqn:Ea. destruct ok; cbn [negb fst snd].
  - left. exists w'. split; [auto|].
    destruct (read_string_literal _ _ _ _ (Some _)) as [[[st2 len2] dst2]| |]; cbn [bind]; [|reflexivity|reflexivity].
    destruct (rd _ 0) as [c2| |]; cbn [bind]; [|reflexivity|reflexivity]. destruct (negb _); reflexivity.
  - right. auto.
Qed.

Lemma string_o_spec p w l : terminated p -> bytes p -> holds w l ->
  exists st s p1 w', string_parse_o fails p w = Ret (st, s, p1, w') /\ (tick w <= tick w')%nat /\ holds w' l /\
    (string_parse p = Ret (st, s, p1) \/
     st = kException /\ p = 34 :: p1 /\ terminated p1 /\ faulty (tick w) (tick w')).
Proof.
  intros HT HB H. destruct (ask_spec w l H) as (ok & w1 & Ea & T1 & H1 & F1).
  destruct (string_o_cases p w) as [(w' & Hw & E)|(E1 & E2 & E)].
  - assert (Hs : exists st s p1, string_parse p = Ret (st, s, p1)).
    { destruct (string_parse_spec p HT HB) as [(-> & _)|[(st & r & _ & -> & _)|(t & s & rest & _ & _ & -> & _)]]; eauto. }
    destruct Hs as (st & s & p1 & Es). rewrite Es in E. cbn [bind] in E.
    exists st, s, p1, w'. split; [auto|]. rewrite Ea in Hw. cbn [snd] in Hw. destruct Hw as [->| ->]; (split; [lia|]); auto.
  - rewrite Ea in *. cbn [fst snd] in *. destruct (terminated_head p HT) as (c & r & ->). injection E2 as ->.
    exists kException, [], r, w1. split; [auto|]. split; [lia|]. split; [auto|]. right.
    split; [reflexivity|]. split; [reflexivity|]. split; [|auto]. eapply terminated_tail; [|exact HT]. discriminate.
Qed.

Lemma number_o_cases p w :
  (exists w', (w' = w \/ w' = snd (ask fails w)) /\
     number_parse_o fails p w = let! (st, d, p1) := number_parse p in Ret (st, d, p1, w')) \/
  (exists neg p1 n, fst (ask fails w) = false /\ parse_sign p = Ret (neg, p1) /\ compute_float_literal_length p1 = Ret (S n) /\
     number_parse_o fails p w = Ret (kException, S754_nan, p1, snd (ask fails w))).
Proof.
  unfold number_parse_o, number_parse.
  destruct (parse_sign p) as [[neg p1]| |]; cbn [bind]; [|left; exists w; auto|left; exists w; auto].
  unfold read_double_literal_o, read_double_literal.
  destruct (compute_float_literal_length p1) as [n| |] eqn:En; cbn [bind]; [|left; exists w; auto|left; exists w; auto].
  destruct n as [|n]; cbn [Nat.eqb bind]; [left; exists w; auto|].
  destruct (rd p1 0) as [c0| |]; cbn [bind]; [|left; exists w; auto|left; exists w; auto].
  set (lead := if (c0 =? 48) && (1 <? Z.of_nat (S n)) then let! c1 := rd p1 1 in Ret (negb (c1 =? 46)) else Ret false).
  destruct lead as [[]| |]; cbn [bind]; [left; exists w; auto| |left; exists w; auto|left; exists w; auto].
  destruct (ask fails w) as [ok w'] eqn:Ea. destruct ok; cbn [negb fst snd].
  - left. exists w'. split; [auto|].
    destruct (rds p1 (S n)) as [str| |]; cbn [bind]; [|reflexivity|reflexivity].
    destruct (strtod str) as [[v x]|]; cbn [bind]; [|reflexivity].
    destruct (negb _); [reflexivity|]. destruct (skip_ws _) as [p2| |]; reflexivity.
  - right. exists neg, p1, n. auto.
Qed.

Lemma float_dec c : float_char c \/ ~ float_char c.
Proof. unfold float_char, digit. lia. Qed.

Lemma number_o_spec c r w l : terminated (c :: r) -> holds w l ->
  exists st d p1 w', number_parse_o fails (c :: r) w = Ret (st, d, p1, w') /\ (tick w <= tick w')%nat /\ holds w' l /\
    (number_parse (c :: r) = Ret (st, d, p1) \/ st = kException /\ float_char c /\ faulty (tick w) (tick w')).
Proof.
  intros HT H. destruct (ask_spec w l H) as (ok & w1 & Ea & T1 & H1 & F1).
  destruct (number_o_cases (c :: r) w) as [(w' & Hw & E)|(neg & p1 & n & E1 & E2 & E3 & E)].
  - assert (Hs : exists st d p1, number_parse (c :: r) = Ret (st, d, p1)).
    { destruct (number_parse_spec _ HT) as [(st & d & p1 & -> & _)|(t & d & w0 & rest & _ & _ & _ & _ & _ & _ & ->)]; eauto. }
    destruct Hs as (st & d & p1 & Es). rewrite Es in E. cbn [bind] in E.
    exists st, d, p1, w'. split; [auto|]. rewrite Ea in Hw. cbn [snd] in Hw. destruct Hw as [->| ->]; (split; [lia|]); auto.
  - rewrite Ea in *. cbn [fst snd] in *. exists kException, S754_nan, p1, w1. split; [auto|]. split; [lia|]. split; [auto|]. right.
    split; [reflexivity|]. split; [|auto].
    destruct (float_dec c) as [Hc|Hc]; [auto|]. exfalso.
    unfold parse_sign in E2. rewrite rd0 in E2. cbn [bind] in E2.
    destruct (Z.eqb_spec c 45); [apply Hc; unfold float_char; lia|].
    destruct (Z.eqb_spec c 43); [apply Hc; unfold float_char; lia|]. injection E2 as _ <-.
    cbn [compute_float_literal_length] in E3. destruct (is_float_char_spec c); [tauto|]. rewrite andb_false_r in E3. discriminate.
Qed.

(** The objects of an optional value. *)
Definition oids (o : option node) : list nat := match o with Some n => ids n | None => [] end.

Lemma parse_value_spec p w l parse (Q : status -> node -> ptr -> nat -> list nat -> Prop) :
  holds w l ->
  (forall id w1, holds w1 (id :: l) -> tick w1 = S (tick w) ->
     exists st n p1 w2 L, parse id w1 = Ret (st, n, p1, w2) /\ (tick w1 <= tick w2)%nat /\
       holds w2 (ids n ++ L ++ l) /\ Q st n p1 (tick w2) L) ->
  exists st on p1 w' L, parse_value fails p w parse = Ret (st, on, p1, w') /\ (tick w < tick w')%nat /\
    holds w' (oids on ++ L ++ l) /\
    ((st = kException /\ on = None /\ p1 = p /\ L = [] /\ faulty (tick w) (tick w')) \/
     (exists n, Q st n p1 (tick w') L /\ (st = kOk /\ on = Some n \/ st <> kOk /\ on = None))).
Proof.
  intros H HP. unfold parse_value. destruct (new_spec w l H) as ([id|] & w1 & -> & T1 & H1).
  - destruct (HP id w1 H1 T1) as (st & n & p1 & w2 & L & -> & T2 & H2 & HQ). cbn [bind].
    destruct (status_eq_dec st kOk) as [->|Hst].
    + rewrite status_eqb_refl. exists kOk, (Some n), p1, w2, L. split; [reflexivity|]. split; [lia|]. split; [auto|]. right. eauto.
    + rewrite status_eqb_neq by auto. destruct (delete_ok n w2 (L ++ l) H2) as (w3 & -> & T3 & H3). cbn [bind].
      exists st, None, p1, w3, L. split; [reflexivity|]. split; [lia|]. split; [auto|]. right. rewrite T3. eauto 10.
  - destruct H1 as [H1 F1]. exists kException, None, p, w1, []. split; [reflexivity|]. split; [lia|]. split; [auto|]. left. auto.
Qed.

Definition scalar (v : value) : Prop :=
  match v with VArray _ | VObject _ _ => False | _ => True end.

Definition scalar_post (p : ptr) (l : list nat) (a : nat) (r : option (status * option node * ptr)) (w' : world) : Prop :=
  match r with
  | Some (st, on, p') =>
      holds w' (oids on ++ l) /\ terminated p' /\ (exists u, p = u ++ p') /\
      match on with Some n => st = kOk /\ length (ids n) = 1%nat /\ scalar (erase n) | None => st <> kOk end /\
      ((forall fuel, parse_any (S fuel) p = Ret (st, option_map erase on, p')) \/
       (on = None /\ st = kException /\ faulty a (tick w')))
  | None =>
      holds w' l /\
      exists c r, p = c :: r /\
        ((c = 91 \/ c = 123) \/
         c <> 91 /\ c <> 123 /\ ((forall fuel, parse_any (S fuel) p = Ret (kExpectedJsonValue, None, p)) \/ faulty a (tick w')))
  end.

Lemma neqb a b : a <> b -> status_eqb a b = false.
Proof. apply status_eqb_neq. Qed.

Lemma scalar_spec p w l : terminated p -> bytes p -> holds w l ->
  exists r w', parse_scalar fails p w = Ret (r, w') /\ (tick w < tick w')%nat /\ scalar_post p l (tick w) r w'.
Proof.
  intros HT HB H. unfold parse_scalar.
  destruct (terminated_head p HT) as (c & r & ->).
  (* the string *)
  destruct (parse_value_spec (c :: r) w l (new_string fails (c :: r))
    (fun st n p1 t L => L = [] /\ length (ids n) = 1%nat /\ exists id s, n = NString id s /\
      (string_parse (c :: r) = Ret (st, s, p1) \/ st = kException /\ c :: r = 34 :: p1 /\ terminated p1 /\ faulty (tick w) t)) H)
    as (st & on & p1 & w1 & L & E & T1 & H1 & C).
  { intros id w1 H1 T1. unfold new_string.
    destruct (string_o_spec (c :: r) w1 (id :: l) HT HB H1) as (st & s & p1 & w2 & -> & T2 & H2 & C). cbn [bind].
    exists st, (NString id s), p1, w2, []. split; [reflexivity|]. split; [auto|]. split; [auto|]. split; [auto|]. split; [auto|].
    exists id, s. split; [auto|]. destruct C as [C|(-> & C & Ct & F)]; [auto|right]. split; [auto|]. split; [auto|]. split; [auto|].
    eapply faulty_wider; [exact F|lia|lia]. }
  rewrite E. cbn [bind]. clear E.
  destruct C as [(-> & -> & -> & -> & F)|(n & (-> & Hlen & id & s & -> & C) & Hon)].
  { rewrite !neqb by discriminate. cbn [orb negb]. do 2 eexists. split; [reflexivity|]. split; [auto|].
    cbn [scalar_post oids app]. split; [auto|]. split; [auto|]. split; [now exists []|]. split; [discriminate|]. auto. }
  destruct C as [C|(-> & C & Ct & F)].
  2:{ rewrite !neqb by discriminate. cbn [orb negb]. destruct Hon as [[? _]|[_ ->]]; [discriminate|]. do 2 eexists. split; [reflexivity|]. split; [auto|].
      cbn [scalar_post oids app]. split; [auto|]. split; [auto|]. split; [exists [34]; exact C|]. split; [discriminate|]. auto. }
  destruct (string_parse_spec (c :: r) HT HB) as [(E & Hn)|[(st' & r' & Er & E & Hst & Htr)|(t & s' & rest & Er & Hs & E & Htr)]];
    rewrite E in C; injection C as <- <- <-.
  2:{ destruct Hon as [[-> _]|[Hne ->]]; [destruct Hst as [?|[?|?]]; discriminate|].
      assert (Hne2 : st' <> kExpectedBeginingDoubleQuotes) by (destruct Hst as [->|[->| ->]]; discriminate).
      rewrite !neqb by auto. cbn [orb negb]. do 2 eexists. split; [reflexivity|]. split; [auto|].
      cbn [scalar_post oids app]. split; [auto|]. split; [auto|]. split; [exists [34]; exact Er|]. split; [auto|]. left. intros fuel. cbn [parse_any].
      rewrite E. cbn [bind]. rewrite !neqb by auto. reflexivity. }
  2:{ destruct Hon as [[_ ->]|[Hne _]]; [|congruence].
      rewrite status_eqb_refl. cbn [orb]. do 2 eexists. split; [reflexivity|]. split; [auto|].
      cbn [scalar_post oids app]. split; [auto|]. split; [auto|]. split; [exists (34 :: t ++ [34]); rewrite Er; flat|]. split; [cbn; auto|]. left. intros fuel.
      cbn [parse_any]. rewrite E. cbn [bind]. rewrite status_eqb_refl. reflexivity. }
  destruct Hon as [[? _]|[_ ->]]; [discriminate|].
  rewrite (neqb _ kOk) by discriminate. rewrite status_eqb_refl. cbn [orb negb].
  rename E into Es. assert (Hc34 : c <> 34) by (intros ->; exact (Hn r eq_refl)). clear Hn.
  cbn [oids app] in H1.
  (* the number *)
  destruct (parse_value_spec (c :: r) w1 l (new_number fails (c :: r))
    (fun st n p1 t L => L = [] /\ length (ids n) = 1%nat /\ exists id d, n = NNumber id d /\
      (number_parse (c :: r) = Ret (st, d, p1) \/ st = kException /\ float_char c /\ faulty (tick w) t)) H1)
    as (st & on & p1 & w2 & L & E & T2 & H2 & C).
  { intros id' w2 H2 T2. unfold new_number.
    destruct (number_o_spec c r w2 (id' :: l) HT H2) as (st & d & p1 & w3 & -> & T3 & H3 & C). cbn [bind].
    exists st, (NNumber id' d), p1, w3, []. split; [reflexivity|]. split; [auto|]. split; [auto|]. split; [auto|]. split; [auto|].
    exists id', d. split; [auto|]. destruct C as [C|(-> & C & F)]; [auto|right]. split; [auto|]. split; [auto|].
    eapply faulty_wider; [exact F|lia|lia]. }
  rewrite E. cbn [bind]. clear E.
  assert (HN : (exists st' on', st = st' /\ on = on' /\ L = [] /\ terminated p1 /\ (exists u, c :: r = u ++ p1) /\
                  (st' = kOk \/ st' = kNumbersCannotHaveLeadingZeros) /\
                  match on' with Some n => st' = kOk /\ length (ids n) = 1%nat /\ scalar (erase n) | None => st' <> kOk end /\
                  (forall fuel, parse_any (S fuel) (c :: r) = Ret (st', option_map erase on', p1))) \/
               (st <> kOk /\ st <> kNumbersCannotHaveLeadingZeros /\ on = None /\ L = [] /\
                  (number_parse (c :: r) = Ret (kFloatInvalid, S754_nan, p1) \/ faulty (tick w) (tick w2)) /\
                  (~ float_char c -> number_parse (c :: r) = Ret (kFloatInvalid, S754_nan, c :: r)))).
  { assert (Hnf : ~ float_char c -> number_parse (c :: r) = Ret (kFloatInvalid, S754_nan, c :: r)) by (intros; now apply number_parse_nonfloat).
    destruct C as [(-> & -> & -> & -> & F)|(n & (-> & Hlen2 & id' & d & -> & C) & Hon)].
    - right. repeat split; auto; try discriminate. right. eapply faulty_wider; [exact F|lia|lia].
    - destruct C as [C|(-> & C & F)].
      + destruct (number_parse_spec (c :: r) HT) as [(st' & d' & p1' & E' & Hst & Ht1 & (u & Hu))|(t & d' & w0 & rest & Er & Hnum & Hw & Hnw & Htr & Hnfl & E')].
        * rewrite E' in C. injection C as -> -> ->.
          destruct Hon as [[-> _]|[Hne ->]]; [destruct Hst; discriminate|].
          destruct Hst as [->| ->].
          -- right. repeat split; auto; try discriminate. left. rewrite E'.
             destruct (number_parse_spec (c :: r) HT) as [(st2 & d2 & p2 & E2 & _)|(t2 & d2 & w2' & rest2 & _ & _ & _ & _ & _ & _ & E2)];
               rewrite E2 in E'; [|discriminate].
             (* the value given with a failure is NaN *)
             unfold number_parse in E2. destruct (parse_sign (c :: r)) as [[neg q]| |] eqn:Eq; cbn [bind] in E2; try discriminate.
             destruct (parse_sign_spec (c :: r) HT) as (sg & neg' & w1' & q' & Es' & _ & _ & _ & _ & _ & Htq & _).
             rewrite Eq in Es'. injection Es' as <- <-.
             destruct (read_double_spec q Htq) as [(st3 & n3 & E3 & _)|(run & rest3 & pre & suf & n3 & m3 & e3 & -> & _ & _ & Htr3 & _ & _ & _ & _ & E3)];
               rewrite E3 in E2; cbn [bind] in E2.
             ++ destruct (negb (status_eqb st3 kOk)) eqn:Eb.
                ** injection E' as -> -> ->. injection E2 as -> -> ->. reflexivity.
                ** destruct (skip_ws (skipn n3 q)); cbn [bind] in E2; try discriminate. injection E2 as <- _ _. discriminate.
             ++ rewrite status_eqb_refl in E2. cbn [negb] in E2.
                destruct (skip_ws _); cbn [bind] in E2; try discriminate. injection E2 as <- _ _. discriminate.
          -- left. exists kNumbersCannotHaveLeadingZeros, None. repeat split; auto; try discriminate; try (eexists; eassumption).
             intros fuel. cbn [parse_any]. rewrite Es. cbn [bind].
             rewrite (neqb kExpectedBeginingDoubleQuotes kOk) by discriminate. rewrite status_eqb_refl. cbn [negb].
             rewrite E'. cbn [bind]. rewrite neqb by discriminate. rewrite status_eqb_refl. reflexivity.
        * rewrite E' in C. injection C as <- <- <-. destruct Hon as [[_ ->]|[Hne _]]; [|congruence].
          left. exists kOk, (Some (NNumber id' d')). repeat split; auto; [exists (t ++ w0); rewrite Er; flat|].
          intros fuel. cbn [parse_any]. rewrite Es. cbn [bind].
          rewrite (neqb kExpectedBeginingDoubleQuotes kOk) by discriminate. rewrite status_eqb_refl. cbn [negb].
          rewrite E'. cbn [bind]. rewrite status_eqb_refl. reflexivity.
      + destruct Hon as [[? _]|[_ ->]]; [discriminate|]. right. repeat split; auto; discriminate. }
  destruct HN as [(st' & on' & -> & -> & -> & Htp & Hu & Hst' & Hok & HP)|(Hst1 & Hst2 & -> & -> & HF & Hnf)].
  { assert (status_eqb st' kOk || status_eqb st' kNumbersCannotHaveLeadingZeros = true) as ->.
    { destruct Hst' as [->| ->]; [now rewrite status_eqb_refl|]. now rewrite status_eqb_refl, orb_true_r. }
    do 2 eexists. split; [reflexivity|]. split; [lia|]. cbn [scalar_post]. auto 10. }
  rewrite !neqb by auto. cbn [orb]. cbn [oids app] in H2. clear C H1.
  (* what the parser without failures does from here on *)
  assert (HP : forall fuel, number_parse (c :: r) = Ret (kFloatInvalid, S754_nan, p1) \/ number_parse (c :: r) = Ret (kFloatInvalid, S754_nan, c :: r) ->
    parse_any (S fuel) (c :: r) =
      (let! (st, b, p1) := bool_parse (c :: r) in
      if status_eqb st kOk then Ret (kOk, Some (VBool b), p1)
      else
      let! (st, p1) := null_parse (c :: r) in
      if status_eqb st kOk then Ret (kOk, Some VNull, p1)
      else
      let! (st, v, p1) := (if negb (c =? 91) then Ret (kExpectedOpeningSquareBrackets, None, c :: r)
                           else array_loop fuel [] true (c :: r)) in
      if status_eqb st kOk || negb (status_eqb st kExpectedOpeningSquareBrackets)
      then Ret (st, v, p1)
      else
      let! c := rd p1 0 in
      let! (st, v, p2) := (if negb (c =? 123) then Ret (kExpectedOpeningCurlyBraces, None, p1)
                           else object_loop fuel Leaf [] true p1) in
      if status_eqb st kOk || negb (status_eqb st kExpectedOpeningCurlyBraces)
         || status_eqb st kNumbersCannotHaveLeadingZeros
      then Ret (st, v, p2)
      else Ret (kExpectedJsonValue, None, p2))).
  { intros fuel HNP. cbn [parse_any]. rewrite Es. cbn [bind].
    rewrite (neqb kExpectedBeginingDoubleQuotes kOk) by discriminate. rewrite status_eqb_refl. cbn [negb].
    destruct HNP as [HNP|HNP]; rewrite HNP; cbn [bind]; rewrite !neqb by discriminate; rewrite rd0; reflexivity. }
  assert (HPN : bool_parse (c :: r) = Ret (kExpectedTrueOrFalse, true, c :: r) -> null_parse (c :: r) = Ret (kExpectedNull, c :: r) ->
     c <> 91 -> c <> 123 -> (forall fuel, parse_any (S fuel) (c :: r) = Ret (kExpectedJsonValue, None, c :: r)) \/ faulty (tick w) (tick w2)).
  { intros B1 B2 B3 B4. destruct HF as [HF|HF]; [left|right; auto]. intros fuel. rewrite HP by auto.
    rewrite B1. cbn [bind]. rewrite neqb by discriminate. rewrite B2. cbn [bind]. rewrite neqb by discriminate.
    destruct (Z.eqb_spec c 91); [congruence|]. cbn [negb bind]. rewrite status_eqb_refl, neqb by discriminate. cbn [orb negb].
    rewrite rd0. cbn [bind]. destruct (Z.eqb_spec c 123); [congruence|]. cbn [negb bind]. rewrite status_eqb_refl, !neqb by discriminate. reflexivity. }
  (* true and false *)
  assert (HBP : exists st b p1, bool_parse (c :: r) = Ret (st, b, p1)).
  { destruct (bool_parse_spec (c :: r) HT) as [E|[(r0 & _ & _ & E)|(r0 & _ & _ & E)]]; rewrite E; eauto. }
  destruct HBP as (bst & bb & bp & Eb).
  destruct (parse_value_spec (c :: r) w2 l (new_bool (c :: r))
    (fun st n p1 t L => L = [] /\ exists id, n = NBool id bb /\ st = bst /\ p1 = bp) H2)
    as (st3 & on3 & p3 & w3 & L3 & E & T3 & H3 & C).
  { intros id3 w3 H3 T3. unfold new_bool. rewrite Eb. cbn [bind].
    exists bst, (NBool id3 bb), bp, w3, []. split; [reflexivity|]. split; [lia|]. split; [auto|]. split; [auto|]. eauto. }
  rewrite E. cbn [bind]. clear E.
  assert (HB2 : forall b, bst = kOk -> bb = b -> (c = 116 \/ c = 102) -> terminated bp -> (exists u, c :: r = u ++ bp) ->
    forall fuel, parse_any (S fuel) (c :: r) = Ret (kOk, Some (VBool b), bp)).
  { intros b -> -> Hc _ _ fuel. rewrite HP by (right; apply Hnf; unfold float_char, digit; lia).
    rewrite Eb. cbn [bind]. now rewrite status_eqb_refl. }
  assert (Hnull : forall w3, (tick w2 < tick w3)%nat -> holds w3 l ->
    (forall u, c :: r = [110; 117; 108; 108] ++ u -> bool_parse (c :: r) = Ret (kExpectedTrueOrFalse, true, c :: r)) ->
    (null_parse (c :: r) = Ret (kExpectedNull, c :: r) -> c <> 91 -> c <> 123 ->
       (forall fuel, parse_any (S fuel) (c :: r) = Ret (kExpectedJsonValue, None, c :: r)) \/ faulty (tick w) (tick w3)) ->
    exists r0 w', (let! (st, n, p1, w0) := parse_value fails (c :: r) w3 (new_null (c :: r)) in
      if status_eqb st kOk then Ret (Some (st, n, p1), w0) else Ret (None, w0)) = Ret (r0, w') /\
      (tick w < tick w')%nat /\ scalar_post (c :: r) l (tick w) r0 w').
  { clear T3 H3 C w3. intros w3 T3 H3 HB3 HJ.
    assert (HNP : exists st p1, null_parse (c :: r) = Ret (st, p1)).
    { destruct (null_parse_spec (c :: r) HT) as [E|(r0 & _ & _ & E)]; rewrite E; eauto. }
    destruct HNP as (nst & np & En).
    destruct (parse_value_spec (c :: r) w3 l (new_null (c :: r))
      (fun st n p1 t L => L = [] /\ exists id, n = NNull id /\ st = nst /\ p1 = np) H3)
      as (st4 & on4 & p4 & w4 & L4 & E & T4 & H4 & C).
    { intros id4 w4 H4 T4. unfold new_null. rewrite En. cbn [bind].
      exists nst, (NNull id4), np, w4, []. split; [reflexivity|]. split; [lia|]. split; [auto|]. split; [auto|]. eauto. }
    rewrite E. cbn [bind]. clear E.
    destruct C as [(-> & -> & -> & -> & F)|(n & (-> & id4 & -> & -> & ->) & Hon)].
    - rewrite neqb by discriminate. exists None, w4. split; [reflexivity|]. split; [lia|]. cbn [scalar_post]. split; [auto|].
      exists c, r. split; [auto|].
      destruct (Z.eq_dec c 91); [auto|]. destruct (Z.eq_dec c 123); [auto|]. right. split; [auto|]. split; [auto|].
      right. eapply faulty_wider; [exact F|lia|lia].
    - destruct (null_parse_spec (c :: r) HT) as [E|(r0 & Er & Ht0 & E)]; rewrite E in En; injection En as <- <-.
      + destruct Hon as [[? _]|[_ ->]]; [discriminate|]. rewrite neqb by discriminate. exists None, w4. split; [reflexivity|]. split; [lia|].
        cbn [scalar_post]. split; [auto|]. exists c, r. split; [auto|].
        destruct (Z.eq_dec c 91) as [|H91]; [auto|]. destruct (Z.eq_dec c 123) as [|H123]; [auto|]. right. split; [auto|]. split; [auto|].
        destruct (HJ E H91 H123) as [HJ'|HJ']; [auto|]. right. eapply faulty_wider; [exact HJ'|lia|lia].
      + destruct Hon as [[_ ->]|[? _]]; [|congruence]. rewrite status_eqb_refl. exists (Some (kOk, Some (NNull id4), r0)), w4.
        split; [reflexivity|]. split; [lia|]. cbn [scalar_post]. split; [auto|]. split; [auto|]. split; [exists [110; 117; 108; 108]; auto|].
        split; [cbn; auto|]. left. intros fuel. pose proof (HB3 r0 Er) as HB4. injection Er as Hc _.
        rewrite HP by (right; apply Hnf; unfold float_char, digit; lia).
        rewrite HB4. cbn [bind]. rewrite neqb by discriminate. rewrite E. cbn [bind]. rewrite status_eqb_refl. reflexivity. }
  destruct C as [(-> & -> & -> & -> & F)|(n & (-> & id3 & -> & -> & ->) & Hon)].
  - rewrite neqb by discriminate. cbn [oids app] in H3. apply Hnull; auto.
    + intros u Eu. injection Eu as -> _. apply bool_parse_other; discriminate.
    + intros _ _ _. right. eapply faulty_wider; [exact F|lia|lia].
  - destruct (bool_parse_spec (c :: r) HT) as [E|[(r0 & Er & Ht0 & E)|(r0 & Er & Ht0 & E)]]; rewrite E in Eb; injection Eb as <- <- <-.
    + destruct Hon as [[? _]|[_ ->]]; [discriminate|]. rewrite neqb by discriminate. cbn [oids app] in H3. apply Hnull; auto.
      intros B1 B2 B3. destruct (HPN E B1 B2 B3) as [HJ|HJ]; [auto|]. right. eapply faulty_wider; [exact HJ|lia|lia].
    + destruct Hon as [[_ ->]|[? _]]; [|congruence]. rewrite status_eqb_refl. do 2 eexists. split; [reflexivity|]. split; [lia|].
      cbn [scalar_post]. split; [auto|]. split; [auto|]. split; [exists [116; 114; 117; 101]; auto|].
      split; [cbn; auto|]. left. intros fuel. apply (HB2 true); auto; [left; injection Er as -> _; auto|exists [116; 114; 117; 101]; exact Er].
    + destruct Hon as [[_ ->]|[? _]]; [|congruence]. rewrite status_eqb_refl. do 2 eexists. split; [reflexivity|]. split; [lia|].
      cbn [scalar_post]. split; [auto|]. split; [auto|]. split; [exists [102; 97; 108; 115; 101]; auto|].
      split; [cbn; auto|]. left. intros fuel. apply (HB2 false); auto; [right; injection Er as -> _; auto|exists [102; 97; 108; 115; 101]; exact Er].
Qed.
End Own.
