(** * Proofs about maps with other keys. *)

From Coq Require Import Permutation Sorted.
From Verif Require Import Base TextModel StringModel ToolsModel MapModel KeyModel SpecMap MapProofs SpecKey.

Section Generic.
Variable c : key_class.
Variable good : ptr -> Prop.
Hypothesis O : ordered (key_less c) (key_equal c) good.
Context {A : Type}.
Implicit Types (t : tree A) (l : list (ptr * A)).

Notation lt a b := (key_less c a b = Ret true).
Notation eqv a b := (key_equal c a b = Ret true).

Lemma cases a b : good a -> good b ->
  (lt a b /\ key_less c b a = Ret false /\ key_equal c a b = Ret false) \/
  (key_less c a b = Ret false /\ key_less c b a = Ret false /\ eqv a b) \/
  (lt b a /\ key_less c a b = Ret false /\ key_equal c a b = Ret false).
Proof.
  intros Ga Gb. destruct O as (H & _). destruct (H a b Ga Gb) as (x & y & z & -> & -> & -> & D).
  destruct D as [D|[D|D]]; injection D as -> -> ->; auto.
Qed.

Lemma lt_trans a b d : good a -> good b -> good d -> lt a b -> lt b d -> lt a d.
Proof. destruct O as (_ & H & _). apply H. Qed.

Lemma lt_eqv a b d : good a -> good b -> good d -> lt a b -> eqv b d -> lt a d.
Proof.
  intros Ga Gb Gd L E. destruct O as (_ & _ & _ & Sym & Tr).
  destruct (cases a d Ga Gd) as [(X & _)|[(_ & _ & X)|(X & _ & _)]]; trivial; exfalso.
  - pose proof (Tr a d b Ga Gd Gb X (Sym b d Gb Gd E)) as Y.
    destruct (cases a b Ga Gb) as [(_ & _ & Z)|[(Z & _ & _)|(_ & Z & _)]]; congruence.
  - pose proof (lt_trans d a b Gd Ga Gb X L) as Y.
    destruct (cases d b Gd Gb) as [(_ & _ & Z)|[(Z & _ & _)|(_ & Z & _)]]; try congruence.
    rewrite (Sym b d Gb Gd E) in Z. congruence.
Qed.

Lemma eqv_lt a b d : good a -> good b -> good d -> eqv a b -> lt b d -> lt a d.
Proof.
  intros Ga Gb Gd E L. destruct O as (_ & _ & _ & Sym & Tr).
  destruct (cases a d Ga Gd) as [(X & _)|[(_ & _ & X)|(X & _ & _)]]; trivial; exfalso.
  - pose proof (Tr b a d Gb Ga Gd (Sym a b Ga Gb E) X) as Y.
    destruct (cases b d Gb Gd) as [(_ & _ & Z)|[(Z & _ & _)|(_ & Z & _)]]; congruence.
  - pose proof (lt_trans b d a Gb Gd Ga L X) as Y.
    destruct (cases b a Gb Ga) as [(_ & _ & Z)|[(Z & _ & _)|(_ & Z & _)]]; try congruence.
    rewrite (Sym a b Ga Gb E) in Z. congruence.
Qed.

Lemma lt_not_eqv a b : good a -> good b -> lt a b -> is_true (key_equal c a b) = false /\ is_true (key_equal c b a) = false.
Proof.
  intros Ga Gb L. split.
  - destruct (cases a b Ga Gb) as [(_ & _ & Z)|[(Z & _ & _)|(_ & Z & _)]]; try congruence. rewrite Z. reflexivity.
  - destruct (cases b a Gb Ga) as [(X & Y & Z)|[(_ & Z & _)|(_ & _ & Z)]]; try congruence. rewrite Z. reflexivity.
Qed.

Definition goods (l : list (ptr * A)) : Prop := Forall (fun p => good (fst p)) l.

Notation srt := (sorted (key_less c)).

Lemma srt_app l1 l2 : srt (l1 ++ l2) <-> srt l1 /\ srt l2 /\ (forall x y, In x l1 -> In y l2 -> lt (fst x) (fst y)).
Proof.
  unfold sorted. induction l1 as [|p l1 IH]; simpl.
  - split; [intros H; repeat split; trivial; [constructor|intros ? ? []]|tauto].
  - split.
    + intros H. inversion H as [|? ? S F]; subst. apply IH in S. destruct S as (S1 & S2 & S3).
      rewrite Forall_app in F. destruct F as [F1 F2]. repeat split; trivial; [constructor; trivial|].
      intros x y [<-|Ix] Iy; [rewrite Forall_forall in F2; auto|auto].
    + intros (S1 & S2 & S3). inversion S1 as [|? ? S F]; subst. constructor; [apply IH; repeat split; auto|].
      apply Forall_app. split; trivial. apply Forall_forall. auto.
Qed.

Lemma srt_node (l r : tree A) k v b : srt (elements (Node l k v b r)) <->
  srt (elements l) /\ srt (elements r) /\ (forall x, In x (elements l) -> lt (fst x) k) /\
  (forall x, In x (elements r) -> lt k (fst x)) /\ (forall x y, In x (elements l) -> In y (elements r) -> lt (fst x) (fst y)).
Proof.
  change (elements (Node l k v b r)) with (elements l ++ [(k, v)] ++ elements r).
  rewrite srt_app. rewrite (srt_app [(k, v)] (elements r)). split.
  - intros (S1 & (_ & S2 & H) & H2). repeat split; trivial.
    + intros x I. apply (H2 x (k, v) I). simpl. auto.
    + intros x I. apply (H (k, v) x); simpl; auto.
    + intros x y I J. apply H2; trivial. simpl. auto.
  - intros (S1 & S2 & H1 & H2 & H3). repeat split; trivial.
    + repeat constructor.
    + intros x y [<-|[]] I. auto.
    + intros x y I [<-|J]; auto.
Qed.

Lemma goods_node (l r : tree A) k v b : goods (elements (Node l k v b r)) <-> goods (elements l) /\ good k /\ goods (elements r).
Proof.
  unfold goods. change (elements (Node l k v b r)) with (elements l ++ (k, v) :: elements r). rewrite Forall_app. split.
  - intros [H1 H2]. inversion H2; auto.
  - intros (H1 & H2 & H3). auto.
Qed.

Lemma key_insert_at_ok t : forall up key e,
  avl t -> ctx_ok up (height t) -> good key -> goods (elements t) -> srt (elements t) ->
  (key_insert_at c t up key e = Ret (zip t up, false) /\ exists p, In p (elements t) /\ eqv key (fst p)) \/
  (exists t' l1 l2, key_insert_at c t up key e = Ret (t', true) /\
     (t <> Leaf \/ up = [] -> avl t') /\
     elements t = l1 ++ l2 /\
     elements t' = before up ++ l1 ++ (key, e) :: l2 ++ after up /\
     (forall x, In x l1 -> lt (fst x) key) /\
     (forall x, In x l2 -> lt key (fst x))).
Proof.
  induction t as [|l IHl k v b r IHr]; intros up key e Ha Hc Hk Hg Hb.
  - right. simpl. exists (zip (Node Leaf key e 0 Leaf) up), [], []. simpl.
    split; [reflexivity|]. split.
    { intros [H| ->]; [congruence|]. simpl. lia. }
    split; [reflexivity|]. split; [|simpl; tauto].
    rewrite elements_zip. reflexivity.
  - apply goods_node in Hg. destruct Hg as (Hgl & Hgk & Hgr).
    apply srt_node in Hb. destruct Hb as (Hbl & Hbr & Hlt & Hgt & _).
    assert (Gl : forall x, In x (elements l) -> good (fst x)) by (intros x Ix; unfold goods in Hgl; rewrite Forall_forall in Hgl; auto).
    assert (Gr : forall x, In x (elements r) -> good (fst x)) by (intros x Ix; unfold goods in Hgr; rewrite Forall_forall in Hgr; auto).
    pose proof Ha as Ha'. simpl in Ha'. destruct Ha' as (Hal & Har & Eb & Rb).
    simpl key_insert_at.
    destruct (cases key k Hk Hgk) as [(HL & E & _)|[(E1 & E2 & HE)|(E2 & E1 & _)]].
    + rewrite HL. cbn [bind]. destruct l as [|ll lk lv lb lr].
      * right. destruct (insert_left_ok k v b r up key e Ha Hc) as (t' & H1 & H2 & H3).
        exists t', [], ((k, v) :: elements r). rewrite H1. simpl.
        split; [reflexivity|]. split; [auto|]. split; [reflexivity|]. split; [auto|].
        split; [tauto|]. intros x [<-|Hx]; trivial.
        apply lt_trans with k; auto.
      * set (L := Node ll lk lv lb lr) in *.
        assert (Hc' : ctx_ok (FL k v b r :: up) (height L)).
        { simpl. repeat split; auto; lia. }
        destruct (IHl (FL k v b r :: up) key e Hal Hc' Hk Hgl Hbl)
          as [(H1 & p & H2 & H3)|(t' & l1 & l2 & H1 & H2 & H3 & H4 & H5 & H6)].
        -- left. split; [exact H1|]. exists p. split; trivial. simpl. rewrite in_app_iff. auto.
        -- right. exists t', l1, (l2 ++ (k, v) :: elements r). split; [auto|].
           split. { intros _. apply H2. left. discriminate. }
           split. { change (elements (Node L k v b r)) with (elements L ++ (k, v) :: elements r).
                    rewrite H3. now rewrite <- app_assoc. }
           split. { rewrite H4. apps. }
           split; [auto|]. intros x Hx. rewrite in_app_iff in Hx. simpl in Hx.
           destruct Hx as [Hx|[<-|Hx]]; auto. apply lt_trans with k; auto.
    + rewrite E1, E2. cbn [bind]. left. split; trivial.
      exists (k, v). split; trivial. simpl. rewrite in_app_iff. simpl. auto.
    + rewrite E1, E2. cbn [bind]. destruct r as [|rl rk rv rb rr].
      * right. destruct (insert_right_ok l k v b up key e Ha Hc) as (t' & H1 & H2 & H3).
        exists t', (elements l ++ [(k, v)]), []. rewrite H1. simpl.
        split; [reflexivity|]. split; [auto|]. split; [now rewrite app_nil_r|].
        split; [rewrite H3; now rewrite <- app_assoc|].
        split; [|tauto]. intros x Hx. rewrite in_app_iff in Hx. simpl in Hx.
        destruct Hx as [Hx|[<-|[]]]; auto. apply lt_trans with k; auto.
      * set (R := Node rl rk rv rb rr) in *.
        assert (Hc' : ctx_ok (FR l k v b :: up) (height R)).
        { simpl. repeat split; auto; lia. }
        destruct (IHr (FR l k v b :: up) key e Har Hc' Hk Hgr Hbr)
          as [(H1 & p & H2 & H3)|(t' & l1 & l2 & H1 & H2 & H3 & H4 & H5 & H6)].
        -- left. split; [exact H1|]. exists p. split; trivial. simpl. rewrite in_app_iff. simpl. auto.
        -- right. exists t', (elements l ++ (k, v) :: l1), l2. split; [auto|].
           split. { intros _. apply H2. left. discriminate. }
           split. { change (elements (Node l k v b R)) with (elements l ++ (k, v) :: elements R).
                    rewrite H3. now rewrite <- app_assoc. }
           split. { rewrite H4. simpl. rewrite <- !app_assoc. reflexivity. }
           split; [|auto]. intros x Hx. rewrite in_app_iff in Hx. simpl in Hx.
           destruct Hx as [Hx|[<-|Hx]]; auto. apply lt_trans with k; auto.
Qed.

Notation fe := (first_equal (key_equal c)).

Lemma fe_app k l1 l2 : fe k (l1 ++ l2) = match fe k l1 with Some e => Some e | None => fe k l2 end.
Proof.
  unfold first_equal. induction l1 as [|p l1 IH]; simpl; trivial. destruct (is_true (key_equal c k (fst p))); simpl; trivial.
Qed.

Lemma fe_none k l : (forall p, In p l -> is_true (key_equal c k (fst p)) = false) -> fe k l = None.
Proof.
  unfold first_equal. induction l as [|p l IH]; simpl; intros H; trivial. rewrite (H p) by auto. auto.
Qed.

Lemma key_find_ok t key : good key -> goods (elements t) -> srt (elements t) -> key_find c t key = Ret (fe key (elements t)).
Proof.
  intros Hk. induction t as [|l IHl k v b r IHr]; intros Hg Hb; [reflexivity|].
  apply goods_node in Hg. destruct Hg as (Hgl & Hgk & Hgr).
  apply srt_node in Hb. destruct Hb as (Hbl & Hbr & Hlt & Hgt & _).
  assert (Gl : forall x, In x (elements l) -> good (fst x)) by (intros x Ix; unfold goods in Hgl; rewrite Forall_forall in Hgl; auto).
  assert (Gr : forall x, In x (elements r) -> good (fst x)) by (intros x Ix; unfold goods in Hgr; rewrite Forall_forall in Hgr; auto).
  simpl key_find. simpl elements. rewrite fe_app. change ((k, v) :: elements r) with ([(k, v)] ++ elements r). rewrite fe_app.
  destruct (cases key k Hk Hgk) as [(HL & E & N)|[(E1 & E2 & HE)|(E2 & E1 & N)]].
  - rewrite HL. cbn [bind]. rewrite IHl by trivial. destruct (fe key (elements l)); trivial.
    unfold first_equal at 1. simpl. rewrite N. simpl. rewrite fe_none; trivial.
    intros p Ip. apply (proj1 (lt_not_eqv key (fst p) Hk (Gr p Ip) (lt_trans key k (fst p) Hk Hgk (Gr p Ip) HL (Hgt p Ip)))).
  - rewrite E1, E2. cbn [bind]. rewrite fe_none.
    + unfold first_equal at 1. simpl. rewrite HE. reflexivity.
    + intros p Ip. apply lt_not_eqv; auto. destruct O as (_ & _ & _ & Sym & _). apply lt_eqv with k; auto.
  - rewrite E1, E2. cbn [bind]. rewrite IHr by trivial. rewrite (fe_none key (elements l)).
    + unfold first_equal at 2. simpl. rewrite N. reflexivity.
    + intros p Ip. apply lt_not_eqv; auto. apply lt_trans with k; auto.
Qed.

(** ** Sequences of insertions *)

Notation sees k l := (existsb (fun s => is_true (key_equal c k s)) (map fst l)).

Lemma firsts_app l2 : forall l1 seen, firsts (key_equal c) seen (l1 ++ l2) =
  firsts (key_equal c) seen l1 ++ firsts (key_equal c) (seen ++ map fst l1) l2 :> list (ptr * A).
Proof.
  induction l1 as [|[k e] l1 IH]; intros seen; simpl; [rewrite app_nil_r; trivial|].
  rewrite IH, <- !app_assoc. reflexivity.
Qed.

Lemma firsts_in l : forall seen p, In p (firsts (key_equal c) seen l) -> In p l.
Proof.
  induction l as [|[k e] l IH]; intros seen p H; simpl in *; trivial. rewrite in_app_iff in H.
  destruct H as [H|H]; [|right; eauto]. destruct (existsb _ seen); [destruct H|]. destruct H as [H|[]]; auto.
Qed.

(** A key equal to one of [l] is equal to one of the first ones. *)
Lemma firsts_sees l key : good key -> goods l ->
  sees key l = existsb (fun s => is_true (key_equal c key s)) (map fst (firsts (key_equal c) [] l)).
Proof.
  intros Gk. induction l as [|[k e] l IH] using rev_ind; intros G; trivial.
  apply Forall_app in G. destruct G as [Gl Ge]. inversion Ge as [|? ? Gkk _]; subst. simpl in Gkk.
  rewrite firsts_app, !map_app, !existsb_app, IH by trivial. simpl. rewrite app_nil_r.
  destruct (existsb (fun s => is_true (key_equal c k s)) (map fst l)) eqn:S; [|reflexivity].
  simpl. rewrite !orb_false_r.
  destruct (is_true (key_equal c key k)) eqn:E; [|rewrite orb_false_r; trivial].
  rewrite orb_true_r. rewrite <- IH by trivial. symmetry. apply existsb_exists in S. destruct S as (s & Is & Es).
  apply existsb_exists. exists s. split; trivial. apply in_map_iff in Is. destruct Is as (p & <- & Ip).
  assert (Gp : good (fst p)) by (unfold goods in Gl; rewrite Forall_forall in Gl; auto).
  unfold is_true in *. destruct O as (_ & _ & _ & _ & Tr).
  rewrite (Tr key k (fst p)); trivial.
  - destruct (key_equal c key k) as [[|]| |]; congruence.
  - destruct (key_equal c k (fst p)) as [[|]| |]; congruence.
Qed.

Lemma fe_sees k l : fe k l = None <-> sees k l = false.
Proof.
  unfold first_equal. induction l as [|p l IH]; simpl; [split; trivial|].
  destruct (is_true (key_equal c k (fst p))); simpl; [split; discriminate|exact IH].
Qed.

Lemma firsts_fe l key : good key -> goods l -> fe key (firsts (key_equal c) [] l) = fe key l.
Proof.
  intros Gk. induction l as [|[k e] l IH] using rev_ind; intros G; trivial.
  apply Forall_app in G. destruct G as [Gl Ge]. inversion Ge as [|? ? Gkk _]; subst. simpl in Gkk.
  rewrite firsts_app, !fe_app, IH by trivial. destruct (fe key l) eqn:F; trivial.
  simpl. rewrite app_nil_r. apply fe_sees in F.
  destruct (existsb (fun s => is_true (key_equal c k s)) (map fst l)) eqn:S; trivial.
  unfold first_equal. simpl. destruct (is_true (key_equal c key k)) eqn:E; trivial. exfalso.
  apply existsb_exists in S. destruct S as (s & Is & Es).
  apply Bool.not_true_iff_false in F. apply F.
  apply existsb_exists. exists s. split; trivial. apply in_map_iff in Is. destruct Is as (p & <- & Ip).
  assert (Gp : good (fst p)) by (unfold goods in Gl; rewrite Forall_forall in Gl; auto).
  unfold is_true in *. destruct O as (_ & _ & _ & _ & Tr).
  rewrite (Tr key k (fst p)); trivial.
  - destruct (key_equal c key k) as [[|]| |]; congruence.
  - destruct (key_equal c k (fst p)) as [[|]| |]; congruence.
Qed.

(** In a sorted list at most one key equals a given one. *)
Lemma fe_perm l l' key : good key -> goods l -> srt l -> Permutation l l' -> fe key l' = fe key l.
Proof.
  intros Gk G S P.
  assert (U : forall p q, In p l -> In q l -> is_true (key_equal c key (fst p)) = true -> is_true (key_equal c key (fst q)) = true -> p = q).
  { clear P l'. unfold goods in G. induction S as [|x l S IH F]; [intros p q []|]. inversion G as [|? ? Gx Gl]; subst.
    rewrite Forall_forall in F, Gl.
    assert (N : forall y, In y l -> is_true (key_equal c key (fst x)) = true -> is_true (key_equal c key (fst y)) = true -> False).
    { intros y Iy Ex Ey. destruct O as (_ & _ & _ & Sym & Tr).
      destruct (lt_not_eqv (fst x) (fst y) Gx (Gl y Iy) (F y Iy)) as [N _].
      rewrite (Tr (fst x) key (fst y)) in N; auto; [discriminate| |].
      - apply Sym; trivial. unfold is_true in Ex. destruct (key_equal c key (fst x)) as [[|]| |]; congruence.
      - unfold is_true in Ey. destruct (key_equal c key (fst y)) as [[|]| |]; congruence. }
    intros p q [<-|Ip] [<-|Iq] Ep Eq; trivial; [destruct (N q)|destruct (N p)|]; auto.
    apply IH; trivial. apply Forall_forall. trivial. }
  assert (In_fe : forall (m : list (ptr * A)) e, fe key m = Some e -> exists p, In p m /\ is_true (key_equal c key (fst p)) = true /\ snd p = e).
  { intros m e. unfold first_equal. destruct (find _ m) as [p|] eqn:F; [|discriminate]. simpl. intros X. injection X as <-.
    apply find_some in F. destruct F. eauto. }
  assert (No_fe : forall m : list (ptr * A), fe key m = None -> forall p, In p m -> is_true (key_equal c key (fst p)) = false).
  { intros m. unfold first_equal. destruct (find _ m) as [p|] eqn:F; [discriminate|]. intros _ p Ip. apply (find_none _ _ F p Ip). }
  destruct (fe key l) as [e|] eqn:E, (fe key l') as [e'|] eqn:E'; trivial.
  - destruct (In_fe _ _ E) as (p & Ip & Tp & <-). destruct (In_fe _ _ E') as (q & Iq & Tq & <-).
    rewrite (U p q); trivial. apply (Permutation_in _ (Permutation_sym P)). trivial.
  - destruct (In_fe _ _ E) as (p & Ip & Tp & <-). rewrite (No_fe _ E' p) in Tp; [discriminate|]. apply (Permutation_in _ P). trivial.
  - destruct (In_fe _ _ E') as (p & Ip & Tp & <-). rewrite (No_fe _ E p) in Tp; [discriminate|]. apply (Permutation_in _ (Permutation_sym P)). trivial.
Qed.

Lemma key_insert_ok t key e : avl t -> good key -> goods (elements t) -> srt (elements t) ->
  exists t' f, key_insert c t key e = Ret (t', f) /\ avl t' /\ goods (elements t') /\ srt (elements t') /\
    f = negb (sees key (elements t)) /\
    Permutation (elements t') (elements t ++ (if f then [(key, e)] else [])).
Proof.
  intros Ha Hk Hg Hs. unfold key_insert.
  destruct (key_insert_at_ok t [] key e Ha I Hk Hg Hs) as [(E & p & Ip & Ep)|(t' & l1 & l2 & E & Av & E1 & E2 & L1 & L2)].
  - exists t, false. simpl in E. split; trivial. do 3 (split; [trivial|]). split; [|rewrite app_nil_r; trivial].
    symmetry. apply negb_false_iff. apply existsb_exists. exists (fst p). split; [apply in_map; trivial|]. rewrite Ep. reflexivity.
  - exists t', true. simpl in E2. rewrite app_nil_r in E2. rewrite E1 in Hg, Hs |- *. apply Forall_app in Hg. destruct Hg as [G1 G2].
    apply srt_app in Hs. destruct Hs as (S1 & S2 & S3).
    split; trivial. split; [apply Av; auto|]. rewrite E2. split; [|split; [|split]].
    + apply Forall_app. split; trivial. constructor; trivial.
    + apply srt_app. split; [trivial|]. split.
      * change ((key, e) :: l2) with ([(key, e)] ++ l2). apply srt_app. split; [repeat constructor|]. split; trivial.
        intros x y [<-|[]] Iy. auto.
      * intros x y Ix [<-|Iy]; auto.
    + symmetry. apply negb_true_iff. apply Bool.not_true_iff_false. intros X. apply existsb_exists in X. destruct X as (s & Is & Es).
      apply in_map_iff in Is. destruct Is as (p & <- & Ip). unfold goods in *. rewrite Forall_forall in G1, G2.
      apply in_app_iff in Ip. destruct Ip as [Ip|Ip].
      * destruct (lt_not_eqv (fst p) key (G1 p Ip) Hk (L1 p Ip)). congruence.
      * destruct (lt_not_eqv key (fst p) Hk (G2 p Ip) (L2 p Ip)). congruence.
    + rewrite <- app_assoc. apply Permutation_app_head. simpl. apply Permutation_cons_append.
Qed.

Lemma sees_perm k l l' : Permutation l l' -> sees k l = sees k l'.
Proof.
  intros P. destruct (sees k l) eqn:E.
  - symmetry. apply existsb_exists in E. destruct E as (s & Is & Es). apply existsb_exists. exists s. split; trivial.
    apply (Permutation_in _ (Permutation_map fst P)). trivial.
  - symmetry. apply Bool.not_true_iff_false. intros X. apply existsb_exists in X. destruct X as (s & Is & Es).
    apply Bool.not_true_iff_false in E. apply E. apply existsb_exists. exists s. split; trivial.
    apply (Permutation_in _ (Permutation_map fst (Permutation_sym P))). trivial.
Qed.

Lemma key_insert_all_ok l : forall t done, avl t -> goods done -> goods l -> srt (elements t) ->
  Permutation (elements t) (firsts (key_equal c) [] done) ->
  exists t', key_insert_all c t l = Ret (t', is_first (key_equal c) (map fst done) l) /\ avl t' /\ goods (elements t') /\
    srt (elements t') /\ Permutation (elements t') (firsts (key_equal c) [] (done ++ l)).
Proof.
  induction l as [|[k e] l IH]; intros t done Av Gd Gl Sr P.
  - exists t. rewrite app_nil_r. repeat (split; trivial).
    unfold goods in *. rewrite Forall_forall in *. intros p Ip. apply Gd. apply (firsts_in done []). apply (Permutation_in _ P). trivial.
  - inversion Gl as [|? ? Gk Gl']; subst. simpl in Gk.
    assert (Gt : goods (elements t)).
    { unfold goods in *. rewrite Forall_forall in *. intros p Ip. apply Gd. apply (firsts_in done []). apply (Permutation_in _ P). trivial. }
    destruct (key_insert_ok t k e Av Gk Gt Sr) as (t1 & f & E & Av1 & Gt1 & Sr1 & Ef & P1).
    assert (Fs : sees k (elements t) = sees k done).
    { rewrite (sees_perm _ _ _ P). symmetry. apply firsts_sees; trivial. }
    assert (Gd1 : goods (done ++ [(k, e)])) by (apply Forall_app; split; trivial; repeat constructor; trivial).
    destruct (IH t1 (done ++ [(k, e)]) Av1 Gd1 Gl' Sr1) as (t2 & E2 & Av2 & Gt2 & Sr2 & P2).
    { rewrite P1, P, firsts_app. apply Permutation_app_head. simpl. rewrite app_nil_r, Ef, Fs.
      destruct (existsb _ (map fst done)); reflexivity. }
    exists t2. simpl. rewrite E. cbn [bind]. rewrite E2. cbn [bind]. rewrite map_app in *. simpl in *.
    rewrite <- app_assoc in P2. simpl in P2. rewrite Ef, Fs. repeat (split; trivial).
Qed.

End Generic.
