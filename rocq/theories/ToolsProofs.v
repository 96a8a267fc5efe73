(** * Proofs about searching, comparing and reading in texts *)

From Verif Require Import Base TextModel StringModel ToolsModel SpecNum SpecText SpecMap SpecTools.

Lemma max_rounds_ok max : - 2 ^ 31 < max -> max_rounds max = Ret (Z.to_nat max).
Proof. intros H. unfold max_rounds, dec. destruct (Z.leb_spec max (- 2 ^ 31)); [lia|reflexivity]. Qed.

Lemma holds_nil p : holds p [] -> exists r, p = 0 :: r.
Proof. intros [_ (r & ->)]. simpl. eauto. Qed.

Lemma holds_cons p c s : holds p (c :: s) -> exists p', p = c :: p' /\ c <> 0 /\ holds p' s.
Proof. intros [H (r & ->)]. inversion_clear H. simpl. eexists. repeat split; eauto. Qed.

Lemma cut_O p s : cut p 0 s -> s = [].
Proof. intros (_ & [[H _]|[H _]]); destruct s; simpl in *; trivial; lia. Qed.

Lemma cut_S_nil p n : cut p (S n) [] -> exists r, p = 0 :: r.
Proof. intros (_ & [[_ (r & ->)]|[H _]]); simpl in *; [eauto|lia]. Qed.

Lemma cut_S_cons p n c s : cut p (S n) (c :: s) -> exists p', p = c :: p' /\ c <> 0 /\ cut p' n s.
Proof.
  intros (H & H'). inversion_clear H. destruct H' as [[L (r & ->)]|[L (r & ->)]]; simpl in *;
    eexists; (split; [reflexivity|]); (split; [assumption|]); (split; [assumption|]).
  - left. split; [lia|]. exists r. reflexivity.
  - right. split; [lia|]. exists r. reflexivity.
Qed.

Lemma cut_intro p n : In 0 p \/ (n <= length p)%nat -> exists s, cut p n s.
Proof.
  revert p. induction n as [|n IH]; intros p H.
  - exists []. split; [constructor|]. right. split; [reflexivity|]. exists p. reflexivity.
  - destruct p as [|c p]; [simpl in H; destruct H; [tauto|lia]|].
    destruct (Z.eq_dec c 0) as [->|N].
    + exists []. split; [constructor|]. left. split; [simpl; lia|]. exists p. reflexivity.
    + destruct (IH p) as (s & Hs & Hr).
      { simpl in H. destruct H as [[H|H]|H]; [congruence|tauto|right; lia]. }
      exists (c :: s). split; [constructor; trivial|].
      destruct Hr as [[L (r & ->)]|[L (r & ->)]]; [left|right]; split; simpl; try lia; eexists; reflexivity.
Qed.

Lemma holds_cut p s n : holds p s -> cut p n (firstn n s).
Proof.
  revert p s. induction n as [|n IH]; intros p s H.
  - split; [constructor|]. right. split; [reflexivity|]. exists p. reflexivity.
  - destruct s as [|c s].
    + destruct (holds_nil _ H) as (r & ->). split; [constructor|]. left. split; [simpl; lia|]. exists r. reflexivity.
    + destruct (holds_cons _ _ _ H) as (p' & -> & N & H'). destruct (IH _ _ H') as (Hs & Hr).
      split; [constructor; trivial|].
      destruct Hr as [[L (r & ->)]|[L (r & ->)]]; [left|right]; split; simpl; try lia; eexists; reflexivity.
Qed.

(** ** Searching *)

Lemma first_at_shift (P Q : nat -> Prop) r : ~ P O -> (forall j, P (S j) <-> Q j) ->
  forall x, first_at Q r -> x = (if r =? -1 then -1 else r + 1) -> first_at P x.
Proof.
  intros HO HS x [[-> N]|(n & -> & Hn & N)] ->.
  - left. split; [reflexivity|]. intros [|j]; [trivial|]. rewrite HS. apply N.
  - right. exists (S n). split; [destruct (Z.eqb_spec (Z.of_nat n) (-1)); lia|]. split; [apply HS; trivial|].
    intros [|j] L; [trivial|]. rewrite HS. apply N. lia.
Qed.

(** Results of a search started at position [i]. *)
Definition shift (i r : Z) : Z := if r =? -1 then -1 else i + r.

Lemma shift_0 r : shift 0 r = r.
Proof. unfold shift. destruct (Z.eqb_spec r (-1)); lia. Qed.

Lemma first_here (P : nat -> Prop) : P O -> first_at P 0.
Proof. intros H. right. exists O. repeat split; trivial. intros j L. lia. Qed.

Lemma first_none (P : nat -> Prop) : (forall j, ~ P j) -> first_at P (-1).
Proof. intros H. left. split; trivial. Qed.

Lemma first_next (P Q : nat -> Prop) i r : first_at Q r -> ~ P O -> (forall j, P (S j) <-> Q j) ->
  exists r', first_at P r' /\ shift (i + 1) r = shift i r'.
Proof.
  intros HQ HO HS. exists (shift 1 r). split.
  - apply (first_at_shift P Q r HO HS _ HQ). unfold shift. destruct (r =? -1); lia.
  - destruct HQ as [[-> _]|(n & -> & _)]; unfold shift; simpl; [reflexivity|].
    destruct (Z.eqb_spec (Z.of_nat n) (-1)); [lia|].
    destruct (Z.eqb_spec (1 + Z.of_nat n) (-1)); lia.
Qed.

Lemma first_at_ge P r : first_at P r -> -1 <= r.
Proof. intros [[-> _]|(n & -> & _)]; lia. Qed.

Lemma first_at_ext (P Q : nat -> Prop) r : (forall j, P j <-> Q j) -> first_at P r -> first_at Q r.
Proof.
  intros E [[-> H]|(n & -> & H & N)]; [left|right].
  - split; trivial. intros j. rewrite <- E. apply H.
  - exists n. split; trivial. split; [apply E; trivial|]. intros j L. rewrite <- E. auto.
Qed.

Lemma first_at_unique P r r' : first_at P r -> first_at P r' -> r = r'.
Proof.
  intros [[-> H]|(n & -> & H & N)] [[-> H']|(n' & -> & H' & N')]; trivial.
  - destruct (H _ H').
  - destruct (H' _ H).
  - destruct (Nat.lt_trichotomy n n') as [L|[->|L]]; trivial; [destruct (N' _ L H)|destruct (N _ L H')].
Qed.

Lemma nth_nil_not {A} (k : A) j : nth_error [] j <> Some k.
Proof. destruct j; discriminate. Qed.

Lemma find_char_ok s : forall p k i, holds p s ->
  exists r, find_char p k i = Ret (shift i r) /\ first_at (fun j => nth_error s j = Some k) r.
Proof.
  induction s as [|c s IH]; intros p k i H.
  - destruct (holds_nil _ H) as (r & ->). exists (-1). split; [reflexivity|].
    apply first_none. intros j. apply nth_nil_not.
  - destruct (holds_cons _ _ _ H) as (p' & -> & N & H'). simpl.
    destruct (Z.eqb_spec c 0); [contradiction|]. destruct (Z.eqb_spec c k) as [->|NK].
    + exists 0. split; [unfold shift; simpl; f_equal; lia|]. apply first_here. reflexivity.
    + destruct (IH p' k (i + 1) H') as (r & -> & F).
      destruct (first_next (fun j => nth_error (c :: s) j = Some k) _ i r F) as (r' & F' & E); [|intros j; reflexivity|].
      { simpl. congruence. }
      exists r'. rewrite E. auto.
Qed.

Lemma find_char_loop_ok n : forall s p k i, cut p n s ->
  exists r, find_char_loop n p k i = Ret (shift i r) /\ first_at (fun j => nth_error s j = Some k) r.
Proof.
  induction n as [|n IH]; intros s p k i H.
  - rewrite (cut_O _ _ H). exists (-1). split; [reflexivity|]. apply first_none. intros j. apply nth_nil_not.
  - destruct s as [|c s].
    + destruct (cut_S_nil _ _ H) as (r & ->). exists (-1). split; [reflexivity|].
      apply first_none. intros j. apply nth_nil_not.
    + destruct (cut_S_cons _ _ _ _ H) as (p' & -> & N & H'). simpl.
      destruct (Z.eqb_spec c 0); [contradiction|]. destruct (Z.eqb_spec c k) as [->|NK].
      * exists 0. split; [unfold shift; simpl; f_equal; lia|]. apply first_here. reflexivity.
      * destruct (IH s p' k (i + 1) H') as (r & -> & F).
        destruct (first_next (fun j => nth_error (c :: s) j = Some k) _ i r F) as (r' & F' & E); [|intros j; reflexivity|].
        { simpl. congruence. }
        exists r'. rewrite E. auto.
Qed.

Lemma count_chars_ok n : forall s p k a, cut p n s ->
  count_chars_loop n p k a = Ret (a + Z.of_nat (count_occ Z.eq_dec s k)).
Proof.
  induction n as [|n IH]; intros s p k a H.
  - rewrite (cut_O _ _ H). simpl. f_equal. lia.
  - destruct s as [|c s].
    + destruct (cut_S_nil _ _ H) as (r & ->). simpl. f_equal. lia.
    + destruct (cut_S_cons _ _ _ _ H) as (p' & -> & N & H'). simpl.
      destruct (Z.eqb_spec c 0); [contradiction|]. rewrite (IH s p' k _ H').
      destruct (Z.eqb_spec c k), (Z.eq_dec c k); try contradiction; f_equal; lia.
Qed.

(** Quote state after a text. *)
Fixpoint scan (s : list Z) (q bs : bool) : bool :=
  match s with
  | [] => q
  | c :: s' => scan s' (if c =? 34 then (if negb q then true else if negb bs then false else q) else q)
                    ((c =? 92) && negb bs)
  end.

Lemma scan_closed s : forall q bs, scan s q bs = false ->
  if q then if bs then exists c b t s', s = c :: b ++ 34 :: s' /\ inside 34 b t /\ quotes_closed s'
            else exists b t s', s = b ++ 34 :: s' /\ inside 34 b t /\ quotes_closed s'
  else quotes_closed s.
Proof.
  induction s as [|c s IH]; intros q bs H; simpl in H.
  - subst q. constructor.
  - apply IH in H. destruct (Z.eqb_spec c 34) as [->|N].
    + destruct q; simpl in H.
      * destruct bs; simpl in H.
        -- destruct H as (b & t & s' & -> & I & C). exists 34, b, t, s'. auto.
        -- exists [], [], s. repeat split; trivial. constructor.
      * destruct H as (b & t & s' & -> & I & C). eapply qc_quoted; eauto.
    + destruct q.
      * destruct bs; simpl in H.
        -- rewrite andb_false_r in H. destruct H as (b & t & s' & -> & I & C). exists c, b, t, s'. auto.
        -- rewrite andb_true_r in H. destruct (Z.eqb_spec c 92) as [->|N2].
           ++ destruct H as (d & b & t & s' & -> & I & C). exists (92 :: d :: b), (d :: t), s'.
              repeat split; trivial. constructor. trivial.
           ++ destruct H as (b & t & s' & -> & I & C). exists (c :: b), (c :: t), s'.
              repeat split; trivial. constructor; trivial.
      * constructor; trivial.
Qed.

Lemma scan_inside b t s : inside 34 b t -> scan (b ++ s) true false = scan s true false.
Proof.
  induction 1 as [|c b t N1 N2 I IH|c b t I IH]; simpl; trivial.
  - destruct (Z.eqb_spec c 34); [contradiction|]. destruct (Z.eqb_spec c 92); [contradiction|]. exact IH.
  - destruct (Z.eqb_spec c 34); rewrite andb_false_r; exact IH.
Qed.

Lemma closed_scan s : quotes_closed s -> forall bs, scan s false bs = false.
Proof.
  induction 1 as [|c s N C IH|b t s I C IH]; intros bs; simpl; trivial.
  - destruct (Z.eqb_spec c 34); [contradiction|]. apply IH.
  - rewrite (scan_inside _ _ _ I). simpl. apply IH.
Qed.

Lemma scan_iff s bs : scan s false bs = false <-> quotes_closed s.
Proof. split; [intros H; exact (scan_closed s false bs H)|intros H; apply closed_scan; trivial]. Qed.

Lemma find_unquoted_ok s : forall p k q bs i, k <> 34 -> holds p s ->
  exists r, find_unquoted_char p k q bs i = Ret (shift i r) /\
            first_at (fun j => nth_error s j = Some k /\ scan (firstn j s) q bs = false) r.
Proof.
  induction s as [|c s IH]; intros p k q bs i NK H.
  - destruct (holds_nil _ H) as (r & ->). exists (-1). split; [reflexivity|].
    apply first_none. intros j [E _]. revert E. apply nth_nil_not.
  - destruct (holds_cons _ _ _ H) as (p' & -> & N & H'). cbn [find_unquoted_char].
    destruct (Z.eqb_spec c 0); [contradiction|].
    set (q' := if c =? 34 then if negb q then true else if negb bs then false else q else q).
    destruct ((c =? k) && negb q') eqn:E.
    + apply andb_prop in E. destruct E as [E1 E2]. apply Z.eqb_eq in E1. subst c.
      assert (q' = q) as -> by (unfold q'; destruct (Z.eqb_spec k 34); trivial; contradiction).
      exists 0. split; [unfold shift; simpl; f_equal; lia|]. apply first_here. simpl.
      split; trivial. destruct q; trivial; discriminate.
    + destruct (IH p' k q' ((c =? 92) && negb bs) (i + 1) NK H') as (r & -> & F).
      destruct (first_next (fun j => nth_error (c :: s) j = Some k /\ scan (firstn j (c :: s)) q bs = false) _ i r F) as (r' & F' & E'); [|intros j; reflexivity|].
      { simpl. intros [E1 E2]. injection E1 as ->. subst q.
        unfold q' in E. destruct (Z.eqb_spec k 34); [contradiction|]. rewrite Z.eqb_refl in E. discriminate. }
      exists r'. rewrite E'. auto.
Qed.

(** FindText *)

(** [t] is a prefix of [s] up to [f]. *)
Definition prefix_up_to (f : Z -> Z) (t s : list Z) : Prop := exists post, map f s = map f t ++ post.

Lemma tail_match_ok f t : forall s p4 p3, holds p4 t -> holds p3 s ->
  exists r, tail_match f p4 p3 = Ret r /\
    match r with
    | Found => prefix_up_to f t s
    | Exhausted => (length s < length t)%nat
    | Mismatch => ~ prefix_up_to f t s
    end.
Proof.
  induction t as [|x t IH]; intros s p4 p3 H4 H3.
  - destruct (holds_nil _ H4) as (r & ->). exists Found. split; [reflexivity|]. exists (map f s). reflexivity.
  - destruct (holds_cons _ _ _ H4) as (p4' & -> & N & H4'). simpl. destruct (Z.eqb_spec x 0); [contradiction|].
    destruct s as [|y s].
    + destruct (holds_nil _ H3) as (r & ->). exists Exhausted. split; [reflexivity|]. simpl. lia.
    + destruct (holds_cons _ _ _ H3) as (p3' & -> & N3 & H3'). destruct (Z.eqb_spec y 0); [contradiction|].
      destruct (Z.eqb_spec (f x) (f y)) as [E|E]; simpl.
      * destruct (IH s p4' p3' H4' H3') as (r & -> & Hr). exists r. split; [reflexivity|].
        destruct r.
        -- destruct Hr as (post & E'). exists post. simpl. rewrite E, E'. reflexivity.
        -- simpl. lia.
        -- intros (post & E'). apply Hr. exists post. simpl in E'. congruence.
      * exists Mismatch. split; [reflexivity|]. intros (post & E'). simpl in E'. congruence.
Qed.

Definition match_at (f : Z -> Z) (s : list Z) (first : Z) (t : list Z) (j : nat) : Prop :=
  exists s', skipn j s = first :: s' /\ prefix_up_to f t s'.

Lemma prefix_up_to_length f t s : prefix_up_to f t s -> (length t <= length s)%nat.
Proof. intros (post & E). apply (f_equal (@length Z)) in E. rewrite app_length, !map_length in E. lia. Qed.

Lemma find_text_loop_ok f s : forall p first t p4 i, holds p4 t -> holds p s ->
  exists r, find_text_loop f p first p4 i = Ret (shift i r) /\ first_at (match_at f s first t) r.
Proof.
  induction s as [|c s IH]; intros p first t p4 i H4 H.
  - destruct (holds_nil _ H) as (r & ->). exists (-1). split; [reflexivity|].
    apply first_none. intros [|j] (s' & E & _); discriminate.
  - destruct (holds_cons _ _ _ H) as (p' & -> & N & H'). simpl. destruct (Z.eqb_spec c 0); [contradiction|].
    assert (Next : ~ match_at f (c :: s) first t 0 ->
      exists r, find_text_loop f p' first p4 (i + 1) = Ret (shift i r) /\ first_at (match_at f (c :: s) first t) r).
    { intros NH. destruct (IH p' first t p4 (i + 1) H4 H') as (r & -> & F).
      destruct (first_next (match_at f (c :: s) first t) _ i r F NH) as (r' & F' & E'); [intros j; reflexivity|].
      exists r'. rewrite E'. auto. }
    destruct (Z.eqb_spec c first) as [->|NF].
    + destruct (tail_match_ok f t s p4 p' H4 H') as (r & -> & Hr). simpl. destruct r.
      * exists 0. split; [unfold shift; simpl; f_equal; lia|]. apply first_here. exists s. auto.
      * exists (-1). split; [reflexivity|]. apply first_none. intros j (s' & E & P).
        apply prefix_up_to_length in P. apply (f_equal (@length Z)) in E. rewrite skipn_length in E. cbn [length] in E. lia.
      * apply Next. intros (s' & E & P). simpl in E. injection E as <-. contradiction.
    + apply Next. intros (s' & E & P). simpl in E. congruence.
Qed.

Lemma find_text_any f s t first p q : holds p s -> holds q (first :: t) ->
  exists r, (let! x := rd q 0 in find_text_loop f p x (skipn 1 q) 0) = Ret r /\ first_at (match_at f s first t) r.
Proof.
  intros H Q. destruct (holds_cons _ _ _ Q) as (q' & -> & N & Q'). simpl.
  destruct (find_text_loop_ok f s p first t q' 0 Q' H) as (r & E & F). exists r. rewrite shift_0 in E. auto.
Qed.

Lemma find_text_empty f s p q : holds p s -> holds q [] ->
  (let! x := rd q 0 in find_text_loop f p x (skipn 1 q) 0) = Ret (-1).
Proof.
  intros H Q. destruct (holds_nil _ Q) as (q' & ->). simpl. generalize 0 at 2. revert p H.
  induction s as [|c s IH]; intros p H i.
  - destruct (holds_nil _ H) as (r & ->). reflexivity.
  - destruct (holds_cons _ _ _ H) as (p' & -> & N & H'). simpl. destruct (Z.eqb_spec c 0); [contradiction|]. auto.
Qed.

Lemma match_at_occurs s first t j : match_at no_fold s first t j <-> occurs s (first :: t) j.
Proof.
  unfold match_at, occurs, prefix_up_to. assert (M : forall l, map no_fold l = l) by (intros l; apply map_id). split.
  - intros (s' & E & post & E'). rewrite !M in E'. split; [|exists post; rewrite E, E'; reflexivity].
    apply (f_equal (@length Z)) in E. rewrite skipn_length in E. simpl in E. lia.
  - intros (L & post & E). exists (t ++ post). split; [exact E|]. exists post. rewrite !M. reflexivity.
Qed.

(** ** Comparing *)

Definition keeps_zero (f : Z -> Z) : Prop := forall c, is_byte c -> c <> 0 -> 0 < f c.

Lemma u32_small x : 0 <= x < 4294967296 -> u32 x = x.
Proof. intros H. unfold u32. apply Z.mod_small. lia. Qed.

Lemma u32_neg x : -4294967296 <= x < 0 -> u32 x = x + 4294967296.
Proof. intros H. unfold u32. symmetry. apply (Z.mod_unique _ _ (-1)); lia. Qed.

Lemma fold_lower_ok c : is_byte c -> fold_lower c = lower c.
Proof.
  intros H. unfold is_byte in H. unfold fold_lower, lower.
  destruct (Z.leb_spec 65 c); simpl.
  - rewrite (u32_small (c - 65)) by lia. rewrite (u32_small (c + 32)) by lia.
    destruct (Z.leb_spec c 90), (Z.ltb_spec (c - 65) 26); try lia.
  - rewrite (u32_neg (c - 65)) by lia. destruct (Z.ltb_spec (c - 65 + 4294967296) 26); lia.
Qed.

Lemma fold_upper_ok c : is_byte c -> fold_upper c = upper c.
Proof.
  intros H. unfold is_byte in H. unfold fold_upper, upper.
  destruct (Z.leb_spec 97 c); simpl.
  - rewrite (u32_small (c - 97)) by lia. rewrite (u32_small (c - 32)) by lia.
    destruct (Z.leb_spec c 122), (Z.ltb_spec (c - 97) 26); try lia.
  - rewrite (u32_neg (c - 97)) by lia. destruct (Z.ltb_spec (c - 97 + 4294967296) 26); lia.
Qed.

Lemma lower_pos : keeps_zero fold_lower.
Proof. intros c H N. rewrite fold_lower_ok by trivial. unfold is_byte in H. unfold lower. destruct ((65 <=? c) && (c <=? 90)); lia. Qed.
Lemma upper_pos : keeps_zero fold_upper.
Proof.
  intros c H N. rewrite fold_upper_ok by trivial. unfold is_byte in H. unfold upper.
  destruct (Z.leb_spec 97 c), (Z.leb_spec c 122); simpl; lia.
Qed.
Lemma no_fold_pos : keeps_zero no_fold.
Proof. intros c H N. unfold is_byte in H. unfold no_fold. lia. Qed.

Lemma map_lower s : bytes s -> map fold_lower s = map lower s.
Proof. intros H. apply map_ext_in. intros c I. apply fold_lower_ok. unfold bytes in H. rewrite Forall_forall in H. auto. Qed.
Lemma map_upper s : bytes s -> map fold_upper s = map upper s.
Proof. intros H. apply map_ext_in. intros c I. apply fold_upper_ok. unfold bytes in H. rewrite Forall_forall in H. auto. Qed.

Lemma fold_zero f : f = no_fold \/ f = fold_lower \/ f = fold_upper -> f 0 = 0.
Proof. intros [->|[->| ->]]; reflexivity. Qed.

Lemma upper_lower a b : is_byte a -> is_byte b -> (lower a = lower b <-> upper a = upper b).
Proof.
  unfold is_byte, lower, upper. intros A B.
  destruct (Z.leb_spec 65 a), (Z.leb_spec a 90), (Z.leb_spec 65 b), (Z.leb_spec b 90),
    (Z.leb_spec 97 a), (Z.leb_spec a 122), (Z.leb_spec 97 b), (Z.leb_spec b 122); simpl; lia.
Qed.

Lemma map_upper_lower a : forall b, bytes a -> bytes b -> (map lower a = map lower b <-> map upper a = map upper b).
Proof.
  induction a as [|x a IH]; intros [|y b] A B; simpl; split; intros E; try discriminate; trivial;
    inversion_clear A; inversion_clear B; injection E as E1 E2; f_equal; try (apply upper_lower; trivial); apply IH; trivial.
Qed.

Section Compare.
Variable f : Z -> Z.
Hypothesis f0 : f 0 = 0.
Hypothesis fpos : keeps_zero f.

Lemma equal_loop_ok n : forall a b p q, bytes a -> bytes b -> cut p n a -> cut q n b ->
  exists r, equal_loop f n p q = Ret r /\ (r = true <-> map f a = map f b).
Proof.
  induction n as [|n IH]; intros a b p q Ba Bb P Q.
  - rewrite (cut_O _ _ P), (cut_O _ _ Q). exists true. simpl. tauto.
  - destruct a as [|x a], b as [|y b].
    + destruct (cut_S_nil _ _ P) as (r & ->). destruct (cut_S_nil _ _ Q) as (r' & ->).
      exists true. simpl. rewrite f0. simpl. tauto.
    + destruct (cut_S_nil _ _ P) as (r & ->). destruct (cut_S_cons _ _ _ _ Q) as (q' & -> & N & Q').
      exists false. inversion_clear Bb. simpl. rewrite f0. pose proof (fpos y H N). destruct (Z.eqb_spec 0 (f y)); [lia|].
      split; [reflexivity|]. split; discriminate.
    + destruct (cut_S_nil _ _ Q) as (r & ->). destruct (cut_S_cons _ _ _ _ P) as (p' & -> & N & P').
      exists false. inversion_clear Ba. simpl. rewrite f0. pose proof (fpos x H N). destruct (Z.eqb_spec (f x) 0); [lia|].
      split; [reflexivity|]. split; discriminate.
    + destruct (cut_S_cons _ _ _ _ P) as (p' & -> & N & P'). destruct (cut_S_cons _ _ _ _ Q) as (q' & -> & N' & Q').
      inversion_clear Ba. inversion_clear Bb. pose proof (fpos x H N). simpl.
      destruct (Z.eqb_spec (f x) (f y)) as [E|E]; simpl.
      * destruct (Z.eqb_spec (f x) 0); [lia|]. destruct (IH a b p' q') as (r & -> & Hr); trivial.
        exists r. split; trivial. rewrite Hr, E. split; intros; congruence.
      * exists false. split; trivial. split; congruence.
Qed.

Lemma equal_all_ok a : forall b p q, bytes a -> bytes b -> holds p a -> holds q b ->
  exists r, equal_all f p q = Ret r /\ (r = true <-> map f a = map f b).
Proof.
  induction a as [|x a IH]; intros b p q Ba Bb P Q.
  - destruct (holds_nil _ P) as (r & ->). destruct b as [|y b].
    + destruct (holds_nil _ Q) as (r' & ->). exists true. simpl. rewrite f0. simpl. tauto.
    + destruct (holds_cons _ _ _ Q) as (q' & -> & N & Q').
      exists false. inversion_clear Bb. simpl. rewrite f0. pose proof (fpos y H N). destruct (Z.eqb_spec 0 (f y)); [lia|].
      split; [reflexivity|]. split; discriminate.
  - destruct (holds_cons _ _ _ P) as (p' & -> & N & P'). inversion_clear Ba. pose proof (fpos x H N). destruct b as [|y b].
    + destruct (holds_nil _ Q) as (r' & ->). exists false. simpl. rewrite f0. destruct (Z.eqb_spec (f x) 0); [lia|].
      split; [reflexivity|]. split; discriminate.
    + destruct (holds_cons _ _ _ Q) as (q' & -> & N' & Q'). inversion_clear Bb. simpl.
      destruct (Z.eqb_spec (f x) (f y)) as [E|E]; simpl.
      * destruct (Z.eqb_spec (f x) 0); [lia|]. destruct (IH b p' q') as (r & -> & Hr); trivial.
        exists r. split; trivial. rewrite Hr, E. split; intros; congruence.
      * exists false. split; trivial. split; congruence.
Qed.

(** The result of an order function: [strict] is less-than, otherwise less-or-equal. *)
Definition order_result (strict : bool) (a b : list Z) (r : bool) : Prop :=
  r = true <-> if strict then lex_lt a b else ~ lex_lt b a.
Definition op_of (strict : bool) : Z -> Z -> bool := if strict then Z.ltb else Z.leb.

Lemma order_nil strict : order_result strict [] [] (negb strict).
Proof. destruct strict; unfold order_result; simpl; split; intros H; try discriminate; try inversion H; trivial. intros E. inversion E. Qed.

Lemma order_left strict y b : order_result strict [] (y :: b) true.
Proof. destruct strict; unfold order_result; simpl; split; intros H; trivial; [constructor|]. intros E. inversion E. Qed.

Lemma order_right strict x a : order_result strict (x :: a) [] false.
Proof.
  destruct strict; unfold order_result; simpl; split; intros H; try discriminate; [inversion H|].
  destruct H. constructor.
Qed.

Lemma order_head strict x y a b : x <> y -> order_result strict (x :: a) (y :: b) (op_of strict x y).
Proof.
  intros N. destruct strict; unfold order_result, op_of.
  - rewrite Z.ltb_lt. split; intros H; [constructor; trivial|]. inversion H; subst; [trivial|contradiction].
  - rewrite Z.leb_le. split; intros H.
    + intros E. inversion E; subst; [lia|contradiction].
    + destruct (Z.le_gt_cases x y); trivial. destruct H. constructor. lia.
Qed.

Lemma lex_cons_iff x a b : lex_lt (x :: a) (x :: b) <-> lex_lt a b.
Proof. split; intros H; [inversion H; subst; [lia|trivial]|constructor 3; trivial]. Qed.

Lemma order_tail strict x a b r : order_result strict a b r -> order_result strict (x :: a) (x :: b) r.
Proof. destruct strict; unfold order_result; rewrite lex_cons_iff; trivial. Qed.

Lemma op_zero strict : op_of strict 0 0 = negb strict.
Proof. destruct strict; reflexivity. Qed.

Lemma order_loop_ok strict n : forall a b p q, bytes a -> bytes b -> cut p n a -> cut q n b ->
  exists r, order_loop f (op_of strict) (negb strict) n p q = Ret r /\ order_result strict (map f a) (map f b) r.
Proof.
  induction n as [|n IH]; intros a b p q Ba Bb P Q.
  - rewrite (cut_O _ _ P), (cut_O _ _ Q). exists (negb strict). split; [reflexivity|]. apply order_nil.
  - destruct a as [|x a], b as [|y b].
    + destruct (cut_S_nil _ _ P) as (r & ->). destruct (cut_S_nil _ _ Q) as (r' & ->).
      exists (negb strict). cbn [order_loop]. rewrite f0. cbn. rewrite op_zero. split; [reflexivity|]. apply order_nil.
    + destruct (cut_S_nil _ _ P) as (r & ->). destruct (cut_S_cons _ _ _ _ Q) as (q' & -> & N & Q').
      exists true. inversion_clear Bb. cbn [order_loop]. rewrite f0. pose proof (fpos y H N).
      destruct (Z.eqb_spec 0 (f y)); [lia|]. cbn [negb orb]. split; [|apply order_left].
      destruct strict; simpl; f_equal; lia.
    + destruct (cut_S_nil _ _ Q) as (r & ->). destruct (cut_S_cons _ _ _ _ P) as (p' & -> & N & P').
      exists false. inversion_clear Ba. cbn [order_loop]. rewrite f0. pose proof (fpos x H N).
      destruct (Z.eqb_spec (f x) 0); [lia|]. cbn [negb orb]. split; [|apply order_right].
      destruct strict; simpl; f_equal; lia.
    + destruct (cut_S_cons _ _ _ _ P) as (p' & -> & N & P'). destruct (cut_S_cons _ _ _ _ Q) as (q' & -> & N' & Q').
      inversion_clear Ba. inversion_clear Bb. pose proof (fpos x H N). cbn [order_loop map].
      destruct (Z.eqb_spec (f x) (f y)) as [E|E]; cbn [negb orb].
      * destruct (Z.eqb_spec (f x) 0); [lia|]. destruct (IH a b p' q') as (r & -> & Hr); trivial.
        exists r. split; trivial. rewrite E. apply order_tail. trivial.
      * eexists. split; [reflexivity|]. apply order_head. trivial.
Qed.

Lemma order_all_ok strict a : forall b p q, bytes a -> bytes b -> holds p a -> holds q b ->
  exists r, order_all f (op_of strict) p q = Ret r /\ order_result strict (map f a) (map f b) r.
Proof.
  induction a as [|x a IH]; intros b p q Ba Bb P Q.
  - destruct (holds_nil _ P) as (r & ->). destruct b as [|y b].
    + destruct (holds_nil _ Q) as (r' & ->). exists (negb strict). cbn [order_all]. rewrite f0. cbn. rewrite op_zero.
      split; [reflexivity|]. apply order_nil.
    + destruct (holds_cons _ _ _ Q) as (q' & -> & N & Q').
      exists true. inversion_clear Bb. cbn [order_all]. rewrite f0. pose proof (fpos y H N).
      destruct (Z.eqb_spec 0 (f y)); [lia|]. cbn [negb orb]. split; [|apply order_left].
      destruct strict; simpl; f_equal; lia.
  - destruct (holds_cons _ _ _ P) as (p' & -> & N & P'). inversion_clear Ba. pose proof (fpos x H N). destruct b as [|y b].
    + destruct (holds_nil _ Q) as (r' & ->). exists false. cbn [order_all]. rewrite f0.
      destruct (Z.eqb_spec (f x) 0); [lia|]. cbn [negb orb]. split; [|apply order_right].
      destruct strict; simpl; f_equal; lia.
    + destruct (holds_cons _ _ _ Q) as (q' & -> & N' & Q'). inversion_clear Bb. cbn [order_all map].
      destruct (Z.eqb_spec (f x) (f y)) as [E|E]; cbn [negb orb].
      * destruct (Z.eqb_spec (f x) 0); [lia|]. destruct (IH b p' q') as (r & -> & Hr); trivial.
        exists r. split; trivial. rewrite E. apply order_tail. trivial.
      * eexists. split; [reflexivity|]. apply order_head. trivial.
Qed.

End Compare.
