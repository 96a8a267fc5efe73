(** * Histories of dynamic arrays: the invariant over all arrays and blocks. *)

From Verif Require Import Base ArrayModel SpecArray ArrayProofs.

Section World.
Variable A : Type.
Variable dflt : A.
Variable base : Z.
Hypothesis base_ok : 0 <= base <= 268435456.

Local Notation arr := (arr A).
Local Notation heap := (heap A).

Local Notation holds := (holds A base).
Local Notation alive := (alive A).

Definition pair_ok (h : heap) (x : option (option arr)) (y : option (option (list A))) : Prop :=
  match x, y with
  | Some (Some a), Some (Some l) => holds h a l
  | Some None, Some None => True
  | None, None => True
  | _, _ => False
  end.

Record winv (w : world A) (s : list (option (list A))) : Prop := Winv {
  wi_arr : forall i, pair_ok (fst w) (nth_error (snd w) i) (nth_error s i);
  wi_sep : forall i j a b n, i <> j -> nth_error (snd w) i = Some (Some a) -> nth_error (snd w) j = Some (Some b) ->
    at_ a = Block n -> at_ b <> Block n;
  wi_own : base = 0 -> forall n, alive (fst w) n -> exists i a, nth_error (snd w) i = Some (Some a) /\ at_ a = Block n
}.

Lemma winv_length w s : winv w s -> length (snd w) = length s.
Proof.
  intros W. destruct (Nat.lt_trichotomy (length (snd w)) (length s)) as [L|[L|L]]; [|auto|].
  - pose proof (wi_arr _ _ W (length (snd w))) as P. rewrite (proj2 (nth_error_None (snd w) _)) in P by lia.
    destruct (nth_error s (length (snd w))) eqn:E; [destruct P|]. apply nth_error_None in E. lia.
  - pose proof (wi_arr _ _ W (length s)) as P. rewrite (proj2 (nth_error_None s _)) in P by lia.
    destruct (nth_error (snd w) (length s)) as [[?|]|] eqn:E; [destruct P|destruct P|]. apply nth_error_None in E. lia.
Qed.

Lemma holds_block h a l n : holds h a l -> at_ a = Block n -> alive h n.
Proof.
  intros H E. destruct H as [_ (k & L & _) _ _]. unfold load in L. rewrite E in L.
  destruct (nth_error h n) as [[cs|]|] eqn:X; try discriminate. now exists cs.
Qed.

Lemma holds_frame h h' a l : holds h a l -> (forall n, at_ a = Block n -> nth_error h' n = nth_error h n) -> holds h' a l.
Proof.
  intros [H1 (k & L & H2) H3 H4] F. split; auto. exists k. split; [|auto]. unfold load in *. destruct (at_ a) as [| |n]; auto. now rewrite F.
Qed.

Lemma slot w s i l : winv w s -> nth_error s i = Some (Some l) -> exists a, nth_error (snd w) i = Some (Some a) /\ holds (fst w) a l.
Proof.
  intros W E. pose proof (wi_arr _ _ W i) as P. rewrite E in P. destruct (nth_error (snd w) i) as [[a|]|]; try contradiction. now exists a.
Qed.

Lemma other_ok h arrs s i a h' p' : winv (h, arrs) s -> nth_error arrs i = Some (Some a) -> frame A h (at_ a) h' p' ->
  forall j b, j <> i -> nth_error arrs j = Some (Some b) -> (forall n, at_ b = Block n -> nth_error h' n = nth_error h n) /\ (forall n, p' = Block n -> at_ b <> Block n).
Proof.
  intros W Ei F j b N Ej. pose proof (wi_arr _ _ W j) as P. cbn [fst snd] in P. rewrite Ej in P.
  destruct (nth_error s j) as [[l|]|]; try contradiction. simpl in P. split.
  - intros n En. apply (f_other _ _ _ _ _ F); [eapply alive_lt; eapply holds_block; eauto|].
    eapply (wi_sep _ _ W j i); eauto.
  - intros n Ep En. destruct (f_new _ _ _ _ _ F n Ep) as [Ea|L].
    + eapply (wi_sep _ _ W i j); eauto.
    + pose proof (alive_lt _ _ _ (holds_block _ _ _ _ P En)). lia.
Qed.

(** One array changes, or is destroyed. *)
Lemma winv_upd h arrs s i a h' x' y' : winv (h, arrs) s -> nth_error arrs i = Some (Some a) ->
  pair_ok h' (Some x') (Some y') -> frame A h (at_ a) h' (match x' with Some a' => at_ a' | None => Null end) ->
  winv (h', upd arrs i x') (put s i y').
Proof.
  intros W Ei P F. pose proof (winv_length _ _ W) as LN. cbn [snd] in LN.
  assert (Li : (i < length arrs)%nat) by (apply nth_error_Some; congruence).
  pose proof (other_ok _ _ _ _ _ _ _ W Ei F) as O. change (put s i y') with (upd s i y'). split; cbn [fst snd].
  - intros j. destruct (Nat.eq_dec i j) as [<-|N].
    + rewrite !upd_same by lia. exact P.
    + rewrite !upd_other by auto. pose proof (wi_arr _ _ W j) as Q. cbn [fst snd] in Q.
      destruct (nth_error arrs j) as [[b|]|] eqn:Ej; destruct (nth_error s j) as [[l|]|]; simpl in *; auto.
      eapply holds_frame; eauto. intros n. apply (O j b); auto.
  - intros j k b c n N Ej Ek En.
    destruct (Nat.eq_dec i j) as [<-|Nj]; destruct (Nat.eq_dec i k) as [<-|Nk]; try congruence.
    + rewrite upd_same in Ej by lia. rewrite upd_other in Ek by auto. injection Ej as ->. apply (O k c); auto.
    + rewrite upd_same in Ek by lia. rewrite upd_other in Ej by auto. injection Ek as ->. intros Ec. exact (proj2 (O j b (not_eq_sym Nj) Ej) n Ec En).
    + rewrite upd_other in Ej, Ek by auto. eapply (wi_sep _ _ W j k); eauto.
  - intros B n Al. destruct (f_alive _ _ _ _ _ F n Al) as [E|[Al' Na]].
    + exists i. destruct x' as [a'|]; [|discriminate]. exists a'. rewrite upd_same by lia. auto.
    + destruct (wi_own _ _ W B n Al') as (j & b & Ej & En). cbn [snd] in Ej. exists j, b. rewrite upd_other; [auto|]. intros <-. congruence.
Qed.

(** One more array. *)
Lemma winv_new h arrs s h' a l : winv (h, arrs) s -> holds h' a l -> frame A h Null h' (at_ a) -> winv (h', arrs ++ [Some a]) (s ++ [Some l]).
Proof.
  intros W H F. pose proof (winv_length _ _ W) as LN. cbn [snd] in LN.
  assert (O : forall j b, nth_error arrs j = Some (Some b) -> (forall n, at_ b = Block n -> nth_error h' n = nth_error h n) /\ (forall n, at_ a = Block n -> at_ b <> Block n)).
  { intros j b Ej. pose proof (wi_arr _ _ W j) as P. cbn [fst snd] in P. rewrite Ej in P. destruct (nth_error s j) as [[lb|]|]; try contradiction. simpl in P. split.
    - intros n En. apply (f_other _ _ _ _ _ F); [eapply alive_lt; eapply holds_block; eauto|discriminate].
    - intros n Ea En. destruct (f_new _ _ _ _ _ F n Ea) as [?|L]; [discriminate|]. pose proof (alive_lt _ _ _ (holds_block _ _ _ _ P En)). lia. }
  assert (X : forall j b, nth_error (arrs ++ [Some a]) j = Some (Some b) -> (nth_error arrs j = Some (Some b) /\ j <> length arrs) \/ (j = length arrs /\ b = a)).
  { intros j b Ej. destruct (Nat.lt_trichotomy j (length arrs)) as [L|[->|L]].
    - rewrite nth_error_app1 in Ej by lia. left. split; [auto|lia].
    - rewrite nth_error_app2, Nat.sub_diag in Ej by lia. injection Ej as <-. auto.
    - rewrite nth_error_app2 in Ej by lia. destruct (j - length arrs)%nat as [|[|?]] eqn:E; simpl in Ej; try discriminate; lia. }
  split; cbn [fst snd].
  - intros j. destruct (Nat.lt_trichotomy j (length arrs)) as [L|[->|L]].
    + rewrite !nth_error_app1 by lia. pose proof (wi_arr _ _ W j) as Q. cbn [fst snd] in Q.
      destruct (nth_error arrs j) as [[b|]|] eqn:Ej; destruct (nth_error s j) as [[lb|]|]; simpl in *; auto.
      eapply holds_frame; eauto. intros n. apply (O j b); auto.
    + rewrite !nth_error_app2 by lia. rewrite LN, Nat.sub_diag. exact H.
    + rewrite !(proj2 (nth_error_None _ j)) by (rewrite app_length; simpl; lia). exact I.
  - intros j k b c n N Ej Ek En. destruct (X j b Ej) as [[Ej' Nj]|[-> ->]]; destruct (X k c Ek) as [[Ek' Nk]|[-> ->]]; try congruence.
    + eapply (wi_sep _ _ W j k); eauto.
    + intros Ec. exact (proj2 (O j b Ej') n Ec En).
    + apply (O k c); auto.
  - intros B n Al. destruct (f_alive _ _ _ _ _ F n Al) as [E|[Al' _]].
    + exists (length arrs), a. rewrite nth_app_last. auto.
    + destruct (wi_own _ _ W B n Al') as (j & b & Ej & En). cbn [snd] in Ej. exists j, b. rewrite nth_error_app1; [auto|]. apply nth_error_Some. congruence.
Qed.

Lemma winv_move h arrs s i x l h' a x' : winv (h, arrs) s -> nth_error arrs i = Some (Some x) ->
  holds h' a l -> holds h' x' [] -> (length h' = length h) -> (forall n, at_ x <> Block n -> nth_error h' n = nth_error h n) ->
  (forall n, alive h' n -> alive h n) ->
  ((at_ a = at_ x /\ (forall n, at_ x' <> Block n)) \/ (base <> 0 /\ at_ a = Local /\ at_ x' = Local /\ Z.of_nat (length l) <= base)) ->
  winv (h', upd arrs i (Some x') ++ [Some a]) (put s i (Some []) ++ [Some l]).
Proof.
  intros W Ei Ha Hx LH FO FA D. pose proof (winv_length _ _ W) as LN. cbn [snd] in LN.
  assert (Li : (i < length arrs)%nat) by (apply nth_error_Some; congruence). change (put s i (Some [])) with (upd s i (Some [])).
  assert (O : forall j b, j <> i -> nth_error arrs j = Some (Some b) -> (forall n, at_ b = Block n -> nth_error h' n = nth_error h n)).
  { intros j b N Ej n En. apply FO. eapply (wi_sep _ _ W j i); eauto. }
  assert (NX : forall n, at_ x' <> Block n) by (destruct D as [[_ ?]|(_ & _ & E & _)]; [auto|rewrite E; discriminate]).
  assert (AX : forall n, at_ a = Block n -> at_ x = Block n) by (destruct D as [[E _]|(_ & E & _)]; rewrite E; [auto|discriminate]).
  assert (X : forall j b, nth_error (upd arrs i (Some x') ++ [Some a]) j = Some (Some b) ->
    (nth_error arrs j = Some (Some b) /\ j <> length arrs /\ j <> i) \/ (j = i /\ b = x') \/ (j = length arrs /\ b = a)).
  { intros j b Ej. destruct (Nat.lt_trichotomy j (length arrs)) as [L|[->|L]].
    - rewrite nth_error_app1 in Ej by (rewrite upd_length; lia). destruct (Nat.eq_dec i j) as [<-|N].
      + rewrite upd_same in Ej by lia. injection Ej as <-. auto.
      + rewrite upd_other in Ej by auto. left. split; [auto|]. split; [lia|auto].
    - rewrite nth_error_app2, upd_length, Nat.sub_diag in Ej by (rewrite upd_length; lia). injection Ej as <-. auto.
    - rewrite nth_error_app2, upd_length in Ej by (rewrite upd_length; lia). destruct (j - length arrs)%nat as [|[|?]] eqn:E; simpl in Ej; try discriminate; lia. }
  split; cbn [fst snd].
  - intros j. destruct (Nat.lt_trichotomy j (length arrs)) as [L|[->|L]].
    + rewrite !nth_error_app1 by (rewrite upd_length; lia). destruct (Nat.eq_dec i j) as [<-|N].
      * rewrite !upd_same by lia. exact Hx.
      * rewrite !upd_other by auto. pose proof (wi_arr _ _ W j) as Q. cbn [fst snd] in Q.
        destruct (nth_error arrs j) as [[b|]|] eqn:Ej; destruct (nth_error s j) as [[lb|]|]; simpl in *; auto.
        eapply holds_frame; eauto.
    + rewrite !nth_error_app2 by (rewrite upd_length; lia). rewrite !upd_length. rewrite LN, Nat.sub_diag. exact Ha.
    + rewrite !(proj2 (nth_error_None _ j)) by (rewrite app_length, upd_length; simpl; lia). exact I.
  - intros j k b c n N Ej Ek En.
    destruct (X j b Ej) as [(Ej' & Nj & Nji)|[[-> ->]|[-> ->]]]; destruct (X k c Ek) as [(Ek' & Nk & Nki)|[[-> ->]|[-> ->]]]; try congruence;
      try (exfalso; exact (NX n En)); try apply NX.
    + eapply (wi_sep _ _ W j k); eauto.
    + intros Ec. apply AX in Ec. exact (wi_sep _ _ W j i b x n Nji Ej' Ei En Ec).
    + apply AX in En. exact (wi_sep _ _ W i k x c n (not_eq_sym Nki) Ei Ek' En).
  - intros B n Al. destruct D as [[E _]|(NB & _)]; [|contradiction].
    destruct (wi_own _ _ W B n (FA n Al)) as (j & b & Ej & En). cbn [snd] in Ej. destruct (Nat.eq_dec j i) as [->|N].
    + exists (length arrs), a. rewrite nth_error_app2, upd_length, Nat.sub_diag by (rewrite upd_length; lia). split; [reflexivity|]. rewrite E. congruence.
    + exists j, b. rewrite nth_error_app1 by (rewrite upd_length; apply nth_error_Some; congruence). rewrite upd_other by auto. auto.
Qed.

(** ** The calls *)

(** The arguments of a call within the bounds, and what it asks for. *)
Inductive says : op A -> call A -> Prop :=
| s_new n : -2147483648 <= n <= 1073741824 -> says (New n) CNew
| s_copy i : says (Copy i) (CCopy i)
| s_move i : says (Move i) (CMove i)
| s_delete i : says (Delete i) (CDelete i)
| s_clear i : says (Clear i) (CClear i)
| s_purge i : says (Purge i) (CPurge i)
| s_reserve i n : n <= 1073741824 -> says (Reserve i n) (CReserve i)
| s_resize i n v : 0 <= n -> says (Set_count i n v) (CResize i (Z.to_nat n) (match v with Some v => v | None => dflt end))
| s_append i v : says (Append i v) (CAppend i (match v with Some v => v | None => dflt end))
| s_insert i j v : 0 <= j -> says (Insert i j v) (CInsert i (Z.to_nat j) v)
| s_remove i j : 0 <= j -> says (Remove i j) (CRemove i (Z.to_nat j))
| s_remove_last i : says (Remove_last i) (CRemove_last i).

Lemma put_nth (s : list (option (list A))) i l y : nth_error s i = Some (Some l) -> nth_error (put s i y) i = Some y.
Proof. intros E. change (put s i y) with (upd s i y). apply upd_same. apply nth_error_Some. congruence. Qed.

Lemma put_same (s : list (option (list A))) i l : nth_error s i = Some (Some l) -> put s i (Some l) = s.
Proof.
  change (put s i (Some l)) with (upd s i (Some l)). revert i. induction s as [|y s IH]; intros [|i] E; simpl in *; try discriminate; [congruence|]. now rewrite IH.
Qed.

Lemma use_ok w s i a l l' f : winv w s -> nth_error (snd w) i = Some (Some a) -> holds (fst w) a l ->
  (exists h' a', f (fst w) a = Ret (h', a') /\ holds h' a' l' /\ frame A (fst w) (at_ a) h' (at_ a')) ->
  exists w', use A w i f = Ret w' /\ winv w' (put s i (Some l')).
Proof.
  intros W E H (h' & a' & X & H' & F). destruct w as [h arrs]. cbn [fst snd] in *. unfold use. cbn [fst snd]. rewrite E, X. cbn [bind].
  eexists. split; [reflexivity|]. eapply winv_upd; eauto.
Qed.

Lemma step_ok w s o c s' : winv w s -> says o c -> means A dflt s c s' -> small A s' -> exists w', step A dflt base w o = Ret w' /\ winv w' s'.
Proof.
  intros W O M S. destruct O; inversion M; subst; cbn [step];
    try match goal with H : nth_error s _ = Some (Some ?l) |- _ => destruct (slot w s _ l W H) as (a & Ea & Ha) end.
  - destruct w as [h arrs]. cbn [fst snd]. destruct (Z.eqb_spec base 0) as [B|B].
    + destruct (new_zero_ok A base h n B ltac:(lia)) as [Hz F]. destruct (new_zero A base h n) as [h' a]. cbn [fst snd] in *.
      eexists. split; [reflexivity|]. eapply winv_new; eauto.
    + destruct (new_base_ok A base base_ok h ltac:(lia)) as [Hz F]. eexists. split; [reflexivity|]. eapply winv_new; eauto.
  - rewrite Ea. destruct (new_copy_ok A base base_ok _ _ _ Ha) as (h' & b & -> & Hb & F). cbn [bind]. eexists. split; [reflexivity|].
    destruct w as [h arrs]. eapply winv_new; eauto.
  - rewrite Ea. destruct (new_move_ok A base base_ok _ _ _ Ha) as (h' & b & x' & -> & Hb & Hx & LH & FO & FA & D). cbn [bind]. eexists. split; [reflexivity|].
    destruct w as [h arrs]. eapply winv_move; eauto.
  - rewrite Ea. destruct (delete_ok A base base_ok _ _ _ Ha) as (h' & -> & F). cbn [bind]. eexists. split; [reflexivity|].
    destruct w as [h arrs]. eapply winv_upd; eauto. exact I.
  - eapply use_ok; eauto. destruct (clear_ok A base base_ok _ _ _ Ha) as (h' & a' & E & H' & F & _). eauto 10.
  - eapply use_ok; eauto. eapply purge_ok; eauto.
  - destruct (slot w s' i l W ltac:(auto)) as (a & Ea & Ha). rewrite <- (put_same s' i l) by auto. eapply use_ok; eauto. destruct (reserve_ok A base base_ok (fst w) a l n Ha ltac:(auto)) as (h' & a' & E & H' & F & _). eauto 10.
  - eapply use_ok; eauto. eapply set_count_ok; eauto. split; [auto|].
    match goal with H : nth_error s i = Some (Some ?l) |- _ => pose proof (S i _ (put_nth s i l _ H)) as B end.
    unfold resized in B. rewrite app_length, repeat_length, firstn_length in B. lia.
  - eapply use_ok; eauto. eapply append_ok; eauto.
    match goal with H : nth_error s i = Some (Some ?l) |- _ => pose proof (S i _ (put_nth s i l _ H)) as B end.
    rewrite app_length in B. simpl in B. lia.
  - eapply use_ok; eauto.
    match goal with H : nth_error s i = Some (Some ?l) |- _ => pose proof (S i _ (put_nth s i l _ H)) as B end.
    unfold inserted, resized in B. rewrite !app_length, repeat_length, firstn_length in B. simpl in B. rewrite skipn_length in B.
    eapply insert_ok; eauto; lia.
  - eapply use_ok; eauto. eapply remove_ok; eauto.
  - eapply use_ok; eauto. eapply remove_last_ok; eauto.
Qed.

(** A history of calls from [s] to [s']; no list gets longer than 2^30. *)
Inductive history : list (option (list A)) -> list (op A) -> list (option (list A)) -> Prop :=
| hs_nil s : history s [] s
| hs_cons s o c s1 os s2 : says o c -> means A dflt s c s1 -> small A s1 -> history s1 os s2 -> history s (o :: os) s2.

Lemma run_ok s os s' : history s os s' -> forall w, winv w s -> exists w', run A dflt base w os = Ret w' /\ winv w' s'.
Proof.
  induction 1 as [s|s o c s1 os s2 O M S H IH]; intros w W.
  - exists w. auto.
  - destruct (step_ok w s o c s1 W O M S) as (w1 & E & W1). cbn [run]. rewrite E. cbn [bind]. now apply IH.
Qed.

Lemma winv_empty : winv ([], []) [].
Proof.
  split; cbn [fst snd].
  - intros [|i]; exact I.
  - intros [|i] j a b n _ E; discriminate.
  - intros _ [|n] [cs E]; discriminate.
Qed.

(** ** Reading arrays *)

Lemma get_cells l k j v : nth_error l j = Some v -> get A (cells A l k) (Z.of_nat j) = Ret v.
Proof.
  intros E. destruct (nth_error_split l j E) as (l1 & l2 & -> & L). unfold cells. rewrite map_app. simpl. rewrite <- app_assoc.
  apply get_app. rewrite map_length. lia.
Qed.

Lemma find_ok eqb v : forall l pre i k, i = Z.of_nat (length pre) ->
  find_loop A eqb (length l) i (cells A (pre ++ l) k) v = Ret (first_index A eqb i l v).
Proof.
  induction l as [|x l IH]; intros pre i k E; cbn [length find_loop first_index]; [reflexivity|].
  rewrite E, (get_cells (pre ++ x :: l) k (length pre) x) by (rewrite nth_error_app2, Nat.sub_diag by lia; reflexivity). cbn [bind].
  destruct (eqb x v); [reflexivity|]. rewrite <- E. rewrite (snoc_app pre). apply IH. rewrite app_length. simpl. lia.
Qed.

Lemma equal_ok neqb : (forall x y, neqb x y = false <-> x = y) -> forall l l' pre pre' i k k', i = Z.of_nat (length pre) -> length pre = length pre' -> length l = length l' ->
  exists b, equal_loop A neqb (length l) i (cells A (pre ++ l) k) (cells A (pre' ++ l') k') = Ret b /\ (b = true <-> l = l').
Proof.
  intros NE. induction l as [|x l IH]; intros [|x' l'] pre pre' i k k' E EP EL; try discriminate; cbn [length equal_loop].
  - exists true. tauto.
  - rewrite E, (get_cells (pre ++ x :: l) k (length pre) x) by (rewrite nth_error_app2, Nat.sub_diag by lia; reflexivity). cbn [bind].
    rewrite EP, (get_cells (pre' ++ x' :: l') k' (length pre') x') by (rewrite nth_error_app2, Nat.sub_diag by lia; reflexivity). cbn [bind].
    destruct (neqb x x') eqn:X.
    + exists false. split; [reflexivity|]. split; [discriminate|]. intros [= <- <-]. rewrite (proj2 (NE x x) eq_refl) in X. discriminate.
    + apply NE in X. subst x'. rewrite (snoc_app pre), (snoc_app pre'). rewrite <- EP.
      destruct (IH l' (pre ++ [x]) (pre' ++ [x]) (Z.of_nat (length pre) + 1) k k') as (b & -> & B); [rewrite app_length; simpl; lia|rewrite !app_length; simpl; lia|simpl in EL; lia|].
      exists b. split; [reflexivity|]. rewrite B. split; congruence.
Qed.

(** ** Appending references to own elements *)

Lemma append_own h a l j v : holds h a l -> nth_error l j = Some v -> Z.of_nat (length l) < 1073741824 ->
  (reserved a <= Z.of_nat (length l) -> append A dflt base h a (Some (Own (at_ a) (Z.of_nat j))) = UB) /\
  (Z.of_nat (length l) < reserved a -> exists h' a', append A dflt base h a (Some (Own (at_ a) (Z.of_nat j))) = Ret (h', a') /\ holds h' a' (l ++ [v])).
Proof.
  intros H E N. assert (Lj : (j < length l)%nat) by (apply nth_error_Some; congruence). split; intros R.
  - unfold append. rewrite (h_count _ _ _ _ _ H). unfold int32. replace ((_ <=? _) && (_ <? _)) with true by lia. cbn [bind].
    replace (reserved a <=? Z.of_nat (length l)) with true by lia.
    destruct (set_reserved_ok A base base_ok h a l (Z.of_nat (length l) + 1) H ltac:(lia) ltac:(lia)) as (h1 & a1 & -> & H1 & F & _ & P & _). cbn [bind].
    destruct (holds_cells A base base_ok h1 a1 l H1) as (k & -> & _). cbn [bind read_arg].
    pose proof (h_storage _ _ _ _ _ H1) as St. rewrite P in St. specialize (St ltac:(discriminate)).
    unfold load. cbn [at_ storage]. destruct (at_ a) as [| |m] eqn:Em.
    + cbn [bind]. unfold get, cell_at. replace (Z.of_nat j <? 0) with false by lia. destruct (Z.to_nat (Z.of_nat j)); reflexivity.
    + cbn [bind]. rewrite St. unfold get, cell_at. replace (Z.of_nat j <? 0) with false by lia.
      destruct (nth_error (no_objects A base) (Z.to_nat (Z.of_nat j))) as [c|] eqn:X; [|reflexivity].
      apply nth_error_In in X. apply repeat_spec in X. rewrite X. reflexivity.
    + destruct (nth_error h1 m) as [[cs|]|] eqn:X; try reflexivity. exfalso.
      destruct (f_alive _ _ _ _ _ F m (ex_intro _ cs X)) as [Q|[_ Q]]; [|congruence]. rewrite P in Q. injection Q as <-.
      pose proof (alive_lt _ _ _ (holds_block _ _ _ _ H Em)). lia.
  - unfold append. rewrite (h_count _ _ _ _ _ H). unfold int32. replace ((_ <=? _) && (_ <? _)) with true by lia. cbn [bind].
    replace (reserved a <=? Z.of_nat (length l)) with false by lia. cbn [bind].
    destruct (holds_cells A base base_ok h a l H) as (k & L & HN & HR). rewrite L. cbn [bind read_arg].
    assert (LO : load A h (Arr 0 0 (at_ a) (storage a)) = load A h a) by reflexivity. rewrite LO, L. cbn [bind].
    rewrite (get_cells l k j v E). cbn [bind].
    assert (Nn : at_ a <> Null) by (eapply not_null; eauto; lia). specialize (HR Nn). rewrite (h_count _ _ _ _ _ H).
    destruct k as [|k]; [lia|]. unfold cells at 1. cbn [repeat]. rewrite make_app by now rewrite map_length. cbn [bind].
    rewrite snoc_app. change [Some v] with (map (@Some A) [v]). rewrite <- map_app. change (map Some (l ++ [v]) ++ repeat None k) with (cells A (l ++ [v]) k).
    destruct (save_holds A base base_ok h a l (l ++ [v]) (S k) k (Z.of_nat (length l) + 1) H L Nn) as [S1 S2]; [rewrite app_length; simpl; lia|rewrite app_length; simpl; lia|].
    destruct (save A h a _) as [h2 a2]. simpl in *. eexists _, _. split; [reflexivity|auto].
Qed.

(** ** The number of allocations of appends *)

Lemma pow_step m (r r' : Z) : 0 <= m -> 4 * 4 ^ m <= 3 ^ m * r -> 4 * r <= 3 * r' -> 4 * 4 ^ (m + 1) <= 3 ^ (m + 1) * r'.
Proof.
  intros M H R. rewrite !Z.pow_add_r by lia. change (4 ^ 1) with 4. change (3 ^ 1) with 3. assert (0 < 3 ^ m) by (apply Z.pow_pos_nonneg; lia). nia.
Qed.

(** [m] allocations after the first made the storage at least 4 * (4/3)^m, and the
    storage before the last was full. *)
Lemma appends_ok (B : base = 0) vs : forall h a l, holds h a l -> Z.of_nat (length l + length vs) <= 1073741824 ->
  (length h = 0%nat /\ reserved a <= 0 /\ l = [] \/
   exists m, 0 <= m /\ Z.of_nat (length h) = m + 1 /\ 4 * 4 ^ m <= 3 ^ m * reserved a /\ (1 <= m -> 4 * 4 ^ (m - 1) <= 3 ^ (m - 1) * Z.of_nat (length l))) ->
  exists h' a', run A dflt base (h, [Some a]) (map (fun v => Append 0 (Some v)) vs) = Ret (h', [Some a']) /\ holds h' a' (l ++ vs) /\
  (length h' = 0%nat /\ reserved a' <= 0 /\ l ++ vs = [] \/
   exists m, 0 <= m /\ Z.of_nat (length h') = m + 1 /\ 4 * 4 ^ m <= 3 ^ m * reserved a' /\ (1 <= m -> 4 * 4 ^ (m - 1) <= 3 ^ (m - 1) * Z.of_nat (length (l ++ vs)))).
Proof.
  induction vs as [|v vs IH]; intros h a l H N I.
  - exists h, a. rewrite app_nil_r. auto.
  - simpl in N. destruct (append_gen A dflt base base_ok h a l (Some (Val v)) v H ltac:(lia)) as (h1 & a1 & E & H1 & _ & D); [reflexivity|].
    cbn [map run step use snd fst nth_error option_map]. unfold use. cbn [snd fst nth_error option_map]. rewrite E. cbn [bind upd].
    rewrite (snoc_app l). apply IH; [auto|rewrite app_length; simpl; lia|]. right.
    destruct I as [(L0 & R0 & ->)|(m & M & Lm & P1 & P2)].
    + exists 0. simpl in D. destruct D as [(? & _)|(_ & G & L1)]; [lia|]. split; [lia|]. split; [lia|]. split; [|lia].
      rewrite G. pose proof (grow_ok base base_ok (reserved a) (Z.of_nat (length (@nil A)) + 1) ltac:(destruct H; lia) ltac:(simpl; lia)) as Q. simpl length in *. change (4 ^ 0) with 1. change (3 ^ 0) with 1. lia.
    + assert (P3 : forall x, 0 <= x -> 0 < 3 ^ x) by (intros x ?; apply Z.pow_pos_nonneg; lia).
      rewrite app_length. cbn [length]. destruct D as [(R & G & L1)|(R & G & L1)].
      * exists m. rewrite G. split; [auto|]. split; [lia|]. split; [auto|]. intros M1. specialize (P2 M1). specialize (P3 (m - 1) ltac:(lia)). nia.
      * exists (m + 1). split; [lia|]. split; [lia|]. split.
        -- eapply pow_step; eauto. rewrite G. apply grow_third; [exact base_ok| |auto].
           destruct (Z.le_gt_cases 0 (reserved a)); [auto|]. specialize (P3 m M). assert (0 < 4 ^ m) by (apply Z.pow_pos_nonneg; lia). nia.
        -- intros _. replace (m + 1 - 1) with m by lia. specialize (P3 m M). nia.
Qed.

End World.
