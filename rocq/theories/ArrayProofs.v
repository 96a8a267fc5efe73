(** * Proofs about dynamic arrays. *)

From Verif Require Import Base ArrayModel SpecArray.

#[local] Arguments Z.ltb : simpl nomatch.
#[local] Arguments Z.eqb : simpl nomatch.

Section Proofs.
Variable A : Type.
Variable dflt : A.
Variable base : Z.
Hypothesis base_ok : 0 <= base <= 268435456.

Local Notation arr := (arr A).
Local Notation heap := (heap A).
Local Notation cell := (option A).

Lemma upd_length {X} (l : list X) n x : length (upd l n x) = length l.
Proof. revert n. induction l as [|y l IH]; intros [|n]; simpl; auto. Qed.

Lemma upd_same {X} (l : list X) n x : (n < length l)%nat -> nth_error (upd l n x) n = Some x.
Proof. revert n. induction l as [|y l IH]; intros [|n] H; simpl in *; try lia; auto. apply IH. lia. Qed.

Lemma upd_other {X} (l : list X) n m x : n <> m -> nth_error (upd l n x) m = nth_error l m.
Proof. revert n m. induction l as [|y l IH]; intros [|n] [|m] H; simpl; auto; try congruence. Qed.

Lemma upd_app {X} (l1 l2 : list X) y x : upd (l1 ++ y :: l2) (length l1) x = l1 ++ x :: l2.
Proof. induction l1; simpl; congruence. Qed.

Lemma put_upd {X} (l : list X) n x : put l n x = upd l n x.
Proof. reflexivity. Qed.

(** ** Cells *)

Lemma cell_at_app (xs ys : list cell) c i : i = Z.of_nat (length xs) -> cell_at A (xs ++ c :: ys) i = Some c.
Proof.
  intros ->. unfold cell_at. replace (Z.of_nat (length xs) <? 0) with false by lia. rewrite Nat2Z.id.
  rewrite nth_error_app2 by lia. now rewrite Nat.sub_diag.
Qed.

Lemma make_app (xs ys : list cell) v i : i = Z.of_nat (length xs) -> make A (xs ++ None :: ys) i v = Ret (xs ++ Some v :: ys).
Proof. intros E. unfold make. rewrite cell_at_app by auto. rewrite E, Nat2Z.id. now rewrite upd_app. Qed.
Lemma kill_app (xs ys : list cell) v i : i = Z.of_nat (length xs) -> kill A (xs ++ Some v :: ys) i = Ret (xs ++ None :: ys).
Proof. intros E. unfold kill. rewrite cell_at_app by auto. rewrite E, Nat2Z.id. now rewrite upd_app. Qed.
Lemma get_app (xs ys : list cell) v i : i = Z.of_nat (length xs) -> get A (xs ++ Some v :: ys) i = Ret v.
Proof. intros E. unfold get. rewrite cell_at_app by auto. reflexivity. Qed.

Lemma snoc_app {X} (l : list X) x r : l ++ x :: r = (l ++ [x]) ++ r.
Proof. now rewrite <- app_assoc. Qed.

Lemma copy_loop_ok l : forall i pre rest pre' rest', i = Z.of_nat (length pre) -> length pre = length pre' ->
  copy_loop A (length l) i (pre ++ map Some l ++ rest) (pre' ++ repeat None (length l) ++ rest') = Ret (pre' ++ map Some l ++ rest').
Proof.
  induction l as [|v l IH]; intros i pre rest pre' rest' E E'; cbn [length copy_loop map repeat app]; [reflexivity|].
  rewrite get_app by auto. cbn [bind]. rewrite make_app by lia. cbn [bind].
  rewrite (snoc_app pre), (snoc_app pre'). rewrite IH; [now rewrite <- app_assoc| |]; rewrite !app_length; simpl; lia.
Qed.

Lemma move_loop_ok l : forall i pre rest pre' rest', i = Z.of_nat (length pre) -> length pre = length pre' ->
  move_loop A (length l) i (pre ++ map Some l ++ rest) (pre' ++ repeat None (length l) ++ rest') =
  Ret (pre ++ repeat None (length l) ++ rest, pre' ++ map Some l ++ rest').
Proof.
  induction l as [|v l IH]; intros i pre rest pre' rest' E E'; cbn [length move_loop map repeat app]; [reflexivity|].
  rewrite get_app by auto. cbn [bind]. rewrite make_app by lia. cbn [bind]. rewrite kill_app by auto. cbn [bind].
  rewrite (snoc_app pre), (snoc_app pre'). rewrite IH; [now rewrite <- !app_assoc| |]; rewrite !app_length; simpl; lia.
Qed.

Lemma repeat_snoc {X} (x : X) n : repeat x (S n) = repeat x n ++ [x].
Proof. induction n; simpl in *; congruence. Qed.

Lemma kill_down_ok l : forall n pre rest, n = Z.of_nat (length pre + length l) ->
  kill_down A (length l) n (pre ++ map Some l ++ rest) = Ret (pre ++ repeat None (length l) ++ rest).
Proof.
  induction l as [|v l IH] using rev_ind; intros n pre rest E; [reflexivity|].
  rewrite app_length in *. cbn [length] in *. rewrite Nat.add_1_r in *. cbn [kill_down]. rewrite map_app. cbn [map].
  rewrite <- (app_assoc (map Some l)). cbn [app]. rewrite app_assoc. rewrite kill_app by (rewrite app_length, map_length; lia). cbn [bind].
  rewrite <- app_assoc. rewrite IH by lia. rewrite repeat_snoc. now rewrite <- !app_assoc.
Qed.

Lemma make_up_ok v n : forall i pre rest, i = Z.of_nat (length pre) ->
  make_up A n i v (pre ++ repeat None n ++ rest) = Ret (pre ++ map Some (repeat v n) ++ rest).
Proof.
  induction n as [|n IH]; intros i pre rest E; cbn [make_up repeat map app]; [reflexivity|].
  rewrite make_app by auto. cbn [bind]. rewrite (snoc_app pre). rewrite IH by (rewrite app_length; simpl; lia). now rewrite <- app_assoc.
Qed.

Lemma shift_up_ok l : forall n pre rest, n = Z.of_nat (length pre + length l) ->
  shift_up A (length l) n (pre ++ map Some l ++ None :: rest) = Ret (pre ++ None :: map Some l ++ rest).
Proof.
  induction l as [|v l IH] using rev_ind; intros n pre rest E; [reflexivity|].
  rewrite app_length in *. cbn [length] in *. rewrite Nat.add_1_r in *. cbn [shift_up]. rewrite map_app. cbn [map].
  rewrite <- (app_assoc (map Some l)). cbn [app]. rewrite (app_assoc pre).
  rewrite get_app by (rewrite app_length, map_length; lia). cbn [bind].
  rewrite (snoc_app (pre ++ map Some l)). rewrite make_app by (rewrite !app_length, map_length; simpl; lia). cbn [bind].
  rewrite <- (app_assoc (pre ++ map Some l)). cbn [app]. rewrite kill_app by (rewrite app_length, map_length; lia). cbn [bind].
  rewrite <- app_assoc. rewrite IH by lia. now rewrite <- app_assoc.
Qed.

Lemma shift_down_ok l : forall i pre rest, i = Z.of_nat (length pre) ->
  shift_down A (length l) i (pre ++ None :: map Some l ++ rest) = Ret (pre ++ map Some l ++ None :: rest).
Proof.
  induction l as [|v l IH]; intros i pre rest E; cbn [length shift_down map app]; [reflexivity|].
  rewrite (snoc_app pre). rewrite get_app by (rewrite app_length; simpl; lia). cbn [bind]. rewrite <- app_assoc. cbn [app].
  rewrite make_app by auto. cbn [bind]. rewrite (snoc_app pre). rewrite kill_app by (rewrite app_length; simpl; lia). cbn [bind].
  rewrite IH by (rewrite app_length; simpl; lia). now rewrite <- app_assoc.
Qed.

(** ** One array *)

Definition cells (l : list A) (k : nat) : list cell := map Some l ++ repeat None k.

Lemma cells_length l k : length (cells l k) = (length l + k)%nat.
Proof. unfold cells. now rewrite app_length, map_length, repeat_length. Qed.

Definition limit : Z := 2147000000.

Record holds (h : heap) (a : arr) (l : list A) : Prop := Holds {
  h_count : count a = Z.of_nat (length l);
  h_room : exists k, load A h a = Ret (cells l k) /\
    match at_ a with
    | Null => base = 0 /\ l = [] /\ k = 0%nat /\ reserved a <= 0
    | Local => 0 < base /\ reserved a = base /\ reserved a = Z.of_nat (length l + k)
    | Block n => reserved a = Z.of_nat (length l + k) /\ 0 < reserved a
    end;
  h_storage : at_ a <> Local -> storage a = no_objects A base;
  h_bounds : -2147483648 <= reserved a <= limit
}.

Definition alive (h : heap) (n : nat) : Prop := exists cs, nth_error h n = Some (Some cs).

(** What an operation leaves alone, and that it loses no block. *)
Record frame (h : heap) (p : place) (h' : heap) (p' : place) : Prop := Frame {
  f_length : (length h <= length h')%nat;
  f_other : forall n, (n < length h)%nat -> p <> Block n -> nth_error h' n = nth_error h n;
  f_new : forall n, p' = Block n -> p = Block n \/ (length h <= n)%nat;
  f_alive : forall n, alive h' n -> p' = Block n \/ (alive h n /\ p <> Block n)
}.

Lemma alive_lt h n : alive h n -> (n < length h)%nat.
Proof. intros [cs E]. apply nth_error_Some. congruence. Qed.

Lemma frame_refl h p : frame h p h p.
Proof.
  split; auto. intros n Hn. destruct p as [| |m]; try (right; split; [auto|discriminate]).
  destruct (Nat.eq_dec m n); [left; congruence|right; split; [auto|congruence]].
Qed.

Lemma frame_trans h p h1 p1 h2 p2 : frame h p h1 p1 -> frame h1 p1 h2 p2 -> frame h p h2 p2.
Proof.
  intros F G. destruct F as [F1 F2 F3 F4], G as [G1 G2 G3 G4]. split; [lia| | |].
  - intros n L N. rewrite G2; [auto|lia|]. intros E. destruct (F3 n E) as [?|?]; [contradiction|lia].
  - intros n E. destruct (G3 n E) as [E1|?]; [|right; lia]. destruct (F3 n E1); auto.
  - intros n E. destruct (G4 n E) as [?|[E1 N]]; [auto|]. destruct (F4 n E1) as [?|[E2 N2]]; [congruence|]. auto.
Qed.

(** Saving cells of the block in use. *)
Lemma save_at h a cs : at_ (snd (save A h a cs)) = at_ a /\ count (snd (save A h a cs)) = count a /\ reserved (snd (save A h a cs)) = reserved a.
Proof. unfold save. destruct (at_ a) eqn:E; simpl; auto. Qed.

Lemma save_frame h a cs : frame h (at_ a) (fst (save A h a cs)) (at_ a).
Proof.
  unfold save. destruct (at_ a) as [| |m] eqn:E; simpl; try apply frame_refl.
  split.
  - now rewrite upd_length.
  - intros n L N. apply upd_other. congruence.
  - auto.
  - intros n [cs' H]. destruct (Nat.eq_dec m n); [left; congruence|right]. split; [|congruence].
    rewrite upd_other in H by auto. now exists cs'.
Qed.

Lemma save_load h a cs cs0 : load A h a = Ret cs0 -> at_ a <> Null -> load A (fst (save A h a cs)) (snd (save A h a cs)) = Ret cs.
Proof.
  unfold save, load. intros H N. destruct (at_ a) as [| |m] eqn:E; try congruence; simpl.
  - reflexivity.
  - rewrite E. rewrite upd_same; [reflexivity|]. apply nth_error_Some. destruct (nth_error h m); congruence.
Qed.

Lemma save_storage h a cs : at_ a <> Local -> storage (snd (save A h a cs)) = storage a.
Proof. unfold save. destruct (at_ a); simpl; congruence. Qed.

(** Saving a full description of the cells. *)
Lemma save_holds h a l l' k k' n : holds h a l -> load A h a = Ret (cells l k) -> at_ a <> Null ->
  (length l' + k' = length l + k)%nat -> n = Z.of_nat (length l') ->
  let r := save A h a (cells l' k') in holds (fst r) (with_count A (snd r) n) l' /\ frame h (at_ a) (fst r) (at_ (with_count A (snd r) n)).
Proof.
  intros H L N E -> r. destruct H as [H1 (k0 & L0 & H2) H3 H4]. rewrite L in L0. injection L0 as L0.
  assert (K : k0 = k). { apply (f_equal (@length _)) in L0. rewrite !cells_length in L0. lia. } subst k0. clear L0.
  destruct (save_at h a (cells l' k')) as (Ea & Ec & Er). split.
  - split; simpl.
    + reflexivity.
    + exists k'. split.
      * unfold with_count, load. simpl. pose proof (save_load h a (cells l' k') _ L N) as SL. unfold load in SL. exact SL.
      * subst r. rewrite Ea, Er. destruct (at_ a); [congruence| |].
        -- rewrite E. intuition lia.
        -- rewrite E. intuition lia.
    + subst r. rewrite Ea. intros NL. rewrite save_storage by auto. auto.
    + subst r. rewrite Er. auto.
  - subst r. simpl. rewrite Ea. apply save_frame.
Qed.

Lemma holds_cells h a l : holds h a l -> exists k, load A h a = Ret (cells l k) /\
  (at_ a = Null -> l = [] /\ reserved a <= 0) /\ (at_ a <> Null -> reserved a = Z.of_nat (length l + k)).
Proof.
  intros [H1 (k & L & H2) H3 H4]. exists k. split; [auto|]. destruct (at_ a); intuition congruence.
Qed.

Lemma length_map_all (l : list A) : Z.to_nat (Z.of_nat (length l)) = length l.
Proof. lia. Qed.

Lemma null_or (a : arr) : at_ a = Null \/ at_ a <> Null.
Proof. destruct (at_ a); [left|right|right]; congruence. Qed.

Lemma clear_ok h a l : holds h a l -> exists h' a', clear A h a = Ret (h', a') /\ holds h' a' [] /\ frame h (at_ a) h' (at_ a') /\
  at_ a' = at_ a /\ reserved a' = reserved a.
Proof.
  intros H. destruct (holds_cells h a l H) as (k & L & HN & HR). unfold clear. rewrite L. cbn [bind]. rewrite (h_count _ _ _ H), Nat2Z.id.
  unfold cells. pose proof (kill_down_ok l (Z.of_nat (length l)) [] (repeat None k) ltac:(simpl; lia)) as K. cbn [app] in K. rewrite K. cbn [bind]. clear K.
  rewrite <- repeat_app. change (repeat None (length l + k)) with (cells [] (length l + k)).
  destruct (null_or a) as [N|N].
  - destruct (HN N) as [-> R]. unfold save. rewrite N. eexists _, _. split; [reflexivity|].
    destruct H as [H1 H2 H3 H4]. split; [split; simpl; auto|]. simpl. rewrite N. split; [apply frame_refl|auto].
  - destruct (save_holds h a l [] k (length l + k)%nat 0 H L N) as [S1 S2]; [simpl; lia|reflexivity|].
    destruct (save_at h a (cells [] (length l + k))) as (Ea & Ec & Er).
    destruct (save A h a (cells [] (length l + k))) as [h' a']. simpl in *. eexists _, _. split; [reflexivity|]. simpl. auto.
Qed.
Lemma forallb_none k : forallb (is_none A) (repeat None k) = true.
Proof. induction k; simpl; auto. Qed.

Lemma release_ok h a l : holds h a l -> l = [] -> exists h', release A h (at_ a) = Ret h' /\ frame h (at_ a) h' Null /\ length h' = length h.
Proof.
  intros H ->. destruct (holds_cells h a [] H) as (k & L & _). unfold release, load in *.
  destruct (at_ a) as [| |m] eqn:E.
  - exists h. repeat split; auto; try discriminate. intros n Hn. right. split; [auto|discriminate].
  - exists h. repeat split; auto; try discriminate. intros n Hn. right. split; [auto|discriminate].
  - destruct (nth_error h m) as [[cs|]|] eqn:Em; try discriminate. injection L as ->. unfold cells. simpl. rewrite forallb_none.
    eexists. split; [reflexivity|]. rewrite upd_length. split; [|auto]. split.
    + now rewrite upd_length.
    + intros n Hn N. apply upd_other. congruence.
    + discriminate.
    + intros n [cs Hc]. right. destruct (Nat.eq_dec m n) as [<-|N].
      * rewrite upd_same in Hc by (apply nth_error_Some; congruence). discriminate.
      * rewrite upd_other in Hc by auto. split; [now exists cs|congruence].
Qed.

Lemma storage_none h a l : holds h a l -> l = [] -> storage a = no_objects A base.
Proof.
  intros H ->. destruct (at_ a) eqn:E.
  - apply H. congruence.
  - destruct H as [H1 (k & L & H2) H3 H4]. unfold load in L. rewrite E in *. injection L as ->. destruct H2 as (B & R & K).
    unfold cells, no_objects. simpl. f_equal. simpl in K. lia.
  - apply H. congruence.
Qed.

Lemma delete_ok h a l : holds h a l -> exists h', delete A h a = Ret h' /\ frame h (at_ a) h' Null.
Proof.
  intros H. unfold delete. destruct (clear_ok h a l H) as (h1 & a1 & -> & H1 & F1 & E1 & _). cbn [bind].
  destruct (release_ok h1 a1 [] H1 eq_refl) as (h2 & -> & F2 & _). cbn [bind].
  rewrite (storage_none h1 a1 [] H1 eq_refl). unfold no_objects. rewrite forallb_none. exists h2. split; [auto|].
  eapply frame_trans; eauto.
Qed.

Lemma purge_ok h a l : holds h a l -> exists h' a', purge A base h a = Ret (h', a') /\ holds h' a' [] /\ frame h (at_ a) h' (at_ a').
Proof.
  intros H. unfold purge. destruct (clear_ok h a l H) as (h1 & a1 & -> & H1 & F1 & E1 & _). cbn [bind].
  destruct (release_ok h1 a1 [] H1 eq_refl) as (h2 & -> & F2 & _). cbn [bind]. eexists _, _. split; [reflexivity|].
  pose proof (storage_none h1 a1 [] H1 eq_refl) as St. pose proof (frame_trans _ _ _ _ _ _ F1 F2) as F.
  unfold limit in *. destruct (Z.eqb_spec base 0) as [B|B].
  - split; [|exact F]. split; simpl; auto; try (unfold limit; lia). exists 0%nat. repeat split; lia.
  - split.
    + split; simpl; auto; try (unfold limit; lia); try congruence. exists (Z.to_nat base). split; [unfold load; simpl; now rewrite St|lia].
    + simpl. destruct F as [Fa Fb Fc Fd]. split; auto; try discriminate. intros n Hn. destruct (Fd n Hn); [discriminate|auto].
Qed.

(** ** Growth *)

Lemma round4 x : x - 3 <= Z.land x (Z.lnot 3) <= x.
Proof.
  rewrite <- Z.ldiff_land. change 3 with (Z.ones 2). rewrite Z.ldiff_ones_r by lia.
  rewrite Z.shiftr_div_pow2, Z.shiftl_mul_pow2 by lia. change (2 ^ 2) with 4. change (Z.ones 2) with 3.
  pose proof (Z.div_mod x 4 ltac:(lia)). pose proof (Z.mod_pos_bound x 4 ltac:(lia)). lia.
Qed.

Definition grow (r n : Z) : Z :=
  Z.max (Z.max n 4) (r + Z.max (Z.land (Z.quot r 2 + 3) (Z.lnot 3)) (if base =? 0 then 4 else base)).

Lemma quot2 r : -2147483648 <= r -> r <= 2 * Z.quot r 2 + 1 /\ (0 <= r -> 2 * Z.quot r 2 <= r) /\ (r <= 0 -> Z.quot r 2 <= 0).
Proof.
  intros H. pose proof (Z.quot_rem' r 2). destruct (Z.le_gt_cases 0 r).
  - pose proof (Z.rem_bound_pos r 2 ltac:(lia) ltac:(lia)). lia.
  - pose proof (Z.rem_bound_pos_neg r 2 ltac:(lia) ltac:(lia)). lia.
Qed.

Lemma grow_ok r n : -2147483648 <= r <= 1073741824 -> n <= 1073741824 ->
  int32 (r + Z.max (Z.land (Z.quot r 2 + 3) (Z.lnot 3)) (if base =? 0 then 4 else base)) =
  Ret (r + Z.max (Z.land (Z.quot r 2 + 3) (Z.lnot 3)) (if base =? 0 then 4 else base)) /\
  n <= grow r n <= limit /\ 4 <= grow r n /\ r < grow r n.
Proof.
  intros R N. unfold grow, limit, int32. pose proof (round4 (Z.quot r 2 + 3)) as Q. pose proof (quot2 r ltac:(lia)) as P.
  destruct (Z.eqb_spec base 0).
  - split; [|lia]. replace ((_ <=? _) && (_ <? _)) with true by lia. reflexivity.
  - split; [|lia]. replace ((_ <=? _) && (_ <? _)) with true by lia. reflexivity.
Qed.

(** The storage grows by a third at least, whatever is asked for (with the
    built-in storage of an Array<type, 1> or Array<type, 2> only from 3 on). *)
Lemma grow_third r n : 0 <= r -> base = 0 \/ 3 <= r -> 4 * r <= 3 * grow r n.
Proof.
  intros R B. unfold grow. pose proof (round4 (Z.quot r 2 + 3)) as Q. pose proof (quot2 r ltac:(lia)) as P. destruct (Z.eqb_spec base 0); lia.
Qed.

Lemma nth_app_last {X} (l : list X) x : nth_error (l ++ [x]) (length l) = Some x.
Proof. rewrite nth_error_app2 by lia. now rewrite Nat.sub_diag. Qed.

Lemma load_app h a x cs : load A h a = Ret cs -> load A (h ++ [x]) a = Ret cs.
Proof.
  unfold load. destruct (at_ a) as [| |m]; auto. intros H. rewrite nth_error_app1; auto.
  apply nth_error_Some. destruct (nth_error h m); congruence.
Qed.

Lemma set_reserved_ok h a l n : holds h a l -> reserved a <= 1073741824 -> n <= 1073741824 ->
  exists h' a', set_reserved A base h a n = Ret (h', a') /\ holds h' a' l /\ frame h (at_ a) h' (at_ a') /\
    reserved a' = grow (reserved a) n /\ at_ a' = Block (length h) /\ length h' = S (length h).
Proof.
  intros H R N. destruct (grow_ok (reserved a) n) as (I & G1 & G2 & G3); [destruct H; lia|auto|]. unfold set_reserved. cbv zeta. rewrite I. cbn [bind].
  fold (grow (reserved a) n). set (r := grow (reserved a) n) in *.
  destruct (holds_cells h a l H) as (k & L & HN & HR). rewrite L. cbn [bind]. unfold alloc.
  assert (HL : Z.of_nat (length l) <= r).
  { destruct (null_or a) as [E|E]; [destruct (HN E) as [-> _]; simpl; lia|]. specialize (HR E). lia. }
  unfold load at 1. cbn [at_]. rewrite nth_app_last. cbn [bind].
  set (h1 := h ++ [Some (repeat None (Z.to_nat r))]).
  assert (M : (match at_ a with Null => Ret (cells l k, repeat None (Z.to_nat r))
     | _ => move_loop A (Z.to_nat (count a)) 0 (cells l k) (repeat None (Z.to_nat r)) end) =
     Ret (cells [] (length l + k), cells l (Z.to_nat r - length l))).
  { assert (ML : move_loop A (Z.to_nat (count a)) 0 (cells l k) (repeat None (Z.to_nat r)) = Ret (cells [] (length l + k), cells l (Z.to_nat r - length l))).
    { rewrite (h_count _ _ _ H), Nat2Z.id. replace (Z.to_nat r) with (length l + (Z.to_nat r - length l))%nat at 1 by lia. rewrite repeat_app.
      pose proof (move_loop_ok l 0 [] (repeat None k) [] (repeat None (Z.to_nat r - length l)) eq_refl eq_refl) as X. cbn [app] in X.
      unfold cells. rewrite X. simpl. now rewrite repeat_app. }
    destruct (at_ a) eqn:E; auto. destruct (HN eq_refl) as [-> _]. unfold cells. simpl. rewrite Nat.sub_0_r.
    destruct H as [_ (k0 & L0 & P0) _ _]. rewrite E in P0. destruct P0 as (B & _ & K0 & _). rewrite L in L0. injection L0 as L0.
    apply (f_equal (@length _)) in L0. rewrite !cells_length in L0. simpl in L0. replace k with 0%nat by lia. reflexivity. }
  rewrite M. cbn [bind].
  (* the old storage, emptied *)
  assert (H1 : holds h1 a l).
  { destruct H as [A1 (k0 & A2 & A3) A4 A5]. split; auto. exists k0. split; [now apply load_app|auto]. }
  assert (L1 : load A h1 a = Ret (cells l k)) by now apply load_app.
  assert (S1 : exists h2 a2, save A h1 a (cells [] (length l + k)) = (h2, a2) /\ holds h2 (with_count A a2 0) [] /\ frame h1 (at_ a) h2 (at_ a2) /\
     at_ a2 = at_ a /\ count a2 = count a /\ length h2 = length h1 /\ (at_ a <> Local -> storage a2 = storage a)).
  { destruct (null_or a) as [E|E].
    - unfold save. rewrite E. eexists _, _. split; [reflexivity|]. destruct (HN E) as [-> _].
      split; [destruct H1 as [A1 A2 A3 A4]; split; simpl; auto|]. rewrite E. split; [apply frame_refl|auto].
    - destruct (save_holds h1 a l [] k (length l + k)%nat 0 H1 L1 E) as [X1 X2]; [simpl; lia|reflexivity|].
      destruct (save_at h1 a (cells [] (length l + k))) as (Ea & Ec & Er).
      pose proof (save_storage h1 a (cells [] (length l + k))) as Es.
      assert (LL : length (fst (save A h1 a (cells [] (length l + k)))) = length h1).
      { unfold save. destruct (at_ a); simpl; auto. apply upd_length. }
      destruct (save A h1 a (cells [] (length l + k))) as [h2 a2]. simpl in *. eexists _, _. split; [reflexivity|].
      rewrite Ea in *. split; [exact X1|]. split; [exact X2|]. auto. }
  destruct S1 as (h2 & a2 & -> & H2 & F2 & E2 & C2 & L2 & S2).
  assert (RO : exists h', release A h2 (at_ a2) = Ret h' /\ frame h2 (at_ a2) h' Null /\ length h' = length h2) by exact (release_ok h2 _ [] H2 eq_refl).
  destruct RO as (h3 & -> & F3 & L3).
  cbn [bind]. eexists _, _. split; [reflexivity|].
  assert (LH : length h1 = S (length h)) by (unfold h1; rewrite app_length; simpl; lia).
  assert (OB : at_ a <> Block (length h)).
  { intros E. unfold load in L. rewrite E in L. rewrite (proj2 (nth_error_None h (length h))) in L by lia. discriminate. }
  assert (F : frame h1 (at_ a) h3 Null) by (eapply frame_trans; eauto; rewrite E2 in *; auto).
  assert (St : storage a2 = no_objects A base) by exact (storage_none h2 (with_count A a2 0) [] H2 eq_refl).
  split; [|split; [|split; [reflexivity|split; [reflexivity|rewrite upd_length; lia]]]].
  - split; cbn [count reserved at_ storage].
    + rewrite C2. apply H.
    + exists (Z.to_nat r - length l)%nat. unfold load. cbn [at_]. rewrite upd_same by lia. split; [auto|]. lia.
    + auto.
    + lia.
  - split; cbn [at_].
    + rewrite upd_length. lia.
    + intros m Hm Nm. rewrite upd_other by lia. rewrite (f_other _ _ _ _ F) by (auto; lia). unfold h1. now rewrite nth_error_app1 by lia.
    + intros m [= <-]. right. lia.
    + intros m [cs Hm]. destruct (Nat.eq_dec (length h) m) as [->|Nm]; [now left|right].
      rewrite upd_other in Hm by auto. destruct (f_alive _ _ _ _ F m (ex_intro _ cs Hm)) as [?|[[cs1 A1] A2]]; [discriminate|].
      split; [|auto]. assert (m < length h1)%nat by (apply nth_error_Some; congruence). exists cs1. unfold h1 in A1. rewrite nth_error_app1 in A1 by lia. auto.
Qed.

Lemma reserve_ok h a l n : holds h a l -> n <= 1073741824 ->
  exists h' a', reserve A base h a n = Ret (h', a') /\ holds h' a' l /\ frame h (at_ a) h' (at_ a') /\ n <= reserved a'.
Proof.
  intros H N. unfold reserve. destruct (Z.ltb_spec (reserved a) n) as [R|R].
  - destruct (set_reserved_ok h a l n H ltac:(lia) N) as (h' & a' & E & H' & F & G & _). exists h', a'. repeat split; auto; try apply H'; try apply F.
    rewrite G. destruct (grow_ok (reserved a) n); [destruct H; lia|auto|lia].
  - exists h, a. split; [auto|]. split; [auto|]. split; [apply frame_refl|lia].
Qed.

Lemma not_null h a l : holds h a l -> 0 < reserved a -> at_ a <> Null.
Proof. intros H R E. destruct (holds_cells h a l H) as (k & _ & HN & _). destruct (HN E). lia. Qed.

(** ** The operations *)

Lemma set_count_ok h a l n v : holds h a l -> 0 <= n <= 1073741824 ->
  exists h' a', set_count A dflt base h a n (option_map Val v) = Ret (h', a') /\
    holds h' a' (resized A l (Z.to_nat n) (match v with Some v => v | None => dflt end)) /\ frame h (at_ a) h' (at_ a').
Proof.
  intros H N. unfold set_count. destruct (reserve_ok h a l n H ltac:(lia)) as (h1 & a1 & -> & H1 & F1 & R1). cbn [bind].
  destruct (holds_cells h1 a1 l H1) as (k & L & HN & HR). rewrite L. cbn [bind]. rewrite (h_count _ _ _ H1).
  destruct (Z.ltb_spec (Z.of_nat (length l)) n) as [B|B].
  - assert (X : (match option_map Val v with None => Ret dflt | Some x => read_arg A h1 a1 x end) = Ret (match v with Some v => v | None => dflt end)) by (destruct v; reflexivity).
    rewrite X. cbn [bind]. clear X. set (u := match v with Some v => v | None => dflt end).
    assert (E : at_ a1 <> Null) by (eapply not_null; eauto; lia). specialize (HR E).
    set (m := Z.to_nat (n - Z.of_nat (length l))). unfold cells. replace k with (m + (k - m))%nat by lia. rewrite repeat_app.
    rewrite make_up_ok by (now rewrite map_length). cbn [bind]. rewrite app_assoc, <- map_app. change (map Some (l ++ repeat u m) ++ repeat None (k - m)) with (cells (l ++ repeat u m) (k - m)).
    destruct (save_holds h1 a1 l (l ++ repeat u m) k (k - m) n H1 L E) as [S1 S2]; [rewrite app_length, repeat_length; lia|rewrite app_length, repeat_length; lia|].
    destruct (save A h1 a1 _) as [h2 a2]. simpl in *. eexists _, _. split; [reflexivity|]. split; [|eapply frame_trans; eauto].
    replace (resized A l (Z.to_nat n) u) with (l ++ repeat u m); [exact S1|]. unfold resized. rewrite firstn_all2 by lia. f_equal. f_equal. lia.
  - replace (Z.to_nat (Z.of_nat (length l) - n)) with (length l - Z.to_nat n)%nat by lia.
    set (m := Z.to_nat n). assert (RS : resized A l m (match v with Some v => v | None => dflt end) = firstn m l).
    { unfold resized. replace (m - length l)%nat with 0%nat by lia. simpl. apply app_nil_r. }
    fold m. rewrite RS. clear RS.
    assert (FL : length (firstn m l) = m) by (rewrite firstn_length; lia).
    assert (K : kill_down A (length l - m) (Z.of_nat (length l)) (cells l k) = Ret (cells (firstn m l) (length l - m + k))).
    { unfold cells. rewrite <- (firstn_skipn m l) at 3. rewrite map_app, <- app_assoc.
      replace (length l - m)%nat with (length (skipn m l)) by (rewrite skipn_length; lia).
      rewrite kill_down_ok; [rewrite repeat_app; reflexivity|]. rewrite map_length, FL, skipn_length. lia. }
    rewrite K. cbn [bind]. destruct (null_or a1) as [E|E].
    + destruct (HN E) as [-> _]. unfold save. rewrite E. eexists _, _. split; [reflexivity|]. rewrite firstn_nil in *. simpl in FL.
      replace n with 0 by lia. split; [destruct H1 as [A1 A2 A3 A4]; split; simpl; auto|]. simpl. rewrite E in *. auto.
    + destruct (save_holds h1 a1 l (firstn m l) k (length l - m + k) n H1 L E) as [S1 S2]; [lia|lia|].
      destruct (save A h1 a1 _) as [h2 a2]. simpl in *. eexists _, _. split; [reflexivity|]. split; [auto|eapply frame_trans; eauto].
Qed.

Lemma append_gen h a l x v : holds h a l -> Z.of_nat (length l) < 1073741824 ->
  (forall h1 a1, holds h1 a1 l -> match x with None => Ret dflt | Some x => read_arg A h1 a1 x end = Ret v) ->
  exists h' a', append A dflt base h a x = Ret (h', a') /\ holds h' a' (l ++ [v]) /\ frame h (at_ a) h' (at_ a') /\
    ((Z.of_nat (length l) < reserved a /\ reserved a' = reserved a /\ length h' = length h) \/
     (reserved a <= Z.of_nat (length l) /\ reserved a' = grow (reserved a) (Z.of_nat (length l) + 1) /\ length h' = S (length h))).
Proof.
  intros H N X. unfold append. rewrite (h_count _ _ _ H). unfold int32. replace ((_ <=? _) && (_ <? _)) with true by lia. cbn [bind].
  assert (S : exists h1 a1, (if reserved a <=? Z.of_nat (length l) then set_reserved A base h a (Z.of_nat (length l) + 1) else Ret (h, a)) = Ret (h1, a1) /\
     holds h1 a1 l /\ frame h (at_ a) h1 (at_ a1) /\ Z.of_nat (length l) < reserved a1 /\
    ((Z.of_nat (length l) < reserved a /\ reserved a1 = reserved a /\ length h1 = length h) \/
     (reserved a <= Z.of_nat (length l) /\ reserved a1 = grow (reserved a) (Z.of_nat (length l) + 1) /\ length h1 = S (length h)))).
  { destruct (Z.leb_spec (reserved a) (Z.of_nat (length l))) as [R|R].
    - destruct (set_reserved_ok h a l (Z.of_nat (length l) + 1) H ltac:(lia) ltac:(lia)) as (h1 & a1 & E & H1 & F & G & P & Q).
      exists h1, a1. split; [auto|]. split; [auto|]. split; [auto|]. split.
      + rewrite G. destruct (grow_ok (reserved a) (Z.of_nat (length l) + 1)); [destruct H; lia|lia|lia].
      + right. auto.
    - exists h, a. split; [auto|]. split; [auto|]. split; [apply frame_refl|]. split; [auto|]. left. auto. }
  destruct S as (h1 & a1 & -> & H1 & F1 & R1 & D). cbn [bind].
  destruct (holds_cells h1 a1 l H1) as (k & L & HN & HR). rewrite L. cbn [bind]. rewrite (X h1 a1 H1). cbn [bind].
  assert (E : at_ a1 <> Null) by (eapply not_null; eauto; lia). specialize (HR E). rewrite (h_count _ _ _ H1).
  destruct k as [|k]; [lia|]. unfold cells. cbn [repeat]. rewrite make_app by now rewrite map_length. cbn [bind].
  rewrite snoc_app. change [Some v] with (map (@Some A) [v]). rewrite <- map_app. change (map Some (l ++ [v]) ++ repeat None k) with (cells (l ++ [v]) k).
  destruct (save_holds h1 a1 l (l ++ [v]) (S k) k (Z.of_nat (length l) + 1) H1 L E) as [S1 S2]; [rewrite app_length; simpl; lia|rewrite app_length; simpl; lia|].
  destruct (save_at h1 a1 (cells (l ++ [v]) k)) as (Ea & Ec & Er).
  assert (LL : length (fst (save A h1 a1 (cells (l ++ [v]) k))) = length h1).
  { unfold save. destruct (at_ a1); simpl; auto. apply upd_length. }
  destruct (save A h1 a1 _) as [h2 a2]. simpl in *. eexists _, _. split; [reflexivity|]. split; [auto|]. split; [eapply frame_trans; eauto|].
  simpl. rewrite Er, LL. auto.
Qed.

Lemma append_ok h a l v : holds h a l -> Z.of_nat (length l) < 1073741824 ->
  exists h' a', append A dflt base h a (option_map Val v) = Ret (h', a') /\ holds h' a' (l ++ [match v with Some v => v | None => dflt end]) /\
    frame h (at_ a) h' (at_ a').
Proof.
  intros H N. destruct (append_gen h a l (option_map Val v) (match v with Some v => v | None => dflt end) H N) as (h' & a' & E & H' & F & _); eauto.
  intros. destruct v; reflexivity.
Qed.

Lemma insert_ok h a l i v : holds h a l -> 0 <= i < 1073741824 -> Z.of_nat (length l) < 1073741824 ->
  exists h' a', insert A dflt base h a i (Val v) = Ret (h', a') /\ holds h' a' (inserted A dflt l (Z.to_nat i) v) /\ frame h (at_ a) h' (at_ a').
Proof.
  intros H I N. unfold insert. rewrite (h_count _ _ _ H). destruct (Z.leb_spec (Z.of_nat (length l)) i) as [B|B].
  - unfold int32. replace ((_ <=? _) && (_ <? _)) with true by lia. cbn [bind].
    destruct (reserve_ok h a l (i + 1) H ltac:(lia)) as (h1 & a1 & -> & H1 & F1 & R1). cbn [bind].
    destruct (holds_cells h1 a1 l H1) as (k & L & HN & HR). rewrite L. cbn [bind]. rewrite (h_count _ _ _ H1).
    assert (E : at_ a1 <> Null) by (eapply not_null; eauto; lia). specialize (HR E).
    set (m := Z.to_nat (i - Z.of_nat (length l))). unfold cells. replace k with (m + S (k - S m))%nat by lia. rewrite repeat_app.
    rewrite make_up_ok by (now rewrite map_length). cbn [bind]. rewrite app_assoc, <- map_app.
    destruct (save_at h1 a1 (map Some (l ++ repeat dflt m) ++ repeat None (S (k - S m)))) as (Ea & Ec & Er).
    pose proof (save_holds h1 a1 l (l ++ repeat dflt m) k (S (k - S m)) (count (snd (save A h1 a1 (cells (l ++ repeat dflt m) (S (k - S m)))))) H1 L E) as SH.
    cbn [read_arg bind] in *.
    set (c1 := map Some (l ++ repeat dflt m) ++ repeat None (S (k - S m))) in *.
    assert (S1 : exists h2 a2, save A h1 a1 c1 = (h2, a2) /\ holds h2 (with_count A a2 i) (l ++ repeat dflt m) /\ frame h1 (at_ a1) h2 (at_ a2) /\ at_ a2 = at_ a1 /\
       load A h2 (with_count A a2 i) = Ret (cells (l ++ repeat dflt m) (S (k - S m)))).
    { destruct (save_holds h1 a1 l (l ++ repeat dflt m) k (S (k - S m)) i H1 L E) as [X1 X2]; [rewrite app_length, repeat_length; lia|rewrite app_length, repeat_length; lia|].
      fold (cells (l ++ repeat dflt m) (S (k - S m))) in c1. subst c1. pose proof (save_load h1 a1 (cells (l ++ repeat dflt m) (S (k - S m))) _ L E) as SL.
      destruct (save A h1 a1 _) as [h2 a2]. simpl in *. eexists _, _. split; [reflexivity|]. split; [exact X1|]. split; [exact X2|]. split; [exact Ea|exact SL]. }
    destruct S1 as (h2 & a2 & -> & H2 & F2 & E2 & L2).
    assert (MK : make A c1 i v = Ret (cells ((l ++ repeat dflt m) ++ [v]) (k - S m))).
    { unfold c1. cbn [repeat]. rewrite make_app by (rewrite map_length, app_length, repeat_length; lia). unfold cells. rewrite (map_app Some (l ++ repeat dflt m)). simpl. now rewrite <- app_assoc. }
    rewrite MK. cbn [bind].
    assert (E2' : at_ (with_count A a2 i) <> Null) by (simpl; congruence).
    destruct (save_holds h2 (with_count A a2 i) _ ((l ++ repeat dflt m) ++ [v]) _ (k - S m) (i + 1) H2 L2 E2') as [X1 X2];
      [rewrite app_length; simpl; lia|rewrite !app_length, repeat_length; simpl; lia|].
    assert (SV : save A h2 (with_count A a2 i) (cells ((l ++ repeat dflt m) ++ [v]) (k - S m)) =
      (fst (save A h2 a2 (cells ((l ++ repeat dflt m) ++ [v]) (k - S m))), with_count A (snd (save A h2 a2 (cells ((l ++ repeat dflt m) ++ [v]) (k - S m)))) i)).
    { unfold save, with_count. simpl. destruct (at_ a2) eqn:?; simpl; rewrite ?Heqp; reflexivity. }
    rewrite SV in X1, X2. destruct (save A h2 a2 _) as [h3 a3]. simpl in *. eexists _, _. split; [reflexivity|]. split.
    + unfold inserted, resized. rewrite firstn_all2 by lia. rewrite skipn_all2 by lia. replace (Z.to_nat i - length l)%nat with m by lia. exact X1.
    + eapply frame_trans; [exact F1|]. eapply frame_trans; [exact F2|]. exact X2.
  - unfold int32. replace ((_ <=? _) && (_ <? _)) with true by lia. cbn [bind].
    destruct (reserve_ok h a l (Z.of_nat (length l) + 1) H ltac:(lia)) as (h1 & a1 & -> & H1 & F1 & R1). cbn [bind].
    destruct (holds_cells h1 a1 l H1) as (k & L & HN & HR). rewrite L. cbn [bind]. rewrite (h_count _ _ _ H1).
    assert (E : at_ a1 <> Null) by (eapply not_null; eauto; lia). specialize (HR E).
    destruct k as [|k]; [lia|]. set (j := Z.to_nat i). assert (FL : length (firstn j l) = j) by (rewrite firstn_length; lia).
    assert (SU : shift_up A (Z.to_nat (Z.of_nat (length l) - i)) (Z.of_nat (length l)) (cells l (S k)) =
      Ret (map Some (firstn j l) ++ None :: map Some (skipn j l) ++ repeat None k)).
    { unfold cells. cbn [repeat]. rewrite <- (firstn_skipn j l) at 3. rewrite map_app, <- app_assoc.
      replace (Z.to_nat (Z.of_nat (length l) - i)) with (length (skipn j l)) by (rewrite skipn_length; lia).
      apply shift_up_ok. rewrite map_length, FL, skipn_length. lia. }
    rewrite SU. cbn [bind read_arg]. set (c1 := map Some (firstn j l) ++ _).
    destruct (save_at h1 a1 c1) as (Ea & Ec & Er). pose proof (save_load h1 a1 c1 _ L E) as SL. pose proof (save_frame h1 a1 c1) as SF.
    pose proof (save_storage h1 a1 c1) as SS.
    assert (SV2 : forall c2, save A (fst (save A h1 a1 c1)) (snd (save A h1 a1 c1)) c2 = save A h1 a1 c2).
    { intros c2. unfold save. destruct (at_ a1) as [| |m] eqn:Em; simpl; rewrite ?Em; [congruence|reflexivity|]. f_equal.
      clear. revert m. induction h1 as [|y h1 IH]; intros [|m]; simpl; auto. now rewrite IH. }
    assert (MK : make A c1 i v = Ret (map Some (firstn j l) ++ Some v :: map Some (skipn j l) ++ repeat None k)) by (apply make_app; rewrite map_length; lia).
    rewrite (surjective_pairing (save A h1 a1 c1)). rewrite MK. cbn [bind].
    rewrite SV2. clear SV2 SL SF SS Ea Ec Er.
    replace (map Some (firstn j l) ++ Some v :: map Some (skipn j l) ++ repeat None k) with (cells (firstn j l ++ v :: skipn j l) k)
      by (unfold cells; rewrite map_app; simpl; now rewrite <- app_assoc).
    assert (IL : length (firstn j l ++ v :: skipn j l) = S (length l)) by (rewrite app_length; simpl; rewrite FL, skipn_length; lia).
    destruct (save_holds h1 a1 l (firstn j l ++ v :: skipn j l) (S k) k (Z.of_nat (length l) + 1) H1 L E) as [S1 S2]; [lia|lia|].
    destruct (save A h1 a1 (cells (firstn j l ++ v :: skipn j l) k)) as [h2 a2]. simpl in *. eexists _, _. split; [reflexivity|].
    split; [|eapply frame_trans; eauto].
    unfold inserted, resized. fold j. replace (j - length l)%nat with 0%nat by lia. simpl. rewrite app_nil_r. exact S1.
Qed.

Lemma remove_ok h a l i : holds h a l -> 0 <= i ->
  exists h' a', remove A h a i = Ret (h', a') /\ holds h' a' (removed A l (Z.to_nat i)) /\ frame h (at_ a) h' (at_ a').
Proof.
  intros H I. unfold remove. rewrite (h_count _ _ _ H). destruct (Z.ltb_spec i (Z.of_nat (length l))) as [B|B].
  - destruct (holds_cells h a l H) as (k & L & HN & HR). rewrite L. cbn [bind].
    assert (E : at_ a <> Null) by (intros E; destruct (HN E) as [-> _]; simpl in B; lia).
    set (j := Z.to_nat i). assert (FL : length (firstn j l) = j) by (rewrite firstn_length; lia).
    assert (SP : exists v, skipn j l = v :: skipn (S j) l).
    { destruct (skipn j l) as [|v t] eqn:Es.
      - apply (f_equal (@length _)) in Es. rewrite skipn_length in Es. simpl in Es. lia.
      - exists v. f_equal. clear -Es. revert l Es. induction j as [|j IH]; intros [|x l] Es; simpl in *; try discriminate; [congruence|now apply IH]. }
    destruct SP as [v SP].
    assert (C : cells l k = map Some (firstn j l) ++ Some v :: map Some (skipn (S j) l) ++ repeat None k).
    { unfold cells. rewrite <- (firstn_skipn j l) at 1. rewrite SP, map_app. simpl. now rewrite <- app_assoc. }
    rewrite C. rewrite kill_app by (rewrite map_length; lia). cbn [bind].
    replace (Z.to_nat (Z.of_nat (length l) - (i + 1))) with (length (skipn (S j) l)) by (rewrite skipn_length; lia).
    rewrite shift_down_ok by (rewrite map_length; lia). cbn [bind].
    replace (map Some (firstn j l) ++ map Some (skipn (S j) l) ++ None :: repeat None k) with (cells (removed A l j) (S k))
      by (unfold cells, removed; rewrite map_app, <- app_assoc; reflexivity).
    assert (RL : length (removed A l j) = (length l - 1)%nat) by (unfold removed; rewrite app_length, FL, skipn_length; lia).
    destruct (save_at h a (cells (removed A l j) (S k))) as (_ & Ec & _).
    destruct (save_holds h a l (removed A l j) k (S k) (Z.of_nat (length l) - 1) H L E) as [S1 S2]; [lia|lia|].
    destruct (save A h a _) as [h2 a2]. simpl in *. eexists _, _. split; [reflexivity|]. rewrite Ec, (h_count _ _ _ H). auto.
  - exists h, a. split; [auto|]. split; [|apply frame_refl]. unfold removed. rewrite firstn_all2, skipn_all2 by lia. now rewrite app_nil_r.
Qed.

Lemma remove_last_ok h a l : holds h a l ->
  exists h' a', remove_last A h a = Ret (h', a') /\ holds h' a' (removelast l) /\ frame h (at_ a) h' (at_ a').
Proof.
  intros H. unfold remove_last. rewrite (h_count _ _ _ H). destruct (Z.leb_spec 0 (Z.of_nat (length l) - 1)) as [B|B].
  - destruct (holds_cells h a l H) as (k & L & HN & HR). rewrite L. cbn [bind].
    assert (E : at_ a <> Null) by (intros E; destruct (HN E) as [-> _]; simpl in B; lia).
    destruct (exists_last (l := l)) as (l' & v & ->); [intros ->; simpl in B; lia|]. rewrite removelast_last. rewrite app_length in *. simpl in *.
    assert (C : cells (l' ++ [v]) k = map Some l' ++ Some v :: repeat None k) by (unfold cells; rewrite map_app, <- app_assoc; reflexivity).
    rewrite C. rewrite kill_app by (rewrite map_length; lia). cbn [bind]. change (map Some l' ++ None :: repeat None k) with (cells l' (S k)).
    destruct (save_holds h a (l' ++ [v]) l' k (S k) (Z.of_nat (length l' + 1) - 1) H L E) as [S1 S2]; [rewrite app_length; simpl; lia|lia|].
    destruct (save A h a _) as [h2 a2]. simpl in *. eexists _, _. split; [reflexivity|]. auto.
  - exists h, a. split; [auto|]. destruct l; [|simpl in B; lia]. split; [exact H|apply frame_refl].
Qed.

(** ** Construction *)

Lemma fresh_frame h cs : frame h Null (h ++ [Some cs]) (Block (length h)).
Proof.
  split.
  - rewrite app_length. lia.
  - intros n Hn _. now rewrite nth_error_app1 by lia.
  - intros n [= <-]. right. lia.
  - intros n [c Hc]. destruct (Nat.eq_dec n (length h)) as [->|N]; [now left|right]. split; [|discriminate].
    assert (n < length (h ++ [Some cs]))%nat by (apply nth_error_Some; congruence). rewrite app_length in *. simpl in *.
    rewrite nth_error_app1 in Hc by lia. now exists c.
Qed.

Lemma local_frame h : frame h Null h Local.
Proof. split; auto; try discriminate. intros n Hn. right. split; [auto|discriminate]. Qed.

Lemma new_zero_ok h n : base = 0 -> -2147483648 <= n <= 1073741824 ->
  let r := new_zero A base h n in holds (fst r) (snd r) [] /\ frame h Null (fst r) (at_ (snd r)).
Proof.
  intros B N. unfold new_zero, alloc. destruct (Z.ltb_spec 0 n); simpl; (split; [split; simpl; auto; unfold limit; try lia|]).
  - exists (Z.to_nat n). unfold load. simpl. rewrite nth_app_last. split; [reflexivity|lia].
  - apply fresh_frame.
  - exists 0%nat. repeat split; auto.
  - apply frame_refl.
Qed.

Lemma new_base_ok h : 0 < base -> holds h (new_base A base) [] /\ frame h Null h (at_ (new_base A base)).
Proof.
  intros B. split; [|apply local_frame]. split; simpl; auto; unfold limit; try lia; try congruence.
  exists (Z.to_nat base). unfold load. simpl. split; [reflexivity|lia].
Qed.

Lemma new_copy_ok h x l : holds h x l ->
  exists h' a, new_copy A base h x = Ret (h', a) /\ holds h' a l /\ frame h Null h' (at_ a).
Proof.
  intros H. unfold new_copy. destruct (holds_cells h x l H) as (k & L & HN & HR). rewrite L. cbn [bind]. rewrite (h_count _ _ _ H), Nat2Z.id.
  destruct (if base =? 0 then 0 <? reserved x else base <? Z.of_nat (length l)) eqn:C.
  - assert (E : at_ x <> Null).
    { intros E. destruct (HN E) as [-> R]. destruct (Z.eqb_spec base 0); simpl in C; lia. }
    specialize (HR E). unfold alloc. unfold load at 1. cbn [at_]. rewrite nth_app_last. cbn [bind].
    rewrite HR, Nat2Z.id. rewrite repeat_app.
    pose proof (copy_loop_ok l 0 [] (repeat None k) [] (repeat None k) eq_refl eq_refl) as X. cbn [app] in X. unfold cells. rewrite X. cbn [bind].
    unfold save. cbn [at_]. eexists _, _. split; [reflexivity|]. rewrite upd_app. split; [|apply fresh_frame].
    assert (0 < reserved x). { destruct (Z.eqb_spec base 0); [lia|]. lia. }
    destruct H as [_ _ _ BB]. split; cbn [count reserved at_ storage]; auto; try lia.
    exists k. unfold load. cbn [at_]. rewrite nth_app_last. split; [reflexivity|]. lia.
  - destruct (Z.eqb_spec base 0) as [B|B].
    + assert (E : at_ x = Null).
      { destruct (null_or x) as [|E]; auto. specialize (HR E). destruct H as [_ (k0 & _ & P) _ _]. destruct (at_ x); [auto| |]; lia. }
      destruct (HN E) as [-> _]. eexists _, _. split; [reflexivity|]. split; [|apply frame_refl].
      destruct H as [H1 H2 H3 H4]. split; simpl; auto. exists 0%nat. repeat split; auto. lia.
    + assert (BL : Z.of_nat (length l) <= base) by lia. unfold no_objects.
      replace (Z.to_nat base) with (length l + (Z.to_nat base - length l))%nat by lia. rewrite repeat_app.
      pose proof (copy_loop_ok l 0 [] (repeat None k) [] (repeat None (Z.to_nat base - length l)) eq_refl eq_refl) as X. cbn [app] in X. unfold cells. rewrite X. cbn [bind].
      eexists _, _. split; [reflexivity|]. split; [|apply local_frame]. split; simpl; auto; unfold limit; try lia; try congruence.
      exists (Z.to_nat base - length l)%nat. unfold load. simpl. split; [reflexivity|lia].
Qed.

(** Moving: the new array takes over; a block the source still has although its
    elements would fit into the member is lost. *)
Lemma new_move_ok h x l : holds h x l ->
  exists h' a x', new_move A base h x = Ret (h', a, x') /\ holds h' a l /\ holds h' x' [] /\
    (length h' = length h) /\ (forall n, at_ x <> Block n -> nth_error h' n = nth_error h n) /\
    (forall n, alive h' n -> alive h n) /\
    ((at_ a = at_ x /\ (forall n, at_ x' <> Block n)) \/ (base <> 0 /\ at_ a = Local /\ at_ x' = Local /\ Z.of_nat (length l) <= base)).
Proof.
  intros H. unfold new_move. pose proof (h_count _ _ _ H) as HC. destruct (Z.eqb_spec base 0) as [B|B].
  - eexists _, _, _. split; [reflexivity|].
    assert (NL : at_ x <> Local). { intros E. destruct H as [_ (k & _ & P) _ _]. rewrite E in P. lia. }
    split; [|split; [|split; [auto|split; [auto|split; [auto|left; simpl; split; [auto|discriminate]]]]]].
    + destruct H as [H1 H2 H3 H4]. split; simpl; auto. destruct H2 as (k & L & P). exists k. split; [|auto].
      unfold load in *. simpl. destruct (at_ x); [auto|congruence|auto].
    + split; simpl; auto; unfold limit; try lia.
      * exists 0%nat. repeat split; auto. lia.
      * intros _. apply H. auto.
  - rewrite HC. destruct (Z.ltb_spec base (Z.of_nat (length l))) as [C|C].
    + eexists _, _, _. split; [reflexivity|].
      assert (NL : exists m, at_ x = Block m).
      { destruct H as [_ (k & _ & P) _ _]. destruct (at_ x) as [| |m]; [lia|lia|now exists m]. }
      destruct NL as [m Em]. split; [|split; [|split; [auto|split; [auto|split; [auto|left; simpl; split; [auto|discriminate]]]]]].
      * destruct H as [H1 H2 H3 H4]. split; simpl; auto. destruct H2 as (k & L & P). exists k. split; [|auto].
        unfold load in *. simpl. rewrite Em in *. auto.
      * split; simpl; auto; unfold limit; try lia; try congruence. exists (Z.to_nat base).
        unfold load. simpl. rewrite (h_storage _ _ _ H) by congruence. split; [reflexivity|lia].
    + destruct (holds_cells h x l H) as (k & L & HN & HR). rewrite L. cbn [bind]. rewrite Nat2Z.id.
      assert (E : at_ x <> Null). { intros E. destruct H as [_ (k0 & _ & P) _ _]. rewrite E in P. lia. }
      unfold no_objects. replace (Z.to_nat base) with (length l + (Z.to_nat base - length l))%nat by lia. rewrite repeat_app.
      pose proof (move_loop_ok l 0 [] (repeat None k) [] (repeat None (Z.to_nat base - length l)) eq_refl eq_refl) as X. cbn [app] in X. unfold cells. rewrite X. cbn [bind]. clear X.
      rewrite <- (repeat_app None (length l) k). change (repeat None (length l + k)) with (cells [] (length l + k)).
      destruct (save_holds h x l [] k (length l + k)%nat 0 H L E) as [S1 S2]; [simpl; lia|reflexivity|].
      destruct (save_at h x (cells [] (length l + k))) as (Ea & Ec & Er).
      assert (LL : length (fst (save A h x (cells [] (length l + k)))) = length h).
      { unfold save. destruct (at_ x); simpl; auto. apply upd_length. }
      assert (SN : forall n, at_ x <> Block n -> nth_error (fst (save A h x (cells [] (length l + k)))) n = nth_error h n).
      { intros n Hn. unfold save. destruct (at_ x); simpl; auto. apply upd_other. congruence. }
      assert (AL : forall n, alive (fst (save A h x (cells [] (length l + k)))) n -> alive h n).
      { intros n [cs Hn]. unfold save in Hn. unfold load in L. destruct (at_ x) as [| |m]; [congruence|simpl in Hn; now exists cs|simpl in Hn].
        destruct (Nat.eq_dec m n) as [<-|]; [|rewrite upd_other in Hn by auto; now exists cs].
        destruct (nth_error h m) as [[c|]|] eqn:Eh; try discriminate. now exists c. }
      destruct (save A h x _) as [h2 x2]. simpl in *. rewrite Ec, HC. eexists _, _, _. split; [reflexivity|].
      split; [|split; [|split; [auto|split; [auto|split; [auto|right; simpl; auto]]]]].
      * split; simpl; auto; unfold limit; try lia; try congruence. exists (Z.to_nat base - length l)%nat.
        unfold load. simpl. split; [reflexivity|lia].
      * split; simpl; auto; unfold limit; try lia; try congruence. exists (Z.to_nat base).
        unfold load. simpl. pose proof (storage_none h2 (with_count A x2 0) [] S1 eq_refl) as St. simpl in St. rewrite St. split; [reflexivity|lia].
Qed.

End Proofs.
