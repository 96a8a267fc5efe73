(** * Arrays whose growth failed: they equal the arrays of a history in which the
    failed calls were not made, except for the raised reservedCount. *)

From Verif Require Import Base ArrayModel ArrayFailModel SpecArray ArrayProofs ArrayWorld SpecArrayFail.

Section FailProofs.
Variable A : Type.
Variable dflt : A.
Variable base : Z.
Hypothesis base_ok : 0 <= base <= 268435456.

Local Notation arr := (arr A).
Local Notation heap := (heap A).
Local Notation op := (op A).

(** [a] with another reservedCount. *)
Definition claims (r : Z) (a : arr) : arr := Arr (count a) r (at_ a) (storage a).

Definition both {X} (r : Z) (x : X * arr) : X * arr := (fst x, claims r (snd x)).

Definition mapo {X Y} (f : X -> Y) (x : out X) : out Y := bind x (fun v => Ret (f v)).

Lemma load_claims h r a : load A h (claims r a) = load A h a.
Proof. reflexivity. Qed.

Lemma save_claims h r a cs : save A h (claims r a) cs = both r (save A h a cs).
Proof. unfold save. destruct a as [c r0 [| |n] st]; reflexivity. Qed.

Lemma clear_claims h r a : clear A h (claims r a) = mapo (both r) (clear A h a).
Proof.
  unfold clear. rewrite load_claims. destruct (load A h a) as [cs| |]; try reflexivity. cbn [bind].
  change (count (claims r a)) with (count a). destruct (kill_down A (Z.to_nat (count a)) (count a) cs) as [cs'| |]; try reflexivity. cbn [bind].
  rewrite save_claims. destruct (save A h a cs') as [h' a']. reflexivity.
Qed.

Lemma delete_claims h r a : delete A h (claims r a) = delete A h a.
Proof.
  unfold delete. rewrite clear_claims. destruct (clear A h a) as [[h' a']| |]; reflexivity.
Qed.

Lemma purge_claims h r a : purge A base h (claims r a) = purge A base h a.
Proof.
  unfold purge. rewrite clear_claims. destruct (clear A h a) as [[h' a']| |]; reflexivity.
Qed.

Lemma remove_claims h r a j : remove A h (claims r a) j = mapo (both r) (remove A h a j).
Proof.
  unfold remove. change (count (claims r a)) with (count a). destruct (j <? count a); [|reflexivity]. rewrite load_claims.
  destruct (load A h a) as [cs| |]; try reflexivity. cbn [bind].
  destruct (kill A cs j) as [cs1| |]; try reflexivity. cbn [bind].
  destruct (shift_down A (Z.to_nat (count a - (j + 1))) j cs1) as [cs'| |]; try reflexivity. cbn [bind].
  rewrite save_claims. unfold both. destruct (save A h a cs') as [h' a']. reflexivity.
Qed.

Lemma remove_last_claims h r a : remove_last A h (claims r a) = mapo (both r) (remove_last A h a).
Proof.
  unfold remove_last. change (count (claims r a)) with (count a). destruct (0 <=? count a - 1); [|reflexivity]. rewrite load_claims.
  destruct (load A h a) as [cs| |]; try reflexivity. cbn [bind].
  destruct (kill A cs (count a - 1)) as [cs'| |]; try reflexivity. cbn [bind].
  rewrite save_claims. unfold both. destruct (save A h a cs') as [h' a']. reflexivity.
Qed.

(** ** The arrays of two histories *)

(** The second world is as the first, but for the reservedCounts of the arrays [T]. *)
Record twin (T : list nat) (w w0 : world A) : Prop := Twin {
  tw_heap : fst w = fst w0;
  tw_length : length (snd w) = length (snd w0);
  tw_same : forall i, ~ In i T -> nth_error (snd w) i = nth_error (snd w0) i;
  tw_raised : forall i, In i T -> exists a r, nth_error (snd w0) i = Some (Some a) /\ nth_error (snd w) i = Some (Some (claims r a))
}.

Lemma drop_in i j T : In j (drop i T) <-> In j T /\ j <> i.
Proof. unfold drop. rewrite filter_In. destruct (Nat.eqb_spec j i); simpl; split; [intros [_ [=]]|intros [_ X]; contradiction|intros [X _]; auto|intros [X _]; auto]. Qed.

Lemma twin_lt T w w0 i : twin T w w0 -> In i T -> (i < length (snd w0))%nat.
Proof. intros W H. destruct (tw_raised _ _ _ W i H) as (a & r & E & _). apply nth_error_Some. congruence. Qed.

Lemma upd_nth {X} (l : list X) i j x : (i < length l)%nat -> nth_error (upd l i x) j = if (j =? i)%nat then Some x else nth_error l j.
Proof.
  intros L. destruct (Nat.eqb_spec j i) as [->|N]; [apply upd_same; auto|apply upd_other; auto].
Qed.

Lemma twin_upd T h h0 arrs arrs0 i x h' : twin T (h, arrs) (h0, arrs0) -> (i < length arrs0)%nat ->
  twin (drop i T) (h', upd arrs i x) (h', upd arrs0 i x).
Proof.
  intros W L. pose proof (tw_length _ _ _ W) as LL. cbn [snd] in LL. split; cbn [fst snd].
  - reflexivity.
  - now rewrite !upd_length.
  - intros j NI. rewrite !upd_nth by lia. destruct (Nat.eqb_spec j i); [reflexivity|]. apply (tw_same _ _ _ W). rewrite drop_in in NI. tauto.
  - intros j I. apply drop_in in I. destruct I as [I N]. rewrite !upd_nth by lia. destruct (Nat.eqb_spec j i); [contradiction|].
    exact (tw_raised _ _ _ W j I).
Qed.

Lemma twin_upd_same T h h0 arrs arrs0 i x h' : twin T (h, arrs) (h0, arrs0) -> ~ In i T -> (i < length arrs0)%nat ->
  twin T (h', upd arrs i x) (h', upd arrs0 i x).
Proof.
  intros W N L. pose proof (twin_upd T h h0 arrs arrs0 i x h' W L) as D.
  replace (drop i T) with T in D; [exact D|]. clear -N. unfold drop. induction T as [|y T IH]; [reflexivity|]. cbn [filter].
  destruct (Nat.eqb_spec y i) as [->|E]; [exfalso; apply N; left; reflexivity|]. cbn [negb]. f_equal. apply IH. intros I. apply N. right. exact I.
Qed.

Lemma twin_upd_raised T h h0 arrs arrs0 i a r h' : twin T (h, arrs) (h0, arrs0) -> In i T ->
  twin T (h', upd arrs i (Some (claims r a))) (h', upd arrs0 i (Some a)).
Proof.
  intros W I. pose proof (twin_lt _ _ _ _ W I) as L. cbn [snd] in L. pose proof (tw_length _ _ _ W) as LL. cbn [snd] in LL. split; cbn [fst snd].
  - reflexivity.
  - now rewrite !upd_length.
  - intros j N. rewrite !upd_nth by lia. destruct (Nat.eqb_spec j i) as [->|E]; [contradiction|]. now apply (tw_same _ _ _ W).
  - intros j J. rewrite !upd_nth by lia. destruct (Nat.eqb_spec j i) as [->|E]; [eauto|]. exact (tw_raised _ _ _ W j J).
Qed.

Lemma twin_app T h h0 arrs arrs0 x h' : twin T (h, arrs) (h0, arrs0) -> twin T (h', arrs ++ [x]) (h', arrs0 ++ [x]).
Proof.
  intros W. pose proof (tw_length _ _ _ W) as LL. cbn [snd] in LL. split; cbn [fst snd].
  - reflexivity.
  - rewrite !app_length. lia.
  - intros j N. destruct (Nat.lt_ge_cases j (length arrs0)) as [L|L].
    + rewrite !nth_error_app1 by lia. now apply (tw_same _ _ _ W).
    + rewrite !nth_error_app2 by lia. now rewrite LL.
  - intros j J. pose proof (twin_lt _ _ _ _ W J) as L. cbn [snd] in L. rewrite !nth_error_app1 by lia. exact (tw_raised _ _ _ W j J).
Qed.

Lemma slot_lt {X} (l : list X) i x : nth_error l i = Some x -> (i < length l)%nat.
Proof. intros E. apply nth_error_Some. congruence. Qed.

(** A call on an array whose reservedCount is right. *)
Lemma use_same T w w0 i f w0' : twin T w w0 -> ~ In i T -> use A w0 i f = Ret w0' -> exists w', use A w i f = Ret w' /\ twin T w' w0'.
Proof.
  intros W N. pose proof (tw_same _ _ _ W i N) as E. pose proof (tw_heap _ _ _ W) as EH. destruct w as [h arrs], w0 as [h0 arrs0]. cbn [fst snd] in *. subst h0. unfold use. cbn [fst snd].
  rewrite E. destruct (nth_error arrs0 i) as [[a|]|] eqn:Ea; try discriminate. destruct (f h a) as [[h' a']| |]; try discriminate. cbn [bind].
  intros [= <-]. eexists. split; [reflexivity|]. eapply twin_upd_same; eauto using slot_lt.
Qed.

(** A call on an array whose reservedCount is wrong. *)
Lemma use_raised T w w0 i f w0' : twin T w w0 -> In i T -> (forall h r a, f h (claims r a) = mapo (both r) (f h a)) ->
  use A w0 i f = Ret w0' -> exists w', use A w i f = Ret w' /\ twin T w' w0'.
Proof.
  intros W I F. destruct (tw_raised _ _ _ W i I) as (a & r & E0 & E). pose proof (tw_heap _ _ _ W) as EH.
  destruct w as [h arrs], w0 as [h0 arrs0]. cbn [fst snd] in *. subst h0. unfold use. cbn [fst snd].
  rewrite E, E0, F. destruct (f h a) as [[h' a']| |]; try discriminate. cbn [bind mapo].
  intros [= <-]. eexists. split; [reflexivity|]. unfold both. cbn [fst snd]. eapply twin_upd_raised; eauto.
Qed.

Lemma step_twin T w w0 o w0' : twin T w w0 -> allowed T o -> step A dflt base w0 o = Ret w0' ->
  exists w', step A dflt base w o = Ret w' /\ twin (after T o) w' w0'.
Proof.
  intros W Al. pose proof (tw_heap _ _ _ W) as EH. destruct o as [n|i|i|i|i|i|i n|i n v|i v|i j v|i j|i]; cbn [step after]; unfold allowed in Al; cbn [target harmless] in Al.
  - destruct w as [h arrs], w0 as [h0 arrs0]. cbn [fst snd] in *. subst h0. destruct (base =? 0).
    + destruct (new_zero A base h n) as [h' a]. intros [= <-]. eexists. split; [reflexivity|]. eapply twin_app; eauto.
    + intros [= <-]. eexists. split; [reflexivity|]. eapply twin_app; eauto.
  - destruct Al as [Al|[]]. rewrite (tw_same _ _ _ W i Al). destruct w as [h arrs], w0 as [h0 arrs0]. cbn [fst snd] in *. subst h0.
    destruct (nth_error arrs0 i) as [[a|]|]; try discriminate. destruct (new_copy A base h a) as [[h' a']| |]; try discriminate. cbn [bind].
    intros [= <-]. eexists. split; [reflexivity|]. eapply twin_app; eauto.
  - destruct Al as [Al|[]]. rewrite (tw_same _ _ _ W i Al). destruct w as [h arrs], w0 as [h0 arrs0]. cbn [fst snd] in *. subst h0.
    destruct (nth_error arrs0 i) as [[a|]|] eqn:Ea; try discriminate. destruct (new_move A base h a) as [[[h' a'] x']| |]; try discriminate. cbn [bind].
    intros [= <-]. eexists. split; [reflexivity|]. eapply twin_app. eapply (twin_upd_same T h h arrs arrs0 i (Some x') h'); eauto using slot_lt.
  - destruct (in_dec Nat.eq_dec i T) as [I|N].
    + destruct (tw_raised _ _ _ W i I) as (a & r & E0 & E). destruct w as [h arrs], w0 as [h0 arrs0]. cbn [fst snd] in *. subst h0.
      rewrite E, E0, delete_claims. destruct (delete A h a) as [h'| |]; try discriminate. cbn [bind].
      intros [= <-]. eexists. split; [reflexivity|]. eapply twin_upd; eauto using slot_lt.
    + rewrite (tw_same _ _ _ W i N). destruct w as [h arrs], w0 as [h0 arrs0]. cbn [fst snd] in *. subst h0.
      destruct (nth_error arrs0 i) as [[a|]|] eqn:Ea; try discriminate. destruct (delete A h a) as [h'| |]; try discriminate. cbn [bind].
      intros [= <-]. eexists. split; [reflexivity|]. eapply twin_upd; eauto using slot_lt.
  - destruct (in_dec Nat.eq_dec i T) as [I|N]; [eapply use_raised; eauto using clear_claims|eapply use_same; eauto].
  - unfold use. destruct (in_dec Nat.eq_dec i T) as [I|N].
    + destruct (tw_raised _ _ _ W i I) as (a & r & E0 & E). destruct w as [h arrs], w0 as [h0 arrs0]. cbn [fst snd] in *. subst h0.
      rewrite E, E0, purge_claims. destruct (purge A base h a) as [[h' a']| |]; try discriminate. cbn [bind].
      intros [= <-]. eexists. split; [reflexivity|]. eapply twin_upd; eauto using slot_lt.
    + rewrite (tw_same _ _ _ W i N). destruct w as [h arrs], w0 as [h0 arrs0]. cbn [fst snd] in *. subst h0.
      destruct (nth_error arrs0 i) as [[a|]|] eqn:Ea; try discriminate. destruct (purge A base h a) as [[h' a']| |]; try discriminate. cbn [bind].
      intros [= <-]. eexists. split; [reflexivity|]. eapply twin_upd; eauto using slot_lt.
  - destruct Al as [Al|[]]. eapply use_same; eauto.
  - destruct Al as [Al|[]]. eapply use_same; eauto.
  - destruct Al as [Al|[]]. eapply use_same; eauto.
  - destruct Al as [Al|[]]. eapply use_same; eauto.
  - destruct (in_dec Nat.eq_dec i T) as [I|N]; [|eapply use_same; eauto].
    eapply use_raised; eauto. intros. apply remove_claims.
  - destruct (in_dec Nat.eq_dec i T) as [I|N]; [eapply use_raised; eauto using remove_last_claims|eapply use_same; eauto].
Qed.

(** ** Calls without memory *)

Lemma fail_twin T w w0 i a n : twin T w w0 -> ~ In i T -> nth_error (snd w0) i = Some (Some a) ->
  -2147483648 <= reserved a <= 1073741824 -> n <= 1073741824 ->
  exists w', use A w i (fun h a => let! a := grow_fail A base a n in Ret (h, a)) = Ret w' /\ twin (i :: T) w' w0.
Proof.
  intros W N E R L. pose proof (tw_same _ _ _ W i N) as E'. pose proof (tw_heap _ _ _ W) as EH. pose proof (tw_length _ _ _ W) as EL. destruct w as [h arrs], w0 as [h0 arrs0]. cbn [fst snd] in *. subst h0.
  unfold use. cbn [fst snd]. rewrite E', E. unfold grow_fail. cbv zeta.
  destruct (grow_ok base base_ok (reserved a) n R L) as (I & _). rewrite I. cbn [bind]. fold (grow base (reserved a) n).
  eexists. split; [reflexivity|]. pose proof (slot_lt _ _ _ E). split; cbn [fst snd].
  - reflexivity.
  - now rewrite upd_length.
  - intros j NJ. rewrite upd_nth by lia. destruct (Nat.eqb_spec j i) as [->|D]; [exfalso; apply NJ; left; reflexivity|].
    apply (tw_same _ _ _ W). intros J. apply NJ. now right.
  - intros j J. rewrite upd_nth by lia. destruct (Nat.eqb_spec j i) as [->|D].
    + exists a, (grow base (reserved a) n). auto.
    + destruct J as [->|J]; [contradiction|]. exact (tw_raised _ _ _ W j J).
Qed.

(** What a history with failed calls keeps: [s] are the lists the successful calls
    make, [T] the arrays whose reservedCount is wrong. *)
Definition finv (w : world A) (T : list nat) (s : list (option (list A))) : Prop :=
  exists w0, twin T w w0 /\ winv A base w0 s.

Lemma good_step w T s o c s' : finv w T s -> says A dflt o c -> means A dflt s c s' -> small A s' -> allowed T o ->
  exists w', step A dflt base w o = Ret w' /\ finv w' (after T o) s'.
Proof.
  intros (w0 & W & V) O M S Al. destruct (step_ok A dflt base base_ok w0 s o c s' V O M S) as (w0' & E & V').
  destruct (step_twin T w w0 o w0' W Al E) as (w' & E' & W'). exists w'. split; [auto|]. exists w0'. auto.
Qed.

Lemma int32_small x : -2147483648 <= x <= 1073741825 -> int32 x = Ret x.
Proof. intros H. unfold int32. replace ((_ <=? _) && (_ <? _)) with true by lia. reflexivity. Qed.

Lemma starved_step w T s o c s' : finv w T s -> says A dflt o c -> means A dflt s c s' -> small A s' -> allowed T o ->
  (exists w', starved A dflt base w o = Ret (false, w') /\ step A dflt base w o = Ret w' /\ finv w' (after T o) s') \/
  (exists w', starved A dflt base w o = Ret (true, w') /\ finv w' (spoiled o ++ T) s).
Proof.
  intros F O M S Al. destruct (good_step w T s o c s' F O M S Al) as (w1 & E1 & F1).
  assert (Quiet : forall x, x = Ret None -> (let! alloc := x in match alloc with
    | None => let! w := step A dflt base w o in Ret (false, w)
    | Some n => match o with
              | New _ | Copy _ => Ret (true, w)
              | _ => match target o with
                     | Some i => let! w := use A w i (fun h a => let! a := grow_fail A base a n in Ret (h, a)) in Ret (true, w)
                     | None => UB
                     end
              end
    end) = Ret (false, w1)) by (intros x ->; cbn [bind]; rewrite E1; reflexivity).
  destruct F as (w0 & W & V).
  assert (Loud : forall i l n, target o = Some i -> spoiled o = [i] -> nth_error s i = Some (Some l) ->
    (forall a, nth_error (snd w) i = Some (Some a) -> holds A base (fst w) a l -> ~ In i T ->
       request A a o = Ret None \/ (request A a o = Ret (Some n) /\ reserved a <= 1073741824 /\ n <= 1073741824)) ->
    (exists w', starved A dflt base w o = Ret (false, w') /\ step A dflt base w o = Ret w' /\ finv w' (after T o) s') \/
    (exists w', starved A dflt base w o = Ret (true, w') /\ finv w' (spoiled o ++ T) s)).
  { intros i l n Et Es El Rq. unfold allowed in Al. rewrite Et in Al. destruct Al as [Al|Al]; [|destruct o; try contradiction; discriminate].
    destruct (slot A base base_ok w0 s i l V El) as (a & Ea & Ha). pose proof (tw_same _ _ _ W i Al) as E. rewrite Ea in E.
    rewrite <- (tw_heap _ _ _ W) in Ha. destruct (Rq a E Ha Al) as [Q|(Q & R & N)].
    - left. exists w1. split; [|auto]. unfold starved. destruct o; try discriminate; cbn [target] in Et; injection Et as ->; cbn [target]; rewrite E; apply Quiet; exact Q.
    - right. destruct (fail_twin T w w0 i a n W Al Ea) as (w' & U & W'); [destruct Ha; lia|auto|].
      exists w'. split; [|rewrite Es; exists w0; auto].
      unfold starved. destruct o; try discriminate; cbn [target] in Et; injection Et as ->; cbn [target]; rewrite E, Q; cbn [bind]; rewrite U; reflexivity. }
  assert (Bound : forall a l, holds A base (fst w) a l -> -2147483648 <= reserved a <= limit /\ count a = Z.of_nat (length l)) by (intros a l [C _ _ B]; auto).
  assert (Calm : forall i, target o = Some i -> (forall a, nth_error (snd w) i = Some (Some a) -> request A a o = Ret None) ->
    match o with New _ | Copy _ => False | _ => True end -> (exists l, nth_error s i = Some (Some l)) ->
    (exists w', starved A dflt base w o = Ret (false, w') /\ step A dflt base w o = Ret w' /\ finv w' (after T o) s') \/
    (exists w', starved A dflt base w o = Ret (true, w') /\ finv w' (spoiled o ++ T) s)).
  { intros i Et Rq Ok (l & El). left. exists w1. split; [|auto]. destruct (slot A base base_ok w0 s i l V El) as (a & Ea & _).
    assert (exists a', nth_error (snd w) i = Some (Some a')) as (a' & E).
    { destruct (in_dec Nat.eq_dec i T) as [I|I]; [destruct (tw_raised _ _ _ W i I) as (b & r & _ & E); eauto|].
      rewrite (tw_same _ _ _ W i I). eauto. }
    specialize (Rq a' E). unfold starved. destruct o; try contradiction; cbn [target] in *; try discriminate; injection Et as ->; rewrite E; apply Quiet; exact Rq. }
  assert (Sm : forall i l y, nth_error s i = Some (Some l) -> s' = put s i (Some y) -> Z.of_nat (length y) <= 1073741824).
  { intros i l y El ->. exact (S i y (put_nth A s i l (Some y) El)). }
  destruct O; inversion M; subst; cbn [target] in *.
  - destruct ((base =? 0) && (0 <? n)) eqn:B.
    + right. exists w. unfold starved. rewrite B. split; [reflexivity|]. exists w0. auto.
    + left. exists w1. split; [|auto]. unfold starved. rewrite B. apply Quiet. reflexivity.
  - unfold allowed in Al. cbn [target harmless] in Al. destruct Al as [Al|[]].
    match goal with H : nth_error s i = Some (Some ?l) |- _ => destruct (slot A base base_ok w0 s i l V H) as (a & Ea & _) end.
    rewrite <- (tw_same _ _ _ W i Al) in Ea. unfold starved. rewrite Ea.
    destruct (if base =? 0 then 0 <? reserved a else base <? count a).
    + right. exists w. split; [reflexivity|]. exists w0. auto.
    + left. exists w1. split; [|auto]. apply Quiet. reflexivity.
  - apply (Calm i); eauto; reflexivity.
  - apply (Calm i); eauto; reflexivity.
  - apply (Calm i); eauto; reflexivity.
  - apply (Calm i); eauto; reflexivity.
  - eapply (Loud i _ n); eauto. intros a _ Ha _. cbn [request]. destruct (Z.ltb_spec (reserved a) n); [right|left]; auto. split; [auto|lia].
  - match goal with H : nth_error s i = Some (Some ?l) |- _ => pose proof (Sm i l _ H eq_refl) as B end.
    unfold resized in B. rewrite app_length, repeat_length, firstn_length in B.
    eapply (Loud i _ n); eauto. intros a _ Ha _. cbn [request]. destruct (Z.ltb_spec (reserved a) n); [right|left]; auto. split; [auto|lia].
  - match goal with H : nth_error s i = Some (Some ?l) |- _ => pose proof (Sm i l _ H eq_refl) as B; rewrite app_length in B; cbn [length] in B;
      eapply (Loud i l (Z.of_nat (length l) + 1)); eauto end.
    intros a _ Ha _. destruct (Bound _ _ Ha) as [_ C]. cbn [request]. rewrite C, int32_small by lia. cbn [bind].
    match goal with |- context[?x <=? ?y] => destruct (Z.leb_spec x y) end; [right|left]; auto. split; [auto|lia].
  - match goal with H : nth_error s i = Some (Some ?l) |- _ => pose proof (Sm i l _ H eq_refl) as B;
      unfold inserted, resized in B; rewrite !app_length, repeat_length, firstn_length in B; cbn [length] in B; rewrite skipn_length in B;
      eapply (Loud i l (if Z.of_nat (length l) <=? j then j + 1 else Z.of_nat (length l) + 1)); eauto end.
    intros a _ Ha _. destruct (Bound _ _ Ha) as [_ C]. cbn [request]. rewrite C.
    match goal with |- context[int32 ?x] => set (n := x) end. assert (n <= 1073741824) by (subst n; destruct (Z.leb_spec (Z.of_nat (length l)) j); lia).
    assert (0 <= n) by (subst n; destruct (Z.leb_spec (Z.of_nat (length l)) j); lia).
    rewrite int32_small by lia. cbn [bind].
    destruct (Z.ltb_spec (reserved a) n); [right|left]; auto. split; [auto|lia].
  - apply (Calm i); eauto; reflexivity.
  - apply (Calm i); eauto; reflexivity.
Qed.

Lemma attempt_ok m w T s o c s' : finv w T s -> says A dflt o c -> means A dflt s c s' -> small A s' -> allowed T o ->
  (exists w', attempt A dflt base m w o = Ret (false, w') /\ finv w' (after T o) s') \/
  (m = false /\ exists w', attempt A dflt base m w o = Ret (true, w') /\ finv w' (spoiled o ++ T) s).
Proof.
  intros F O M S Al. unfold attempt. destruct m.
  - destruct (good_step w T s o c s' F O M S Al) as (w' & E & F'). left. exists w'. rewrite E. auto.
  - destruct (starved_step w T s o c s' F O M S Al) as [(w' & E & _ & F')|(w' & E & F')]; eauto.
Qed.

Lemma survived_finv w T s : survived A dflt base w T s -> finv w T s.
Proof.
  induction 1 as [|m w T s o c s' w' H IH O M S Al E|m w T s o c s' w' H IH O M S Al E].
  - exists ([], []). split; [|apply winv_empty]. split; auto. intros i [].
  - destruct (attempt_ok m w T s o c s' IH O M S Al) as [(w1 & E1 & F)|(_ & w1 & E1 & F)]; rewrite E in E1; [injection E1 as <-; auto|discriminate].
  - destruct (attempt_ok m w T s o c s' IH O M S Al) as [(w1 & E1 & F)|(_ & w1 & E1 & F)]; rewrite E in E1; [discriminate|injection E1 as <-; auto].
Qed.

(** An array that could not be enlarged for one more element: the next append
    writes behind its storage. *)
Lemma append_again h arrs i a l v v' : holds A base h a l -> nth_error arrs i = Some (Some a) -> reserved a <= count a -> Z.of_nat (length l) < 1073741824 ->
  exists w, attempt A dflt base false (h, arrs) (Append i v) = Ret (true, w) /\ attempt A dflt base true w (Append i v') = UB.
Proof.
  intros Ha E R N. pose proof (h_count _ _ _ _ _ Ha) as C. pose proof (h_bounds _ _ _ _ _ Ha) as B.
  unfold attempt, starved. cbn [target snd]. rewrite E. cbn [request].
  rewrite int32_small by lia. cbn [bind]. replace (reserved a <=? count a) with true by lia. cbn [bind].
  unfold use at 1. cbn [snd fst]. rewrite E. unfold grow_fail. cbv zeta. destruct (grow_ok base base_ok (reserved a) (count a + 1)) as (I & G & _); [lia|lia|].
  rewrite I. cbn [bind]. fold (grow base (reserved a) (count a + 1)).
  eexists. split; [reflexivity|]. cbn [step]. unfold use. cbn [fst snd]. rewrite upd_same by (eapply slot_lt; eauto).
  unfold append. cbn [count reserved]. rewrite int32_small by lia. cbn [bind].
  replace (grow base (reserved a) (count a + 1) <=? count a) with false by lia. cbn [bind].
  change (load A h (Arr (count a) (grow base (reserved a) (count a + 1)) (at_ a) (storage a))) with (load A h a).
  destruct (holds_cells A base base_ok h a l Ha) as (k & L & HN & HR). rewrite L. cbn [bind].
  assert (M : forall x, make A (cells A l k) (count a) x = UB).
  { intros x. unfold make, cell_at. replace (count a <? 0) with false by lia.
    assert (NE : nth_error (cells A l k) (Z.to_nat (count a)) = None); [|now rewrite NE].
    apply nth_error_None. rewrite cells_length. destruct (null_or A a) as [X|X]; [|specialize (HR X); lia].
    unfold load in L. rewrite X in L. injection L as L. apply (f_equal (@length _)) in L. rewrite cells_length in L. cbn [length] in L. lia. }
  cbn [count]. destruct v' as [v'|]; cbn [option_map read_arg bind]; now rewrite M.
Qed.

(** The arrays that the successful calls of a history make hold its lists. *)
Lemma finv_lists w T s i l : finv w T s -> nth_error s i = Some (Some l) ->
  exists a cs, nth_error (snd w) i = Some (Some a) /\ count a = Z.of_nat (length l) /\ load A (fst w) a = Ret cs /\
    (forall j v, nth_error l j = Some v -> get A cs (Z.of_nat j) = Ret v) /\
    (~ In i T -> count a <= reserved a <= Z.of_nat (length cs) \/ l = []).
Proof.
  intros (w0 & W & V) El. destruct (slot A base base_ok w0 s i l V El) as (a & Ea & Ha).
  destruct (holds_cells A base base_ok _ a l Ha) as (k & L & HN & HR). rewrite <- (tw_heap _ _ _ W) in L.
  destruct (in_dec Nat.eq_dec i T) as [I|I].
  - destruct (tw_raised _ _ _ W i I) as (b & r & Eb & E). rewrite Ea in Eb. injection Eb as <-.
    exists (claims r a), (cells A l k). split; [auto|]. split; [exact (h_count _ _ _ _ _ Ha)|]. split; [exact L|]. split; [|contradiction].
    intros j v Ej. now apply get_cells.
  - exists a, (cells A l k). split; [now rewrite (tw_same _ _ _ W i I)|]. split; [exact (h_count _ _ _ _ _ Ha)|]. split; [exact L|].
    split; [intros j v Ej; now apply get_cells|]. intros _. rewrite cells_length. destruct (null_or A a) as [X|X]; [right; apply HN; auto|left].
    rewrite (HR X), (h_count _ _ _ _ _ Ha). lia.
Qed.

Lemma finv_blocks w T s n : finv w T s -> base = 0 -> alive A (fst w) n ->
  exists i a, nth_error (snd w) i = Some (Some a) /\ at_ a = Block n /\
    forall j b, nth_error (snd w) j = Some (Some b) -> at_ b = Block n -> j = i.
Proof.
  intros (w0 & W & V) B Al. rewrite (tw_heap _ _ _ W) in Al.
  assert (To : forall i a, nth_error (snd w) i = Some (Some a) -> exists a0, nth_error (snd w0) i = Some (Some a0) /\ at_ a0 = at_ a).
  { intros i a E. destruct (in_dec Nat.eq_dec i T) as [I|I].
    - destruct (tw_raised _ _ _ W i I) as (b & r & Eb & E'). rewrite E in E'. injection E' as ->. exists b. auto.
    - rewrite (tw_same _ _ _ W i I) in E. eauto. }
  destruct (wi_own _ _ _ _ V B n Al) as (i & a & Ei & Ea).
  assert (exists a', nth_error (snd w) i = Some (Some a') /\ at_ a' = Block n) as (a' & Ei' & Ea').
  { destruct (in_dec Nat.eq_dec i T) as [I|I].
    - destruct (tw_raised _ _ _ W i I) as (b & r & Eb & E'). rewrite Ei in Eb. injection Eb as <-. exists (claims r a). auto.
    - rewrite <- (tw_same _ _ _ W i I) in Ei. eauto. }
  exists i, a'. split; [auto|]. split; [auto|]. intros j b Ej Eb. destruct (To j b Ej) as (b0 & Ej0 & Eb0).
  destruct (Nat.eq_dec j i) as [|N]; [auto|]. exfalso. rewrite Eb in Eb0. exact (wi_sep _ _ _ _ V j i b0 a n N Ej0 Ei Eb0 Ea).
Qed.

End FailProofs.
