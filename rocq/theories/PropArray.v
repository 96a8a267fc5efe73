(** * Properties of dynamic arrays: C40, C59, C60.

    [base] is baseCount (at most 2^28), [dflt] the value of a default-constructed
    element. A history lists the calls made from no arrays at all; calls number the
    arrays in the order in which they are made. [history] asks that calls use live
    arrays, that indices are not negative, and that no array is asked to hold or
    reserve more than 2^30 elements. *)

From Verif Require Import Base ArrayModel SpecArray ArrayProofs ArrayWorld.

(** ** C40: arrays behave as lists *)

(** The element to append is passed by reference. If it is an element of the array
    itself and the array is full, the reference dangles when it is used. *)
Theorem C40_refuted : exists (w : world Z) (h : heap Z) (a : arr Z),
  run Z 0 0 ([], []) [New 0; Append 0 (Some 1); Append 0 (Some 2); Append 0 (Some 3); Append 0 (Some 4)] = Ret w /\
  w = (h, [Some a]) /\ append Z 0 0 h a (Some (Own (at_ a) 0)) = UB.
Proof. eexists _, _, _. split; [vm_compute; reflexivity|]. split; [reflexivity|]. vm_compute. reflexivity. Qed.
Print Assumptions C40_refuted.

(** The same for InsertArrayElement even if there is room: the elements are moved
    before the reference is used. Inserting the second of 1, 2, 3 in front gives
    1, 1, 2, 3; inserting the first uses a destroyed element. *)
Theorem C40_insert_refuted : exists (w : world Z) (h : heap Z) (a : arr Z),
  run Z 0 0 ([], []) [New 0; Append 0 (Some 1); Append 0 (Some 2); Append 0 (Some 3)] = Ret w /\
  w = (h, [Some a]) /\ count a < reserved a /\
  (exists h' a', insert Z 0 0 h a 0 (Own (at_ a) 1) = Ret (h', a') /\ load Z h' a' = Ret [Some 1; Some 1; Some 2; Some 3]) /\
  insert Z 0 0 h a 0 (Own (at_ a) 0) = UB.
Proof.
  eexists _, _, _. split; [vm_compute; reflexivity|]. split; [reflexivity|]. split; [vm_compute; reflexivity|].
  split; [eexists _, _; split; vm_compute; reflexivity|vm_compute; reflexivity].
Qed.
Print Assumptions C40_insert_refuted.

(** Elements passed from elsewhere: in every history no object is made twice, lost,
    destroyed twice or used after its end, and every array holds exactly the list
    that the calls say. *)
Theorem C40_lists_partial (A : Type) (dflt : A) (base : Z) (os : list (op A)) (s : list (option (list A))) :
  0 <= base <= 268435456 -> history A dflt [] os s ->
  exists h arrs, run A dflt base ([], []) os = Ret (h, arrs) /\ length arrs = length s /\
    forall i l, nth_error s i = Some (Some l) -> exists a cs, nth_error arrs i = Some (Some a) /\
      count a = Z.of_nat (length l) /\ (count a <= reserved a \/ l = []) /\ load A h a = Ret cs /\
      (forall j v, nth_error l j = Some v -> get A cs (Z.of_nat j) = Ret v).
Proof.
  intros B H. destruct (run_ok A dflt base B [] os s H _ (winv_empty A base)) as ([h arrs] & E & W).
  exists h, arrs. split; [exact E|]. split; [exact (winv_length _ _ _ _ W)|]. intros i l Hi.
  destruct (slot A base B _ _ i l W Hi) as (a & Ea & Ha). cbn [fst snd] in *.
  destruct (holds_cells A base B h a l Ha) as (k & L & HN & HR). exists a, (cells A l k).
  split; [auto|]. split; [exact (h_count _ _ _ _ _ Ha)|]. split; [|split; [auto|]].
  - destruct (null_or A a) as [X|X]; [right; apply HN; auto|left]. rewrite (HR X), (h_count _ _ _ _ _ Ha). lia.
  - intros j v Ej. now apply get_cells.
Qed.
Print Assumptions C40_lists_partial.

Example C40_case : history Z 0 [] [New 2; Append 0 (Some 7); Insert 0 0 5; Copy 0; Set_count 1 4 None; Remove 0 1; Move 1; Delete 0]
  [None; Some []; Some [5; 7; 0; 0]].
Proof.
  assert (S : forall s, small Z s <-> forall i l, nth_error s i = Some (Some l) -> Z.of_nat (length l) <= 1073741824) by (intros; reflexivity).
  assert (SM : forall s, Forall (fun x => match x with Some l => Z.of_nat (length l) <= 1073741824 | None => True end) s -> small Z s).
  { intros s F i l E. rewrite Forall_forall in F. exact (F _ (nth_error_In _ _ E)). }
  eapply hs_cons; [constructor; lia|constructor|apply SM; repeat constructor; simpl; lia|].
  eapply hs_cons; [constructor|eapply m_append; reflexivity|apply SM; repeat constructor; simpl; lia|].
  eapply hs_cons; [constructor; lia|eapply m_insert; reflexivity|apply SM; repeat constructor; simpl; lia|].
  eapply hs_cons; [constructor|eapply m_copy; reflexivity|apply SM; repeat constructor; simpl; lia|].
  eapply hs_cons; [constructor; lia|eapply m_resize; reflexivity|apply SM; repeat constructor; simpl; lia|].
  eapply hs_cons; [constructor; lia|eapply m_remove; reflexivity|apply SM; repeat constructor; simpl; lia|].
  eapply hs_cons; [constructor|eapply m_move; reflexivity|apply SM; repeat constructor; simpl; lia|].
  eapply hs_cons; [constructor|eapply m_delete; reflexivity|apply SM; repeat constructor; simpl; lia|].
  constructor.
Qed.

(** Appending an own element, exactly: it works if there is room, otherwise it uses
    a dangling reference. *)
Theorem C40_append_own (A : Type) (dflt : A) (base : Z) (os : list (op A)) (s : list (option (list A))) h arrs i a l j v :
  0 <= base <= 268435456 -> history A dflt [] os s -> run A dflt base ([], []) os = Ret (h, arrs) ->
  nth_error arrs i = Some (Some a) -> nth_error s i = Some (Some l) -> nth_error l j = Some v -> Z.of_nat (length l) < 1073741824 ->
  (reserved a <= count a -> append A dflt base h a (Some (Own (at_ a) (Z.of_nat j))) = UB) /\
  (count a < reserved a -> exists h' a' cs, append A dflt base h a (Some (Own (at_ a) (Z.of_nat j))) = Ret (h', a') /\
     count a' = count a + 1 /\ load A h' a' = Ret cs /\ get A cs (count a) = Ret v /\
     (forall k u, nth_error l k = Some u -> get A cs (Z.of_nat k) = Ret u)).
Proof.
  intros B H R Ei Es Ej N. destruct (run_ok A dflt base B [] os s H _ (winv_empty A base)) as (w & E & W).
  rewrite R in E. injection E as <-. destruct (slot A base B _ _ i l W Es) as (a' & Ea & Ha). cbn [fst snd] in *.
  rewrite Ei in Ea. injection Ea as <-. rewrite (h_count _ _ _ _ _ Ha).
  destruct (append_own A dflt base B h a l j v Ha Ej N) as [P Q]. split; [exact P|].
  intros X. destruct (Q X) as (h' & a' & E' & H'). destruct (holds_cells A base B h' a' _ H') as (k & L & _).
  exists h', a', (cells A (l ++ [v]) k). split; [auto|]. split; [rewrite (h_count _ _ _ _ _ H'), app_length; simpl; lia|]. split; [auto|]. split.
  - apply get_cells. rewrite nth_error_app2, Nat.sub_diag by lia. reflexivity.
  - intros m u Em. apply get_cells. rewrite nth_error_app1; [auto|]. apply nth_error_Some. congruence.
Qed.
Print Assumptions C40_append_own.

(** Building an array of n elements by appending allocates m times with
    4 * (4/3)^(m-2) at most n: O(log n). *)
Theorem C40_growth (A : Type) (dflt : A) (vs : list A) : Z.of_nat (length vs) <= 1073741824 ->
  exists h a, run A dflt 0 ([], []) (New 0 :: map (fun v => Append 0 (Some v)) vs) = Ret (h, [Some a]) /\
    (2 <= Z.of_nat (length h) -> 4 * 4 ^ (Z.of_nat (length h) - 2) <= 3 ^ (Z.of_nat (length h) - 2) * Z.of_nat (length vs)).
Proof.
  intros N. assert (B : 0 <= 0 <= 268435456) by lia.
  destruct (new_zero_ok A 0 [] 0 eq_refl ltac:(lia)) as [H _]. cbn in H.
  destruct (appends_ok A dflt 0 B eq_refl vs [] _ [] H) as (h' & a' & E & H' & D); [simpl; lia|left; cbn; split; [auto|split; [lia|auto]]|].
  exists h', a'. split; [exact E|]. intros L. destruct D as [(L0 & _)|(m & M & Lm & _ & P)]; [lia|].
  replace (Z.of_nat (length h') - 2) with (m - 1) by lia. apply P. lia.
Qed.
Print Assumptions C40_growth.

Example C40_growth_case : exists h a, run Z 0 0 ([], []) (New 0 :: map (fun v => Append 0 (Some v)) (repeat 1 100)) = Ret (h, [Some a]) /\ length h = 8%nat.
Proof. eexists _, _. split; vm_compute; reflexivity. Qed.

(** ** C59: arrays give back their storage *)

(** An Array<type, 1> whose block is larger than it needs loses the block when it
    is moved from. *)
Theorem C59_refuted : exists (os : list (op Z)) (h : heap Z) (cs : list (option Z)),
  history Z 0 [] os [None; None] /\ run Z 0 1 ([], []) os = Ret (h, [None; None]) /\ nth_error h 0 = Some (Some cs).
Proof.
  exists [New 0; Append 0 (Some 1); Append 0 (Some 2); Remove_last 0; Move 0; Delete 0; Delete 1]. eexists _, _.
  split; [|split; [vm_compute; reflexivity|reflexivity]].
  assert (SM : forall s, Forall (fun x => match x with Some l => Z.of_nat (length l) <= 1073741824 | None => True end) s -> small Z s).
  { intros s F i l E. rewrite Forall_forall in F. exact (F _ (nth_error_In _ _ E)). }
  eapply hs_cons; [constructor; lia|constructor|apply SM; repeat constructor; simpl; lia|].
  eapply hs_cons; [constructor|eapply m_append; reflexivity|apply SM; repeat constructor; simpl; lia|].
  eapply hs_cons; [constructor|eapply m_append; reflexivity|apply SM; repeat constructor; simpl; lia|].
  eapply hs_cons; [constructor|eapply m_remove_last; reflexivity|apply SM; repeat constructor; simpl; lia|].
  eapply hs_cons; [constructor|eapply m_move; reflexivity|apply SM; repeat constructor; simpl; lia|].
  eapply hs_cons; [constructor|eapply m_delete; reflexivity|apply SM; repeat constructor; simpl; lia|].
  eapply hs_cons; [constructor|eapply m_delete; reflexivity|apply SM; repeat constructor; simpl; lia|].
  constructor.
Qed.
Print Assumptions C59_refuted.

(** Array<type> (baseCount 0): after every history, each block that is still
    allocated is the storage of exactly one live array. *)
Theorem C59_no_base_partial (A : Type) (dflt : A) (os : list (op A)) (s : list (option (list A))) h arrs :
  history A dflt [] os s -> run A dflt 0 ([], []) os = Ret (h, arrs) ->
  forall n cs, nth_error h n = Some (Some cs) ->
    exists i a, nth_error arrs i = Some (Some a) /\ at_ a = Block n /\
      forall j b, nth_error arrs j = Some (Some b) -> at_ b = Block n -> j = i.
Proof.
  intros H R n cs En. destruct (run_ok A dflt 0 ltac:(lia) [] os s H _ (winv_empty A 0)) as (w & E & W).
  rewrite R in E. injection E as <-. destruct (wi_own _ _ _ _ W eq_refl n (ex_intro _ cs En)) as (i & a & Ei & Ea). cbn [snd] in Ei.
  exists i, a. split; [auto|]. split; [auto|]. intros j b Ej Eb. destruct (Nat.eq_dec j i) as [|Nj]; auto. exfalso.
  exact (wi_sep _ _ _ _ W j i b a n Nj Ej Ei Eb Ea).
Qed.
Print Assumptions C59_no_base_partial.

Example C59_case : exists h, run Z 0 0 ([], []) [New 2; Append 0 (Some 7); Insert 0 4 5; Copy 0; Move 1; Delete 0] = Ret (h, [None; Some (Arr 0 0 Null []); Some (Arr 5 6 (Block 2) [])]) /\
  nth_error h 0 = Some None /\ nth_error h 1 = Some None.
Proof. eexists. repeat split; vm_compute; reflexivity. Qed.

(** ** C60: searching and comparing *)

Theorem C60_find (A : Type) (dflt : A) (base : Z) (eqb : A -> A -> bool) (os : list (op A)) (s : list (option (list A))) h arrs i a l v :
  0 <= base <= 268435456 -> history A dflt [] os s -> run A dflt base ([], []) os = Ret (h, arrs) ->
  nth_error arrs i = Some (Some a) -> nth_error s i = Some (Some l) ->
  find_index A eqb h a v = Ret (first_index A eqb 0 l v).
Proof.
  intros B H R Ei Es. destruct (run_ok A dflt base B [] os s H _ (winv_empty A base)) as (w & E & W).
  rewrite R in E. injection E as <-. destruct (slot A base B _ _ i l W Es) as (a' & Ea & Ha). cbn [fst snd] in *. rewrite Ei in Ea. injection Ea as <-.
  unfold find_index. destruct (holds_cells A base B h a l Ha) as (k & -> & _). cbn [bind]. rewrite (h_count _ _ _ _ _ Ha), Nat2Z.id.
  exact (find_ok A eqb v l [] 0 k eq_refl).
Qed.
Print Assumptions C60_find.

Theorem C60_equal (A : Type) (dflt : A) (base : Z) (neqb : A -> A -> bool) (os : list (op A)) (s : list (option (list A))) h arrs i a l j b m :
  (forall x y, neqb x y = false <-> x = y) ->
  0 <= base <= 268435456 -> history A dflt [] os s -> run A dflt base ([], []) os = Ret (h, arrs) ->
  nth_error arrs i = Some (Some a) -> nth_error s i = Some (Some l) -> nth_error arrs j = Some (Some b) -> nth_error s j = Some (Some m) ->
  exists r, equal A neqb h a b = Ret r /\ (r = true <-> l = m).
Proof.
  intros NE B H R Ei Es Ej Ess. destruct (run_ok A dflt base B [] os s H _ (winv_empty A base)) as (w & E & W).
  rewrite R in E. injection E as <-. destruct (slot A base B _ _ i l W Es) as (a' & Ea & Ha). cbn [fst snd] in *. rewrite Ei in Ea. injection Ea as <-.
  destruct (slot A base B _ _ j m W Ess) as (b' & Eb & Hb). cbn [fst snd] in *. rewrite Ej in Eb. injection Eb as <-.
  unfold equal. rewrite (h_count _ _ _ _ _ Ha), (h_count _ _ _ _ _ Hb). destruct (Z.eqb_spec (Z.of_nat (length l)) (Z.of_nat (length m))) as [L|L]; cbn [negb].
  - destruct (holds_cells A base B h a l Ha) as (k & -> & _). destruct (holds_cells A base B h b m Hb) as (k' & -> & _). cbn [bind]. rewrite Nat2Z.id.
    destruct (equal_ok A base B neqb NE l m [] [] 0 k k' eq_refl eq_refl ltac:(lia)) as (r & E & P). exists r. auto.
  - exists false. split; [reflexivity|]. split; [discriminate|]. intros ->. congruence.
Qed.
Print Assumptions C60_equal.

Example C60_case : exists h a b, run Z 0 0 ([], []) [New 0; Append 0 (Some 7); Append 0 (Some 8); Copy 0] = Ret (h, [Some a; Some b]) /\
  find_index Z Z.eqb h a 8 = Ret 1 /\ find_index Z Z.eqb h a 9 = Ret (-1) /\ equal Z (fun x y => negb (x =? y)) h a b = Ret true.
Proof. eexists _, _, _. split; [vm_compute; reflexivity|]. repeat split; vm_compute; reflexivity. Qed.
