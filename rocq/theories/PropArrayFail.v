(** * Properties of dynamic arrays when memory runs out: C83.

    [attempt false] makes a call during which every new[] throws, [attempt true] one
    with memory; both give whether the call throws and the arrays after it. *)

From Verif Require Import Base ArrayModel ArrayFailModel SpecArray ArrayProofs ArrayWorld SpecArrayFail ArrayFailProofs.

(** An append that throws bad_alloc leaves an array that claims room it does not
    have: the next append writes through the null pointer. *)
Theorem C83_refuted : exists w1 w2 : world Z,
  attempt Z 0 0 true ([], []) (New 0) = Ret (false, w1) /\
  attempt Z 0 0 false w1 (Append 0 (Some 1)) = Ret (true, w2) /\
  attempt Z 0 0 true w2 (Append 0 (Some 1)) = UB.
Proof. eexists _, _. repeat split; vm_compute; reflexivity. Qed.
Print Assumptions C83_refuted.

(** The same for every full array, of any type and baseCount and after any history:
    if an append throws, trying it again when there is memory writes behind the
    storage. *)
Theorem C83_append_again (A : Type) (dflt : A) (base : Z) (os : list (op A)) (s : list (option (list A))) h arrs i a l v v' :
  0 <= base <= 268435456 -> history A dflt [] os s -> run A dflt base ([], []) os = Ret (h, arrs) ->
  nth_error arrs i = Some (Some a) -> nth_error s i = Some (Some l) -> Z.of_nat (length l) < 1073741824 -> reserved a <= count a ->
  exists w, attempt A dflt base false (h, arrs) (Append i v) = Ret (true, w) /\ attempt A dflt base true w (Append i v') = UB.
Proof.
  intros B H R Ei Es N F. destruct (run_ok A dflt base B [] os s H _ (winv_empty A base)) as (w & E & W).
  rewrite R in E. injection E as <-. destruct (slot A base B _ _ i l W Es) as (a' & Ea & Ha). cbn [fst snd] in *.
  rewrite Ei in Ea. injection Ea as <-. eapply append_again; eauto.
Qed.
Print Assumptions C83_append_again.

Example C83_append_again_case : exists w, attempt Z 0 2 false ([], [Some (Arr 2 2 Local [Some 7; Some 8])]) (Append 0 None) = Ret (true, w) /\
  run Z 0 2 ([], []) [New 0; Append 0 (Some 7); Append 0 (Some 8)] = Ret ([], [Some (Arr 2 2 Local [Some 7; Some 8])]) /\
  w = ([], [Some (Arr 2 6 Local [Some 7; Some 8])]) /\ attempt Z 0 2 true w (Append 0 (Some 9)) = UB.
Proof. eexists. repeat split; vm_compute; reflexivity. Qed.

(** Any history in which calls may throw, if an array whose growth threw is then
    only cleared, shortened, purged or destroyed (after a purge it is as good as
    new): the next call does not run into undefined behaviour, and it throws only
    without memory. *)
Theorem C83_progress_partial (A : Type) (dflt : A) (base : Z) (memory : bool) w T s o c s' :
  0 <= base <= 268435456 -> survived A dflt base w T s ->
  says A dflt o c -> means A dflt s c s' -> small A s' -> allowed T o ->
  exists threw w', attempt A dflt base memory w o = Ret (threw, w') /\ (threw = true -> memory = false).
Proof.
  intros B H O M S Al. destruct (attempt_ok A dflt base B memory w T s o c s' (survived_finv A dflt base B w T s H) O M S Al) as [(w' & E & _)|(-> & w' & E & _)];
    eexists _, w'; (split; [exact E|]); congruence.
Qed.
Print Assumptions C83_progress_partial.

(** At every point of such a history the arrays hold exactly the lists of the calls
    that did not throw; those without a failed growth also have the room they claim. *)
Theorem C83_lists_partial (A : Type) (dflt : A) (base : Z) w T s :
  0 <= base <= 268435456 -> survived A dflt base w T s ->
  forall i l, nth_error s i = Some (Some l) -> exists a cs, nth_error (snd w) i = Some (Some a) /\
    count a = Z.of_nat (length l) /\ load A (fst w) a = Ret cs /\
    (forall j v, nth_error l j = Some v -> get A cs (Z.of_nat j) = Ret v) /\
    (~ In i T -> count a <= reserved a <= Z.of_nat (length cs) \/ l = []).
Proof. intros B H i l E. exact (finv_lists A base B w T s i l (survived_finv A dflt base B w T s H) E). Qed.
Print Assumptions C83_lists_partial.

(** Array<type> (baseCount 0): no such history loses storage. *)
Theorem C83_blocks_partial (A : Type) (dflt : A) w T s n cs :
  survived A dflt 0 w T s -> nth_error (fst w) n = Some (Some cs) ->
  exists i a, nth_error (snd w) i = Some (Some a) /\ at_ a = Block n /\
    forall j b, nth_error (snd w) j = Some (Some b) -> at_ b = Block n -> j = i.
Proof.
  intros H E. apply (finv_blocks A 0 w T s n); auto; [|now exists cs]. apply (survived_finv A dflt); [lia|auto].
Qed.
Print Assumptions C83_blocks_partial.

(** Two appends, a failed copy, a failed growth, a purge, an append: the array holds
    the last element only. *)
Example C83_case : exists h a, survived Z 0 1 (h, [Some a]) [] [Some [9]] /\ count a = 1.
Proof.
  assert (SM : forall s, Forall (fun x => match x with Some l => Z.of_nat (length l) <= 1073741824 | None => True end) s -> small Z s).
  { intros s F i l E. rewrite Forall_forall in F. exact (F _ (nth_error_In _ _ E)). }
  pose proof (sv_start Z 0 1) as H.
  eassert (H1 : survived Z 0 1 _ [] [Some []]).
  { eapply (sv_done Z 0 1 true _ [] _ (New 0)); [exact H|apply s_new; lia|apply (m_new Z 0 [])|apply SM; repeat constructor; simpl; lia|exact I|vm_compute; reflexivity]. }
  clear H. eassert (H : survived Z 0 1 _ [] [Some [7]]).
  { eapply (sv_done Z 0 1 true _ [] _ (Append 0 (Some 7))); [exact H1|apply s_append|apply (m_append Z 0 [Some []] 0 []); reflexivity|apply SM; repeat constructor; simpl; lia|left; intros []|vm_compute; reflexivity]. }
  clear H1. eassert (H1 : survived Z 0 1 _ [] [Some [7; 8]]).
  { eapply (sv_done Z 0 1 true _ [] _ (Append 0 (Some 8))); [exact H|apply s_append|apply (m_append Z 0 [Some [7]] 0 [7]); reflexivity|apply SM; repeat constructor; simpl; lia|left; intros []|vm_compute; reflexivity]. }
  clear H. eassert (H : survived Z 0 1 _ [] [Some [7; 8]]).
  { eapply (sv_threw Z 0 1 false _ [] _ (Copy 0)); [exact H1|apply s_copy|apply (m_copy Z 0 [Some [7; 8]] 0 [7; 8]); reflexivity|apply SM; repeat constructor; simpl; lia|left; intros []|vm_compute; reflexivity]. }
  clear H1. eassert (H1 : survived Z 0 1 _ [0%nat] [Some [7; 8]]).
  { eapply (sv_threw Z 0 1 false _ [] _ (Set_count 0 9 None)); [exact H|apply s_resize; lia|apply (m_resize Z 0 [Some [7; 8]] 0 [7; 8]); reflexivity|apply SM; repeat constructor; simpl; lia|left; intros []|vm_compute; reflexivity]. }
  clear H. eassert (H : survived Z 0 1 _ [] [Some []]).
  { eapply (sv_done Z 0 1 false _ [0%nat] _ (Purge 0)); [exact H1|apply s_purge|apply (m_purge Z 0 [Some [7; 8]] 0 [7; 8]); reflexivity|apply SM; repeat constructor; simpl; lia|right; exact I|vm_compute; reflexivity]. }
  clear H1. eassert (H1 : survived Z 0 1 _ [] [Some [9]]).
  { eapply (sv_done Z 0 1 true _ [] _ (Append 0 (Some 9))); [exact H|apply s_append|apply (m_append Z 0 [Some []] 0 []); reflexivity|apply SM; repeat constructor; simpl; lia|left; intros []|vm_compute; reflexivity]. }
  eexists _, _. split; [exact H1|reflexivity].
Qed.
