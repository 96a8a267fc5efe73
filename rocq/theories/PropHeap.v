(** * Properties of maps as linked objects in memory: C20, C52, C53. *)

From Verif Require Import Base TextModel SpecMap HeapModel SpecHeap HeapHistory.

(** ** C52

    Every history of creations, insertions, detachments, deletions, RemoveAll and
    Purge over any number of maps never uses a null or dangling pointer, returns
    what the specification returns, and leaves exactly the specified elements,
    owners, lookups and iteration orders. In particular Purge and the map's
    destructor release exactly the elements of the map, each once. *)
Theorem C52_pointer_maps ops n :
  legal_run [] ops -> existsb replaces ops = false -> (length ops <= n)%nat ->
  exists s, h_run n ops h_init = Ret (s, snd (spec_run [] ops)) /\ observed n s (fst (spec_run [] ops)).
Proof.
  intros L R Hn.
  destruct (run_ok ops n h_init (fun _ => MapModel.Leaf) [] agree_init L (no_replace ops R n h_init []) Hn) as (s & T & K & A & Hl).
  exists s. split; [exact K|]. eapply agree_observed; eauto.
Qed.
Print Assumptions C52_pointer_maps.

(** Two maps; insertions with rotations, a duplicate key, a move between maps, a
    deletion of an inner element, a purge. *)
Definition c52_ops : list heap_op :=
  [HNew 10 [97]; HNew 11 [98]; HNew 12 [99]; HNew 13 [100]; HNew 14 [98];
   HInsert 0 10; HInsert 0 11; HInsert 0 12; HInsert 0 13; HInsert 0 14; HInsert 1 14;
   HInsert 1 12; HDelete 11; HDetach 10; HInsert 1 10; HPurge 0].

Example C52_case : legal_run [] c52_ops /\ existsb replaces c52_ops = false /\
  snd (spec_run [] c52_ops) = [Some 10; Some 11; Some 12; Some 13; Some 14;
    Some 1; Some 1; Some 1; Some 1; None; Some 1; Some 1; None; None; Some 1; None]%nat /\
  fst (spec_run [] c52_ops) = [(14%nat, ([98], Some 1%nat)); (12%nat, ([99], Some 1%nat)); (10%nat, ([97], Some 1%nat))] /\
  (let! (s, _) := h_run 16 c52_ops h_init in h_elements 16 s 1) = Ret [10; 14; 12]%nat.
Proof.
  split; [|vm_compute; repeat split].
  vm_compute. repeat split; try discriminate; repeat constructor.
Qed.

(** ** C20

    InsertReplaceMapElement does not replace the root element: the map keeps
    pointing to the replaced element, all other elements are unreachable, and
    deleting the element that was handed back leaves a dangling pointer. *)
Definition c20_ops : list heap_op :=
  [HNew 10 [97]; HNew 11 [98]; HNew 12 [99]; HNew 20 [98];
   HInsert 0 10; HInsert 0 11; HInsert 0 12; HReplace 0 20].

Theorem C20_refuted : legal_run [] c20_ops /\
  snd (spec_run [] c20_ops) = [Some 10; Some 11; Some 12; Some 20; Some 1; Some 1; Some 1; Some 11]%nat /\
  holder (fst (spec_run [] c20_ops)) 0 [98] = Some 20%nat /\
  holder (fst (spec_run [] c20_ops)) 0 [97] = Some 10%nat /\
  exists s, h_run 8 c20_ops h_init = Ret (s, snd (spec_run [] c20_ops)) /\
    h_find 8 s 0 [98] = Ret (Some 11%nat) /\ h_find 8 s 0 [97] = Ret None /\ h_elements 8 s 0 = Ret [11%nat] /\
    exists s', h_delete 8 s 11 = Ret s' /\ h_find 8 s' 0 [98] = UB.
Proof.
  split; [vm_compute; repeat split; try discriminate; repeat constructor|].
  split; [reflexivity|]. split; [reflexivity|]. split; [reflexivity|].
  eexists. split; [vm_compute; reflexivity|]. split; [vm_compute; reflexivity|]. split; [vm_compute; reflexivity|].
  split; [vm_compute; reflexivity|]. eexists. split; [vm_compute; reflexivity|]. vm_compute. reflexivity.
Qed.
Print Assumptions C20_refuted.

(** With replacements of elements that are not the root of their map, histories
    behave as specified. What is missing from C20 is the root. *)
Theorem C20_partial ops n :
  legal_run [] ops -> spares_roots n h_init [] ops -> (length ops <= n)%nat ->
  exists s, h_run n ops h_init = Ret (s, snd (spec_run [] ops)) /\ observed n s (fst (spec_run [] ops)).
Proof.
  intros L R Hn.
  destruct (run_ok ops n h_init (fun _ => MapModel.Leaf) [] agree_init L R Hn) as (s & T & K & A & Hl).
  exists s. split; [exact K|]. eapply agree_observed; eauto.
Qed.
Print Assumptions C20_partial.

Definition c20_leaf_ops : list heap_op :=
  [HNew 10 [97]; HNew 11 [98]; HNew 12 [99]; HNew 20 [97];
   HInsert 0 10; HInsert 0 11; HInsert 0 12; HReplace 0 20].

Example C20_case : legal_run [] c20_leaf_ops /\ spares_roots 8 h_init [] c20_leaf_ops /\
  (let! (s, _) := h_run 8 c20_leaf_ops h_init in h_elements 8 s 0) = Ret [20; 11; 12]%nat.
Proof.
  split; [vm_compute; repeat split; try discriminate; repeat constructor|].
  split; [|vm_compute; reflexivity].
  assert (Step : forall n s st o ops s1 r1, h_step n s o = Ret (s1, r1) ->
    match o with HReplace mp e => forall k w b, look st e = Some (k, w) -> holder st mp k = Some b -> b <> e -> root s mp <> Some b | _ => True end ->
    spares_roots n s1 (fst (spec_step st o)) ops -> spares_roots n s st (o :: ops)).
  { intros n s st o ops s1 r1 E1 H1 H2. split; [exact H1|]. intros s' r E. rewrite E1 in E. injection E as <- <-. exact H2. }
  unfold c20_leaf_ops.
  do 7 (eapply Step; [vm_compute; reflexivity|exact I|]).
  eapply Step; [vm_compute; reflexivity| |exact I].
  intros k w b E1 E2 _. vm_compute in E1. injection E1 as <- <-. vm_compute in E2. injection E2 as <-. vm_compute. discriminate.
Qed.

(** ** C53

    A reservation is only good until the map changes: an element inserted in
    between is lost. *)
Theorem C53_refuted : exists s0 s1 s2, 
  h_run 8 [HNew 10 [98]; HNew 11 [99]; HNew 12 [100]; HInsert 0 10] h_init = Ret (s0, [Some 10; Some 11; Some 12; Some 1]%nat) /\
  h_reserve 8 s0 0 [100] = Ret (Some (Some (10%nat, false))) /\
  h_insert 8 s0 0 11 = Ret (s1, true) /\ h_find 8 s1 0 [99] = Ret (Some 11%nat) /\
  h_insert_reserved 8 s1 0 12 (Some (10%nat, false)) = Ret s2 /\
  h_find 8 s2 0 [99] = Ret None /\ h_elements 8 s2 0 = Ret [10; 12]%nat.
Proof.
  eexists. eexists. eexists.
  split; [vm_compute; reflexivity|]. split; [vm_compute; reflexivity|]. split; [vm_compute; reflexivity|].
  split; [vm_compute; reflexivity|]. split; [vm_compute; reflexivity|]. split; [vm_compute; reflexivity|].
  vm_compute. reflexivity.
Qed.
Print Assumptions C53_refuted.

(** Used at once, a reservation for the element's key is the same as
    InsertMapElement, in every state. Missing: reservations kept while the map
    changes. *)
Theorem C53_partial n s mp e x : mem s e = Some x ->
  match h_reserve n s mp (nkey x) with
  | Ret (Some r) => let! s := h_insert_reserved n s mp e r in Ret (s, true)
  | Ret None => Ret (s, false)
  | UB => UB
  | OutOfFuel => OutOfFuel
  end = h_insert n s mp e.
Proof.
  intros M. unfold h_insert, h_reserve. unfold get. rewrite M. cbn [bind].
  destruct (root s mp) as [r|]; [apply reserve_insert_from|reflexivity].
Qed.
Print Assumptions C53_partial.

Example C53_case : exists s0, h_run 8 [HNew 10 [98]; HNew 11 [99]; HNew 12 [97]; HInsert 0 10; HInsert 0 11] h_init
    = Ret (s0, [Some 10; Some 11; Some 12; Some 1; Some 1]%nat) /\
  h_reserve 8 s0 0 [97] = Ret (Some (Some (10%nat, true))) /\
  (let! s := h_insert_reserved 8 s0 0 12 (Some (10%nat, true)) in h_elements 8 s 0) = Ret [12; 10; 11]%nat.
Proof.
  eexists. split; [vm_compute; reflexivity|]. split; [vm_compute; reflexivity|]. vm_compute. reflexivity.
Qed.
