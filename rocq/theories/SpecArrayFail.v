(** * Specification of arrays under failing allocations.

    [survived w T s]: some calls, each made with memory or without, have led to [w];
    [s] are the lists that the calls that did not throw make, [T] the arrays that
    may only be emptied, shortened, purged and destroyed because a growth failed. *)

From Verif Require Import Base ArrayModel ArrayFailModel SpecArray ArrayWorld.

Section Spec.
Variable A : Type.
Variable dflt : A.
Variable base : Z.
Local Notation op := (op A).

(** Calls that never need more room: ~Array, ClearArray, PurgeArray, Remove... *)
Definition harmless (o : op) : Prop :=
  match o with Delete _ | Clear _ | Purge _ | Remove _ _ | Remove_last _ => True | _ => False end.

Definition allowed (T : list nat) (o : op) : Prop :=
  match target o with None => True | Some i => ~ In i T \/ harmless o end.

Definition drop (i : nat) (T : list nat) : list nat := filter (fun j => negb (j =? i)%nat) T.

(** The arrays still restricted after the call: destroying and purging end it. *)
Definition after (T : list nat) (o : op) : list nat :=
  match o with Delete i | Purge i => drop i T | _ => T end.

(** The array restricted by a call that throws. *)
Definition spoiled (o : op) : list nat :=
  match o with Reserve i _ | Set_count i _ _ | Append i _ | Insert i _ _ => [i] | _ => [] end.

Inductive survived : world A -> list nat -> list (option (list A)) -> Prop :=
| sv_start : survived ([], []) [] []
| sv_done m w T s o c s' w' : survived w T s -> says A dflt o c -> means A dflt s c s' -> small A s' -> allowed T o ->
    attempt A dflt base m w o = Ret (false, w') -> survived w' (after T o) s'
| sv_threw m w T s o c s' w' : survived w T s -> says A dflt o c -> means A dflt s c s' -> small A s' -> allowed T o ->
    attempt A dflt base m w o = Ret (true, w') -> survived w' (spoiled o ++ T) s.

End Spec.
Arguments harmless {A} o.
Arguments allowed {A} T o.
Arguments after {A} T o.
Arguments spoiled {A} o.
