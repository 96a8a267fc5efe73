(** * Specification of dynamic arrays as lists, independent of the model of the
    storage. *)

From Verif Require Import Base.

Section Spec.
Variable A : Type.
Variable dflt : A.

(** The calls, as in the interface. *)
Inductive call : Type :=
| CNew
| CCopy (i : nat)
| CMove (i : nat)
| CDelete (i : nat)
| CClear (i : nat)
| CPurge (i : nat)
| CReserve (i : nat)
| CResize (i n : nat) (v : A)
| CAppend (i : nat) (v : A)
| CInsert (i j : nat) (v : A)
| CRemove (i j : nat)
| CRemove_last (i : nat).

(** [n] elements: the first of [l], then copies of [v]. *)
Definition resized (l : list A) (n : nat) (v : A) : list A := firstn n l ++ repeat v (n - length l).

(** [v] at place [j], after copies of [dflt] if [l] is too short. *)
Definition inserted (l : list A) (j : nat) (v : A) : list A := resized l j dflt ++ v :: skipn j l.

Definition removed (l : list A) (j : nat) : list A := firstn j l ++ skipn (S j) l.

(** The lists held by the arrays made so far, [None] for destroyed ones; a call on
    one of the others is out of the question. *)
Fixpoint put {X} (l : list X) (n : nat) (x : X) : list X :=
  match l, n with
  | [], _ => []
  | _ :: l', O => x :: l'
  | y :: l', S n' => y :: put l' n' x
  end.

Inductive means : list (option (list A)) -> call -> list (option (list A)) -> Prop :=
| m_new s : means s CNew (s ++ [Some []])
| m_copy s i l : nth_error s i = Some (Some l) -> means s (CCopy i) (s ++ [Some l])
| m_move s i l : nth_error s i = Some (Some l) -> means s (CMove i) (put s i (Some []) ++ [Some l])
| m_delete s i l : nth_error s i = Some (Some l) -> means s (CDelete i) (put s i None)
| m_clear s i l : nth_error s i = Some (Some l) -> means s (CClear i) (put s i (Some []))
| m_purge s i l : nth_error s i = Some (Some l) -> means s (CPurge i) (put s i (Some []))
| m_reserve s i l : nth_error s i = Some (Some l) -> means s (CReserve i) s
| m_resize s i l n v : nth_error s i = Some (Some l) -> means s (CResize i n v) (put s i (Some (resized l n v)))
| m_append s i l v : nth_error s i = Some (Some l) -> means s (CAppend i v) (put s i (Some (l ++ [v])))
| m_insert s i l j v : nth_error s i = Some (Some l) -> means s (CInsert i j v) (put s i (Some (inserted l j v)))
| m_remove s i l j : nth_error s i = Some (Some l) -> means s (CRemove i j) (put s i (Some (removed l j)))
| m_remove_last s i l : nth_error s i = Some (Some l) -> means s (CRemove_last i) (put s i (Some (removelast l))).

(** No list is longer than 2^30. *)
Definition small (s : list (option (list A))) : Prop :=
  forall i l, nth_error s i = Some (Some l) -> Z.of_nat (length l) <= 1073741824.

(** The place of the first element equal to [v] counted from [i], or -1. *)
Fixpoint first_index (eqb : A -> A -> bool) (i : Z) (l : list A) (v : A) : Z :=
  match l with
  | [] => -1
  | x :: l' => if eqb x v then i else first_index eqb (i + 1) l' v
  end.

End Spec.
Arguments CNew {A}.
Arguments CCopy {A} i.
Arguments CMove {A} i.
Arguments CDelete {A} i.
Arguments CClear {A} i.
Arguments CPurge {A} i.
Arguments CReserve {A} i.
Arguments CResize {A} i n v.
Arguments CAppend {A} i v.
Arguments CInsert {A} i j v.
Arguments CRemove {A} i j.
Arguments CRemove_last {A} i.
