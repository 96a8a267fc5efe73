(** * Specification of maps whose keys have operators < and ==: what the operators
    must satisfy, and what a sequence of insertions then means. Independent of the
    tree. *)

From Coq Require Import Permutation Sorted.
From Verif Require Import Base.

Section Keys.
Context {K A : Type}.
Variables (less equal : K -> K -> out bool).

(** The operators return on the keys with [good], exactly one of a < b, a == b and
    b < a is true, < is transitive and == an equivalence. *)
Definition ordered (good : K -> Prop) : Prop :=
  (forall a b, good a -> good b -> exists lt eq gt,
     less a b = Ret lt /\ equal a b = Ret eq /\ less b a = Ret gt /\
     ((lt, eq, gt) = (true, false, false) \/ (lt, eq, gt) = (false, true, false) \/ (lt, eq, gt) = (false, false, true))) /\
  (forall a b c, good a -> good b -> good c -> less a b = Ret true -> less b c = Ret true -> less a c = Ret true) /\
  (forall a, good a -> equal a a = Ret true) /\
  (forall a b, good a -> good b -> equal a b = Ret true -> equal b a = Ret true) /\
  (forall a b c, good a -> good b -> good c -> equal a b = Ret true -> equal b c = Ret true -> equal a c = Ret true).

Definition is_true (x : out bool) : bool := match x with Ret true => true | _ => false end.

(** The first pair whose key equals [k]. *)
Definition first_equal (k : K) (l : list (K * A)) : option A :=
  option_map snd (find (fun p => is_true (equal k (fst p))) l).

(** Of each group of pairs with equal keys the first one, after the keys [seen]. *)
Fixpoint firsts (seen : list K) (l : list (K * A)) : list (K * A) :=
  match l with
  | [] => []
  | (k, e) :: l' =>
      (if existsb (fun s => is_true (equal k s)) seen then [] else [(k, e)]) ++ firsts (seen ++ [k]) l'
  end.

(** For each pair, whether its key is new. *)
Fixpoint is_first (seen : list K) (l : list (K * A)) : list bool :=
  match l with
  | [] => []
  | (k, _) :: l' => negb (existsb (fun s => is_true (equal k s)) seen) :: is_first (seen ++ [k]) l'
  end.

(** Ordered by <. *)
Definition sorted (l : list (K * A)) : Prop := StronglySorted (fun p q => less (fst p) (fst q) = Ret true) l.
End Keys.
