(** * How deep trees and types are nested. Independent of the models' functions. *)

From Verif Require Import Base MapModel ParserModel SchemaModel SpecGrammar.

(** The greatest of the numbers that [f] gives for the elements of a map. *)
Definition map_max {A} (f : A -> nat) : tree A -> nat :=
  fix go (m : tree A) : nat :=
    match m with
    | Leaf => 0%nat
    | Node l _ v _ r => Nat.max (f v) (Nat.max (go l) (go r))
    end.
Definition list_max {A} (f : A -> nat) : list A -> nat :=
  fix go (l : list A) : nat := match l with [] => 0%nat | x :: l' => Nat.max (f x) (go l') end.

(** The levels of a tree: 1 for a value without elements. *)
Fixpoint levels (v : value) : nat :=
  match v with
  | VArray l => S (list_max levels l)
  | VObject m _ => S (map_max levels m)
  | _ => 1%nat
  end.

(** The number of members of the largest object in a tree. *)
Fixpoint largest (v : value) : nat :=
  match v with
  | VArray l => list_max largest l
  | VObject m _ => Nat.max (size m) (map_max largest m)
  | _ => 0%nat
  end.

(** The levels of a type: an item of a structure is below the items before it. *)
Fixpoint type_levels (t : ty) : nat :=
  match t with
  | TArray t | TVector t | TObjectMap t | TStdMap t => S (type_levels t)
  | TStruct p => S (proto_levels p)
  | _ => 1%nat
  end
with proto_levels (p : proto) : nat :=
  match p with
  | PNil => 1%nat
  | PItem _ _ t rest => S (Nat.max (type_levels t) (proto_levels rest))
  end.

(** The number of members of the largest object of a JSON value. *)
Fixpoint widest (j : jv) : nat :=
  match j with
  | JArr l => list_max widest l
  | JObj ms => Nat.max (length ms) (list_max (fun m => widest (snd m)) ms)
  | _ => 0%nat
  end.
