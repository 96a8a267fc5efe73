(** * Specification of what new objects hold before the document is read into them. *)

From Verif Require Import Base SpecMap NumModel MapModel MapProofs ParserModel SchemaModel.
From Coq Require Import Floats.SpecFloat.

(** Objects of a type as C++ makes them: [known] for [T {}] (numbers zero, bools false) and
    for [T temp;] where nothing is said of numbers and bools without an initialiser. *)
Inductive starts (known : bool) : ty -> data -> Prop :=
| st_string : starts known TString (DString [])
| st_std_string : starts known TStdString (DString [])
| st_double d : (known = true -> d = S754_zero false) -> starts known TDouble (DDouble d)
| st_bool b : (known = true -> b = false) -> starts known TBool (DBool b)
| st_null : starts known TNull DNull
| st_array t : starts known (TArray t) (DArray [])
| st_vector t : starts known (TVector t) (DArray [])
| st_map t : starts known (TObjectMap t) (DMap Leaf)
| st_std_map t : starts known (TStdMap t) (DStdMap [])
| st_struct p l : starts_members known p l -> starts known (TStruct p) (DStruct l)
with starts_members (known : bool) : proto -> list data -> Prop :=
| sm_nil : starts_members known PNil []
| sm_init k d t p l : starts_members known p l -> starts_members known (PItem k (Some d) t p) (d :: l)
| sm_none k d t p l : starts known t d -> starts_members known p l -> starts_members known (PItem k None t p) (d :: l).

(** Prototypes of optional members only. *)
Fixpoint all_optional (p : proto) : Prop :=
  match p with PNil => True | PItem (Optional _) _ _ p => all_optional p | PItem _ _ _ _ => False end.

(** [T temp;] leaves nothing open: no number and no bool without an initialiser. *)
Fixpoint initialised (t : ty) : Prop :=
  match t with
  | TDouble | TBool => False
  | TStruct p => initialised_members p
  | _ => True
  end
with initialised_members (p : proto) : Prop :=
  match p with
  | PNil => True
  | PItem _ (Some _) _ p => initialised_members p
  | PItem _ None t p => initialised t /\ initialised_members p
  end.

(** Every part that [T temp;] leaves open is read from the document or makes the call fail:
    optional members have an initialiser, or a type that leaves nothing open. *)
Fixpoint covered (t : ty) : Prop :=
  match t with TStruct p => covered_members p | _ => True end
with covered_members (p : proto) : Prop :=
  match p with
  | PNil => True
  | PItem _ (Some _) _ p => covered_members p
  | PItem (Optional _) None t p => initialised t /\ covered_members p
  | PItem _ None t p => covered t /\ covered_members p
  end.

(** The same for the elements of every Array and std::vector in the type. *)
Fixpoint settled_type (t : ty) : Prop :=
  match t with
  | TArray t | TVector t => covered t /\ settled_type t
  | TObjectMap t | TStdMap t => settled_type t
  | TStruct p => settled_members p
  | _ => True
  end
with settled_members (p : proto) : Prop :=
  match p with PNil => True | PItem _ _ t p => settled_type t /\ settled_members p end.

(** The document's object [v] has none of the members of the prototype. *)
Fixpoint none_of (p : proto) (names : list (list Z)) : Prop :=
  match p with PItem (Optional n) _ _ p => good_key n /\ ~ In n names /\ none_of p names | _ => True end.
Definition lacks (p : proto) (v : value) : Prop :=
  exists m order, v = VObject m order /\ Forall good_key (map fst (elements m)) /\ none_of p (map fst (elements m)).
