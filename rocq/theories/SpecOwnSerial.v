(** * Specification of SerializeFrom when memory runs out: for which types nothing is
    lost, and for which every failure is reported. *)

From Verif Require Import Base MapModel SchemaModel SpecSchema.

(** No structure names a member twice, counting the members of its anonymous
    structures, and no anonymous member is a map. *)
Fixpoint clean (t : ty) : Prop :=
  match t with
  | TArray t | TVector t | TObjectMap t | TStdMap t => clean t
  | TStruct p => clean_proto p /\ NoDup (names p)
  | _ => True
  end
with clean_proto (p : proto) : Prop :=
  match p with
  | PNil => True
  | PItem k _ t rest =>
      match k with Anonymous => ~ is_map t | _ => True end /\ clean t /\ clean_proto rest
  end.

(** Types whose objects need no memory: numbers, truth values, null. *)
Definition quiet (t : ty) : Prop := match t with TDouble | TBool | TNull => True | _ => False end.

(** Named members are of such types only. *)
Fixpoint honest (t : ty) : Prop :=
  match t with
  | TArray t | TVector t | TObjectMap t | TStdMap t => honest t
  | TStruct p => honest_proto p
  | _ => True
  end
with honest_proto (p : proto) : Prop :=
  match p with
  | PNil => True
  | PItem k _ t rest => match k with Anonymous => honest t | _ => quiet t end /\ honest_proto rest
  end.

(** An object whose std::strings, and keys of std::maps, end before the first NUL. *)
Definition each {A B} (f : A -> B) : tree A -> tree B :=
  fix go (m : tree A) : tree B :=
    match m with
    | Leaf => Leaf
    | Node l k v b r => Node (go l) k (f v) b (go r)
    end.
Fixpoint cut (t : ty) (d : data) : data :=
  match t, d with
  | TStdString, DString s => DString (cstr s)
  | TArray t, DArray ds | TVector t, DArray ds => DArray (map (cut t) ds)
  | TObjectMap t, DMap m => DMap (each (cut t) m)
  | TStdMap t, DStdMap l => DStdMap (map (fun kd => (cstr (fst kd), cut t (snd kd))) l)
  | TStruct p, DStruct ds => DStruct (cut_items p ds)
  | _, _ => d
  end
with cut_items (p : proto) (ds : list data) : list data :=
  match p, ds with
  | PItem _ _ t rest, d :: ds => cut t d :: cut_items rest ds
  | _, _ => ds
  end.
