(** * Specification of Deserialize when memory runs out: what an object shows, which objects
    and types are safe. *)

From Verif Require Import Base TextModel NumModel MapModel ParserModel SpecMap MapProofs SchemaModel SpecSchema SpecText DynModel DynProofs StrFailModel OwnModel DeserFailModel.

(** The text of a String. *)
Definition text_of (s : fstr) : list Z :=
  match f_store s with Local => cstr (f_local s) | Block b => cstr b | Freed => [] end.

(** The content of an object. *)
Fixpoint seen (o : odata) : data :=
  match o with
  | OString s => DString (text_of s)
  | OStd s => DString s
  | ODouble d => DDouble d
  | OBool b => DBool b
  | ONull => DNull
  | OArray l => DArray (map seen l)
  | OMap m => DMap (tmap seen m)
  | OStdMap l => DStdMap ((fix go l := match l with [] => [] | (k, x) :: l' => (k, seen x) :: go l' end) l)
  | OStruct l => DStruct (map seen l)
  end.

(** The ObjectMap elements of an object. *)
Definition tsum {A} (f : A -> nat) : tree A -> nat :=
  fix go (m : tree A) : nat := match m with Leaf => 0%nat | Node l _ v _ r => (go l + f v + go r)%nat end.
Fixpoint elems (o : odata) : nat :=
  match o with
  | OArray l | OStruct l => (fix go l := match l with [] => 0%nat | x :: l' => (elems x + go l')%nat end) l
  | OMap m => tsum (fun x => S (elems x)) m
  | OStdMap l => (fix go l := match l with [] => 0%nat | (_, x) :: l' => (elems x + go l')%nat end) l
  | _ => 0%nat
  end.

(** A String with a text, as the functions of the library leave it when they come to their end. *)
Definition whole (s : fstr) : Prop := exists d t, s = embed d /\ exact d t /\ good_key t.

(** Objects of a type whose Strings are such. *)
Fixpoint otype (t : ty) (o : odata) : Prop :=
  match t with
  | TString => exists s, o = OString s /\ whole s
  | TStdString => exists s, o = OStd s /\ good_key s
  | TDouble => exists x, o = ODouble x
  | TBool => exists b, o = OBool b
  | TNull => o = ONull
  | TArray t | TVector t => exists l, o = OArray l /\ Forall (otype t) l
  | TObjectMap t => exists m, o = OMap m /\ wf_map m /\ Forall (fun kd => otype t (snd kd)) (elements m)
  | TStdMap t => exists l, o = OStdMap l /\ increasing (map fst l) /\ Forall good_key (map fst l) /\
                   Forall (fun kd => otype t (snd kd)) l
  | TStruct p => exists l, o = OStruct l /\ otypes p l
  end
with otypes (p : proto) (l : list odata) : Prop :=
  match p, l with
  | PNil, [] => True
  | PItem _ _ t rest, o :: l => otype t o /\ otypes rest l
  | _, _ => False
  end.

(** Every String of an object; with [deep], also those in arrays. *)
Definition all {A} (P : A -> Prop) : list A -> Prop :=
  fix go (l : list A) : Prop := match l with [] => True | x :: l' => P x /\ go l' end.
Definition tree_all {A} (P : A -> Prop) : tree A -> Prop :=
  fix go (m : tree A) : Prop := match m with Leaf => True | Node l _ v _ r => go l /\ P v /\ go r end.
Fixpoint every (deep : bool) (P : fstr -> Prop) (o : odata) : Prop :=
  match o with
  | OString s => P s
  | OArray l => if deep then all (every deep P) l else True
  | OStruct l => all (every deep P) l
  | OMap m => tree_all (every deep P) m
  | OStdMap l => (fix go l := match l with [] => True | (_, x) :: l' => every deep P x /\ go l' end) l
  | _ => True
  end.

(** No String refers to a deleted text; no String outside arrays has its text on the heap. *)
Definition undead : odata -> Prop := every true (fun s => f_store s <> Freed).
Definition settled : odata -> Prop := every false (fun s => f_store s = Local).

(** Initialisers: ObjectMaps are empty; Strings outside arrays have fewer than 16 characters. *)
Fixpoint bare (d : data) : Prop :=
  match d with
  | DArray l | DStruct l => all bare l
  | DMap m => m = Leaf
  | DStdMap l => (fix go l := match l with [] => True | (_, x) :: l' => bare x /\ go l' end) l
  | _ => True
  end.
Fixpoint short (t : ty) (d : data) : Prop :=
  match t, d with
  | TString, DString s => (length s < 16)%nat
  | TStdMap t, DStdMap l => all (fun kd => short t (snd kd)) l
  | TStruct p, DStruct ds => short_items p ds
  | _, _ => True
  end
with short_items (p : proto) (ds : list data) : Prop :=
  match p, ds with
  | PItem _ _ t rest, d :: ds => short t d /\ short_items rest ds
  | _, _ => True
  end.

(** The initialisers of the objects that Deserialize makes itself. *)
Fixpoint inits (P : ty -> data -> Prop) (t : ty) : Prop :=
  match t with
  | TArray t | TVector t | TObjectMap t | TStdMap t => inits P t
  | TStruct p => inits_proto P p
  | _ => True
  end
with inits_proto (P : ty -> data -> Prop) (p : proto) : Prop :=
  match p with
  | PNil => True
  | PItem _ i t rest => match i with Some d => P t d | None => True end /\ inits P t /\ inits_proto P rest
  end.

(** Types without ObjectMap; types whose Array and std::vector elements are such (the others do not
    compile: an ObjectMap cannot be copied). *)
Fixpoint plain (t : ty) : Prop :=
  match t with
  | TObjectMap _ => False
  | TArray t | TVector t | TStdMap t => plain t
  | TStruct p => plain_proto p
  | _ => True
  end
with plain_proto (p : proto) : Prop :=
  match p with PNil => True | PItem _ _ t rest => plain t /\ plain_proto rest end.
Fixpoint compiles (t : ty) : Prop :=
  match t with
  | TArray t | TVector t => plain t
  | TObjectMap t | TStdMap t => compiles t
  | TStruct p => compiles_proto p
  | _ => True
  end
with compiles_proto (p : proto) : Prop :=
  match p with PNil => True | PItem _ _ t rest => compiles t /\ compiles_proto rest end.

(** The names in a document have fewer than 16 characters. *)
Fixpoint short_names (v : value) : Prop :=
  match v with
  | VArray l => all short_names l
  | VObject m _ => (fix go (m : tree value) : Prop :=
      match m with Leaf => True | Node l k x _ r => go l /\ ((length k < 16)%nat /\ short_names x) /\ go r end) m
  | _ => True
  end.
