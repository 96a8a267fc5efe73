(** * Specification of Validate, Deserialize and Serialize, in terms of abstract
    JSON values. *)

From Verif Require Import Base NumModel MapModel ParserModel WriterModel SpecMap SpecGrammar MapProofs SchemaModel.

(** [shows v j]: typed access and lookups in the tree [v] give the abstract value
    [j] (like [represents], but saying nothing about the order of members). *)
Inductive shows : value -> jv -> Prop :=
| show_str s : shows (VString s) (JStr s)
| show_num d : shows (VNumber d) (JNum d)
| show_bool b : shows (VBool b) (JBool b)
| show_null : shows VNull JNull
| show_arr vs js : Forall2 shows vs js -> shows (VArray vs) (JArr js)
| show_obj m order ms :
    (forall k, good_key k -> assoc k ms = None -> find_map_element m k = None) ->
    (forall k j, good_key k -> assoc k ms = Some j ->
       exists v, find_map_element m k = Some v /\ shows v j) ->
    shows (VObject m order) (JObj ms).

(** Trees whose maps are ordered, balanced and keyed by C strings, and whose
    recorded member names are all present. *)
Inductive sound_value : value -> Prop :=
| sv_str s : good_key s -> sound_value (VString s)
| sv_num d : sound_value (VNumber d)
| sv_bool b : sound_value (VBool b)
| sv_null : sound_value VNull
| sv_arr l : Forall sound_value l -> sound_value (VArray l)
| sv_obj m order : wf_map m -> (forall k, In k order -> In k (keys m)) ->
    (forall k v, In (k, v) (elements m) -> sound_value v) ->
    sound_value (VObject m order).

(** The content of an object of the user's program: both kinds of map become
    the list of their pairs. *)
Fixpoint content (d : data) : data :=
  match d with
  | DArray l => DArray (map content l)
  | DMap m => DStdMap (elements (map_tree content m))
  | DStdMap l => DStdMap ((fix go l := match l with [] => [] | (k, x) :: l' => (k, content x) :: go l' end) l)
  | DStruct l => DStruct (map content l)
  | DString s => DString s
  | DDouble x => DDouble x
  | DBool b => DBool b
  | DNull => DNull
  end.

(** Objects of a type. Strings and keys are C strings. *)
Fixpoint has_type (t : ty) (d : data) : Prop :=
  match t with
  | TString | TStdString => exists s, d = DString s /\ good_key s
  | TDouble => exists x, d = DDouble x
  | TBool => exists b, d = DBool b
  | TNull => d = DNull
  | TArray t | TVector t => exists l, d = DArray l /\ Forall (has_type t) l
  | TObjectMap t => exists m, d = DMap m /\ wf_map m /\ Forall (fun kd => has_type t (snd kd)) (elements m)
  | TStdMap t => exists l, d = DStdMap l /\ increasing (map fst l) /\ Forall good_key (map fst l) /\
                   Forall (fun kd => has_type t (snd kd)) l
  | TStruct p => exists l, d = DStruct l /\ has_types p l
  end
with has_types (p : proto) (l : list data) : Prop :=
  match p, l with
  | PNil, [] => True
  | PItem _ _ t rest, d :: l => has_type t d /\ has_types rest l
  | _, _ => False
  end.

(** Types whose prototypes use C strings as names and well-typed initialisers. *)
Fixpoint proper (t : ty) : Prop :=
  match t with
  | TArray t | TVector t | TObjectMap t | TStdMap t => proper t
  | TStruct p => proper_proto p
  | _ => True
  end
with proper_proto (p : proto) : Prop :=
  match p with
  | PNil => True
  | PItem k init t rest =>
      match k with Named n | Optional n => good_key n | Anonymous => True end /\
      match init with Some d => has_type t d | None => True end /\
      proper t /\ proper_proto rest
  end.

(** The member of an abstract value with a given name. *)
Definition member (j : jv) (name : list Z) : option jv :=
  match j with JObj ms => assoc name ms | _ => None end.

Definition is_object (j : jv) : Prop := exists ms, j = JObj ms.

(** The documents that a type accepts. *)
Fixpoint valid (t : ty) (j : jv) : Prop :=
  match t with
  | TString | TStdString => exists s, j = JStr s
  | TDouble => exists d, j = JNum d
  | TBool => exists b, j = JBool b
  | TNull => j = JNull
  | TArray t | TVector t => exists js, j = JArr js /\ Forall (valid t) js
  | TObjectMap t | TStdMap t =>
      is_object j /\ forall k j', good_key k -> member j k = Some j' -> valid t j'
  | TStruct p => valid_proto p j
  end
with valid_proto (p : proto) (j : jv) : Prop :=
  match p with
  | PNil => True
  | PItem k _ t rest =>
      match k with
      | Named n => exists j', member j n = Some j' /\ valid t j'
      | Optional n => is_object j /\ forall j', member j n = Some j' -> valid t j'
      | Anonymous => valid t j
      end /\ valid_proto rest j
  end.

Section Reads.
Variable g : junk.

(** [reads t j d0 d]: the content [d0] becomes [d] when the document [j] is read
    into it. *)
Fixpoint reads (t : ty) (j : jv) (d0 d : data) : Prop :=
  match t with
  | TString | TStdString => exists s, j = JStr s /\ d = DString s
  | TDouble => exists x, j = JNum x /\ d = DDouble x
  | TBool => exists b, j = JBool b /\ d = DBool b
  | TNull => j = JNull /\ d = DNull
  | TArray t | TVector t =>
      exists js ds, j = JArr js /\ d = DArray ds /\
        Forall2 (fun j d => reads t j (content (fresh g t)) d) js ds
  | TObjectMap t | TStdMap t =>
      exists ms l0 l, j = JObj ms /\ d0 = DStdMap l0 /\ d = DStdMap l /\
        increasing (map fst l) /\ Forall good_key (map fst l) /\
        forall k, good_key k ->
          match assoc k ms with
          | None => assoc k l = assoc k l0
          | Some j' => exists d', assoc k l = Some d' /\
              reads t j' (match assoc k l0 with Some x => x | None => content (fresh zeroes t) end) d'
          end
  | TStruct p => exists ds0 ds, d0 = DStruct ds0 /\ d = DStruct ds /\ reads_proto p j ds0 ds
  end
with reads_proto (p : proto) (j : jv) (ds0 ds : list data) : Prop :=
  match p, ds0, ds with
  | PNil, [], [] => True
  | PItem k _ t rest, d0 :: ds0, d :: ds =>
      match k with
      | Named n => exists j', member j n = Some j' /\ reads t j' d0 d
      | Optional n =>
          is_object j /\
          match member j n with Some j' => reads t j' d0 d | None => d = d0 end
      | Anonymous => reads t j d0 d
      end /\ reads_proto rest j ds0 ds
  | _, _, _ => False
  end.
End Reads.

(** The document of an object of the user's program. *)
Fixpoint json (t : ty) (d : data) : jv :=
  match t, d with
  | (TString | TStdString), DString s => JStr s
  | TDouble, DDouble x => JNum x
  | TBool, DBool b => JBool b
  | (TArray t | TVector t), DArray l => JArr (map (json t) l)
  | TObjectMap t, DMap m => JObj (map (fun kd => (fst kd, json t (snd kd))) (elements m))
  | TStdMap t, DStdMap l => JObj (map (fun kd => (fst kd, json t (snd kd))) l)
  | TStruct p, DStruct l => JObj (json_members p l)
  | _, _ => JNull
  end
with json_members (p : proto) (l : list data) : list (list Z * jv) :=
  match p, l with
  | PItem k _ t rest, d :: l =>
      match k with
      | Named n | Optional n => [(n, json t d)]
      | Anonymous => match json t d with JObj ms => ms | _ => [] end
      end ++ json_members rest l
  | _, _ => []
  end.

(** The member names of a prototype, those of anonymous members included. *)
Fixpoint names (p : proto) : list (list Z) :=
  match p with
  | PNil => []
  | PItem k _ t rest =>
      match k with
      | Named n | Optional n => [n]
      | Anonymous => match t with TStruct q => names q | _ => [] end
      end ++ names rest
  end.

(** No map reached through members has elements. *)
Fixpoint blank (t : ty) (d : data) : Prop :=
  match t, d with
  | (TObjectMap _ | TStdMap _), DMap m => m = Leaf
  | (TObjectMap _ | TStdMap _), DStdMap l => l = []
  | TStruct p, DStruct l => blanks p l
  | _, _ => True
  end
with blanks (p : proto) (l : list data) : Prop :=
  match p, l with
  | PItem _ _ t rest, d :: l => blank t d /\ blanks rest l
  | _, _ => True
  end.

(** The types for which serialization is meant to work and does: no std::vector,
    distinct names, anonymous members are structures, initialisers leave maps
    empty. *)
Fixpoint storable (t : ty) : Prop :=
  match t with
  | TVector _ => False
  | TArray t | TObjectMap t | TStdMap t => storable t
  | TStruct p => storable_proto p /\ NoDup (names p)
  | _ => True
  end
with storable_proto (p : proto) : Prop :=
  match p with
  | PNil => True
  | PItem k init t rest =>
      match k with Anonymous => match t with TStruct _ => True | _ => False end | _ => True end /\
      match init with Some d => blank t d | None => True end /\
      storable t /\ storable_proto rest
  end.

(** Types without maps. *)
Fixpoint map_free (t : ty) : Prop :=
  match t with
  | TObjectMap _ | TStdMap _ => False
  | TArray t | TVector t => map_free t
  | TStruct p => map_free_proto p
  | _ => True
  end
with map_free_proto (p : proto) : Prop :=
  match p with PNil => True | PItem _ _ t rest => map_free t /\ map_free_proto rest end.

(** Types without required members, not even in their parts. *)
Fixpoint no_required (t : ty) : Prop :=
  match t with
  | TArray t | TVector t | TObjectMap t | TStdMap t => no_required t
  | TStruct p => no_required_proto p
  | _ => True
  end
with no_required_proto (p : proto) : Prop :=
  match p with
  | PNil => True
  | PItem k _ t rest =>
      match k with Named _ => False | _ => True end /\ no_required t /\ no_required_proto rest
  end.

(** Types whose optional members are of types without required members. *)
Fixpoint strict (t : ty) : Prop :=
  match t with
  | TArray t | TVector t | TObjectMap t | TStdMap t => strict t
  | TStruct p => strict_proto p
  | _ => True
  end
with strict_proto (p : proto) : Prop :=
  match p with
  | PNil => True
  | PItem k _ t rest =>
      match k with Optional _ => no_required t | _ => True end /\ strict t /\ strict_proto rest
  end.

(** Types without anonymous map members. *)
Definition is_map (t : ty) : Prop := match t with TObjectMap _ | TStdMap _ => True | _ => False end.

Fixpoint tidy (t : ty) : Prop :=
  match t with
  | TArray t | TVector t | TObjectMap t | TStdMap t => tidy t
  | TStruct p => tidy_proto p
  | _ => True
  end
with tidy_proto (p : proto) : Prop :=
  match p with
  | PNil => True
  | PItem k _ t rest =>
      match k with Anonymous => ~ is_map t | _ => True end /\ tidy t /\ tidy_proto rest
  end.

(** Types all of whose named members can be stored. *)
Fixpoint reporting (t : ty) : Prop :=
  match t with
  | TArray t | TVector t | TObjectMap t | TStdMap t => reporting t
  | TStruct p => reporting_proto p /\ NoDup (names p)
  | _ => True
  end
with reporting_proto (p : proto) : Prop :=
  match p with
  | PNil => True
  | PItem k _ t rest =>
      match k with Anonymous => reporting t /\ ~ is_map t | _ => storable t end /\ reporting_proto rest
  end.
