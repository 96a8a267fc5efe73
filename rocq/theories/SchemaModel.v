(** * Model of Validate, Deserialize and Serialize, Code/Json4C4/C4Json.h:524-1631
    and C4Json.cpp:1855-1915.

    The C++ functions are templates: the type of the user's object selects the
    code. Here a type is a value of [ty] and the template instantiation is the
    recursion over it. Allocation succeeds, so the [kException] results of
    MayThrow (C4Json.h:173-191) do not occur; MayThrow(f) is f.

    Simplification: a type with the member functions of
    DEFINE_JSON4C4_MEMBER_FUNCTIONS and one with the free functions of
    DEFINE_JSON4C4_FUNCTIONS (C4Json.h:1605-1631) run the same Proto functions
    and are both [TStruct]. (The former are accepted by the compiler only as a
    root, as an Array element and as an ObjectMap or std::map value.) *)

From Verif Require Import Base TextModel NumModel MapModel ParserModel AccessModel.

(** Objects of the user's program. [DString] is String<> or std::string,
    [DArray] is Array<T> or std::vector<T>, [DMap] is an ObjectMap
    (C4Json.h:210-231), [DStdMap] a std::map<std::string, T> (its pairs in
    increasing order of the keys), [DStruct] the members named by a prototype. *)
Inductive data : Type :=
| DString (s : list Z)
| DDouble (d : double)
| DBool (b : bool)
| DNull
| DArray (l : list data)
| DMap (m : tree data)
| DStdMap (l : list (list Z * data))
| DStruct (l : list data).

(** How a prototype mentions a member: [name, object.x]; [Json::optional, name,
    object.x]; [object.x] (C4Json.h:1382-1512). *)
Inductive mention : Type :=
| Named (name : list Z)
| Optional (name : list Z)
| Anonymous.

(** The types accepted by the templates. A prototype is the list of arguments
    after the value; [init] is the member's default initialiser, if any. *)
Inductive ty : Type :=
| TString | TDouble | TBool | TNull
| TArray (t : ty)
| TObjectMap (t : ty)
| TStdString
| TVector (t : ty)
| TStdMap (t : ty)
| TStruct (p : proto)
with proto : Type :=
| PNil
| PItem (k : mention) (init : option data) (t : ty) (rest : proto).

(** ** Validate *)

(** The loops over elements in C4Json.h:820-844, 959-981, 1140-1160, 1278-1299. *)
Fixpoint validate_each (f : value -> out status) (l : list value) : out status :=
  match l with
  | [] => Ret kOk
  | v :: l' => let! st := f v in if negb (status_eqb st kOk) then Ret st else validate_each f l'
  end.

(** [for ( const auto* e : *objectValue )]. *)
Definition map_elements {A} (m : tree A) : out (list (list Z * A)) := iterate (size m) (map_first m).

(** C4Json.h:643-661, Validate(value, name, data). *)
Definition validate_named (name : list Z) (f : value -> out status) (v : value) : out status :=
  match as_object v with
  | None => Ret kInvalidValueType
  | Some (m, _) =>
      match find_map_element m name with
      | None => Ret kNameNotPresent
      | Some v' => f v'
      end
  end.

Definition present {A} (o : option A) : status := match o with Some _ => kOk | None => kInvalidValueType end.

(** C4Json.h:745-751 (String, double, bool, Null), C4Json.cpp:1868-1878
    (std::string), C4Json.h:804-846 (Array), 941-982 (ObjectMap), 1120-1161
    (std::vector), 1260-1300 (std::map), 1605-1631 (types with a prototype). *)
Fixpoint validate (t : ty) (v : value) : out status :=
  match t with
  | TString | TStdString => Ret (present (get_string v))
  | TDouble => Ret (present (get_double v))
  | TBool => Ret (present (get_bool v))
  | TNull => Ret (present (get_null v))
  | TArray t | TVector t =>
      match get_array v with
      | None => Ret kInvalidValueType
      | Some l => validate_each (validate t) l
      end
  | TObjectMap t | TStdMap t =>
      match as_object v with
      | None => Ret kInvalidValueType
      | Some (m, _) => let! es := map_elements m in validate_each (validate t) (map snd es)
      end
  | TStruct p => validate_proto p v
  end

(** C4Json.h:1382-1424, the ValidateProto overloads. *)
with validate_proto (p : proto) (v : value) : out status :=
  match p with
  | PNil => Ret kOk
  | PItem Anonymous _ t rest =>
      let! st := validate t v in
      if negb (status_eqb st kOk) then Ret st else validate_proto rest v
  | PItem (Named name) _ t rest =>
      let! st := validate_named name (validate t) v in
      if negb (status_eqb st kOk) then Ret st else validate_proto rest v
  | PItem (Optional name) _ t rest =>
      let! st := validate_named name (validate t) v in
      if negb (status_eqb st kOk) && negb (status_eqb st kNameNotPresent) then Ret st
      else validate_proto rest v
  end.

(** ** Deserialize *)

(** What [T temp;] holds when the type has no constructor for it: any double,
    any bool. *)
Record junk : Type := Junk { junk_double : double; junk_bool : bool }.

(** What [T {}] holds. *)
Definition zeroes : junk := Junk (S754_zero false) false.

(** A default-initialised object ([T temp;]) or, with [zeroes], a
    value-initialised one ([T {}]). *)
Fixpoint fresh (g : junk) (t : ty) : data :=
  match t with
  | TString | TStdString => DString []
  | TDouble => DDouble (junk_double g)
  | TBool => DBool (junk_bool g)
  | TNull => DNull
  | TArray _ | TVector _ => DArray []
  | TObjectMap _ => DMap Leaf
  | TStdMap _ => DStdMap []
  | TStruct p => DStruct (fresh_proto g p)
  end
with fresh_proto (g : junk) (p : proto) : list data :=
  match p with
  | PNil => []
  | PItem _ init t rest => match init with Some d => d | None => fresh g t end :: fresh_proto g rest
  end.

(** The loops of C4Json.h:866-891 (Array) and 1181-1207 (std::vector): [acc] is
    the destination, [temp] the new element. *)
Fixpoint deserialize_elements (f : value -> data -> out (status * data)) (temp : data)
    (l : list value) (acc : list data) : out (status * list data) :=
  match l with
  | [] => Ret (kOk, acc)
  | v :: l' =>
      let! (st, d) := f v temp in
      if status_eqb st kOk then deserialize_elements f temp l' (acc ++ [d]) else Ret (st, acc)
  end.

(** The loop of C4Json.h:1002-1058 (ObjectMap). An element that was already in
    the map is changed in place, also when the inner call fails; a new element
    is inserted after the inner call succeeded. *)
Fixpoint deserialize_members (f : value -> data -> out (status * data)) (temp : data)
    (es : list (list Z * value)) (m : tree data) : out (status * tree data) :=
  match es with
  | [] => Ret (kOk, m)
  | (key, v) :: es' =>
      match find_map_element m key with
      | Some d =>
          let! (st, d') := f v d in
          let m := replace_node m key key d' in
          if negb (status_eqb st kOk) then Ret (st, m) else deserialize_members f temp es' m
      | None =>
          let! (st, d') := f v temp in
          if negb (status_eqb st kOk) then Ret (st, m)
          else
            let! (m, _) := insert_map_element m key d' in
            deserialize_members f temp es' m
      end
  end.

(** std::map<std::string, T>: storing under a key (std::less<std::string>
    compares bytes as unsigned chars). Not code of this library. *)
Fixpoint std_store (key : list Z) (d : data) (l : list (list Z * data)) : list (list Z * data) :=
  match l with
  | [] => [(key, d)]
  | (k, x) :: l' =>
      if text_lt key k then (key, d) :: l
      else if text_lt k key then (k, x) :: std_store key d l'
      else (k, d) :: l'
  end.

(** std::map::find. *)
Fixpoint std_lookup (key : list Z) (l : list (list Z * data)) : option data :=
  match l with
  | [] => None
  | (k, x) :: l' => if text_lt key k then None else if text_lt k key then std_lookup key l' else Some x
  end.

(** The loop of C4Json.h:1317-1337: [data[ key ]] makes the element before the
    inner call, so it stays when that fails. *)
Fixpoint deserialize_std (f : value -> data -> out (status * data)) (temp : data)
    (es : list (list Z * value)) (l : list (list Z * data)) : out (status * list (list Z * data)) :=
  match es with
  | [] => Ret (kOk, l)
  | (key, v) :: es' =>
      let! (st, d') := f v (match std_lookup key l with Some d => d | None => temp end) in
      let l := std_store key d' l in
      if negb (status_eqb st kOk) then Ret (st, l) else deserialize_std f temp es' l
  end.

(** C4Json.h:663-681, Deserialize(value, name, data). *)
Definition deserialize_named (name : list Z) (f : value -> data -> out (status * data))
    (v : value) (d : data) : out (status * data) :=
  match as_object v with
  | None => Ret (kInvalidValueType, d)
  | Some (m, _) =>
      match find_map_element m name with
      | None => Ret (kNameNotPresent, d)
      | Some v' => f v' d
      end
  end.

Definition take {A} (o : option A) (make : A -> data) (d : data) : out (status * data) :=
  match o with Some x => Ret (kOk, make x) | None => Ret (kInvalidValueType, d) end.

Section Deserialize.
(** The indeterminate contents of new objects. *)
Variable g : junk.

(** C4Json.h:753-777 (String, double, bool, Null), C4Json.cpp:1880-1896
    (std::string; static_cast to a char pointer and back copies up to the
    terminator), C4Json.h:848-892 (Array), 984-1060 (ObjectMap), 1163-1208
    (std::vector), 1302-1338 (std::map), 1605-1631 (types with a prototype).
    The last two results of a prototype whose destination does not have the
    type are [UB]: the C++ type checker excludes them. *)
Fixpoint deserialize (t : ty) (v : value) (d : data) : out (status * data) :=
  match t with
  | TString => take (get_string v) DString d
  | TStdString => take (get_string v) (fun s => DString (cstr s)) d
  | TDouble => take (get_double v) DDouble d
  | TBool => take (get_bool v) DBool d
  | TNull => take (get_null v) (fun _ => DNull) d
  | TArray t | TVector t =>
      match get_array v with
      | None => Ret (kInvalidValueType, d)
      | Some l =>
          let! (st, acc) := deserialize_elements (deserialize t) (fresh g t) l [] in
          Ret (st, DArray acc)
      end
  | TObjectMap t =>
      match as_object v with
      | None => Ret (kInvalidValueType, d)
      | Some (m, _) =>
          match d with
          | DMap dm =>
              let! es := map_elements m in
              let! (st, dm) := deserialize_members (deserialize t) (fresh zeroes t) es dm in
              Ret (st, DMap dm)
          | _ => UB
          end
      end
  | TStdMap t =>
      match as_object v with
      | None => Ret (kInvalidValueType, d)
      | Some (m, _) =>
          match d with
          | DStdMap dl =>
              let! es := map_elements m in
              let! (st, dl) := deserialize_std (deserialize t) (fresh zeroes t) es dl in
              Ret (st, DStdMap dl)
          | _ => UB
          end
      end
  | TStruct p =>
      match d with
      | DStruct ds => let! (st, ds) := deserialize_proto p v ds in Ret (st, DStruct ds)
      | _ => UB
      end
  end

(** C4Json.h:1426-1468, the DeserializeProto overloads. *)
with deserialize_proto (p : proto) (v : value) (ds : list data) : out (status * list data) :=
  match p, ds with
  | PNil, _ => Ret (kOk, ds)
  | PItem _ _ _ _, [] => UB
  | PItem Anonymous _ t rest, d :: ds =>
      let! (st, d) := deserialize t v d in
      if negb (status_eqb st kOk) then Ret (st, d :: ds)
      else let! (st, ds) := deserialize_proto rest v ds in Ret (st, d :: ds)
  | PItem (Named name) _ t rest, d :: ds =>
      let! (st, d) := deserialize_named name (deserialize t) v d in
      if negb (status_eqb st kOk) then Ret (st, d :: ds)
      else let! (st, ds) := deserialize_proto rest v ds in Ret (st, d :: ds)
  | PItem (Optional name) _ t rest, d :: ds =>
      let! (st, d) := deserialize_named name (deserialize t) v d in
      if negb (status_eqb st kOk) && negb (status_eqb st kNameNotPresent) then Ret (st, d :: ds)
      else let! (st, ds) := deserialize_proto rest v ds in Ret (st, d :: ds)
  end.
End Deserialize.

(** ** Serialize *)

(** C4Json.h:524-546 and C4Json.cpp:1329-1355, 1857-1866, Detail::CreateValueFor: strings,
    numbers, bools, nulls and Arrays get their own class; every other type,
    std::vector included, an ObjectValue. *)
Definition create_value (t : ty) : value :=
  match t with
  | TString | TStdString => VString []
  | TDouble => VNumber (S754_zero false)
  | TBool => VBool true
  | TNull => VNull
  | TArray _ => VArray []
  | TObjectMap _ | TVector _ | TStdMap _ | TStruct _ => VObject Leaf []
  end.

(** The loop of C4Json.h:909-937 (Array): a failed element is deleted. *)
Fixpoint serialize_elements (f : data -> out (status * value)) (ds : list data) (acc : list value)
  : out (status * list value) :=
  match ds with
  | [] => Ret (kOk, acc)
  | d :: ds' =>
      let! (st, v) := f d in
      if negb (status_eqb st kOk) then Ret (st, acc) else serialize_elements f ds' (acc ++ [v])
  end.

(** The loop of C4Json.h:1225-1256 (std::vector): the element is appended before
    its content is set, and stays when that fails. *)
Fixpoint serialize_vector (f : data -> out (status * value)) (ds : list data) (acc : list value)
  : out (status * list value) :=
  match ds with
  | [] => Ret (kOk, acc)
  | d :: ds' =>
      let! (st, v) := f d in
      if negb (status_eqb st kOk) then Ret (st, acc ++ [v]) else serialize_vector f ds' (acc ++ [v])
  end.

(** The loops of C4Json.h:1080-1100 (ObjectMap) and 1356-1376 (std::map, where
    the name is [key.c_str()]): InsertMapElement, whose result is ignored. *)
Fixpoint serialize_members (f : data -> out (status * value)) (es : list (list Z * data)) (m : tree value)
  : out (status * tree value) :=
  match es with
  | [] => Ret (kOk, m)
  | (key, d) :: es' =>
      let! (st, v) := f d in
      if negb (status_eqb st kOk) then Ret (st, m)
      else
        let! (m, _) := insert_map_element m key v in
        serialize_members f es' m
  end.

(** C4Json.h:683-743, Serialize(value, name, data); [new] is CreateValueFor(data).
    In an object (689-719) the status of the inner call (701) is ignored; in an
    array (721-741) the name is ignored. *)
Definition serialize_named (name : list Z) (new : value) (f : value -> out (status * value)) (v : value)
  : out (status * value) :=
  match v with
  | VObject m order =>
      let! (_, v') := f new in
      let! (m, order, _) := insert_accounted m order name v' in
      Ret (kOk, VObject m order)
  | VArray l =>
      let! (st, v') := f new in
      Ret (st, VArray (l ++ [v']))
  | _ => Ret (kInvalidValueType, v)
  end.

(** C4Json.h:779-802 (String, double, bool, Null), C4Json.cpp:1898-1914
    (std::string, through c_str()), C4Json.h:894-939 (Array), 1062-1101
    (ObjectMap; RemoveAllMapElements empties the map but not insertionOrder),
    1210-1257 (std::vector), 1340-1378 (std::map), 1605-1631 (types with a
    prototype). An object that does not have the type is [UB]: the C++ type
    checker excludes it. *)
Fixpoint serialize (t : ty) (d : data) (v : value) : out (status * value) :=
  match t, d with
  | TString, DString s => Ret match v with VString _ => (kOk, VString s) | _ => (kInvalidValueType, v) end
  | TStdString, DString s => Ret match v with VString _ => (kOk, VString (cstr s)) | _ => (kInvalidValueType, v) end
  | TDouble, DDouble x => Ret match v with VNumber _ => (kOk, VNumber x) | _ => (kInvalidValueType, v) end
  | TBool, DBool b => Ret match v with VBool _ => (kOk, VBool b) | _ => (kInvalidValueType, v) end
  | TNull, DNull => Ret match v with VNull => (kOk, VNull) | _ => (kInvalidValueType, v) end
  | TArray t, DArray ds =>
      match v with
      | VArray _ =>
          let! (st, l) := serialize_elements (fun d => serialize t d (create_value t)) ds [] in
          Ret (st, VArray l)
      | _ => Ret (kInvalidValueType, v)
      end
  | TVector t, DArray ds =>
      match v with
      | VArray _ =>
          let! (st, l) := serialize_vector (fun d => serialize t d (create_value t)) ds [] in
          Ret (st, VArray l)
      | _ => Ret (kInvalidValueType, v)
      end
  | TObjectMap t, DMap dm =>
      match v with
      | VObject _ order =>
          let! es := map_elements dm in
          let! (st, m) := serialize_members (fun d => serialize t d (create_value t)) es Leaf in
          Ret (st, VObject m order)
      | _ => Ret (kInvalidValueType, v)
      end
  | TStdMap t, DStdMap dl =>
      match v with
      | VObject _ order =>
          let! (st, m) := serialize_members (fun d => serialize t d (create_value t))
                            (map (fun kd => (cstr (fst kd), snd kd)) dl) Leaf in
          Ret (st, VObject m order)
      | _ => Ret (kInvalidValueType, v)
      end
  | TStruct p, DStruct ds => serialize_proto p ds v
  | _, _ => UB
  end

(** C4Json.h:1470-1512, the SerializeProto overloads. *)
with serialize_proto (p : proto) (ds : list data) (v : value) : out (status * value) :=
  match p, ds with
  | PNil, _ => Ret (kOk, v)
  | PItem _ _ _ _, [] => UB
  | PItem Anonymous _ t rest, d :: ds =>
      let! (st, v) := serialize t d v in
      if negb (status_eqb st kOk) then Ret (st, v) else serialize_proto rest ds v
  | PItem (Named name) _ t rest, d :: ds
  | PItem (Optional name) _ t rest, d :: ds =>
      let! (st, v) := serialize_named name (create_value t) (serialize t d) v in
      if negb (status_eqb st kOk) then Ret (st, v) else serialize_proto rest ds v
  end.

(** ** StructuredData and the free function Validate *)

(** C4Json.h:624-639, Validate(sd, data); a null root is dereferenced. *)
Definition sd_validate (t : ty) (root : option value) : out status :=
  match root with None => UB | Some v => validate t v end.

(** C4Json.h:572-589, StructuredData::DeserializeTo; likewise. *)
Definition sd_deserialize (g : junk) (t : ty) (root : option value) (d : data) : out (status * data) :=
  match root with None => UB | Some v => deserialize g t v d end.

(** C4Json.h:591-621, StructuredData::SerializeFrom: the previous root is deleted
    and a new one made, whatever the outcome. *)
Definition sd_serialize (t : ty) (d : data) (root : option value) : out (status * option value) :=
  let! (st, v) := serialize t d (create_value t) in
  Ret (st, Some v).
