(** * Serialize and SerializeFrom with the value objects they create and destroy, and
    with allocations that can fail: Code/Json4C4/C4Json.h:524-1512 again, with the heap
    of OwnModel.v.

    Simplifications, besides those of OwnModel.v: a failing assignment to a string
    leaves the text of the string as it was. That is so for the strings assigned here,
    which are those of new objects (String<0>::Resize, TSString.cpp:295-321, sets the length
    before it allocates; the length is not modelled here). AppendArrayElement after ReserveArrayElementCount does not allocate. *)

From Verif Require Import Base TextModel NumModel MapModel ParserModel SchemaModel OwnModel.

(** C4Json.h:524-546, C4Json.cpp:1329-1355 and 1857-1866, Detail::CreateValueFor: the
    new object, when [new] gave the address [id]. *)
Definition create_node (t : ty) (id : nat) : node :=
  match t with
  | TString | TStdString => NString id []
  | TDouble => NNumber id (S754_zero false)
  | TBool => NBool id true
  | TNull => NNull id
  | TArray _ => NArray id []
  | TObjectMap _ | TVector _ | TStdMap _ | TStruct _ => NObject id Leaf []
  end.

(** Detail::PurgePointerArray, C4Json.h:457-468: the elements are deleted in order. *)
Fixpoint delete_all (l : list node) (w : world) : out world :=
  match l with
  | [] => Ret w
  | n :: l' => let! w := delete n w in delete_all l' w
  end.

Section OwnSerial.
Variable fails : nat -> bool.

Definition create_o (t : ty) (w : world) : option node * world :=
  match new_value fails w with
  | (Some id, w) => (Some (create_node t id), w)
  | (None, w) => (None, w)
  end.

(** The loop of C4Json.h:909-937 (Array). *)
Fixpoint serialize_elements_o (t : ty) (f : data -> node -> world -> out (status * node * world))
    (ds : list data) (acc : list node) (w : world) : out (status * list node * world) :=
  match ds with
  | [] => Ret (kOk, acc, w)
  | d :: ds' =>
      match create_o t w with
      | (None, w) => Ret (kException, acc, w)
      | (Some n, w) =>
          let! (st, n, w) := f d n w in
          if negb (status_eqb st kOk) then let! w := delete n w in Ret (st, acc, w)
          else serialize_elements_o t f ds' (acc ++ [n]) w
      end
  end.

(** The loop of C4Json.h:1225-1256 (std::vector): the element is in the array before the
    inner call. *)
Fixpoint serialize_vector_o (t : ty) (f : data -> node -> world -> out (status * node * world))
    (ds : list data) (acc : list node) (w : world) : out (status * list node * world) :=
  match ds with
  | [] => Ret (kOk, acc, w)
  | d :: ds' =>
      match create_o t w with
      | (None, w) => Ret (kException, acc, w)
      | (Some n, w) =>
          let! (st, n, w) := f d n w in
          if negb (status_eqb st kOk) then Ret (st, acc ++ [n], w)
          else serialize_vector_o t f ds' (acc ++ [n]) w
      end
  end.

(** The loops of C4Json.h:1080-1100 (ObjectMap) and 1356-1376 (std::map). When the
    assignment of the name throws, nothing deletes the new element; the result of
    InsertMapElement is ignored. *)
Fixpoint serialize_members_o (t : ty) (f : data -> node -> world -> out (status * node * world))
    (es : list (list Z * data)) (m : tree node) (w : world) : out (status * tree node * world) :=
  match es with
  | [] => Ret (kOk, m, w)
  | (key, d) :: es' =>
      match create_o t w with
      | (None, w) => Ret (kException, m, w)
      | (Some n, w) =>
          let '(ok, w) := ask fails w in
          if negb ok then Ret (kException, m, w)
          else
          let! (st, n, w) := f d n w in
          if negb (status_eqb st kOk) then let! w := delete n w in Ret (st, m, w)
          else
            let! (m, _) := insert_map_element m key n in
            serialize_members_o t f es' m w
      end
  end.

(** C4Json.h:683-743, Serialize(value, name, data). Into an object: the new value, its
    name (one request), the inner call, whose status is ignored, and
    InsertAccountedMapElement (C4Json.cpp:1472-1477; room for the name and its copy: two
    requests), whose result is ignored. When one of the requests throws, the new value is
    deleted. Into an array: the new value, the room for it, the inner call. *)
Definition serialize_named_o (name : list Z) (t : ty) (f : node -> world -> out (status * node * world)) (n : node) (w : world)
  : out (status * node * world) :=
  match n with
  | NObject id m order =>
      match create_o t w with
      | (None, w) => Ret (kException, n, w)
      | (Some x, w) =>
          let '(ok, w) := ask fails w in
          if negb ok then let! w := delete x w in Ret (kException, n, w)
          else
          let! (_, x, w) := f x w in
          let '(ok, w) := ask fails w in
          if negb ok then let! w := delete x w in Ret (kException, n, w)
          else
          let '(ok, w) := ask fails w in
          if negb ok then let! w := delete x w in Ret (kException, n, w)
          else
          let! (m, _) := insert_map_element m name x in
          Ret (kOk, NObject id m (order ++ [name]), w)
      end
  | NArray id l =>
      match create_o t w with
      | (None, w) => Ret (kException, n, w)
      | (Some x, w) =>
          let '(ok, w) := ask fails w in
          if negb ok then let! w := delete x w in Ret (kException, n, w)
          else
          let! (st, x, w) := f x w in
          Ret (st, NArray id (l ++ [x]), w)
      end
  | _ => Ret (kInvalidValueType, n, w)
  end.

(** Assigning to a string: C4Json.h:779-802, C4Json.cpp:1898-1914. *)
Definition assign_o (s : list Z) (n : node) (w : world) : out (status * node * world) :=
  match n with
  | NString id _ =>
      let '(ok, w) := ask fails w in
      if ok then Ret (kOk, NString id s, w) else Ret (kException, n, w)
  | _ => Ret (kInvalidValueType, n, w)
  end.

(** The functions of [serialize] in SchemaModel.v. Arrays: the old elements are deleted
    (PurgePointerArray) and room is requested for the new ones. Maps: the members are
    detached (RemoveAllMapElements, TSMap.cpp:738-745), not deleted, and an object [temp] is
    made (one request). *)
Fixpoint serialize_o (t : ty) (d : data) (n : node) (w : world) : out (status * node * world) :=
  match t, d with
  | TString, DString s => assign_o s n w
  | TStdString, DString s => assign_o (cstr s) n w
  | TDouble, DDouble x => Ret match n with NNumber id _ => (kOk, NNumber id x, w) | _ => (kInvalidValueType, n, w) end
  | TBool, DBool b => Ret match n with NBool id _ => (kOk, NBool id b, w) | _ => (kInvalidValueType, n, w) end
  | TNull, DNull => Ret match n with NNull id => (kOk, NNull id, w) | _ => (kInvalidValueType, n, w) end
  | TArray t, DArray ds =>
      match n with
      | NArray id l =>
          let! w := delete_all l w in
          let '(ok, w) := ask fails w in
          if negb ok then Ret (kException, NArray id [], w)
          else
          let! (st, l, w) := serialize_elements_o t (serialize_o t) ds [] w in
          Ret (st, NArray id l, w)
      | _ => Ret (kInvalidValueType, n, w)
      end
  | TVector t, DArray ds =>
      match n with
      | NArray id l =>
          let! w := delete_all l w in
          let '(ok, w) := ask fails w in
          if negb ok then Ret (kException, NArray id [], w)
          else
          let! (st, l, w) := serialize_vector_o t (serialize_o t) ds [] w in
          Ret (st, NArray id l, w)
      | _ => Ret (kInvalidValueType, n, w)
      end
  | TObjectMap t, DMap dm =>
      match n with
      | NObject id _ order =>
          let '(ok, w) := ask fails w in
          if negb ok then Ret (kException, NObject id Leaf order, w)
          else
          let! es := map_elements dm in
          let! (st, m, w) := serialize_members_o t (serialize_o t) es Leaf w in
          Ret (st, NObject id m order, w)
      | _ => Ret (kInvalidValueType, n, w)
      end
  | TStdMap t, DStdMap dl =>
      match n with
      | NObject id _ order =>
          let '(ok, w) := ask fails w in
          if negb ok then Ret (kException, NObject id Leaf order, w)
          else
          let! (st, m, w) := serialize_members_o t (serialize_o t) (map (fun kd => (cstr (fst kd), snd kd)) dl) Leaf w in
          Ret (st, NObject id m order, w)
      | _ => Ret (kInvalidValueType, n, w)
      end
  | TStruct p, DStruct ds => serialize_proto_o p ds n w
  | _, _ => UB
  end

(** C4Json.h:1470-1512, the SerializeProto overloads. *)
with serialize_proto_o (p : proto) (ds : list data) (n : node) (w : world) : out (status * node * world) :=
  match p, ds with
  | PNil, _ => Ret (kOk, n, w)
  | PItem _ _ _ _, [] => UB
  | PItem Anonymous _ t rest, d :: ds =>
      let! (st, n, w) := serialize_o t d n w in
      if negb (status_eqb st kOk) then Ret (st, n, w) else serialize_proto_o rest ds n w
  | PItem (Named name) _ t rest, d :: ds
  | PItem (Optional name) _ t rest, d :: ds =>
      let! (st, n, w) := serialize_named_o name t (serialize_o t d) n w in
      if negb (status_eqb st kOk) then Ret (st, n, w) else serialize_proto_o rest ds n w
  end.

(** C4Json.h:591-621, StructuredData::SerializeFrom: the root is deleted; when the new
    root cannot be made, the pointer still points to the old one. *)
Definition sd_serialize_o (t : ty) (d : data) (root : option node) (w : world) : out (status * option node * world) :=
  let! w := delete_root root w in
  match create_o t w with
  | (None, w) => Ret (kException, root, w)
  | (Some n, w) => let! (st, n, w) := serialize_o t d n w in Ret (st, Some n, w)
  end.

End OwnSerial.
