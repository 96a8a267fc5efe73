(** * Model of the typed accessors of values and objects. *)

From Verif Require Import Base NumModel MapModel ParserModel.

(** C4Json.h:236-311 (the virtual getters return null) with the overrides in
    C4Json.cpp:1144-1152 (string), 1201-1209 (number), 1263-1271 (bool),
    1308-1316 (null), C4Json.h:484-486 (array), C4Json.cpp:1568-1576 (object),
    and Value::GetDataAsPointerTo<T> (C4Json.h:327-385). [None] is the null
    pointer. *)
Definition get_string (v : value) : option (list Z) := match v with VString s => Some s | _ => None end.
Definition get_double (v : value) : option double := match v with VNumber d => Some d | _ => None end.
Definition get_bool (v : value) : option bool := match v with VBool b => Some b | _ => None end.
Definition get_null (v : value) : option unit := match v with VNull => Some tt | _ => None end.
Definition get_array (v : value) : option (list value) := match v with VArray l => Some l | _ => None end.
Definition as_object (v : value) : option (tree value * list (list Z)) :=
  match v with VObject m o => Some (m, o) | _ => None end.

(** The common shape of C4Json.cpp:1578-1654. *)
Definition find_as {A} (get : value -> option A) (m : tree value) (name : list Z) : option A :=
  match find_map_element m name with
  | Some v => match get v with Some d => Some d | None => None end
  | None => None
  end.

(** C4Json.cpp:1578-1589, ObjectValue::FindString. *)
Definition find_string := find_as get_string.
(** C4Json.cpp:1591-1602, ObjectValue::FindNumber. *)
Definition find_number := find_as get_double.
(** C4Json.cpp:1604-1615, ObjectValue::FindBool. *)
Definition find_bool := find_as get_bool.
(** C4Json.cpp:1617-1628, ObjectValue::FindJsonNull. *)
Definition find_null := find_as get_null.
(** C4Json.cpp:1630-1641, ObjectValue::FindJsonValueArray. *)
Definition find_array := find_as get_array.
(** C4Json.cpp:1643-1654, ObjectValue::FindJsonObjectValue. *)
Definition find_object := find_as as_object.
