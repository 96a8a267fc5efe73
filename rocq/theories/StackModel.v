(** * How deep the functions on trees recurse: deleting a value, Write, Validate,
    Deserialize and Serialize again, each with the number of its activations that are on
    the stack at most.

    The functions are those of OwnModel.v, WriterModel.v and SchemaModel.v. Each activation
    takes a bounded number of frames (for a template: the function, MayThrow and its
    lambda). Parse has its own model, BuildModel.v. *)

From Verif Require Import Base TextModel NumModel MapModel ParserModel AccessModel WriterModel SchemaModel OwnModel.

(** ** delete *)

(** C4Json.cpp:1422-1428 and 1564-1566, Code/Terathon/TSMap.cpp:140-159: ~ArrayValue deletes
    each element; ~ObjectValue ends in DeleteSubtree, which calls itself for both subtrees and
    then deletes the element. The activations counted are those of destructors of values and
    of DeleteSubtree. *)
Fixpoint delete_d (n : node) (w : world) : out (world * nat) :=
  match n with
  | NString id _ | NNumber id _ | NBool id _ | NNull id => let! w := free id w in Ret (w, 1%nat)
  | NArray id l =>
      let! (w, d) := (fix go (l : list node) (w : world) : out (world * nat) :=
                   match l with
                   | [] => Ret (w, 0%nat)
                   | x :: l' =>
                       let! (w, d1) := delete_d x w in
                       let! (w, d2) := go l' w in
                       Ret (w, Nat.max d1 d2)
                   end) l w in
      let! w := free id w in
      Ret (w, S d)
  | NObject id m _ =>
      let! (w, d) := (fix go (m : tree node) (w : world) : out (world * nat) :=
                   match m with
                   | Leaf => Ret (w, 0%nat)
                   | Node l _ v _ r =>
                       let! (w, d1) := go l w in
                       let! (w, d2) := go r w in
                       let! (w, d3) := delete_d v w in
                       Ret (w, S (Nat.max (Nat.max d1 d2) d3))
                   end) m w in
      let! w := free id w in
      Ret (w, S d)
  end.

(** ** Write *)

Section Write.
Variables (n : nat) (c : Z).

(** C4Json.cpp:1445-1458. *)
Fixpoint write_elements_d (ws : list (list Z -> wresult * nat)) (arr : list Z) : wresult * nat :=
  match ws with
  | [] => ((kOk, [], arr), 0%nat)
  | w :: ws' =>
      let '(st, out, arr1, d1) := w arr in
      if negb (status_eqb st kOk) then ((st, arr :: out, arr1), d1)
      else
        let '(st', out', arr2, d2) := write_elements_d ws' arr1 in
        ((st', arr :: out ++ comma ws' :: [10] :: out', arr2), Nat.max d1 d2)
  end.

(** C4Json.cpp:1662-1684. FindMapElement does not recurse. *)
Fixpoint write_members_d (m : @tree (list Z -> wresult * nat)) (order : list (list Z)) (arr : list Z) : wresult * nat :=
  match order with
  | [] => ((kOk, [], arr), 0%nat)
  | name :: order' =>
      match find_named m name with
      | None => ((kMissingObjectElement, [], arr), 0%nat)
      | Some (k, w) =>
          let head := [arr; [34]; put_text k; [34; 32; 58; 32]] in
          let '(st, out, arr1, d1) := w arr in
          if negb (status_eqb st kOk) then ((st, head ++ out, arr1), d1)
          else
            let '(st', out', arr2, d2) := write_members_d m order' arr1 in
            ((st', head ++ out ++ comma order' :: [10] :: out', arr2), Nat.max d1 d2)
      end
  end.

(** C4Json.cpp:1154-1159, 1211-1230, 1273-1286, 1319-1325, 1440-1466, 1656-1691. *)
Fixpoint write_d (v : value) : list Z -> wresult * nat :=
  match v with
  | VString _ | VNumber _ | VBool _ | VNull => fun arr => (write n c v arr, 1%nat)
  | VArray l => fun arr =>
      let '(st, out, arr1, d) := write_elements_d (map write_d l) (expand_array arr c n) in
      if negb (status_eqb st kOk) then ((st, [91; 10] :: out, arr1), S d)
      else let arr2 := shrink_array arr1 n in
           ((kOk, [91; 10] :: out ++ [arr2; [93]], arr2), S d)
  | VObject m order => fun arr =>
      let '(st, out, arr1, d) :=
        write_members_d (map_tree write_d m) order (expand_array arr c n) in
      if negb (status_eqb st kOk) then ((st, [123; 10] :: out, arr1), S d)
      else let arr2 := shrink_array arr1 n in
           ((kOk, [123; 10] :: out ++ [arr2; [125]], arr2), S d)
  end.
End Write.

(** ** Validate *)

(** C4Json.h:820-844, 959-981, 1140-1160, 1278-1299. *)
Fixpoint validate_each_d (f : value -> out (status * nat)) (l : list value) : out (status * nat) :=
  match l with
  | [] => Ret (kOk, 0%nat)
  | v :: l' =>
      let! (st, d1) := f v in
      if negb (status_eqb st kOk) then Ret (st, d1)
      else let! (st, d2) := validate_each_d f l' in Ret (st, Nat.max d1 d2)
  end.

(** C4Json.h:643-661. *)
Definition validate_named_d (name : list Z) (f : value -> out (status * nat)) (v : value) : out (status * nat) :=
  match as_object v with
  | None => Ret (kInvalidValueType, 0%nat)
  | Some (m, _) =>
      match find_map_element m name with
      | None => Ret (kNameNotPresent, 0%nat)
      | Some v' => f v'
      end
  end.

(** One activation more. *)
Definition deeper {A} (r : out (A * nat)) : out (A * nat) := let! (x, d) := r in Ret (x, S d).

(** C4Json.h:745-751, 804-846, 941-982, 1120-1161, 1260-1300, 1605-1631, C4Json.cpp:1868-1878;
    1382-1424: each overload of ValidateProto looks at one item and calls the next. *)
Fixpoint validate_d (t : ty) (v : value) : out (status * nat) :=
  match t with
  | TString | TStdString => Ret (present (get_string v), 1%nat)
  | TDouble => Ret (present (get_double v), 1%nat)
  | TBool => Ret (present (get_bool v), 1%nat)
  | TNull => Ret (present (get_null v), 1%nat)
  | TArray t | TVector t =>
      match get_array v with
      | None => Ret (kInvalidValueType, 1%nat)
      | Some l => deeper (validate_each_d (validate_d t) l)
      end
  | TObjectMap t | TStdMap t =>
      match as_object v with
      | None => Ret (kInvalidValueType, 1%nat)
      | Some (m, _) => let! es := map_elements m in deeper (validate_each_d (validate_d t) (map snd es))
      end
  | TStruct p => deeper (validate_proto_d p v)
  end
with validate_proto_d (p : proto) (v : value) : out (status * nat) :=
  match p with
  | PNil => Ret (kOk, 1%nat)
  | PItem Anonymous _ t rest =>
      let! (st, d1) := validate_d t v in
      if negb (status_eqb st kOk) then Ret (st, S d1)
      else let! (st, d2) := validate_proto_d rest v in Ret (st, S (Nat.max d1 d2))
  | PItem (Named name) _ t rest =>
      let! (st, d1) := validate_named_d name (validate_d t) v in
      if negb (status_eqb st kOk) then Ret (st, S d1)
      else let! (st, d2) := validate_proto_d rest v in Ret (st, S (Nat.max d1 d2))
  | PItem (Optional name) _ t rest =>
      let! (st, d1) := validate_named_d name (validate_d t) v in
      if negb (status_eqb st kOk) && negb (status_eqb st kNameNotPresent) then Ret (st, S d1)
      else let! (st, d2) := validate_proto_d rest v in Ret (st, S (Nat.max d1 d2))
  end.

(** ** Deserialize *)

(** C4Json.h:866-891, 1181-1207. *)
Fixpoint deserialize_elements_d (f : value -> data -> out (status * data * nat)) (temp : data)
    (l : list value) (acc : list data) : out (status * list data * nat) :=
  match l with
  | [] => Ret (kOk, acc, 0%nat)
  | v :: l' =>
      let! (st, d, d1) := f v temp in
      if status_eqb st kOk then let! (r, d2) := deserialize_elements_d f temp l' (acc ++ [d]) in Ret (r, Nat.max d1 d2)
      else Ret (st, acc, d1)
  end.

(** C4Json.h:1002-1058. *)
Fixpoint deserialize_members_d (f : value -> data -> out (status * data * nat)) (temp : data)
    (es : list (list Z * value)) (m : tree data) : out (status * tree data * nat) :=
  match es with
  | [] => Ret (kOk, m, 0%nat)
  | (key, v) :: es' =>
      match find_map_element m key with
      | Some d =>
          let! (st, d', d1) := f v d in
          let m := replace_node m key key d' in
          if negb (status_eqb st kOk) then Ret (st, m, d1)
          else let! (r, d2) := deserialize_members_d f temp es' m in Ret (r, Nat.max d1 d2)
      | None =>
          let! (st, d', d1) := f v temp in
          if negb (status_eqb st kOk) then Ret (st, m, d1)
          else
            let! (m, _) := insert_map_element m key d' in
            let! (r, d2) := deserialize_members_d f temp es' m in Ret (r, Nat.max d1 d2)
      end
  end.

(** C4Json.h:1317-1337. *)
Fixpoint deserialize_std_d (f : value -> data -> out (status * data * nat)) (temp : data)
    (es : list (list Z * value)) (l : list (list Z * data)) : out (status * list (list Z * data) * nat) :=
  match es with
  | [] => Ret (kOk, l, 0%nat)
  | (key, v) :: es' =>
      let! (st, d', d1) := f v (match std_lookup key l with Some d => d | None => temp end) in
      let l := std_store key d' l in
      if negb (status_eqb st kOk) then Ret (st, l, d1)
      else let! (r, d2) := deserialize_std_d f temp es' l in Ret (r, Nat.max d1 d2)
  end.

(** C4Json.h:663-681. *)
Definition deserialize_named_d (name : list Z) (f : value -> data -> out (status * data * nat))
    (v : value) (d : data) : out (status * data * nat) :=
  match as_object v with
  | None => Ret (kInvalidValueType, d, 0%nat)
  | Some (m, _) =>
      match find_map_element m name with
      | None => Ret (kNameNotPresent, d, 0%nat)
      | Some v' => f v' d
      end
  end.

Section Deserialize.
Variable g : junk.

(** C4Json.h:753-777, 848-892, 984-1060, 1163-1208, 1302-1338, 1605-1631, C4Json.cpp:1880-1896;
    C4Json.h:1426-1468. *)
Fixpoint deserialize_d (t : ty) (v : value) (d : data) : out (status * data * nat) :=
  match t with
  | TString | TStdString | TDouble | TBool | TNull => let! r := deserialize g t v d in Ret (r, 1%nat)
  | TArray t | TVector t =>
      match get_array v with
      | None => Ret (kInvalidValueType, d, 1%nat)
      | Some l =>
          let! (st, acc, d1) := deserialize_elements_d (deserialize_d t) (fresh g t) l [] in
          Ret (st, DArray acc, S d1)
      end
  | TObjectMap t =>
      match as_object v with
      | None => Ret (kInvalidValueType, d, 1%nat)
      | Some (m, _) =>
          match d with
          | DMap dm =>
              let! es := map_elements m in
              let! (st, dm, d1) := deserialize_members_d (deserialize_d t) (fresh zeroes t) es dm in
              Ret (st, DMap dm, S d1)
          | _ => UB
          end
      end
  | TStdMap t =>
      match as_object v with
      | None => Ret (kInvalidValueType, d, 1%nat)
      | Some (m, _) =>
          match d with
          | DStdMap dl =>
              let! es := map_elements m in
              let! (st, dl, d1) := deserialize_std_d (deserialize_d t) (fresh zeroes t) es dl in
              Ret (st, DStdMap dl, S d1)
          | _ => UB
          end
      end
  | TStruct p =>
      match d with
      | DStruct ds => let! (st, ds, d1) := deserialize_proto_d p v ds in Ret (st, DStruct ds, S d1)
      | _ => UB
      end
  end
with deserialize_proto_d (p : proto) (v : value) (ds : list data) : out (status * list data * nat) :=
  match p, ds with
  | PNil, _ => Ret (kOk, ds, 1%nat)
  | PItem _ _ _ _, [] => UB
  | PItem Anonymous _ t rest, d :: ds =>
      let! (st, d, d1) := deserialize_d t v d in
      if negb (status_eqb st kOk) then Ret (st, d :: ds, S d1)
      else let! (st, ds, d2) := deserialize_proto_d rest v ds in Ret (st, d :: ds, S (Nat.max d1 d2))
  | PItem (Named name) _ t rest, d :: ds =>
      let! (st, d, d1) := deserialize_named_d name (deserialize_d t) v d in
      if negb (status_eqb st kOk) then Ret (st, d :: ds, S d1)
      else let! (st, ds, d2) := deserialize_proto_d rest v ds in Ret (st, d :: ds, S (Nat.max d1 d2))
  | PItem (Optional name) _ t rest, d :: ds =>
      let! (st, d, d1) := deserialize_named_d name (deserialize_d t) v d in
      if negb (status_eqb st kOk) && negb (status_eqb st kNameNotPresent) then Ret (st, d :: ds, S d1)
      else let! (st, ds, d2) := deserialize_proto_d rest v ds in Ret (st, d :: ds, S (Nat.max d1 d2))
  end.
End Deserialize.

(** ** Serialize *)

(** C4Json.h:909-937 and 1225-1256; [keep] tells std::vector, where an element that failed stays. *)
Fixpoint serialize_elements_d (keep : bool) (f : data -> out (status * value * nat)) (ds : list data) (acc : list value)
  : out (status * list value * nat) :=
  match ds with
  | [] => Ret (kOk, acc, 0%nat)
  | d :: ds' =>
      let! (st, v, d1) := f d in
      if negb (status_eqb st kOk) then Ret (st, if keep then acc ++ [v] else acc, d1)
      else let! (r, d2) := serialize_elements_d keep f ds' (acc ++ [v]) in Ret (r, Nat.max d1 d2)
  end.

(** C4Json.h:1080-1100, 1356-1376. *)
Fixpoint serialize_members_d (f : data -> out (status * value * nat)) (es : list (list Z * data)) (m : tree value)
  : out (status * tree value * nat) :=
  match es with
  | [] => Ret (kOk, m, 0%nat)
  | (key, d) :: es' =>
      let! (st, v, d1) := f d in
      if negb (status_eqb st kOk) then Ret (st, m, d1)
      else
        let! (m, _) := insert_map_element m key v in
        let! (r, d2) := serialize_members_d f es' m in Ret (r, Nat.max d1 d2)
  end.

(** C4Json.h:683-743. *)
Definition serialize_named_d (name : list Z) (new : value) (f : value -> out (status * value * nat)) (v : value)
  : out (status * value * nat) :=
  match v with
  | VObject m order =>
      let! (_, v', d1) := f new in
      let! (m, order, _) := insert_accounted m order name v' in
      Ret (kOk, VObject m order, d1)
  | VArray l =>
      let! (st, v', d1) := f new in
      Ret (st, VArray (l ++ [v']), d1)
  | _ => Ret (kInvalidValueType, v, 0%nat)
  end.

(** C4Json.h:779-802, 894-939, 1062-1101, 1210-1257, 1340-1378, 1605-1631, C4Json.cpp:1898-1914;
    C4Json.h:1470-1512. The activations counted are those of Serialize and SerializeProto; the
    destructors of the values that Serialize deletes are those of [delete_d]. *)
Fixpoint serialize_d (t : ty) (d : data) (v : value) : out (status * value * nat) :=
  match t, d with
  | TString, DString _ | TStdString, DString _ | TDouble, DDouble _ | TBool, DBool _ | TNull, DNull =>
      let! r := serialize t d v in Ret (r, 1%nat)
  | TArray t, DArray ds =>
      match v with
      | VArray _ =>
          let! (st, l, d1) := serialize_elements_d false (fun d => serialize_d t d (create_value t)) ds [] in
          Ret (st, VArray l, S d1)
      | _ => Ret (kInvalidValueType, v, 1%nat)
      end
  | TVector t, DArray ds =>
      match v with
      | VArray _ =>
          let! (st, l, d1) := serialize_elements_d true (fun d => serialize_d t d (create_value t)) ds [] in
          Ret (st, VArray l, S d1)
      | _ => Ret (kInvalidValueType, v, 1%nat)
      end
  | TObjectMap t, DMap dm =>
      match v with
      | VObject _ order =>
          let! es := map_elements dm in
          let! (st, m, d1) := serialize_members_d (fun d => serialize_d t d (create_value t)) es Leaf in
          Ret (st, VObject m order, S d1)
      | _ => Ret (kInvalidValueType, v, 1%nat)
      end
  | TStdMap t, DStdMap dl =>
      match v with
      | VObject _ order =>
          let! (st, m, d1) := serialize_members_d (fun d => serialize_d t d (create_value t))
                                (map (fun kd => (cstr (fst kd), snd kd)) dl) Leaf in
          Ret (st, VObject m order, S d1)
      | _ => Ret (kInvalidValueType, v, 1%nat)
      end
  | TStruct p, DStruct ds => let! (r, d1) := serialize_proto_d p ds v in Ret (r, S d1)
  | _, _ => UB
  end
with serialize_proto_d (p : proto) (ds : list data) (v : value) : out (status * value * nat) :=
  match p, ds with
  | PNil, _ => Ret (kOk, v, 1%nat)
  | PItem _ _ _ _, [] => UB
  | PItem Anonymous _ t rest, d :: ds =>
      let! (st, v, d1) := serialize_d t d v in
      if negb (status_eqb st kOk) then Ret (st, v, S d1)
      else let! (r, d2) := serialize_proto_d rest ds v in Ret (r, S (Nat.max d1 d2))
  | PItem (Named name) _ t rest, d :: ds
  | PItem (Optional name) _ t rest, d :: ds =>
      let! (st, v, d1) := serialize_named_d name (create_value t) (serialize_d t d) v in
      if negb (status_eqb st kOk) then Ret (st, v, S d1)
      else let! (r, d2) := serialize_proto_d rest ds v in Ret (r, S (Nat.max d1 d2))
  end.
