(** * Deserialize and DeserializeTo when memory runs out: Code/Json4C4/C4Json.h:568-588,
    663-681, 753-777, 848-892, 984-1060, 1163-1208, 1302-1338 and 1426-1468,
    C4Json.cpp:1880-1896 again, with strings as objects (StrFailModel.v) and requests that throw.

    Simplifications: the requests of one statement are counted as one, and counted also when
    the storage is large enough ([fails] then has no effect for strings; for arrays and
    standard containers it stands for a request that is not made). A std::string, std::vector
    or std::map whose operation throws is unchanged. A moved element of a std::vector keeps
    the fields of the string. What is called an ObjectMap element is the [new] object of
    C4Json.h:1007; its name (a String) is the key. The blocks of strings and arrays are not
    counted, so that a block lost by a copy constructor that throws in its loop
    (TSArray.h:715-735) is not seen. *)

From Verif Require Import Base TextModel NumModel MapModel ParserModel AccessModel SchemaModel StringModel DynModel StrFailModel OwnModel.

(** Objects of the user's program, as in SchemaModel.v, with the strings' storage.
    [OStd] is a std::string. *)
Inductive odata : Type :=
| OString (s : fstr)
| OStd (s : list Z)
| ODouble (d : double)
| OBool (b : bool)
| ONull
| OArray (l : list odata)
| OMap (m : tree odata)
| OStdMap (l : list (list Z * odata))
| OStruct (l : list odata).

(** The number of requests made, and of ObjectMap elements alive (not code). *)
Record mem : Type := Mem { asked : nat; alive : nat }.

(** The contents of a new block (not code: any block of the size would do). *)
Definition block (n : Z) : list Z := repeat 7 (Z.to_nat n).

(** A String whose text is [s]: TSString.cpp:79-112. *)
Definition string_of (s : list Z) : out fstr := let! d := new_text block (s ++ [0]) in Ret (embed d).

(** An object with the content [d], as its initialisers leave it. An ObjectMap can only be
    empty: it has no copy constructor. *)
Fixpoint placed (t : ty) (d : data) : out odata :=
  match t, d with
  | TString, DString s => let! s := string_of s in Ret (OString s)
  | TStdString, DString s => Ret (OStd s)
  | TDouble, DDouble x => Ret (ODouble x)
  | TBool, DBool b => Ret (OBool b)
  | TNull, DNull => Ret ONull
  | TArray t, DArray l | TVector t, DArray l =>
      let! l := (fix go (l : list data) : out (list odata) :=
                   match l with
                   | [] => Ret []
                   | d :: l' => let! o := placed t d in let! os := go l' in Ret (o :: os)
                   end) l in
      Ret (OArray l)
  | TObjectMap _, DMap Leaf => Ret (OMap Leaf)
  | TStdMap t, DStdMap l =>
      let! l := (fix go (l : list (list Z * data)) : out (list (list Z * odata)) :=
                   match l with
                   | [] => Ret []
                   | (k, d) :: l' => let! o := placed t d in let! os := go l' in Ret ((k, o) :: os)
                   end) l in
      Ret (OStdMap l)
  | TStruct p, DStruct ds => let! l := placed_items p ds in Ret (OStruct l)
  | _, _ => UB
  end
with placed_items (p : proto) (ds : list data) : out (list odata) :=
  match p, ds with
  | PNil, [] => Ret []
  | PItem _ _ t rest, d :: ds => let! o := placed t d in let! os := placed_items rest ds in Ret (o :: os)
  | _, _ => UB
  end.

(** The destructors: String (TSString.cpp:29-35), and an ObjectMap deletes its elements. *)
Fixpoint destroy_o (o : odata) (w : mem) : out mem :=
  match o with
  | OString s => let! _ := f_destroy s in Ret w
  | OStd _ | ODouble _ | OBool _ | ONull => Ret w
  | OArray l | OStruct l =>
      (fix go (l : list odata) (w : mem) : out mem :=
         match l with [] => Ret w | x :: l' => let! w := destroy_o x w in go l' w end) l w
  | OMap m =>
      (fix go (m : tree odata) (w : mem) : out mem :=
         match m with
         | Leaf => Ret w
         | Node l _ x _ r =>
             let! w := go l w in
             let! w := go r w in
             let! w := destroy_o x w in
             match alive w with O => UB | S n => Ret (Mem (asked w) n) end
         end) m w
  | OStdMap l =>
      (fix go (l : list (list Z * odata)) (w : mem) : out mem :=
         match l with [] => Ret w | (_, x) :: l' => let! w := destroy_o x w in go l' w end) l w
  end.
Fixpoint destroy_all (l : list odata) (w : mem) : out mem :=
  match l with [] => Ret w | x :: l' => let! w := destroy_o x w in destroy_all l' w end.

(** A String as in DynModel.v. *)
Definition as_dyn (s : fstr) : out dyn :=
  match f_store s with
  | Local => Ret (Dyn (f_logical s) (f_physical s) None (f_local s))
  | Block b => Ret (Dyn (f_logical s) (f_physical s) (Some b) (f_local s))
  | Freed => UB
  end.

(** The copy constructors (String: TSString.cpp:37-53). An ObjectMap has none. *)
Fixpoint copied (o : odata) : out odata :=
  match o with
  | OString s => let! d := as_dyn s in let! d := new_copy block d in Ret (OString (embed d))
  | OStd s => Ret (OStd s)
  | ODouble d => Ret (ODouble d)
  | OBool b => Ret (OBool b)
  | ONull => Ret ONull
  | OArray l =>
      let! l := (fix go (l : list odata) : out (list odata) :=
                   match l with [] => Ret [] | x :: l' => let! x := copied x in let! l' := go l' in Ret (x :: l') end) l in
      Ret (OArray l)
  | OMap _ => UB
  | OStdMap l =>
      let! l := (fix go (l : list (list Z * odata)) : out (list (list Z * odata)) :=
                   match l with [] => Ret [] | (k, x) :: l' => let! x := copied x in let! l' := go l' in Ret ((k, x) :: l') end) l in
      Ret (OStdMap l)
  | OStruct l =>
      let! l := (fix go (l : list odata) : out (list odata) :=
                   match l with [] => Ret [] | x :: l' => let! x := copied x in let! l' := go l' in Ret (x :: l') end) l in
      Ret (OStruct l)
  end.

(** std::map<std::string, T>, as std_store and std_lookup of SchemaModel.v. Not code of this
    library. *)
Fixpoint ostore (key : list Z) (d : odata) (l : list (list Z * odata)) : list (list Z * odata) :=
  match l with
  | [] => [(key, d)]
  | (k, x) :: l' =>
      if text_lt key k then (key, d) :: l
      else if text_lt k key then (k, x) :: ostore key d l'
      else (k, d) :: l'
  end.
Fixpoint olookup (key : list Z) (l : list (list Z * odata)) : option odata :=
  match l with
  | [] => None
  | (k, x) :: l' => if text_lt key k then None else if text_lt k key then olookup key l' else Some x
  end.

Section DeserFail.
Variable fails : nat -> bool.

(** One request: whether it succeeds. *)
Definition request (w : mem) : bool * mem := (negb (fails (asked w)), Mem (S (asked w)) (alive w)).

(** [T temp;] or [T {}] (C4Json.h:863, 1007, 1182, 1314): the constructor makes its requests, or throws. *)
Definition construct (t : ty) (d : data) (w : mem) : out (option odata * mem) :=
  let '(ok, w) := request w in
  if ok then let! o := placed t d in Ret (Some o, w) else Ret (None, w).
Definition copy_o (o : odata) (w : mem) : out (option odata * mem) :=
  let '(ok, w) := request w in
  if ok then let! o := copied o in Ret (Some o, w) else Ret (None, w).

(** [data = *valueData], TSString.cpp:378-392: the value's string has the text [s]. *)
Definition source (s : list Z) : dyn :=
  Dyn (Z.of_nat (length s) + 1) (Z.of_nat (length s) + 1) (Some (s ++ [0])) local_init.
Definition answer (w : mem) (n : Z) : option (list Z) := if fails (asked w) then None else Some (block n).
Definition assign_text (x : fstr) (s : list Z) (w : mem) : out (bool * fstr * mem) :=
  let! (ok, x) := f_assign (answer w) x (source s) in
  Ret (ok, x, Mem (S (asked w)) (alive w)).

(** The loops of C4Json.h:866-891 (Array: the element is a copy of [temp]) and 1181-1207
    (std::vector: it is moved). [temp] is destroyed in every case. *)
Fixpoint elements_o (copy : bool) (t : ty) (temp : data) (f : value -> odata -> mem -> out (status * odata * mem))
    (l : list value) (acc : list odata) (w : mem) : out (status * list odata * mem) :=
  match l with
  | [] => Ret (kOk, acc, w)
  | v :: l' =>
      let! (o, w) := construct t temp w in
      match o with
      | None => Ret (kException, acc, w)
      | Some o =>
          let! (st, o, w) := f v o w in
          if negb (status_eqb st kOk) then let! w := destroy_o o w in Ret (st, acc, w)
          else if copy then
            let! (e, w) := copy_o o w in
            let! w := destroy_o o w in
            match e with
            | None => Ret (kException, acc, w)
            | Some e => elements_o copy t temp f l' (acc ++ [e]) w
            end
          else elements_o copy t temp f l' (acc ++ [o]) w
      end
  end.

(** The loop of C4Json.h:1002-1058 (ObjectMap). Line 1018, [dataMapElement->name = key], can
    throw; nothing deletes the element then. *)
Fixpoint members_o (t : ty) (temp : data) (f : value -> odata -> mem -> out (status * odata * mem))
    (es : list (list Z * value)) (m : tree odata) (w : mem) : out (status * tree odata * mem) :=
  match es with
  | [] => Ret (kOk, m, w)
  | (key, v) :: es' =>
      match find_map_element m key with
      | Some o =>
          let! (st, o, w) := f v o w in
          let m := replace_node m key key o in
          if negb (status_eqb st kOk) then Ret (st, m, w) else members_o t temp f es' m w
      | None =>
          let! (o, w) := construct t temp w in
          match o with
          | None => Ret (kException, m, w)
          | Some o =>
              let w := Mem (asked w) (S (alive w)) in
              let '(ok, w) := if (length key <? 16)%nat then (true, w) else request w in
              if negb ok then Ret (kException, m, w)
              else
                let! (st, o, w) := f v o w in
                if negb (status_eqb st kOk) then
                  let! w := destroy_o o w in
                  match alive w with O => UB | S n => Ret (st, m, Mem (asked w) n) end
                else
                  let! (m, _) := insert_map_element m key o in
                  members_o t temp f es' m w
          end
      end
  end.

(** The loop of C4Json.h:1317-1337 (std::map). *)
Fixpoint std_o (t : ty) (temp : data) (f : value -> odata -> mem -> out (status * odata * mem))
    (es : list (list Z * value)) (l : list (list Z * odata)) (w : mem) : out (status * list (list Z * odata) * mem) :=
  match es with
  | [] => Ret (kOk, l, w)
  | (key, v) :: es' =>
      let! (o, w) := (match olookup key l with
                      | Some o => let '(ok, w) := request w in Ret (if ok then Some o else None, w)
                      | None => construct t temp w
                      end) in
      match o with
      | None => Ret (kException, l, w)
      | Some o =>
          let! (st, o, w) := f v o w in
          let l := ostore key o l in
          if negb (status_eqb st kOk) then Ret (st, l, w) else std_o t temp f es' l w
      end
  end.

(** C4Json.h:663-681. *)
Definition named_o (name : list Z) (f : value -> odata -> mem -> out (status * odata * mem)) (v : value) (o : odata) (w : mem)
  : out (status * odata * mem) :=
  match as_object v with
  | None => Ret (kInvalidValueType, o, w)
  | Some (m, _) =>
      match find_map_element m name with
      | None => Ret (kNameNotPresent, o, w)
      | Some v' => f v' o w
      end
  end.

Variable g : junk.

(** The functions of [deserialize] in SchemaModel.v: C4Json.h:753-777 (String, double, bool,
    Null), C4Json.cpp:1880-1896 (std::string), C4Json.h:848-892 (Array), 984-1060
    (ObjectMap), 1163-1208 (std::vector), 1302-1338 (std::map), 1605-1631 (prototypes). *)
Fixpoint deserialize_o (t : ty) (v : value) (o : odata) (w : mem) : out (status * odata * mem) :=
  match t with
  | TString =>
      match get_string v, o with
      | None, _ => Ret (kInvalidValueType, o, w)
      | Some s, OString x =>
          let! (ok, x, w) := assign_text x s w in
          Ret (if ok then kOk else kException, OString x, w)
      | _, _ => UB
      end
  | TStdString =>
      match get_string v with
      | None => Ret (kInvalidValueType, o, w)
      | Some s => let '(ok, w) := request w in Ret (if ok then (kOk, OStd (cstr s), w) else (kException, o, w))
      end
  | TDouble => Ret match get_double v with Some x => (kOk, ODouble x, w) | None => (kInvalidValueType, o, w) end
  | TBool => Ret match get_bool v with Some b => (kOk, OBool b, w) | None => (kInvalidValueType, o, w) end
  | TNull => Ret match get_null v with Some _ => (kOk, ONull, w) | None => (kInvalidValueType, o, w) end
  | TArray t =>
      match get_array v, o with
      | None, _ => Ret (kInvalidValueType, o, w)
      | Some l, OArray old =>
          let! w := destroy_all old w in
          let '(ok, w) := request w in
          if negb ok then Ret (kException, OArray [], w)
          else let! (st, acc, w) := elements_o true t (fresh g t) (deserialize_o t) l [] w in Ret (st, OArray acc, w)
      | _, _ => UB
      end
  | TVector t =>
      match get_array v, o with
      | None, _ => Ret (kInvalidValueType, o, w)
      | Some l, OArray old =>
          let! w := destroy_all old w in
          let '(ok, w) := request w in
          if negb ok then Ret (kException, OArray [], w)
          else let! (st, acc, w) := elements_o false t (fresh g t) (deserialize_o t) l [] w in Ret (st, OArray acc, w)
      | _, _ => UB
      end
  | TObjectMap t =>
      match as_object v, o with
      | None, _ => Ret (kInvalidValueType, o, w)
      | Some (m, _), OMap om =>
          let! es := map_elements m in
          let! (st, om, w) := members_o t (fresh zeroes t) (deserialize_o t) es om w in
          Ret (st, OMap om, w)
      | _, _ => UB
      end
  | TStdMap t =>
      match as_object v, o with
      | None, _ => Ret (kInvalidValueType, o, w)
      | Some (m, _), OStdMap ol =>
          let! es := map_elements m in
          let! (st, ol, w) := std_o t (fresh zeroes t) (deserialize_o t) es ol w in
          Ret (st, OStdMap ol, w)
      | _, _ => UB
      end
  | TStruct p =>
      match o with
      | OStruct os => let! (st, os, w) := deserialize_items_o p v os w in Ret (st, OStruct os, w)
      | _ => UB
      end
  end

(** C4Json.h:1426-1468, the DeserializeProto overloads. *)
with deserialize_items_o (p : proto) (v : value) (os : list odata) (w : mem) : out (status * list odata * mem) :=
  match p, os with
  | PNil, _ => Ret (kOk, os, w)
  | PItem _ _ _ _, [] => UB
  | PItem Anonymous _ t rest, o :: os =>
      let! (st, o, w) := deserialize_o t v o w in
      if negb (status_eqb st kOk) then Ret (st, o :: os, w)
      else let! (st, os, w) := deserialize_items_o rest v os w in Ret (st, o :: os, w)
  | PItem (Named name) _ t rest, o :: os =>
      let! (st, o, w) := named_o name (deserialize_o t) v o w in
      if negb (status_eqb st kOk) then Ret (st, o :: os, w)
      else let! (st, os, w) := deserialize_items_o rest v os w in Ret (st, o :: os, w)
  | PItem (Optional name) _ t rest, o :: os =>
      let! (st, o, w) := named_o name (deserialize_o t) v o w in
      if negb (status_eqb st kOk) && negb (status_eqb st kNameNotPresent) then Ret (st, o :: os, w)
      else let! (st, os, w) := deserialize_items_o rest v os w in Ret (st, o :: os, w)
  end.
End DeserFail.
