(** * Model of the writer, Code/Json4C4/C4Json.cpp: Value::Write and overrides.

    A Write produces a sequence of File::WriteFile calls. None of the callers
    looks at the results of these calls ([operator<<], C4Json.cpp:478-490, and
    1449, 1461, 1675, 1687), so the sequence does not depend on them: here it
    is the list of byte strings passed to WriteFile, in order. [FileModel.v]
    says what the calls do to the file. *)

From Verif Require Import Base NumModel MapModel ParserModel.

Definition chunk := list Z.

(** Result of Write: the status, the WriteFile calls, and indentationCharArray
    (passed by reference). *)
Definition wresult := (status * list chunk * list Z)%type.

(** FindMapElement returns the node; its [name] is the key stored in it
    (C4Json.h:233-325, Value::name; TSMap.h:753-775). *)
Fixpoint find_named {A} (node : @tree A) (key : list Z) : option (list Z * A) :=
  match node with
  | Leaf => None
  | Node l k v _ r =>
      if TextModel.text_lt key k then find_named l key
      else if TextModel.text_lt k key then find_named r key
      else Some (k, v)
  end.

(** Applying a function to the elements of a map (not code: it lets the
    recursion of [write] be structural). *)
Section MapTree.
Context {A B : Type} (f : A -> B).
Fixpoint map_tree (t : @tree A) : @tree B :=
  match t with
  | Leaf => Leaf
  | Node l k v b r => Node (map_tree l) k (f v) b (map_tree r)
  end.
End MapTree.

(** C4Json.cpp:603-609, ExpandArray (allocation succeeds). *)
Definition expand_array (arr : list Z) (c : Z) (n : nat) : list Z := arr ++ repeat c n.

(** SetArrayElementCount(count - n), C4Json.cpp:1460 and 1686. *)
Definition shrink_array (arr : list Z) (n : nat) : list Z := firstn (length arr - n) arr.

(** [file << s] with a String or const char*: GetTextLength bytes (478-490). *)
Definition put_text (s : list Z) : chunk := cstr s.

(** [a < count - 1 ? "," : ""], C4Json.cpp:1457 and 1683. *)
Definition comma {A} (rest : list A) : chunk := match rest with [] => [] | _ => [44] end.

Section Write.
(** indentationLength and indentationChar. *)
Variables (n : nat) (c : Z).

(** The loop of ArrayValue::Write, C4Json.cpp:1445-1458, over the Write
    functions of the remaining elements. *)
Fixpoint write_elements (ws : list (list Z -> wresult)) (arr : list Z) : wresult :=
  match ws with
  | [] => (kOk, [], arr)
  | w :: ws' =>
      let '(st, out, arr1) := w arr in
      if negb (status_eqb st kOk) then (st, arr :: out, arr1)
      else
        let '(st', out', arr2) := write_elements ws' arr1 in
        (st', arr :: out ++ comma ws' :: [10] :: out', arr2)
  end.

(** The loop of ObjectValue::Write, C4Json.cpp:1662-1684; [m] holds the Write
    functions of the members. *)
Fixpoint write_members (m : @tree (list Z -> wresult)) (order : list (list Z)) (arr : list Z) : wresult :=
  match order with
  | [] => (kOk, [], arr)
  | name :: order' =>
      match find_named m name with
      | None => (kMissingObjectElement, [], arr)
      | Some (k, w) =>
          let head := [arr; [34]; put_text k; [34; 32; 58; 32]] in
          let '(st, out, arr1) := w arr in
          if negb (status_eqb st kOk) then (st, head ++ out, arr1)
          else
            let '(st', out', arr2) := write_members m order' arr1 in
            (st', head ++ out ++ comma order' :: [10] :: out', arr2)
      end
  end.

(** StringValue::Write 1154-1159, NumberValue::Write 1211-1230 (the text is in
    a char[32] filled by snprintf), BoolValue::Write 1273-1286, NullValue::Write
    1319-1325, ArrayValue::Write 1440-1466, ObjectValue::Write 1656-1691. *)
Fixpoint write (v : value) : list Z -> wresult :=
  match v with
  | VString s => fun arr => (kOk, [[34]; put_text s; [34]], arr)
  | VNumber d => fun arr => (kOk, [snprintf17g 32 d], arr)
  | VBool b => fun arr => (kOk, [if b then [116; 114; 117; 101] else [102; 97; 108; 115; 101]], arr)
  | VNull => fun arr => (kOk, [[110; 117; 108; 108]], arr)
  | VArray l => fun arr =>
      let '(st, out, arr1) := write_elements (map write l) (expand_array arr c n) in
      if negb (status_eqb st kOk) then (st, [91; 10] :: out, arr1)
      else let arr2 := shrink_array arr1 n in
           (kOk, [91; 10] :: out ++ [arr2; [93]], arr2)
  | VObject m order => fun arr =>
      let '(st, out, arr1) :=
        write_members (map_tree write m) order (expand_array arr c n) in
      if negb (status_eqb st kOk) then (st, [123; 10] :: out, arr1)
      else let arr2 := shrink_array arr1 n in
           (kOk, [123; 10] :: out ++ [arr2; [125]], arr2)
  end.
End Write.

(** The part of StructuredData::Write (C4Json.cpp:1810-1831) after the file has
    been opened: the status and the WriteFile calls. *)
Definition sd_write (root : option value) (n : nat) (c : Z) : status * list chunk :=
  match root with
  | Some v => let '(st, out, _) := write n c v [] in (st, out)
  | None => (kInvalidStructuredData, [])
  end.
