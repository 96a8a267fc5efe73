(** * Model of the key classes of Code/Terathon/TSString.h:539-682 and of maps with
    such keys (Map<type>, Code/Terathon/TSMap.h:587-631 and 753-775).

    MapModel.v has maps whose keys are String<> (the ones JSON objects and ObjectMap
    use). Here the comparison is a parameter. A key is a [ptr]: the bytes from the
    key's pointer to the end of the array behind it. The tree, its rotations and the
    iteration are those of MapModel.v; they do not look at keys. *)

From Verif Require Import Base TextModel StringModel ToolsModel MapModel.

(** The two operators a key class has; operator != is the negation of operator ==. *)
Record key_class : Type := KeyClass { key_less : ptr -> ptr -> out bool; key_equal : ptr -> ptr -> out bool }.

(** TSString.h:539-585. *)
Definition const_char_key : key_class := KeyClass compare_text_less_than compare_text.
(** TSString.h:588-634. *)
Definition string_key : key_class := KeyClass compare_text_less_than compare_text.
(** TSString.h:637-682. *)
Definition file_name_key : key_class := KeyClass numbered_less_than_caseless compare_text_caseless.

Section Map.
Variable c : key_class.
Context {A : Type}.

(** TSMap.h:594-623, the descent of InsertMapElement, as [insert_at] in MapModel.v. *)
Fixpoint key_insert_at (node : tree A) (up : list (frame A)) (key : ptr) (e : A) : out (tree A * bool) :=
  match node with
  | Leaf => Ret (zip (Node Leaf key e 0 Leaf) up, true)
  | Node l k v b r =>
      let! lt := key_less c key k in
      if (lt : bool) then
        match l with
        | Leaf => let! t := insert_left_subnode k v b r up key e in Ret (t, true)
        | Node _ _ _ _ _ => key_insert_at l (FL k v b r :: up) key e
        end
      else
        let! gt := key_less c k key in
        if (gt : bool) then
          match r with
          | Leaf => let! t := insert_right_subnode l k v b up key e in Ret (t, true)
          | Node _ _ _ _ _ => key_insert_at r (FR l k v b :: up) key e
          end
        else Ret (zip node up, false)
  end.

(** TSMap.h:587-631, Map::InsertMapElement. *)
Definition key_insert (root : tree A) (key : ptr) (e : A) : out (tree A * bool) := key_insert_at root [] key e.

(** TSMap.h:753-775, Map::FindMapElement. *)
Fixpoint key_find (node : tree A) (key : ptr) : out (option A) :=
  match node with
  | Leaf => Ret None
  | Node l k v _ r =>
      let! lt := key_less c key k in
      if (lt : bool) then key_find l key
      else
        let! gt := key_less c k key in
        if (gt : bool) then key_find r key else Ret (Some v)
  end.

(** A client (not code): elements inserted one after the other; the map and the
    results of the calls. *)
Fixpoint key_insert_all (t : tree A) (l : list (ptr * A)) : out (tree A * list bool) :=
  match l with
  | [] => Ret (t, [])
  | (key, e) :: l' =>
      let! (t, f) := key_insert t key e in
      let! (t, fs) := key_insert_all t l' in
      Ret (t, f :: fs)
  end.
End Map.
