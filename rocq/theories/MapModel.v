(** * Model of Code/Terathon/TSMap.h and TSMap.cpp (the AVL tree behind every
    JSON object).

    Simplification: nodes are immutable tree values.  The C++ [superNode]
    pointers are represented by a zipper (the list of ancestors, nearest
    first); each C++ loop over [superNode] is a recursion over that list.  A
    null dereference is [UB].  [HeapModel.v] models the same operations on an
    explicit pointer heap. *)

From Verif Require Import Base TextModel.

Section Map.
Context {A : Type}.

(** Code/Terathon/TSMap.h, class MapElementBase: leftSubnode, key and element,
    balance, rightSubnode.  The key is the element's GetKey(). *)
Inductive tree : Type :=
| Leaf
| Node (l : tree) (k : list Z) (v : A) (b : Z) (r : tree).

(** One ancestor: [FL] when the current node is its left subnode. *)
Inductive frame : Type :=
| FL (k : list Z) (v : A) (b : Z) (r : tree)
| FR (l : tree) (k : list Z) (v : A) (b : Z).

(** The whole tree from a subtree and its ancestors (not code: the pointer
    structure already is the whole tree). *)
Fixpoint zip (t : tree) (up : list frame) : tree :=
  match up with
  | [] => t
  | FL k v b r :: up' => zip (Node t k v b r) up'
  | FR l k v b :: up' => zip (Node l k v b t) up'
  end.

(** TSMap.cpp:192-230, RotateLeft (on the subtree; relinking the ancestor is
    [zip]). [node->balance = -(--right->balance)]. *)
Definition rotate_left (node : tree) : out tree :=
  match node with
  | Node l k v _ (Node rl rk rv rb rr) =>
      let rb' := rb - 1 in
      Ret (Node (Node l k v (- rb') rl) rk rv rb' rr)
  | _ => UB
  end.

(** TSMap.cpp:232-270, RotateRight. *)
Definition rotate_right (node : tree) : out tree :=
  match node with
  | Node (Node ll lk lv lb lr) k v _ r =>
      let lb' := lb + 1 in
      Ret (Node ll lk lv lb' (Node lr k v (- lb') r))
  | _ => UB
  end.

(** TSMap.cpp:272-325, ZigZagLeft; MinZero/MaxZero are Code/Terathon/TSBasic.h:74-92. *)
Definition zigzag_left (node : tree) : out tree :=
  match node with
  | Node l k v _ (Node (Node sl tk tv b sr) rk rv _ rr) =>
      Ret (Node (Node l k v (- Z.max b 0) sl) tk tv 0 (Node sr rk rv (- Z.min b 0) rr))
  | _ => UB
  end.

(** TSMap.cpp:327-380, ZigZagRight. *)
Definition zigzag_right (node : tree) : out tree :=
  match node with
  | Node (Node ll lk lv _ (Node sl tk tv b sr)) k v _ r =>
      Ret (Node (Node ll lk lv (- Z.max b 0) sl) tk tv 0 (Node sr k v (- Z.min b 0) r))
  | _ => UB
  end.

(** TSMap.cpp:413-471 and 492-550, the rebalancing loop shared by
    InsertLeftSubnode and InsertRightSubnode. [dir1 = true] is the C++ -1. *)
Fixpoint insert_up (dir1 : bool) (node : tree) (up : list frame) : out tree :=
  match up with
  | [] => Ret node
  | FL k v b r :: up' =>
      let b := b - 1 in
      let super := Node node k v b r in
      if b =? 0 then Ret (zip super up')
      else if Z.abs b =? 2 then
        let! t := (if dir1 then rotate_right super else zigzag_right super) in
        Ret (zip t up')
      else insert_up true super up'
  | FR l k v b :: up' =>
      let b := b + 1 in
      let super := Node l k v b node in
      if b =? 0 then Ret (zip super up')
      else if Z.abs b =? 2 then
        let! t := (if dir1 then zigzag_left super else rotate_left super) in
        Ret (zip t up')
      else insert_up false super up'
  end.

(** TSMap.cpp:396-473, InsertLeftSubnode(node, subnode): node is the node with
    the given fields and a null left subnode, below [up]. The removal from a
    previous owning map (398-402) does not arise: the element is new. *)
Definition insert_left_subnode (k : list Z) (v : A) (b : Z) (r : tree)
    (up : list frame) (nk : list Z) (nv : A) : out tree :=
  let b' := b - 1 in
  let node := Node (Node Leaf nk nv 0 Leaf) k v b' r in
  if negb (b' =? 0) then insert_up true node up else Ret (zip node up).

(** TSMap.cpp:475-552, InsertRightSubnode. *)
Definition insert_right_subnode (l : tree) (k : list Z) (v : A) (b : Z)
    (up : list frame) (nk : list Z) (nv : A) : out tree :=
  let b' := b + 1 in
  let node := Node l k v b' (Node Leaf nk nv 0 Leaf) in
  if negb (b' =? 0) then insert_up false node up else Ret (zip node up).

(** TSMap.h:594-623, the descent of InsertMapElement; result: the new tree and
    the returned flag. *)
Fixpoint insert_at (node : tree) (up : list frame) (key : list Z) (e : A) : out (tree * bool) :=
  match node with
  | Leaf => Ret (zip (Node Leaf key e 0 Leaf) up, true)  (* TSMap.h:625-628, SetRootElement: only for the empty map *)
  | Node l k v b r =>
      if text_lt key k then
        match l with
        | Leaf => let! t := insert_left_subnode k v b r up key e in Ret (t, true)
        | Node _ _ _ _ _ => insert_at l (FL k v b r :: up) key e
        end
      else if text_lt k key then
        match r with
        | Leaf => let! t := insert_right_subnode l k v b up key e in Ret (t, true)
        | Node _ _ _ _ _ => insert_at r (FR l k v b :: up) key e
        end
      else Ret (zip node up, false)
  end.

(** TSMap.h:587-631, Map::InsertMapElement. *)
Definition insert_map_element (root : tree) (key : list Z) (e : A) : out (tree * bool) :=
  insert_at root [] key e.

(** TSMap.h:753-775, Map::FindMapElement. *)
Fixpoint find_map_element (node : tree) (key : list Z) : option A :=
  match node with
  | Leaf => None
  | Node l k v _ r =>
      if text_lt key k then find_map_element l key
      else if text_lt k key then find_map_element r key
      else Some v
  end.

(** An element of the map: a node with its ancestors. *)
Definition loc : Type := (tree * list frame)%type.

(** TSMap.cpp:33-48, MapElementBase::GetFirstMapElement. *)
Fixpoint get_first (node : tree) (up : list frame) : loc :=
  match node with
  | Node (Node _ _ _ _ _ as l) k v b r => get_first l (FL k v b r :: up)
  | _ => (node, up)
  end.

(** TSMap.cpp:50-65, MapElementBase::GetLastMapElement. *)
Fixpoint get_last (node : tree) (up : list frame) : loc :=
  match node with
  | Node l k v b (Node _ _ _ _ _ as r) => get_last r (FR l k v b :: up)
  | _ => (node, up)
  end.

(** TSMap.cpp:101-118, the upward loop of GetNextMapElement. *)
Fixpoint next_up (node : tree) (up : list frame) : option loc :=
  match up with
  | [] => None
  | FL k v b r :: up' => Some (Node node k v b r, up')
  | FR l k v b :: up' => next_up (Node l k v b node) up'
  end.

(** TSMap.cpp:94-119, MapElementBase::GetNextMapElement. *)
Definition get_next (x : loc) : option loc :=
  match x with
  | (Node l k v b (Node _ _ _ _ _ as r), up) => Some (get_first r (FR l k v b :: up))
  | (node, up) => next_up node up
  end.

(** TSMap.cpp:74-91, the upward loop of GetPreviousMapElement. *)
Fixpoint prev_up (node : tree) (up : list frame) : option loc :=
  match up with
  | [] => None
  | FL k v b r :: up' => prev_up (Node node k v b r) up'
  | FR l k v b :: up' => Some (Node l k v b node, up')
  end.

(** TSMap.cpp:67-92, MapElementBase::GetPreviousMapElement. *)
Definition get_prev (x : loc) : option loc :=
  match x with
  | (Node (Node _ _ _ _ _ as l) k v b r, up) => Some (get_last l (FL k v b r :: up))
  | (node, up) => prev_up node up
  end.

(** TSMap.h, MapBase::GetFirstMapElement: null for the empty map. *)
Definition map_first (root : tree) : option loc :=
  match root with Leaf => None | _ => Some (get_first root []) end.

Definition map_last (root : tree) : option loc :=
  match root with Leaf => None | _ => Some (get_last root []) end.

(** Iteration as in C4Json.h's range-for loops and TSMap.cpp:179-190: start at
    the first element, repeat GetNextMapElement until null; [n] bounds the
    number of rounds. *)
Fixpoint iterate (n : nat) (x : option loc) : out (list (list Z * A)) :=
  match x with
  | None => Ret []
  | Some (Leaf, _) => UB
  | Some (Node l k v b r, up) =>
      match n with
      | O => OutOfFuel
      | S n' =>
          let! rest := iterate n' (get_next (Node l k v b r, up)) in
          Ret ((k, v) :: rest)
      end
  end.

(** TSMap.cpp:161-177, MapBase::operator[]. *)
Fixpoint nth_from (index : nat) (x : option loc) : option (list Z * A) :=
  match x with
  | None => None
  | Some (Leaf, _) => None
  | Some (Node l k v b r, up) =>
      match index with
      | O => Some (k, v)
      | S i => nth_from i (get_next (Node l k v b r, up))
      end
  end.

(** TSMap.cpp:622-675, the loop of RemoveBranchNode; [node] is the subtree that
    lost one level below the ancestors [up]. *)
Fixpoint remove_up (node : tree) (up : list frame) : out tree :=
  match up with
  | [] => Ret node
  | f :: up' =>
      let '(b, super) := match f with
                         | FL k v b r => (b + 1, Node node k v (b + 1) r)
                         | FR l k v b => (b - 1, Node l k v (b - 1) node)
                         end in
      if Z.abs b =? 1 then Ret (zip super up')
      else if negb (b =? 0) then
        if 0 <? b then
          match super with
          | Node _ _ _ _ (Node _ _ _ rb _) =>
              if 0 <=? rb then
                let! t := rotate_left super in
                if rb =? 0 then Ret (zip t up') else remove_up t up'
              else let! t := zigzag_left super in remove_up t up'
          | _ => UB
          end
        else
          match super with
          | Node (Node _ _ _ lb _) _ _ _ _ =>
              if lb <=? 0 then
                let! t := rotate_right super in
                if lb =? 0 then Ret (zip t up') else remove_up t up'
              else let! t := zigzag_right super in remove_up t up'
          | _ => UB
          end
      else remove_up super up'
  end.

(** TSMap.cpp:599-681, RemoveBranchNode(node, subnode). *)
Definition remove_branch_node (subnode : tree) (up : list frame) : out tree := remove_up subnode up.

(** TSMap.cpp:693-725: put the detached element (tk, tv) in the place of the
    node with key [k], wherever RemoveBranchNode's rotations left it.
    Simplification: the node is found by its key instead of by its address. *)
Fixpoint replace_node (t : tree) (k tk : list Z) (tv : A) : tree :=
  match t with
  | Leaf => Leaf
  | Node l nk nv b r =>
      if text_lt k nk then Node (replace_node l k tk tv) nk nv b r
      else if text_lt nk k then Node l nk nv b (replace_node r k tk tv)
      else Node l tk tv b r
  end.

(** TSMap.cpp:683-736, RemoveMapElement(element), the element given by its
    location. *)
Definition remove_map_element (x : loc) : out tree :=
  match x with
  | (Leaf, _) => UB
  | (Node l k v b r, up) =>
      match l, r with
      | Node _ _ _ _ _, Node _ _ _ _ _ =>
          match get_first r (FR l k v b :: up) with
          | (Node _ tk tv _ tr, tup) =>
              let! t := remove_branch_node tr tup in
              Ret (replace_node t k tk tv)
          | (Leaf, _) => UB
          end
      | Node _ _ _ _ _, Leaf => remove_branch_node l up
      | Leaf, _ => remove_branch_node r up
      end
  end.

(** FindMapElement returning the element's location (the pointer). *)
Fixpoint find_loc (node : tree) (up : list frame) (key : list Z) : option loc :=
  match node with
  | Leaf => None
  | Node l k v b r =>
      if text_lt key k then find_loc l (FL k v b r :: up) key
      else if text_lt k key then find_loc r (FR l k v b :: up) key
      else Some (node, up)
  end.

(** Removal of the element found under a key (e.g. [delete FindMapElement(key)]). *)
Definition remove_key (root : tree) (key : list Z) : out tree :=
  match find_loc root [] key with
  | None => Ret root
  | Some x => remove_map_element x
  end.

(** Number of nodes, as an abstraction used for fuel and statements. *)
Fixpoint size (t : tree) : nat :=
  match t with
  | Leaf => O
  | Node l _ _ _ r => S (size l + size r)
  end.

End Map.
Arguments tree A : clear implicits.
Arguments frame A : clear implicits.
Arguments loc A : clear implicits.

(** TSMap.cpp:179-190, MapBase::GetMapElementCount; [n] bounds the rounds. *)
Fixpoint count_from {A} (n : nat) (x : option (loc A)) : out nat :=
  match x with
  | None => Ret O
  | Some y =>
      match n with
      | O => OutOfFuel
      | S n' => let! c := count_from n' (get_next y) in Ret (S c)
      end
  end.

(** Backward iteration with GetPreviousMapElement; [n] bounds the rounds. *)
Fixpoint iterate_back {A} (n : nat) (x : option (loc A)) : out (list (list Z * A)) :=
  match x with
  | None => Ret []
  | Some (Leaf, _) => UB
  | Some (Node l k v b r, up) =>
      match n with
      | O => OutOfFuel
      | S n' =>
          let! rest := iterate_back n' (get_prev (Node l k v b r, up)) in
          Ret ((k, v) :: rest)
      end
  end.

(** Number of nodes FindMapElement (TSMap.h:753-775) compares with the key. *)
Fixpoint find_comparisons {A} (node : tree A) (key : list Z) : nat :=
  match node with
  | Leaf => O
  | Node l k _ _ r =>
      S (if text_lt key k then find_comparisons l key
         else if text_lt k key then find_comparisons r key
         else O)
  end.

(** The calls a client makes on a Map: InsertMapElement of a new element, and
    removal of the element found under a key. *)
Inductive map_op (A : Type) : Type :=
| MInsert (key : list Z) (e : A)
| MRemove (key : list Z).
Arguments MInsert {A}.
Arguments MRemove {A}.

Definition map_step {A} (t : tree A) (o : map_op A) : out (tree A) :=
  match o with
  | MInsert key e => let! (t', _) := insert_map_element t key e in Ret t'
  | MRemove key => remove_key t key
  end.

(** A history of calls. *)
Fixpoint map_run {A} (ops : list (map_op A)) (t : tree A) : out (tree A) :=
  match ops with
  | [] => Ret t
  | o :: ops' => let! t' := map_step t o in map_run ops' t'
  end.
