(** * Model of Code/Terathon/TSMap.h and TSMap.cpp on an explicit pointer heap.

    [MapModel.v] models a map as a tree value; here every element is an object at
    an address, with the pointer fields of the C++ class, and several maps share
    the heap. Null is [None]; using a null pointer or the address of a deleted
    object is [UB]. Loops over pointers take a number of rounds; running out of
    it is [OutOfFuel]. *)

From Verif Require Import Base TextModel.

(** TSMap.h:40-56, class MapElementBase: leftSubnode, rightSubnode, superNode,
    owningMap, balance; [nkey] is the key the derived class returns from GetKey. *)
Record node : Type := N {
  nleft : option nat; nright : option nat; nsuper : option nat;
  nowner : option nat; nbal : Z; nkey : list Z }.

(** The live elements by address, and rootElement of each map (TSMap.h:110-118). *)
Record state : Type := St { mem : nat -> option node; root : nat -> option nat }.

Definition get (s : state) (a : nat) : out node :=
  match mem s a with Some n => Ret n | None => UB end.
Definition deref (p : option nat) : out nat := match p with Some a => Ret a | None => UB end.
Definition put (s : state) (a : nat) (n : node) : state :=
  St (fun x => if Nat.eqb x a then Some n else mem s x) (root s).
Definition free (s : state) (a : nat) : state :=
  St (fun x => if Nat.eqb x a then None else mem s x) (root s).
Definition set_root (s : state) (mp : nat) (p : option nat) : state :=
  St (mem s) (fun x => if Nat.eqb x mp then p else root s x).

(** Comparison of pointers. *)
Definition ptr_eqb (p q : option nat) : bool :=
  match p, q with
  | Some a, Some b => Nat.eqb a b
  | None, None => true
  | _, _ => false
  end.

(** Assignments to one field. *)
Definition set_left (s : state) (a : nat) (p : option nat) : out state :=
  let! n := get s a in Ret (put s a (N p (nright n) (nsuper n) (nowner n) (nbal n) (nkey n))).
Definition set_right (s : state) (a : nat) (p : option nat) : out state :=
  let! n := get s a in Ret (put s a (N (nleft n) p (nsuper n) (nowner n) (nbal n) (nkey n))).
Definition set_super (s : state) (a : nat) (p : option nat) : out state :=
  let! n := get s a in Ret (put s a (N (nleft n) (nright n) p (nowner n) (nbal n) (nkey n))).
Definition set_owner (s : state) (a : nat) (p : option nat) : out state :=
  let! n := get s a in Ret (put s a (N (nleft n) (nright n) (nsuper n) p (nbal n) (nkey n))).
Definition set_bal (s : state) (a : nat) (b : Z) : out state :=
  let! n := get s a in Ret (put s a (N (nleft n) (nright n) (nsuper n) (nowner n) b (nkey n))).

(** [if (p) p->superNode = q] *)
Definition set_super_of (s : state) (p : option nat) (q : option nat) : out state :=
  match p with Some a => set_super s a q | None => Ret s end.

(** [if (super->leftSubnode == node) super->leftSubnode = p; else
    super->rightSubnode = p;] *)
Definition set_child (s : state) (super node : nat) (p : option nat) : out state :=
  let! n := get s super in
  if ptr_eqb (nleft n) (Some node) then set_left s super p else set_right s super p.

(** TSMap.cpp:196-216, 236-256, 277-297, 332-352: put [child] in the place of
    [node] under its super node, or make it the root. *)
Definition relink (s : state) (mp node child : nat) : out state :=
  if negb (ptr_eqb (Some node) (root s mp)) then
    let! n := get s node in
    let! super := deref (nsuper n) in
    let! s := set_child s super node (Some child) in
    set_super s child (Some super)
  else set_super (set_root s mp (Some child)) child None.

(** TSMap.cpp:192-230, RotateLeft; result: the state and the returned node. *)
Definition h_rotate_left (s : state) (mp a : nat) : out (state * nat) :=
  let! n := get s a in
  let! rt := deref (nright n) in
  let! s := relink s mp a rt in
  let! rn := get s rt in
  let subnode := nleft rn in
  let! s := set_super_of s subnode (Some a) in
  let! s := set_right s a subnode in
  let! s := set_left s rt (Some a) in
  let! s := set_super s a (Some rt) in
  let! rn := get s rt in
  let! s := set_bal s rt (nbal rn - 1) in
  let! s := set_bal s a (- (nbal rn - 1)) in
  Ret (s, rt).

(** TSMap.cpp:232-270, RotateRight. *)
Definition h_rotate_right (s : state) (mp a : nat) : out (state * nat) :=
  let! n := get s a in
  let! lt := deref (nleft n) in
  let! s := relink s mp a lt in
  let! ln := get s lt in
  let subnode := nright ln in
  let! s := set_super_of s subnode (Some a) in
  let! s := set_left s a subnode in
  let! s := set_right s lt (Some a) in
  let! s := set_super s a (Some lt) in
  let! ln := get s lt in
  let! s := set_bal s lt (nbal ln + 1) in
  let! s := set_bal s a (- (nbal ln + 1)) in
  Ret (s, lt).

(** TSMap.cpp:272-325, ZigZagLeft. *)
Definition h_zigzag_left (s : state) (mp a : nat) : out (state * nat) :=
  let! n := get s a in
  let! rt := deref (nright n) in
  let! rn := get s rt in
  let! top := deref (nleft rn) in
  let! s := relink s mp a top in
  let! tn := get s top in
  let sub_left := nleft tn in
  let! s := set_super_of s sub_left (Some a) in
  let! s := set_right s a sub_left in
  let! tn := get s top in
  let sub_right := nright tn in
  let! s := set_super_of s sub_right (Some rt) in
  let! s := set_left s rt sub_right in
  let! s := set_left s top (Some a) in
  let! s := set_right s top (Some rt) in
  let! s := set_super s a (Some top) in
  let! s := set_super s rt (Some top) in
  let! tn := get s top in
  let b := nbal tn in
  let! s := set_bal s a (- Z.max b 0) in
  let! s := set_bal s rt (- Z.min b 0) in
  let! s := set_bal s top 0 in
  Ret (s, top).

(** TSMap.cpp:327-380, ZigZagRight. *)
Definition h_zigzag_right (s : state) (mp a : nat) : out (state * nat) :=
  let! n := get s a in
  let! lt := deref (nleft n) in
  let! ln := get s lt in
  let! top := deref (nright ln) in
  let! s := relink s mp a top in
  let! tn := get s top in
  let sub_left := nleft tn in
  let! s := set_super_of s sub_left (Some lt) in
  let! s := set_right s lt sub_left in
  let! tn := get s top in
  let sub_right := nright tn in
  let! s := set_super_of s sub_right (Some a) in
  let! s := set_left s a sub_right in
  let! s := set_left s top (Some lt) in
  let! s := set_right s top (Some a) in
  let! s := set_super s a (Some top) in
  let! s := set_super s lt (Some top) in
  let! tn := get s top in
  let b := nbal tn in
  let! s := set_bal s a (- Z.min b 0) in
  let! s := set_bal s lt (- Z.max b 0) in
  let! s := set_bal s top 0 in
  Ret (s, top).

(** TSMap.cpp:33-48 and 50-65, MapElementBase::GetFirstMapElement, GetLastMapElement. *)
Fixpoint h_first (n : nat) (s : state) (a : nat) : out nat :=
  match n with
  | O => OutOfFuel
  | S n' => let! x := get s a in match nleft x with None => Ret a | Some l => h_first n' s l end
  end.
Fixpoint h_last (n : nat) (s : state) (a : nat) : out nat :=
  match n with
  | O => OutOfFuel
  | S n' => let! x := get s a in match nright x with None => Ret a | Some r => h_last n' s r end
  end.

(** TSMap.cpp:101-118, the upward loop of GetNextMapElement. *)
Fixpoint h_next_up (n : nat) (s : state) (a : nat) : out (option nat) :=
  match n with
  | O => OutOfFuel
  | S n' =>
      let! x := get s a in
      match nsuper x with
      | None => Ret None
      | Some super =>
          let! y := get s super in
          if ptr_eqb (nleft y) (Some a) then Ret (Some super) else h_next_up n' s super
      end
  end.

(** TSMap.cpp:94-119, GetNextMapElement. *)
Definition h_next (n : nat) (s : state) (a : nat) : out (option nat) :=
  let! x := get s a in
  match nright x with
  | Some r => let! b := h_first n s r in Ret (Some b)
  | None => h_next_up n s a
  end.

(** TSMap.cpp:74-91, the upward loop of GetPreviousMapElement. *)
Fixpoint h_prev_up (n : nat) (s : state) (a : nat) : out (option nat) :=
  match n with
  | O => OutOfFuel
  | S n' =>
      let! x := get s a in
      match nsuper x with
      | None => Ret None
      | Some super =>
          let! y := get s super in
          if ptr_eqb (nright y) (Some a) then Ret (Some super) else h_prev_up n' s super
      end
  end.

(** TSMap.cpp:67-92, GetPreviousMapElement. *)
Definition h_prev (n : nat) (s : state) (a : nat) : out (option nat) :=
  let! x := get s a in
  match nleft x with
  | Some l => let! b := h_last n s l in Ret (Some b)
  | None => h_prev_up n s a
  end.

(** The loop [for (e = p; e; e = e->GetNextMapElement())], at most [n] rounds: the
    elements visited; [m] bounds the rounds of GetNextMapElement. *)
Fixpoint h_iterate (n m : nat) (s : state) (p : option nat) : out (list nat) :=
  match p with
  | None => Ret []
  | Some a =>
      match n with
      | O => OutOfFuel
      | S n' => let! q := h_next m s a in let! l := h_iterate n' m s q in Ret (a :: l)
      end
  end.

(** The same with GetPreviousMapElement. *)
Fixpoint h_iterate_back (n m : nat) (s : state) (p : option nat) : out (list nat) :=
  match p with
  | None => Ret []
  | Some a =>
      match n with
      | O => OutOfFuel
      | S n' => let! q := h_prev m s a in let! l := h_iterate_back n' m s q in Ret (a :: l)
      end
  end.

(** TSMap.h:132-140, MapBase::GetFirstMapElement, and a whole iteration. *)
Definition h_elements (n : nat) (s : state) (mp : nat) : out (list nat) :=
  match root s mp with
  | None => Ret []
  | Some r => let! a := h_first n s r in h_iterate n n s (Some a)
  end.

(** MapBase::GetLastMapElement, and a whole iteration backwards. *)
Definition h_elements_back (n : nat) (s : state) (mp : nat) : out (list nat) :=
  match root s mp with
  | None => Ret []
  | Some r => let! a := h_last n s r in h_iterate_back n n s (Some a)
  end.

(** TSMap.h:753-775, FindMapElement. *)
Fixpoint h_find_from (n : nat) (s : state) (p : option nat) (key : list Z) : out (option nat) :=
  match p with
  | None => Ret None
  | Some a =>
      match n with
      | O => OutOfFuel
      | S n' =>
          let! x := get s a in
          if text_lt key (nkey x) then h_find_from n' s (nleft x) key
          else if text_lt (nkey x) key then h_find_from n' s (nright x) key
          else Ret (Some a)
      end
  end.
Definition h_find (n : nat) (s : state) (mp : nat) (key : list Z) : out (option nat) :=
  h_find_from n s (root s mp) key.

(** TSMap.cpp:622-675, the loop of RemoveBranchNode, entered with [super] and [db]. *)
Fixpoint h_remove_loop (n : nat) (s : state) (mp super : nat) (db : Z) : out state :=
  match n with
  | O => OutOfFuel
  | S n' =>
      let! sn := get s super in
      let b := nbal sn + db in
      let! s := set_bal s super b in
      if Z.abs b =? 1 then Ret s
      else
        let a := super in
        let up := nsuper sn in
        let! (s, a, stop) :=
          (if negb (b =? 0) then
             if 0 <? b then
               let! x := get s a in
               let! rt := deref (nright x) in
               let! rn := get s rt in
               let rb := nbal rn in
               if 0 <=? rb then
                 let! (s, a) := h_rotate_left s mp a in Ret (s, a, rb =? 0)
               else let! (s, a) := h_zigzag_left s mp a in Ret (s, a, false)
             else
               let! x := get s a in
               let! lt := deref (nleft x) in
               let! ln := get s lt in
               let lb := nbal ln in
               if lb <=? 0 then
                 let! (s, a) := h_rotate_right s mp a in Ret (s, a, lb =? 0)
               else let! (s, a) := h_zigzag_right s mp a in Ret (s, a, false)
           else Ret (s, a, false)) in
        if (stop : bool) then Ret s
        else match up with
             | None => Ret s
             | Some super =>
                 let! sn := get s super in
                 h_remove_loop n' s mp super (if ptr_eqb (nleft sn) (Some a) then 1 else -1)
             end
  end.

(** TSMap.cpp:599-681, RemoveBranchNode(node, subnode). *)
Definition h_remove_branch (n : nat) (s : state) (mp a : nat) (sub : option nat) : out state :=
  let! x := get s a in
  let! s := set_super_of s sub (nsuper x) in
  match nsuper x with
  | Some super =>
      let! sn := get s super in
      if ptr_eqb (nleft sn) (Some a)
      then let! s := set_left s super sub in h_remove_loop n s mp super 1
      else let! s := set_right s super sub in h_remove_loop n s mp super (-1)
  | None => Ret (set_root s mp sub)
  end.

(** TSMap.cpp:132-135, 593-596, 732-735: the links of an element are cleared. *)
Definition h_unlink (s : state) (a : nat) : out state :=
  let! s := set_super s a None in
  let! s := set_left s a None in
  let! s := set_right s a None in
  set_owner s a None.

(** TSMap.cpp:683-736, RemoveMapElement(element). *)
Definition h_remove (n : nat) (s : state) (mp e : nat) : out state :=
  let! x := get s e in
  let! s :=
    match nleft x, nright x with
    | Some _, Some rt =>
        let! top := h_first n s rt in
        let! tn := get s top in
        let! s := h_remove_branch n s mp top (nright tn) in
        let! x := get s e in
        let super := nsuper x in
        let! s := set_super s top super in
        let! s := match super with
                  | Some sp => set_child s sp e (Some top)
                  | None => Ret (set_root s mp (Some top))
                  end in
        let! x := get s e in
        let lt := nleft x in
        let! s := set_left s top lt in
        let! s := set_super_of s lt (Some top) in
        let! x := get s e in
        let rt := nright x in
        let! s := set_right s top rt in
        let! s := set_super_of s rt (Some top) in
        let! x := get s e in
        set_bal s top (nbal x)
    | lt, rt =>
        h_remove_branch n s mp e (match lt with Some _ => lt | None => rt end)
    end in
  h_unlink s e.

(** TSMap.cpp:25-31, Detach; also the first lines of SetRootElement (384-388),
    InsertLeftSubnode (398-402), InsertRightSubnode (477-481) and
    ReplaceMapElement (556-560). *)
Definition h_detach (n : nat) (s : state) (e : nat) : out state :=
  let! x := get s e in
  match nowner x with Some mp => h_remove n s mp e | None => Ret s end.

(** TSMap.cpp:413-471 and 492-550, the loop of InsertLeftSubnode and
    InsertRightSubnode; [dir1 = true] is the C++ -1. *)
Fixpoint h_insert_loop (n : nat) (s : state) (mp : nat) (dir1 : bool) (a : nat) : out state :=
  match n with
  | O => OutOfFuel
  | S n' =>
      let! x := get s a in
      match nsuper x with
      | None => Ret s
      | Some super =>
          let! sn := get s super in
          let dir2 := ptr_eqb (nleft sn) (Some a) in
          let b := if dir2 then nbal sn - 1 else nbal sn + 1 in
          let! s := set_bal s super b in
          if b =? 0 then Ret s
          else if Z.abs b =? 2 then
            let! (s, _) := (if dir2 then if dir1 then h_rotate_right s mp super else h_zigzag_right s mp super
                            else if dir1 then h_zigzag_left s mp super else h_rotate_left s mp super) in
            Ret s
          else h_insert_loop n' s mp dir2 super
      end
  end.

(** TSMap.cpp:382-394, SetRootElement. *)
Definition h_set_root (n : nat) (s : state) (mp e : nat) : out state :=
  let! s := h_detach n s e in
  let! s := set_owner s e (Some mp) in
  let! s := set_bal s e 0 in
  Ret (set_root s mp (Some e)).

(** TSMap.cpp:396-473, InsertLeftSubnode(node, subnode). *)
Definition h_insert_left (n : nat) (s : state) (mp a e : nat) : out state :=
  let! s := h_detach n s e in
  let! s := set_left s a (Some e) in
  let! s := set_super s e (Some a) in
  let! s := set_owner s e (Some mp) in
  let! s := set_bal s e 0 in
  let! x := get s a in
  let b := nbal x - 1 in
  let! s := set_bal s a b in
  if negb (b =? 0) then h_insert_loop n s mp true a else Ret s.

(** TSMap.cpp:475-552, InsertRightSubnode(node, subnode). *)
Definition h_insert_right (n : nat) (s : state) (mp a e : nat) : out state :=
  let! s := h_detach n s e in
  let! s := set_right s a (Some e) in
  let! s := set_super s e (Some a) in
  let! s := set_owner s e (Some mp) in
  let! s := set_bal s e 0 in
  let! x := get s a in
  let b := nbal x + 1 in
  let! s := set_bal s a b in
  if negb (b =? 0) then h_insert_loop n s mp false a else Ret s.

(** TSMap.h:594-623, the descent of InsertMapElement from [a]; [n] rounds here,
    [m] for the other loops. *)
Fixpoint h_insert_from (n m : nat) (s : state) (mp a e : nat) (key : list Z) : out (state * bool) :=
  match n with
  | O => OutOfFuel
  | S n' =>
      let! x := get s a in
      if text_lt key (nkey x) then
        match nleft x with
        | None => let! s := h_insert_left m s mp a e in Ret (s, true)
        | Some l => h_insert_from n' m s mp l e key
        end
      else if text_lt (nkey x) key then
        match nright x with
        | None => let! s := h_insert_right m s mp a e in Ret (s, true)
        | Some r => h_insert_from n' m s mp r e key
        end
      else Ret (s, false)
  end.

(** TSMap.h:587-631, InsertMapElement. *)
Definition h_insert (n : nat) (s : state) (mp e : nat) : out (state * bool) :=
  let! x := get s e in
  match root s mp with
  | Some r => h_insert_from n n s mp r e (nkey x)
  | None => let! s := h_set_root n s mp e in Ret (s, true)
  end.

(** TSMap.cpp:554-597, ReplaceMapElement(element, replacement). *)
Definition h_replace (n : nat) (s : state) (mp a e : nat) : out state :=
  let! s := h_detach n s e in
  let! x := get s a in
  let super := nsuper x in
  let! s := match super with
            | Some sp => set_child s sp a (Some e)
            | None => Ret s
            end in
  let! s := set_super s e super in
  let! x := get s a in
  let! s := set_bal s e (nbal x) in
  let! s := set_owner s e (Some mp) in
  let! x := get s a in
  let! s := set_left s e (nleft x) in
  let! s := set_super_of s (nleft x) (Some e) in
  let! x := get s a in
  let! s := set_right s e (nright x) in
  let! s := set_super_of s (nright x) (Some e) in
  h_unlink s a.

(** TSMap.h:641-682, the descent of InsertReplaceMapElement. *)
Fixpoint h_insert_replace_from (n m : nat) (s : state) (mp a e : nat) (key : list Z)
  : out (state * option nat) :=
  match n with
  | O => OutOfFuel
  | S n' =>
      let! x := get s a in
      if text_lt key (nkey x) then
        match nleft x with
        | None => let! s := h_insert_left m s mp a e in Ret (s, None)
        | Some l => h_insert_replace_from n' m s mp l e key
        end
      else if text_lt (nkey x) key then
        match nright x with
        | None => let! s := h_insert_right m s mp a e in Ret (s, None)
        | Some r => h_insert_replace_from n' m s mp r e key
        end
      else if negb (Nat.eqb e a) then let! s := h_replace m s mp a e in Ret (s, Some a)
      else Ret (s, None)
  end.

(** TSMap.h:633-691, InsertReplaceMapElement: the state and the returned element. *)
Definition h_insert_replace (n : nat) (s : state) (mp e : nat) : out (state * option nat) :=
  let! x := get s e in
  match root s mp with
  | Some r => h_insert_replace_from n n s mp r e (nkey x)
  | None => let! s := h_set_root n s mp e in Ret (s, None)
  end.

(** TSMap.h:33-37, MapReservation: superElement and whether direction is -1. *)
Definition reservation : Type := option (nat * bool).

(** TSMap.h:709-738, the descent of ReserveMapElement; [None]: the key is present. *)
Fixpoint h_reserve_from (n : nat) (s : state) (a : nat) (key : list Z) : out (option reservation) :=
  match n with
  | O => OutOfFuel
  | S n' =>
      let! x := get s a in
      if text_lt key (nkey x) then
        match nleft x with
        | None => Ret (Some (Some (a, true)))
        | Some l => h_reserve_from n' s l key
        end
      else if text_lt (nkey x) key then
        match nright x with
        | None => Ret (Some (Some (a, false)))
        | Some r => h_reserve_from n' s r key
        end
      else Ret None
  end.

(** TSMap.h:706-747, ReserveMapElement. *)
Definition h_reserve (n : nat) (s : state) (mp : nat) (key : list Z) : out (option reservation) :=
  match root s mp with
  | Some r => h_reserve_from n s r key
  | None => Ret (Some None)
  end.

(** TSMap.h:685-704, InsertMapElement(element, reservation). *)
Definition h_insert_reserved (n : nat) (s : state) (mp e : nat) (r : reservation) : out state :=
  match r with
  | Some (super, true) => h_insert_left n s mp super e
  | Some (super, false) => h_insert_right n s mp super e
  | None => h_set_root n s mp e
  end.

(** TSMap.cpp:121-136, RemoveSubtree. *)
Fixpoint h_remove_subtree (n : nat) (s : state) (a : nat) : out state :=
  match n with
  | O => OutOfFuel
  | S n' =>
      let! x := get s a in
      let! s := match nleft x with Some l => h_remove_subtree n' s l | None => Ret s end in
      let! x := get s a in
      let! s := match nright x with Some r => h_remove_subtree n' s r | None => Ret s end in
      h_unlink s a
  end.

(** TSMap.cpp:138-152, DeleteSubtree; the destructor (17-23) finds a null
    owningMap and does nothing, then the object is gone. *)
Fixpoint h_delete_subtree (n : nat) (s : state) (a : nat) : out state :=
  match n with
  | O => OutOfFuel
  | S n' =>
      let! x := get s a in
      let! s := match nleft x with Some l => h_delete_subtree n' s l | None => Ret s end in
      let! x := get s a in
      let! s := match nright x with Some r => h_delete_subtree n' s r | None => Ret s end in
      let! s := set_owner s a None in
      let! s := h_detach n s a in
      Ret (free s a)
  end.

(** TSMap.cpp:738-745, RemoveAllMapElements. *)
Definition h_remove_all (n : nat) (s : state) (mp : nat) : out state :=
  match root s mp with
  | Some r => let! s := h_remove_subtree n s r in Ret (set_root s mp None)
  | None => Ret s
  end.

(** TSMap.cpp:747-754, PurgeMap; the destructor ~MapBase (155-158) calls it. *)
Definition h_purge (n : nat) (s : state) (mp : nat) : out state :=
  match root s mp with
  | Some r => let! s := h_delete_subtree n s r in Ret (set_root s mp None)
  | None => Ret s
  end.

(** TSMap.h:66-73, the constructor, of an element with the given key at the
    address [a] (given by the allocator). *)
Definition h_new (s : state) (a : nat) (key : list Z) : state :=
  put s a (N None None None None 0 key).

(** TSMap.cpp:17-23, the destructor, and the release of the storage. *)
Definition h_delete (n : nat) (s : state) (a : nat) : out state :=
  let! s := h_detach n s a in Ret (free s a).

(** The calls of a client. *)
Inductive heap_op : Type :=
| HNew (a : nat) (key : list Z)
| HInsert (mp e : nat)
| HReplace (mp e : nat)
| HDetach (e : nat)
| HDelete (e : nat)
| HRemoveAll (mp : nat)
| HPurge (mp : nat).

(** One call: the new state and the element or flag it returns (a flag [true] is
    [Some 1], [false] and null are [None]). *)
Definition h_step (n : nat) (s : state) (o : heap_op) : out (state * option nat) :=
  match o with
  | HNew a key => Ret (h_new s a key, Some a)
  | HInsert mp e => let! (s, f) := h_insert n s mp e in Ret (s, if (f : bool) then Some 1%nat else None)
  | HReplace mp e => h_insert_replace n s mp e
  | HDetach e => let! s := h_detach n s e in Ret (s, None)
  | HDelete e => let! s := h_delete n s e in Ret (s, None)
  | HRemoveAll mp => let! s := h_remove_all n s mp in Ret (s, None)
  | HPurge mp => let! s := h_purge n s mp in Ret (s, None)
  end.

(** A history; the results are collected in order. *)
Fixpoint h_run (n : nat) (ops : list heap_op) (s : state) : out (state * list (option nat)) :=
  match ops with
  | [] => Ret (s, [])
  | o :: ops' =>
      let! (s, r) := h_step n s o in
      let! (s, rs) := h_run n ops' s in
      Ret (s, r :: rs)
  end.

(** No elements; all maps empty. *)
Definition h_init : state := St (fun _ => None) (fun _ => None).
