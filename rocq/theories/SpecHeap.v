(** * What maps and their elements are to a client.

    An element has an address, a key and at most one owning map; a map is the set
    of elements it owns. *)

From Verif Require Import Base SpecMap HeapModel.

Definition store : Type := list (nat * (list Z * option nat)).

Fixpoint look (st : store) (a : nat) : option (list Z * option nat) :=
  match st with
  | [] => None
  | (x, v) :: st' => if Nat.eqb x a then Some v else look st' a
  end.

(** The element of the map with the key. *)
Fixpoint holder (st : store) (mp : nat) (key : list Z) : option nat :=
  match st with
  | [] => None
  | (x, (k, Some q)) :: st' => if Nat.eqb q mp && key_eqb k key then Some x else holder st' mp key
  | (_, (_, None)) :: st' => holder st' mp key
  end.

Definition give (st : store) (a : nat) (w : option nat) : store :=
  map (fun e => if Nat.eqb (fst e) a then (fst e, (fst (snd e), w)) else e) st.

Definition owned (mp : nat) (e : nat * (list Z * option nat)) : bool :=
  match snd (snd e) with Some q => Nat.eqb q mp | None => false end.

Definition spec_step (st : store) (o : heap_op) : store * option nat :=
  match o with
  | HNew a key => ((a, (key, None)) :: st, Some a)
  | HInsert mp e =>
      match look st e with
      | Some (k, _) => match holder st mp k with Some _ => (st, None) | None => (give st e (Some mp), Some 1%nat) end
      | None => (st, None)
      end
  | HReplace mp e =>
      match look st e with
      | Some (k, _) =>
          match holder st mp k with
          | Some b => if Nat.eqb b e then (st, None) else (give (give st b None) e (Some mp), Some b)
          | None => (give st e (Some mp), None)
          end
      | None => (st, None)
      end
  | HDetach e => (give st e None, None)
  | HDelete e => (filter (fun x => negb (Nat.eqb (fst x) e)) st, None)
  | HRemoveAll mp => (map (fun e => if owned mp e then (fst e, (fst (snd e), None)) else e) st, None)
  | HPurge mp => (filter (fun e => negb (owned mp e)) st, None)
  end.

Fixpoint spec_run (st : store) (ops : list heap_op) : store * list (option nat) :=
  match ops with
  | [] => (st, [])
  | o :: ops' =>
      let (st, r) := spec_step st o in
      let (st, rs) := spec_run st ops' in (st, r :: rs)
  end.

(** A client creates elements at unused addresses, with keys without a zero
    character, and otherwise uses live elements only. *)
Definition legal (st : store) (o : heap_op) : Prop :=
  match o with
  | HNew a key => look st a = None /\ good_key key
  | HInsert _ e | HReplace _ e | HDetach e | HDelete e => look st e <> None
  | HRemoveAll _ | HPurge _ => True
  end.

Fixpoint legal_run (st : store) (ops : list heap_op) : Prop :=
  match ops with
  | [] => True
  | o :: ops' => legal st o /\ legal_run (fst (spec_step st o)) ops'
  end.

Definition replaces (o : heap_op) : bool := match o with HReplace _ _ => true | _ => false end.

(** What a client can observe of the heap: elements, owners, lookups and
    iterations. *)
Definition observed (n : nat) (s : state) (st : store) : Prop :=
  (forall a, match mem s a with Some x => Some (nkey x, nowner x) | None => None end = look st a) /\
  (forall mp key, good_key key -> h_find n s mp key = Ret (holder st mp key)) /\
  (forall mp, exists l ks, h_elements n s mp = Ret l /\ h_elements_back n s mp = Ret (rev l) /\
     Forall2 (fun a k => look st a = Some (k, Some mp)) l ks /\ increasing ks /\
     (forall a k, look st a = Some (k, Some mp) -> In a l)).

(** No element that is the root of its map is replaced. *)
Fixpoint spares_roots (n : nat) (s : state) (st : store) (ops : list heap_op) : Prop :=
  match ops with
  | [] => True
  | o :: ops' =>
      match o with
      | HReplace mp e => forall k w b, look st e = Some (k, w) -> holder st mp k = Some b -> b <> e -> root s mp <> Some b
      | _ => True
      end /\
      (forall s' r, h_step n s o = Ret (s', r) -> spares_roots n s' (fst (spec_step st o)) ops')
  end.
