(** * Model of Array<type, baseCount>, Code/Terathon/TSArray.h.

    Storage is a list of cells; a cell holds an object ([Some]) or none. Making an
    object where one lives, destroying or reading one where none lives, and freeing
    storage in which objects live are errors ([UB]), as are accesses outside the
    storage. Blocks made by new[] are numbered; a freed block stays freed. Objects
    are values: a copy and a move both give the value, a moved-from object still
    has to be destroyed. [new type] makes the value [dflt] (for POD types it would
    be indeterminate). Allocation does not fail. int32 overflow is [UB]. Forming a
    pointer one before the first element (TSArray.h:828, 917) is not modelled. *)

From Verif Require Import Base.

(** int32 arithmetic: [UB] on overflow. *)
Definition int32 (x : Z) : out Z := if (-2147483648 <=? x) && (x <? 2147483648) then Ret x else UB.

Section Array.
Variable A : Type.
(** The value of [new type]. *)
Variable dflt : A.
(** baseCount. *)
Variable base : Z.

Local Notation cell := (option A).
Definition heap := list (option (list cell)).

(** arrayPointer: null, the member arrayStorage, or a block. *)
Inductive place : Type := Null | Local | Block (n : nat).

Record arr : Type := Arr { count : Z; reserved : Z; at_ : place; storage : list cell }.

Fixpoint upd {X} (l : list X) (n : nat) (x : X) : list X :=
  match l, n with
  | [], _ => []
  | _ :: l', O => x :: l'
  | y :: l', S n' => y :: upd l' n' x
  end.

(** Cells. *)
Definition cell_at (cs : list cell) (i : Z) : option cell := if i <? 0 then None else nth_error cs (Z.to_nat i).
Definition make (cs : list cell) (i : Z) (v : A) : out (list cell) :=
  match cell_at cs i with Some None => Ret (upd cs (Z.to_nat i) (Some v)) | _ => UB end.
Definition kill (cs : list cell) (i : Z) : out (list cell) :=
  match cell_at cs i with Some (Some _) => Ret (upd cs (Z.to_nat i) None) | _ => UB end.
Definition get (cs : list cell) (i : Z) : out A :=
  match cell_at cs i with Some (Some v) => Ret v | _ => UB end.

(** The storage arrayPointer refers to; null refers to none. *)
Definition load (h : heap) (a : arr) : out (list cell) :=
  match at_ a with
  | Null => Ret []
  | Local => Ret (storage a)
  | Block n => match nth_error h n with Some (Some cs) => Ret cs | _ => UB end
  end.
Definition save (h : heap) (a : arr) (cs : list cell) : heap * arr :=
  match at_ a with
  | Null => (h, a)
  | Local => (h, Arr (count a) (reserved a) Local cs)
  | Block n => (upd h n (Some cs), a)
  end.
Definition with_count (a : arr) (n : Z) : arr := Arr n (reserved a) (at_ a) (storage a).

Definition alloc (h : heap) (n : Z) : heap * nat := (h ++ [Some (repeat None (Z.to_nat n))], length h).

Definition is_none (c : cell) : bool := match c with None => true | Some _ => false end.

(** delete[] of the block arrayPointer refers to: nothing for null and arrayStorage
    (TSArray.h:440-444, 760). *)
Definition release (h : heap) (p : place) : out heap :=
  match p with
  | Block n => match nth_error h n with
               | Some (Some cs) => if forallb is_none cs then Ret (upd h n None) else UB
               | _ => UB
               end
  | _ => Ret h
  end.

(** The member arrayStorage, without objects. *)
Definition no_objects : list cell := repeat None (Z.to_nat base).

(** TSArray.h:377-382, Array<type, baseCount>(). *)
Definition new_base : arr := Arr 0 base Local no_objects.

(** TSArray.h:710-717, Array<type, 0>(count). *)
Definition new_zero (h : heap) (n : Z) : heap * arr :=
  if 0 <? n then let (h, b) := alloc h n in (h, Arr 0 n (Block b) no_objects)
  else (h, Arr 0 n Null no_objects).

(** Loops [for (a = i; a < i + n; a++) new(&to[a]) type(from[a])]. *)
Fixpoint copy_loop (n : nat) (i : Z) (src dst : list cell) : out (list cell) :=
  match n with
  | O => Ret dst
  | S n' => let! v := get src i in let! dst := make dst i v in copy_loop n' (i + 1) src dst
  end.

(** The same with [from[a].~type()] after each step. *)
Fixpoint move_loop (n : nat) (i : Z) (src dst : list cell) : out (list cell * list cell) :=
  match n with
  | O => Ret (src, dst)
  | S n' => let! v := get src i in let! dst := make dst i v in let! src := kill src i in move_loop n' (i + 1) src dst
  end.

(** Array(const Array&): TSArray.h:384-403 (baseCount > 0) and 719-737 (0). *)
Definition new_copy (h : heap) (x : arr) : out (heap * arr) :=
  let! src := load h x in
  if if base =? 0 then 0 <? reserved x else base <? count x then
    let (h, b) := alloc h (reserved x) in
    let a := Arr (count x) (reserved x) (Block b) no_objects in
    let! dst := load h a in
    let! dst := copy_loop (Z.to_nat (count x)) 0 src dst in
    Ret (save h a dst)
  else if base =? 0 then Ret (h, Arr (count x) (reserved x) Null no_objects)
  else
    let! dst := copy_loop (Z.to_nat (count x)) 0 src no_objects in
    Ret (h, Arr (count x) base Local dst).

(** Array(Array&&): TSArray.h:405-428 (baseCount > 0) and 739-749 (0); gives the new
    array and the state of the source. *)
Definition new_move (h : heap) (x : arr) : out (heap * arr * arr) :=
  if base =? 0 then Ret (h, Arr (count x) (reserved x) (at_ x) no_objects, Arr 0 0 Null (storage x))
  else if base <? count x then
    Ret (h, Arr (count x) (reserved x) (at_ x) no_objects, Arr 0 base Local (storage x))
  else
    let! src := load h x in
    let! (src, dst) := move_loop (Z.to_nat (count x)) 0 src no_objects in
    let (h, x) := save h x src in
    Ret (h, Arr (count x) base Local dst, Arr 0 base Local (storage x)).

(** Loops [for (a = n - 1; a >= m; a--) (--pointer)->~type()], pointer starting at
    arrayPointer + n: destroys [n - m] elements downwards. *)
Fixpoint kill_down (k : nat) (n : Z) (cs : list cell) : out (list cell) :=
  match k with
  | O => Ret cs
  | S k' => let! cs := kill cs (n - 1) in kill_down k' (n - 1) cs
  end.

(** TSArray.h:447-456 and 763-772, ClearArray. *)
Definition clear (h : heap) (a : arr) : out (heap * arr) :=
  let! cs := load h a in
  let! cs := kill_down (Z.to_nat (count a)) (count a) cs in
  let (h, a) := save h a cs in
  Ret (h, with_count a 0).

(** TSArray.h:430-445 and 751-761, ~Array: the blocks; the members must hold no
    objects any more. *)
Definition delete (h : heap) (a : arr) : out heap :=
  let! (h, a) := clear h a in
  let! h := release h (at_ a) in
  if forallb is_none (storage a) then Ret h else UB.

(** TSArray.h:458-477 and 774-786, PurgeArray. *)
Definition purge (h : heap) (a : arr) : out (heap * arr) :=
  let! (h, a) := clear h a in
  let! h := release h (at_ a) in
  Ret (h, if base =? 0 then Arr 0 0 Null (storage a) else Arr 0 base Local (storage a)).

(** TSArray.h:479-501 and 788-807, SetReservedCount. *)
Definition set_reserved (h : heap) (a : arr) (n : Z) : out (heap * arr) :=
  let r := reserved a in
  let! r' := int32 (r + Z.max (Z.land (Z.quot r 2 + 3) (Z.lnot 3)) (if base =? 0 then 4 else base)) in
  let r' := Z.max (Z.max n 4) r' in
  let! src := load h a in
  let (h, b) := alloc h r' in
  let! dst := load h (Arr 0 0 (Block b) []) in
  let! (src, dst) := match at_ a with
                     | Null => Ret (src, dst)
                     | _ => move_loop (Z.to_nat (count a)) 0 src dst
                     end in
  let (h, a) := save h a src in
  let! h := release h (at_ a) in
  Ret (upd h b (Some dst), Arr (count a) r' (Block b) (storage a)).

(** TSArray.h:503-510 and 809-816, ReserveArrayElementCount; also the test in front
    of the other operations. *)
Definition reserve (h : heap) (a : arr) (n : Z) : out (heap * arr) :=
  if reserved a <? n then set_reserved h a n else Ret (h, a).

(** A reference parameter: to an object elsewhere, or to cell [j] of the block or
    member that the array uses when the function is called. *)
Inductive arg : Type := Val (v : A) | Own (p : place) (j : Z).

(** Reading the parameter when it is used. *)
Definition read_arg (h : heap) (a : arr) (x : arg) : out A :=
  match x with
  | Val v => Ret v
  | Own p j => let! cs := load h (Arr 0 0 p (storage a)) in get cs j
  end.

(** Loops [for (a = i; a < i + n; a++) new(&arrayPointer[a]) type(v)]. *)
Fixpoint make_up (n : nat) (i : Z) (v : A) (cs : list cell) : out (list cell) :=
  match n with
  | O => Ret cs
  | S n' => let! cs := make cs i v in make_up n' (i + 1) v cs
  end.

(** TSArray.h:512-536, 818-844: SetArrayElementCount(count), and 538-562, 846-872:
    SetArrayElementCount(count, init). The parameter is read for each new element;
    here once, before the first (the loop changes no cell that it can refer to). *)
Definition set_count (h : heap) (a : arr) (n : Z) (init : option arg) : out (heap * arr) :=
  let! (h, a) := reserve h a n in
  let! cs := load h a in
  if count a <? n then
    let! v := match init with None => Ret dflt | Some x => read_arg h a x end in
    let! cs := make_up (Z.to_nat (n - count a)) (count a) v cs in
    let (h, a) := save h a cs in Ret (h, with_count a n)
  else
    let! cs := kill_down (Z.to_nat (count a - n)) (count a) cs in
    let (h, a) := save h a cs in Ret (h, with_count a n).

(** TSArray.h:564-595 and 874-904, AppendArrayElement. *)
Definition append (h : heap) (a : arr) (x : option arg) : out (heap * arr) :=
  let! n := int32 (count a + 1) in
  let! (h, a) := (if reserved a <=? count a then set_reserved h a n else Ret (h, a)) in
  let! cs := load h a in
  let! v := match x with None => Ret dflt | Some x => read_arg h a x end in
  let! cs := make cs (count a) v in
  let (h, a) := save h a cs in
  Ret (h, with_count a n).

(** TSArray.h:626-630, 935-939: [for (a = n; a > index; a--) { new(pointer) type(pointer[-1]);
    (--pointer)->~type(); }]: moves [k] elements up by one, from the last. *)
Fixpoint shift_up (k : nat) (n : Z) (cs : list cell) : out (list cell) :=
  match k with
  | O => Ret cs
  | S k' => let! v := get cs (n - 1) in let! cs := make cs n v in let! cs := kill cs (n - 1) in shift_up k' (n - 1) cs
  end.

(** TSArray.h:597-636 and 906-944, InsertArrayElement. *)
Definition insert (h : heap) (a : arr) (i : Z) (x : arg) : out (heap * arr) :=
  if count a <=? i then
    let! n := int32 (i + 1) in
    let! (h, a) := reserve h a n in
    let! cs := load h a in
    let! cs := make_up (Z.to_nat (i - count a)) (count a) dflt cs in
    let (h, a) := save h a cs in
    let! v := read_arg h a x in
    let! cs := make cs i v in
    let (h, a) := save h a cs in
    Ret (h, with_count a n)
  else
    let! n := int32 (count a + 1) in
    let! (h, a) := reserve h a n in
    let! cs := load h a in
    let! cs := shift_up (Z.to_nat (count a - i)) (count a) cs in
    let (h, a) := save h a cs in
    let! v := read_arg h a x in
    let! cs := make cs i v in
    let (h, a) := save h a cs in
    Ret (h, with_count a n).

(** TSArray.h:644-649, 953-958: moves [k] elements down by one, the first to [i]. *)
Fixpoint shift_down (k : nat) (i : Z) (cs : list cell) : out (list cell) :=
  match k with
  | O => Ret cs
  | S k' => let! v := get cs (i + 1) in let! cs := make cs i v in let! cs := kill cs (i + 1) in shift_down k' (i + 1) cs
  end.

(** TSArray.h:638-655 and 946-964, RemoveArrayElement. *)
Definition remove (h : heap) (a : arr) (i : Z) : out (heap * arr) :=
  if i <? count a then
    let! cs := load h a in
    let! cs := kill cs i in
    let! cs := shift_down (Z.to_nat (count a - (i + 1))) i cs in
    let (h, a) := save h a cs in
    Ret (h, with_count a (count a - 1))
  else Ret (h, a).

(** TSArray.h:657-667 and 966-977, RemoveLastArrayElement. *)
Definition remove_last (h : heap) (a : arr) : out (heap * arr) :=
  let i := count a - 1 in
  if 0 <=? i then
    let! cs := load h a in
    let! cs := kill cs i in
    let (h, a) := save h a cs in
    Ret (h, with_count a i)
  else Ret (h, a).

(** TSArray.h:291-303, FindArrayElementIndex; [eqb] is operator == of the type. *)
Fixpoint find_loop (eqb : A -> A -> bool) (n : nat) (i : Z) (cs : list cell) (v : A) : out Z :=
  match n with
  | O => Ret (-1)
  | S n' => let! x := get cs i in if eqb x v then Ret i else find_loop eqb n' (i + 1) cs v
  end.
Definition find_index (eqb : A -> A -> bool) (h : heap) (a : arr) (v : A) : out Z :=
  let! cs := load h a in find_loop eqb (Z.to_nat (count a)) 0 cs v.

(** TSArray.h:305-324, operator ==; [neqb] is operator != of the type. *)
Fixpoint equal_loop (neqb : A -> A -> bool) (n : nat) (i : Z) (cs cs' : list cell) : out bool :=
  match n with
  | O => Ret true
  | S n' => let! x := get cs i in let! y := get cs' i in if neqb x y then Ret false else equal_loop neqb n' (i + 1) cs cs'
  end.
Definition equal (neqb : A -> A -> bool) (h : heap) (a a' : arr) : out bool :=
  if negb (count a =? count a') then Ret false
  else let! cs := load h a in let! cs' := load h a' in equal_loop neqb (Z.to_nat (count a)) 0 cs cs'.

(** ** Histories over any number of arrays *)

Inductive op : Type :=
| New (n : Z)
| Copy (i : nat)
| Move (i : nat)
| Delete (i : nat)
| Clear (i : nat)
| Purge (i : nat)
| Reserve (i : nat) (n : Z)
| Set_count (i : nat) (n : Z) (v : option A)
| Append (i : nat) (v : option A)
| Insert (i : nat) (j : Z) (v : A)
| Remove (i : nat) (j : Z)
| Remove_last (i : nat).

(** The blocks and the arrays made so far ([None]: destroyed). *)
Definition world : Type := heap * list (option arr).

Definition use (w : world) (i : nat) (f : heap -> arr -> out (heap * arr)) : out world :=
  match nth_error (snd w) i with
  | Some (Some a) => let! (h, a) := f (fst w) a in Ret (h, upd (snd w) i (Some a))
  | _ => UB
  end.

(** One call on the arrays; using a destroyed array is an error. *)
Definition step (w : world) (o : op) : out world :=
  match o with
  | New n => if base =? 0 then let (h, a) := new_zero (fst w) n in Ret (h, snd w ++ [Some a])
             else Ret (fst w, snd w ++ [Some new_base])
  | Copy i => match nth_error (snd w) i with
              | Some (Some x) => let! (h, a) := new_copy (fst w) x in Ret (h, snd w ++ [Some a])
              | _ => UB
              end
  | Move i => match nth_error (snd w) i with
              | Some (Some x) => let! (h, a, x) := new_move (fst w) x in Ret (h, upd (snd w) i (Some x) ++ [Some a])
              | _ => UB
              end
  | Delete i => match nth_error (snd w) i with
                | Some (Some x) => let! h := delete (fst w) x in Ret (h, upd (snd w) i None)
                | _ => UB
                end
  | Clear i => use w i clear
  | Purge i => use w i purge
  | Reserve i n => use w i (fun h a => reserve h a n)
  | Set_count i n v => use w i (fun h a => set_count h a n (option_map Val v))
  | Append i v => use w i (fun h a => append h a (option_map Val v))
  | Insert i j v => use w i (fun h a => insert h a j (Val v))
  | Remove i j => use w i (fun h a => remove h a j)
  | Remove_last i => use w i remove_last
  end.

Fixpoint run (w : world) (os : list op) : out world :=
  match os with
  | [] => Ret w
  | o :: os' => let! w := step w o in run w os'
  end.

End Array.
Arguments Val {A} v.
Arguments Own {A} p j.
Arguments New {A} n.
Arguments Copy {A} i.
Arguments Move {A} i.
Arguments Delete {A} i.
Arguments Clear {A} i.
Arguments Purge {A} i.
Arguments Reserve {A} i n.
Arguments Set_count {A} i n v.
Arguments Append {A} i v.
Arguments Insert {A} i j v.
Arguments Remove {A} i j.
Arguments Remove_last {A} i.
Arguments Arr {A} count reserved at_ storage.
Arguments count {A} a.
Arguments reserved {A} a.
Arguments at_ {A} a.
Arguments storage {A} a.
