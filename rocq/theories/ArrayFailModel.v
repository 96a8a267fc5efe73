(** * Model of Array<type, baseCount> when operator new fails, Code/Terathon/TSArray.h.

    SetReservedCount raises reservedCount before it allocates. If new[] throws, the
    function is left with the raised count and the old storage. The functions that
    call it do so before they change anything. A constructor whose new[] throws makes
    no array. Exceptions thrown by the elements are not modelled. *)

From Verif Require Import Base ArrayModel.

Section Fail.
Variable A : Type.
Variable dflt : A.
Variable base : Z.

Local Notation arr := (arr A).
Local Notation op := (op A).

(** TSArray.h:479-482 and 788-791, SetReservedCount up to the new[] that throws. *)
Definition grow_fail (a : arr) (n : Z) : out arr :=
  let r := reserved a in
  let! r' := int32 (r + Z.max (Z.land (Z.quot r 2 + 3) (Z.lnot 3)) (if base =? 0 then 4 else base)) in
  Ret (Arr (count a) (Z.max (Z.max n 4) r') (at_ a) (storage a)).

(** The argument with which a call on the array [a] calls SetReservedCount, if it
    does: TSArray.h:503-510, 809-816 (Reserve), 512-562, 818-872 (Set_count),
    564-595, 874-904 (Append), 597-636, 906-944 (Insert). *)
Definition request (a : arr) (o : op) : out (option Z) :=
  let above n := if reserved a <? n then Some n else None in
  match o with
  | Reserve _ n => Ret (above n)
  | Set_count _ n _ => Ret (above n)
  | Append _ _ => let! n := int32 (count a + 1) in Ret (if reserved a <=? count a then Some n else None)
  | Insert _ j _ => let! n := int32 (if count a <=? j then j + 1 else count a + 1) in Ret (above n)
  | _ => Ret None
  end.

(** The array a call is made on; a constructor with a count has none. *)
Definition target (o : op) : option nat :=
  match o with
  | New _ => None
  | Copy i | Move i | Delete i | Clear i | Purge i | Reserve i _ | Set_count i _ _ | Append i _ | Insert i _ _ | Remove i _ | Remove_last i => Some i
  end.

(** One call during which every new[] throws: whether it throws, and the arrays
    after it. Constructors: TSArray.h:384-403, 710-737. *)
Definition starved (w : world A) (o : op) : out (bool * world A) :=
  let! alloc := match o with
                | New n => Ret (if (base =? 0) && (0 <? n) then Some n else None)
                | Copy i => match nth_error (snd w) i with
                            | Some (Some x) => Ret (if if base =? 0 then 0 <? reserved x else base <? count x then Some (reserved x) else None)
                            | _ => UB
                            end
                | _ => match target o with
                       | None => Ret None
                       | Some i => match nth_error (snd w) i with Some (Some a) => request a o | _ => UB end
                       end
                end in
  match alloc with
  | None => let! w := step A dflt base w o in Ret (false, w)
  | Some n => match o with
              | New _ | Copy _ => Ret (true, w)
              | _ => match target o with
                     | Some i => let! w := use A w i (fun h a => let! a := grow_fail a n in Ret (h, a)) in Ret (true, w)
                     | None => UB
                     end
              end
  end.

(** A call with memory or without. *)
Definition attempt (memory : bool) (w : world A) (o : op) : out (bool * world A) :=
  if memory then let! w := step A dflt base w o in Ret (false, w) else starved w o.

End Fail.
Arguments target {A} o.
