(** * String<0> when memory runs out: the functions of DynModel.v (TSString.cpp) again, step
    by step, with [new char[n]] throwing.

    An object is its fields; the string pointer refers to the local bytes, to a block, or
    to a block that was deleted. Reading, writing or deleting the last is undefined. Each
    function returns whether it came to its end ([true]) or threw ([false]), and the
    object. Each makes at most one request; [a n] is the answer to [new char[n]]: the
    contents of the new block, or [None].

    Simplifications: those of DynModel.v; one object at a time. *)

From Verif Require Import Base StringModel SpecText DynModel.

Inductive store : Type := Local | Block (b : list Z) | Freed.
Record fstr : Type := FStr { f_logical : Z; f_physical : Z; f_store : store; f_local : list Z }.

(** Reading through the string pointer; writing through it. *)
Definition f_read (s : fstr) : out (list Z) :=
  match f_store s with Local => Ret (f_local s) | Block b => Ret b | Freed => UB end.
Definition f_write (s : fstr) (b : list Z) : out fstr :=
  match f_store s with
  | Local => Ret (FStr (f_logical s) (f_physical s) Local b)
  | Block _ => Ret (FStr (f_logical s) (f_physical s) (Block b) (f_local s))
  | Freed => UB
  end.
(** [if (stringPointer != localString) delete[] stringPointer], as in the destructor
    (TSString.cpp:29-35). *)
Definition f_delete (s : fstr) : out unit :=
  match f_store s with Freed => UB | _ => Ret tt end.
Definition f_destroy : fstr -> out unit := f_delete.

(** TSString.cpp:282-293, PurgeString. *)
Definition f_purge (s : fstr) : out (bool * fstr) :=
  let! _ := f_delete s in
  let! b := wr (f_local s) 0 0 in Ret (true, FStr 1 16 Local b).

Section Alloc.
Variable a : Z -> option (list Z).

(** TSString.cpp:295-321, Resize: the length, the deletion and the size come before the
    request. *)
Definition f_resize (s : fstr) (size : Z) : out (bool * fstr) :=
  if 16 <? size then
    if (f_physical s <? size) || (size <? f_physical s / 2) then
      let! _ := f_delete s in
      let p := physical_size size in
      match a p with
      | Some b => Ret (true, FStr size p (Block b) (f_local s))
      | None => Ret (false, FStr size p (match f_store s with Local => Local | _ => Freed end) (f_local s))
      end
    else Ret (true, FStr size (f_physical s) (f_store s) (f_local s))
  else
    let! _ := f_delete s in
    Ret (true, FStr size 16 Local (f_local s)).

(** A function that goes on after the request with a write through the pointer. *)
Definition f_then (r : out (bool * fstr)) (k : fstr -> out fstr) : out (bool * fstr) :=
  let! (ok, s) := r in
  if ok : bool then let! s := k s in Ret (true, s) else Ret (false, s).
Definition f_update (f : list Z -> out (list Z)) (s : fstr) : out fstr :=
  let! b := f_read s in let! b := f b in f_write s b.

(** TSString.cpp:323-345, Set; 394-408, operator=(const char pointer); 378-392,
    operator=(const String&), another object. *)
Definition f_set (s : fstr) (p : ptr) (length : Z) : out (bool * fstr) :=
  let! l := cut_length (Z.to_nat length) p in
  if (0 <? l)%nat then f_then (f_resize s (Z.of_nat l + 1)) (f_update (fun b => copy_text_max p b 0 (Z.of_nat l)))
  else f_purge s.
Definition f_text (s : fstr) (p : ptr) : out (bool * fstr) :=
  let! l := get_text_length p in
  if (0 <? l)%nat then f_then (f_resize s (Z.of_nat l + 1)) (f_update (fun b => copy_text p b 0))
  else f_purge s.
Definition f_assign (s : fstr) (from : dyn) : out (bool * fstr) :=
  let size := logical from in
  if 1 <? size then f_then (f_resize s size) (f_update (fun b => copy_text (chars from) b 0))
  else f_purge s.

(** TSString.cpp:410-429, operator=(int32), (uint32), (int64). *)
Definition f_number (conv : Z -> list Z -> nat -> Z -> out (list Z * Z)) (s : fstr) (n : Z) : out (bool * fstr) :=
  f_then (f_resize s 64) (fun s =>
    let! b := f_read s in
    let! (b, l) := conv n b 0%nat 63 in
    let! s := f_write s b in Ret (FStr (l + 1) (f_physical s) (f_store s) (f_local s))).

(** The growing part of the appending functions, TSString.cpp:444-457: the size comes before
    the request. *)
Definition f_grow (s : fstr) (size : Z) : out (bool * fstr) :=
  if f_physical s <? size then
    let p := Z.max (physical_size size) (f_physical s + f_physical s / 2) in
    match a p with
    | Some b => let! old := f_read s in let! b := copy_text old b 0 in let! _ := f_delete s in Ret (true, FStr (f_logical s) p (Block b) (f_local s))
    | None => Ret (false, FStr (f_logical s) p (f_store s) (f_local s))
    end
  else Ret (true, s).

Definition f_at_end (f : list Z -> nat -> out (list Z)) (size : Z) (s : fstr) : out fstr :=
  if f_logical s <? 1 then UB
  else
    let! s := f_update (fun b => f b (Z.to_nat (f_logical s - 1))) s in
    Ret (FStr size (f_physical s) (f_store s) (f_local s)).

(** TSString.cpp:465-513, operator+=(const char pointer), (char); 655-679, AppendString. *)
Definition f_append (s : fstr) (p : ptr) : out (bool * fstr) :=
  let! l := get_text_length p in
  if (0 <? l)%nat then
    let size := f_logical s + Z.of_nat l in
    f_then (f_grow s size) (f_at_end (copy_text p) size)
  else Ret (true, s).
Definition f_append_char (s : fstr) (k : Z) : out (bool * fstr) :=
  let size := f_logical s + 1 in
  f_then (f_grow s size) (f_at_end (fun b i => let! b := wr b i k in wr b (S i) 0) size).
Definition f_append_string (s : fstr) (p : ptr) (length : Z) : out (bool * fstr) :=
  if 0 <? length then
    let size := f_logical s + length in
    f_then (f_grow s size) (f_at_end (fun b i => copy_text_max p b i length) size)
  else Ret (true, s).

(** TSString.cpp:515-597, operator+=(int32), (uint32), (int64), (uint64). *)
Definition f_append_number (conv : Z -> list Z -> nat -> Z -> out (list Z * Z)) (s : fstr) (n : Z) : out (bool * fstr) :=
  f_then (f_grow s (f_logical s + 64)) (fun s =>
    if f_logical s <? 1 then UB
    else
      let! b := f_read s in
      let! (b, l) := conv n b (Z.to_nat (f_logical s - 1)) 63 in
      let! s := f_write s b in Ret (FStr (f_logical s + l) (f_physical s) (f_store s) (f_local s))).

(** TSString.cpp:599-653, SetStringLength: length and size come before the request. *)
Definition f_set_length (s : fstr) (length : Z) : out (bool * fstr) :=
  if 0 <? length then
    let size := length + 1 in
    if negb (size =? f_logical s) then
      let copy_length := Z.min length (f_logical s - 1) in
      f_then
        (if 16 <? size then
           if (f_physical s <? size) || (size <? f_physical s / 2) then
             let p := physical_size size in
             match a p with
             | Some b => let! old := f_read s in let! b := copy_text_max old b 0 copy_length in let! _ := f_delete s in Ret (true, FStr size p (Block b) (f_local s))
             | None => Ret (false, FStr size p (f_store s) (f_local s))
             end
           else Ret (true, FStr size (f_physical s) (f_store s) (f_local s))
         else
           match f_store s with
           | Local => Ret (true, FStr size (f_physical s) Local (f_local s))
           | _ => let! old := f_read s in let! b := copy_text_max old (f_local s) 0 copy_length in let! _ := f_delete s in Ret (true, FStr size (f_physical s) Local b)
           end)
        (f_update (fun b => wr b (Z.to_nat length) 0))
    else Ret (true, s)
  else f_purge s.

(** TSString.cpp:744-881, EncodeEscapeSequences: length and size come before the request. *)
Definition f_escape (s : fstr) : out (bool * fstr) :=
  let! old := f_read s in
  let! l := get_text_length old in
  let t := concat (map encoded (firstn l old)) in
  if existsb (fun c => (1 <? length (encoded c))%nat) (firstn l old) then
    let n := Z.of_nat (length t) in
    let p := physical_size n in
    match a p with
    | Some b => let! b := encode_into old b 0 in let! _ := f_delete s in Ret (true, FStr n p (Block b) (f_local s))
    | None => Ret (false, FStr n p (f_store s) (f_local s))
    end
  else Ret (true, s).

(** The functions on one object. *)
Inductive fcmd : Type := FOp (o : str_op) | FAssign (from : dyn) | FLength (n : Z) | FPurge | FEscape.

Definition f_cmd (c : fcmd) (s : fstr) : out (bool * fstr) :=
  match c with
  | FOp (OpAssign p) => f_text s p
  | FOp (OpSet p n) => f_set s p n
  | FOp (OpInt n) => f_number integer_to_string s n
  | FOp (OpInt64 n) => f_number integer64_to_string s n
  | FOp (OpAppend p) => f_append s p
  | FOp (OpAppendChar k) => f_append_char s k
  | FOp (OpAppendInt n) => f_append_number integer_to_string s n
  | FOp (OpAppendInt64 n) => f_append_number integer64_to_string s n
  | FOp (OpAppendString p n) => f_append_string s p n
  | FAssign from => f_assign s from
  | FLength n => f_set_length s n
  | FPurge => f_purge s
  | FEscape => f_escape s
  end.
End Alloc.

(** A program on one object (not code: a client that catches what is thrown): which calls came
    to their end, and the object. *)
Fixpoint f_run (cs : list (fcmd * (Z -> option (list Z)))) (s : fstr) : out (list bool * fstr) :=
  match cs with
  | [] => Ret ([], s)
  | (c, a) :: cs' =>
      let! (ok, s) := f_cmd a c s in
      let! (oks, s) := f_run cs' s in
      Ret (ok :: oks, s)
  end.

(** The objects of DynModel.v. *)
Definition embed (d : dyn) : fstr :=
  FStr (logical d) (physical d) (match heap d with Some b => Block b | None => Local end) (local d).
Definition dyn_fcmd (g : Z -> list Z) (c : fcmd) (d : dyn) : out dyn :=
  match c with
  | FOp o => dyn_op g d o
  | FAssign from => dyn_assign g d from
  | FLength n => set_string_length g d n
  | FPurge => purge d
  | FEscape => dyn_escape g d
  end.
