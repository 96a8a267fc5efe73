(** * Model of String<0>, Code/Terathon/TSString.h:394-548 and TSString.cpp.

    An object is its three fields and the storage it owns: [heap] is the block the
    string pointer refers to, or [None] when it refers to the 16 local bytes. The
    contents of a new block of [n] bytes are [g n] for an arbitrary function [g]
    (one per command). Operands given by address are arrays outside the object;
    operands that share its storage are modelled separately where stated. The
    int32 sizes are unbounded integers (strings below 2^31 - 67 bytes). The float
    conversions are in FloatTextModel.v, the constructor from uint16 in WideStrModel.v. *)

From Verif Require Import Base StringModel SpecText.

Record dyn : Type := Dyn { logical : Z; physical : Z; heap : option (list Z); local : list Z }.

(** The storage the string pointer refers to. *)
Definition chars (d : dyn) : list Z := match heap d with Some h => h | None => local d end.

(** Writing through the string pointer. *)
Definition with_chars (d : dyn) (b : list Z) : dyn :=
  match heap d with
  | Some _ => Dyn (logical d) (physical d) (Some b) (local d)
  | None => Dyn (logical d) (physical d) None b
  end.
Definition with_logical (d : dyn) (n : Z) : dyn := Dyn n (physical d) (heap d) (local d).

(** TSString.cpp:15-18, GetPhysicalSize. *)
Definition physical_size (size : Z) : Z := Z.land (size + 67) (Z.lnot 63).

(** The member initialiser of localString (TSString.h:411): fifteen '0' and NUL. *)
Definition local_init : list Z := repeat 48 15 ++ [0].

Section Alloc.
Variable g : Z -> list Z.

(** Loops [for (a = 0; a < n; a++) dest[i + a] = source[a]]. *)
Fixpoint copy_n (n : nat) (src : ptr) (b : list Z) (i : nat) : out (list Z) :=
  match n with
  | O => Ret b
  | S n' => let! k := rd src 0 in let! b := wr b i k in copy_n n' (skipn 1 src) b (S i)
  end.

(** TSString.cpp:116-123 and 325-332: the length cut at the first NUL. *)
Fixpoint cut_length (n : nat) (s : ptr) : out nat :=
  match n with
  | O => Ret 0%nat
  | S n' => let! k := rd s 0 in if k =? 0 then Ret 0%nat else let! m := cut_length n' (skipn 1 s) in Ret (S m)
  end.

(** Storage of a new object for [size] bytes: TSString.cpp:81-93, 125-137. *)
Definition new_sized (size : Z) : dyn :=
  if 16 <? size then Dyn size (physical_size size) (Some (g (physical_size size))) local_init
  else Dyn size 16 None local_init.

(** TSString.cpp:21-27, String(), and 282-293, PurgeString. *)
Definition new_empty : out dyn := let! b := wr local_init 0 0 in Ret (Dyn 1 16 None b).
Definition purge (d : dyn) : out dyn := let! b := wr (local d) 0 0 in Ret (Dyn 1 16 None b).

(** TSString.cpp:37-53, String(const String&). *)
Definition new_copy (s : dyn) : out dyn :=
  let size := logical s in
  if 1 <? size then
    let! b := copy_text (chars s) (g (physical_size size)) 0 in
    Ret (Dyn size (physical_size size) (Some b) local_init)
  else let! b := wr local_init 0 0 in Ret (Dyn size 16 None b).

(** TSString.cpp:55-77, String(String&&): the new object and the source. *)
Definition new_move (s : dyn) : out (dyn * dyn) :=
  match heap s with
  | Some h =>
      let! b := wr (local s) 0 0 in
      Ret (Dyn (logical s) (physical s) (Some h) local_init, Dyn 1 16 None b)
  | None =>
      let! b := copy_n 16 (local s) local_init 0 in
      Ret (Dyn (logical s) (physical s) None b, s)
  end.

(** TSString.cpp:79-112, String(const char pointer). *)
Definition new_text (s : ptr) : out dyn :=
  let! l := get_text_length s in
  let d := new_sized (Z.of_nat l + 1) in
  let! b := copy_n (S l) s (chars d) 0 in Ret (with_chars d b).

(** TSString.cpp:114-157, String(const char pointer, int32). A negative length
    writes before the storage. *)
Definition new_part (s : ptr) (length : Z) : out dyn :=
  let! l := cut_length (Z.to_nat length) s in
  let l := if length <? 0 then length else Z.of_nat l in
  let d := new_sized (l + 1) in
  let! b := (if l <? 0 then UB else wr (chars d) (Z.to_nat l) 0) in
  let! b := copy_n (Z.to_nat l) s b 0 in Ret (with_chars d b).

(** TSString.cpp:189-208, String(int32), String(uint32), String(int64). *)
Definition new_int (n : Z) : out dyn :=
  let! (b, l) := integer_to_string n local_init 0 15 in Ret (Dyn (l + 1) 16 None b).
Definition new_int64 (n : Z) : out dyn :=
  let! (b, l) := integer64_to_string n (g 64) 0 63 in Ret (Dyn (l + 1) 64 (Some b) local_init).

(** TSString.cpp:217-247, String(s1, s2), used by operator+. *)
Definition new_concat (s1 s2 : ptr) : out dyn :=
  let! l1 := get_text_length s1 in
  let! l2 := get_text_length s2 in
  let size := Z.of_nat l1 + Z.of_nat l2 + 1 in
  if 1 <? size then
    let d := new_sized size in
    let! b := copy_text s1 (chars d) 0 in
    let! b := copy_text s2 b l1 in Ret (with_chars d b)
  else let! b := wr local_init 0 0 in Ret (Dyn size 16 None b).

(** TSString.cpp:249-280, String(n, s1), used by operator+. *)
Definition new_concat_int (n : Z) (s1 : ptr) : out dyn :=
  let! l1 := get_text_length s1 in
  let p := physical_size (Z.of_nat l1 + 64) in
  let! b := copy_text s1 (g p) 0 in
  let! (b, l) := integer_to_string n b l1 63 in Ret (Dyn (Z.of_nat l1 + l + 1) p (Some b) local_init).
Definition new_concat_int64 (n : Z) (s1 : ptr) : out dyn :=
  let! l1 := get_text_length s1 in
  let p := physical_size (Z.of_nat l1 + 64) in
  let! b := copy_text s1 (g p) 0 in
  let! (b, l) := integer64_to_string n b l1 63 in Ret (Dyn (Z.of_nat l1 + l + 1) p (Some b) local_init).

(** TSString.cpp:295-321, Resize. *)
Definition resize (d : dyn) (size : Z) : dyn :=
  if 16 <? size then
    if (physical d <? size) || (size <? physical d / 2) then
      Dyn size (physical_size size) (Some (g (physical_size size))) (local d)
    else Dyn size (physical d) (heap d) (local d)
  else Dyn size 16 None (local d).

(** TSString.cpp:323-345, Set. *)
Definition dyn_set (d : dyn) (s : ptr) (length : Z) : out dyn :=
  let! l := cut_length (Z.to_nat length) s in
  if (0 <? l)%nat then
    let d := resize d (Z.of_nat l + 1) in
    let! b := copy_text_max s (chars d) 0 (Z.of_nat l) in Ret (with_chars d b)
  else purge d.

(** TSString.cpp:347-376, operator=(String&&): the target and the source, two
    different objects. *)
Definition dyn_move (d s : dyn) : out (dyn * dyn) :=
  match heap s with
  | Some h =>
      let! b := wr (local s) 0 0 in
      Ret (Dyn (logical s) (physical s) (Some h) (local d), Dyn 1 16 None b)
  | None =>
      let! b := copy_n 16 (local s) (local d) 0 in
      Ret (Dyn (logical s) (physical s) None b, s)
  end.

(** The same with source and target the same object: its block is freed and the
    pointer reset. *)
Definition dyn_move_self (d : dyn) : out dyn :=
  match heap d with
  | Some h => let! b := wr (local d) 0 0 in Ret (Dyn 1 16 None b)
  | None => Ret d
  end.

(** TSString.cpp:378-392, operator=(const String&), two different objects. *)
Definition dyn_assign (d s : dyn) : out dyn :=
  let size := logical s in
  if 1 <? size then
    let d := resize d size in
    let! b := copy_text (chars s) (chars d) 0 in Ret (with_chars d b)
  else purge d.

(** The same with source and target the same object: when Resize changes the
    pointer, the text is read from new local or heap storage, not from the freed
    block (the source's pointer is the target's). *)
Definition dyn_assign_self (d : dyn) : out dyn :=
  let size := logical d in
  if 1 <? size then
    let d := resize d size in
    let! b := copy_within_loop (S (length (chars d))) 0 (chars d) 0 in Ret (with_chars d b)
  else purge d.

(** TSString.cpp:394-408, operator=(const char pointer). *)
Definition dyn_text (d : dyn) (s : ptr) : out dyn :=
  let! l := get_text_length s in
  if (0 <? l)%nat then
    let d := resize d (Z.of_nat l + 1) in
    let! b := copy_text s (chars d) 0 in Ret (with_chars d b)
  else purge d.

(** TSString.cpp:410-429, operator=(int32), (uint32), (int64). *)
Definition dyn_int (d : dyn) (n : Z) : out dyn :=
  let d := resize d 64 in
  let! (b, l) := integer_to_string n (chars d) 0 63 in Ret (with_logical (with_chars d b) (l + 1)).
Definition dyn_int64 (d : dyn) (n : Z) : out dyn :=
  let d := resize d 64 in
  let! (b, l) := integer64_to_string n (chars d) 0 63 in Ret (with_logical (with_chars d b) (l + 1)).

(** The growing part of the appending functions: TSString.cpp:444-457. *)
Definition grow (d : dyn) (size : Z) : out dyn :=
  if physical d <? size then
    let p := Z.max (physical_size size) (physical d + physical d / 2) in
    let! b := copy_text (chars d) (g p) 0 in Ret (Dyn (logical d) p (Some b) (local d))
  else Ret d.

(** A write at stringPointer + logicalSize - 1. *)
Definition at_end (d : dyn) (f : list Z -> nat -> out (list Z)) : out dyn :=
  if logical d <? 1 then UB
  else let! b := f (chars d) (Z.to_nat (logical d - 1)) in Ret (with_chars d b).

(** TSString.cpp:438-463, operator+=(const String&), two different objects. *)
Definition dyn_append_dyn (d s : dyn) : out dyn :=
  let length := logical s - 1 in
  if 0 <? length then
    let size := logical d + length in
    let! d := grow d size in
    let! d := at_end d (copy_text (chars s)) in
    Ret (with_logical d size)
  else Ret d.

(** The same with an object appended to itself: CopyText reads what it writes, so
    that it never meets a NUL and runs out of the storage. *)
Definition dyn_append_self (d : dyn) : out dyn :=
  let length := logical d - 1 in
  if 0 <? length then
    let size := logical d + length in
    let! d := grow d size in
    let! d := at_end d (copy_within_loop (S (List.length (chars d))) 0) in
    Ret (with_logical d size)
  else Ret d.

(** TSString.cpp:465-490, operator+=(const char pointer). *)
Definition dyn_append (d : dyn) (s : ptr) : out dyn :=
  let! l := get_text_length s in
  if (0 <? l)%nat then
    let size := logical d + Z.of_nat l in
    let! d := grow d size in
    let! d := at_end d (copy_text s) in
    Ret (with_logical d size)
  else Ret d.

(** TSString.cpp:492-513, operator+=(char). *)
Definition dyn_append_char (d : dyn) (k : Z) : out dyn :=
  let size := logical d + 1 in
  let! d := grow d size in
  let! d := at_end d (fun b i => let! b := wr b i k in wr b (S i) 0) in
  Ret (with_logical d size).

(** TSString.cpp:515-597, operator+=(int32), (uint32), (int64), (uint64). *)
Definition dyn_append_number (conv : Z -> list Z -> nat -> Z -> out (list Z * Z)) (d : dyn) (n : Z) : out dyn :=
  let! d := grow d (logical d + 64) in
  if logical d <? 1 then UB
  else
    let! (b, l) := conv n (chars d) (Z.to_nat (logical d - 1)) 63 in
    Ret (with_logical (with_chars d b) (logical d + l)).

(** TSString.cpp:599-653, SetStringLength. The physical size is not updated when
    the text moves to the local storage. *)
Definition set_string_length (d : dyn) (length : Z) : out dyn :=
  if 0 <? length then
    let size := length + 1 in
    if negb (size =? logical d) then
      let copy_length := Z.min length (logical d - 1) in
      let! d :=
        (if 16 <? size then
           if (physical d <? size) || (size <? physical d / 2) then
             let p := physical_size size in
             let! b := copy_text_max (chars d) (g p) 0 copy_length in
             Ret (Dyn size p (Some b) (local d))
           else Ret (with_logical d size)
         else
           match heap d with
           | Some h => let! b := copy_text_max h (local d) 0 copy_length in Ret (Dyn size (physical d) None b)
           | None => Ret (with_logical d size)
           end) in
      let! b := wr (chars d) (Z.to_nat length) 0 in Ret (with_chars d b)
    else Ret d
  else purge d.

(** TSString.cpp:655-679, AppendString. *)
Definition dyn_append_string (d : dyn) (s : ptr) (length : Z) : out dyn :=
  if 0 <? length then
    let size := logical d + length in
    let! d := grow d size in
    let! d := at_end d (fun b i => copy_text_max s b i length) in
    Ret (with_logical d size)
  else Ret d.

(** Loops over the characters up to the NUL, in place: TSString.cpp:681-742,
    ConvertToLowerCase, ConvertToUpperCase, ReplaceChar. *)
Fixpoint map_text (f : Z -> Z) (b : list Z) : out (list Z) :=
  match b with
  | [] => UB
  | c :: r => if c =? 0 then Ret b else let! r := map_text f r in Ret (f c :: r)
  end.
Definition dyn_map (f : Z -> Z) (d : dyn) : out dyn :=
  let! b := map_text f (chars d) in Ret (with_chars d b).
(** [c - 'A' < 26U] in unsigned arithmetic: false below 'A' (the difference wraps). *)
Definition to_lower (c : Z) : Z := if (0 <=? c - 65) && (c - 65 <? 26) then c + 32 else c.
Definition to_upper (c : Z) : Z := if (0 <=? c - 97) && (c - 97 <? 26) then c - 32 else c.

(** TSString.cpp:744-881, EncodeEscapeSequences. *)
Definition encoded (c : Z) : list Z :=
  let hex h := if h <? 10 then h + 48 else h + 55 in
  if (7 <=? c) && (c <=? 13) then [92; nth (Z.to_nat (c - 7)) [97; 98; 116; 110; 118; 102; 114] 0]
  else if (c <? 32) || (c =? 127) then [92; 120; hex (c / 16); hex (c mod 16)]
  else if (c =? 34) || (c =? 92) then [92; c]
  else [c].
Fixpoint encode_into (src : ptr) (b : list Z) (i : nat) : out (list Z) :=
  match src with
  | [] => UB
  | c :: r =>
      if c =? 0 then wr b i 0
      else let! b := wrs b i (encoded c) in encode_into r b (i + length (encoded c))
  end.
Definition dyn_escape (d : dyn) : out dyn :=
  let! l := get_text_length (chars d) in
  let t := concat (map encoded (firstn l (chars d))) in
  if existsb (fun c => (1 <? length (encoded c))%nat) (firstn l (chars d)) then
    let n := Z.of_nat (length t) in
    let! b := encode_into (chars d) (g (physical_size n)) 0 in
    Ret (Dyn n (physical_size n) (Some b) (local d))
  else Ret d.

(** Operations with operands outside the object. *)
Definition dyn_op (d : dyn) (o : str_op) : out dyn :=
  match o with
  | OpAssign p => dyn_text d p
  | OpSet p n => dyn_set d p n
  | OpInt n => dyn_int d n
  | OpInt64 n => dyn_int64 d n
  | OpAppend p => dyn_append d p
  | OpAppendChar k => dyn_append_char d k
  | OpAppendInt n => dyn_append_number integer_to_string d n
  | OpAppendInt64 n => dyn_append_number integer64_to_string d n
  | OpAppendString p n => dyn_append_string d p n
  end.

(** Commands on a list of objects; a missing object is a programming error ([UB]). *)
Definition get (S : list dyn) (i : nat) : out dyn :=
  match nth_error S i with Some d => Ret d | None => UB end.

Definition dyn_cmd (c : cmd) (S : list dyn) : out (list dyn) :=
  match c with
  | NewEmpty => let! d := new_empty in Ret (S ++ [d])
  | NewText p => let! d := new_text p in Ret (S ++ [d])
  | NewPart p n => let! d := new_part p n in Ret (S ++ [d])
  | NewInt n => let! d := new_int n in Ret (S ++ [d])
  | NewInt64 n => let! d := new_int64 n in Ret (S ++ [d])
  | NewCopy j => let! s := get S j in let! d := new_copy s in Ret (S ++ [d])
  | NewMove j => let! s := get S j in let! (d, s) := new_move s in Ret (put S j s ++ [d])
  | NewConcat j p => let! s := get S j in let! d := new_concat (chars s) p in Ret (S ++ [d])
  | NewConcatInt j n => let! s := get S j in let! d := new_concat_int n (chars s) in Ret (S ++ [d])
  | NewConcatInt64 j n => let! s := get S j in let! d := new_concat_int64 n (chars s) in Ret (S ++ [d])
  | Do i o => let! d := get S i in let! d := dyn_op d o in Ret (put S i d)
  | Assign i j =>
      let! d := get S i in let! s := get S j in
      let! d := (if (i =? j)%nat then dyn_assign_self d else dyn_assign d s) in Ret (put S i d)
  | Move i j =>
      let! d := get S i in let! s := get S j in
      if (i =? j)%nat then let! d := dyn_move_self d in Ret (put S i d)
      else let! (d, s) := dyn_move d s in Ret (put (put S i d) j s)
  | Append i j =>
      let! d := get S i in let! s := get S j in
      let! d := (if (i =? j)%nat then dyn_append_self d else dyn_append_dyn d s) in Ret (put S i d)
  | Length i n => let! d := get S i in let! d := set_string_length d n in Ret (put S i d)
  | Purge i => let! d := get S i in let! d := purge d in Ret (put S i d)
  | Lower i => let! d := get S i in let! d := dyn_map to_lower d in Ret (put S i d)
  | Upper i => let! d := get S i in let! d := dyn_map to_upper d in Ret (put S i d)
  | Replace i x y => let! d := get S i in let! d := dyn_map (fun c => if c =? x then y else c) d in Ret (put S i d)
  | Escape i => let! d := get S i in let! d := dyn_escape d in Ret (put S i d)
  end.
End Alloc.

(** A program: the k-th command finds the memory contents [g k]. *)
Fixpoint dyn_run (g : nat -> Z -> list Z) (k : nat) (cs : list cmd) (S : list dyn) : out (list dyn) :=
  match cs with
  | [] => Ret S
  | c :: cs' => let! S := dyn_cmd (g k) c S in dyn_run g (Datatypes.S k) cs' S
  end.
