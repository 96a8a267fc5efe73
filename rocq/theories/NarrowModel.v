(** * Writing in builds without system conversions, Code/Json4C4/C4Json.cpp.

    NumberValue::Write (C4Json.cpp:1211-1230, the [#else] branch) passes its double to
    Text::FloatToString(float) (TSString.h:698-701): the number becomes a float, whose
    text is written into a String<15>. The other Write functions are those of
    WriterModel.v; here they may be undefined, because FloatToString may. *)

From Verif Require Import Base TextModel NumModel MapModel ParserModel WriterModel FloatTextModel.

(** The bits of the float nearest to m * 2^e; 2^k is the distance of the floats
    around it. A mantissa that becomes 2^24 carries into the exponent. *)
Definition float_magnitude (m e : Z) : Z :=
  let k := Z.max (-149) (e + Z.log2 m - 23) in
  let q := div_half_even (m * 2 ^ Z.max 0 (e - k)) (2 ^ Z.max 0 (k - e)) in
  Z.min 0x7F800000 ((k + 149) * 2 ^ 23 + q).

(** The conversion of double to float, as IEEE 754 has it (round to nearest even). C++
    leaves numbers beyond the largest float undefined; IEEE 754 makes them infinite. *)
Definition float_of_double (d : double) : Z :=
  let sign (s : bool) := if s then 0x80000000 else 0 in
  match d with
  | S754_nan => 0x7FC00000
  | S754_infinity s => sign s + 0x7F800000
  | S754_zero s => sign s
  | S754_finite s m e => sign s + float_magnitude (Zpos m) e
  end.

Section Write.
(** The rules for shifts and the scaling function of FloatTextModel.v, and the bytes
    the String<15> has before. *)
Variables (strict : bool) (scale : Z -> Z * Z) (junk : list Z).

(** C4Json.cpp:1226, the text of a number. *)
Definition narrow_text (d : double) : out chunk :=
  let! b := fix_assign_float 15 strict scale junk (float_of_double d) in
  Ret (put_text b).

(** indentationLength and indentationChar. *)
Variables (n : nat) (c : Z).

(** As [write_elements] of WriterModel.v, C4Json.cpp:1445-1458. *)
Fixpoint narrow_elements (ws : list (list Z -> out wresult)) (arr : list Z) : out wresult :=
  match ws with
  | [] => Ret (kOk, [], arr)
  | w :: ws' =>
      let! (st, out, arr1) := w arr in
      if negb (status_eqb st kOk) then Ret (st, arr :: out, arr1)
      else
        let! (st', out', arr2) := narrow_elements ws' arr1 in
        Ret (st', arr :: out ++ comma ws' :: [10] :: out', arr2)
  end.

(** As [write_members] of WriterModel.v, C4Json.cpp:1662-1684. *)
Fixpoint narrow_members (m : @tree (list Z -> out wresult)) (order : list (list Z)) (arr : list Z) : out wresult :=
  match order with
  | [] => Ret (kOk, [], arr)
  | name :: order' =>
      match find_named m name with
      | None => Ret (kMissingObjectElement, [], arr)
      | Some (k, w) =>
          let head := [arr; [34]; put_text k; [34; 32; 58; 32]] in
          let! (st, out, arr1) := w arr in
          if negb (status_eqb st kOk) then Ret (st, head ++ out, arr1)
          else
            let! (st', out', arr2) := narrow_members m order' arr1 in
            Ret (st', head ++ out ++ comma order' :: [10] :: out', arr2)
      end
  end.

(** As [write] of WriterModel.v with the number text above. *)
Fixpoint narrow_write (v : value) : list Z -> out wresult :=
  match v with
  | VString s => fun arr => Ret (kOk, [[34]; put_text s; [34]], arr)
  | VNumber d => fun arr => let! t := narrow_text d in Ret (kOk, [t], arr)
  | VBool b => fun arr => Ret (kOk, [if b then [116; 114; 117; 101] else [102; 97; 108; 115; 101]], arr)
  | VNull => fun arr => Ret (kOk, [[110; 117; 108; 108]], arr)
  | VArray l => fun arr =>
      let! (st, out, arr1) := narrow_elements (map narrow_write l) (expand_array arr c n) in
      if negb (status_eqb st kOk) then Ret (st, [91; 10] :: out, arr1)
      else let arr2 := shrink_array arr1 n in
           Ret (kOk, [91; 10] :: out ++ [arr2; [93]], arr2)
  | VObject m order => fun arr =>
      let! (st, out, arr1) := narrow_members (map_tree narrow_write m) order (expand_array arr c n) in
      if negb (status_eqb st kOk) then Ret (st, [123; 10] :: out, arr1)
      else let arr2 := shrink_array arr1 n in
           Ret (kOk, [123; 10] :: out ++ [arr2; [125]], arr2)
  end.

(** StructuredData::Write (C4Json.cpp:1810-1831) after the file has been opened. *)
Definition narrow_sd_write (root : option value) : out (status * list chunk) :=
  match root with
  | Some v => let! (st, out, _) := narrow_write v [] in Ret (st, out)
  | None => Ret (kInvalidStructuredData, [])
  end.

End Write.
