(** * Specification of strings when memory runs out: kinds of calls. *)

From Verif Require Import Base SpecText DynModel StrFailModel.

(** Calls that replace the text; calls that append to it. *)
Definition assigns (c : fcmd) : Prop := match c with FOp o => initialises o | FAssign _ => True | _ => False end.
Definition appends (c : fcmd) : Prop := match c with FOp o => ~ initialises o | _ => False end.

(** The text is on the heap: what a string of 16 or more characters needs. *)
Definition on_heap (s : fstr) : Prop := f_store s <> Local.

(** Operands in range (as for C37; EncodeEscapeSequences and SetStringLength to 1..15 are
    wrong without any failure). *)
Definition fcmd_ok (sound_dyn : dyn -> Prop) (c : fcmd) : Prop :=
  match c with
  | FOp o => operand_ok o
  | FAssign from => sound_dyn from
  | FLength n => n <= 0 \/ 16 <= n
  | FPurge => True
  | FEscape => False
  end.
