(** * Model of the overloads of String<0> for unsigned integers (TSString.h, TSString.cpp). The
    conversion of the operand to the parameter of IntegerToString (int32) or Integer64ToString
    (int64) is modulo 2^32 or 2^64. *)

From Verif Require Import Base StringModel DynModel.

Section Alloc.
Variable g : Z -> list Z.

(** TSString.cpp:196-201, String(uint32). *)
Definition new_uint (n : Z) : out dyn := new_int (i32 n).

(** TSString.cpp:260-269, String(uint32, const char pointer), used by operator+ (TSString.h:495-498). *)
Definition new_concat_uint (n : Z) (s1 : ptr) : out dyn := new_concat_int g (i32 n) s1.

(** TSString.cpp:417-422, operator=(uint32). *)
Definition dyn_uint (d : dyn) (n : Z) : out dyn := dyn_int g d (i32 n).

(** TSString.cpp:536-555, operator+=(uint32), and 578-597, operator+=(uint64). *)
Definition dyn_append_uint (d : dyn) (n : Z) : out dyn := dyn_append_number g integer_to_string d (i32 n).
Definition dyn_append_uint64 (d : dyn) (n : Z) : out dyn := dyn_append_number g integer64_to_string d (i64 n).
End Alloc.
