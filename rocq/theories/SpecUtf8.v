(** * Specification of UTF-8 (RFC 3629), independent of the models. *)

From Verif Require Import Base.

Definition code_point (cp : Z) : Prop := 0 <= cp <= 0x10FFFF.
Definition surrogate (cp : Z) : Prop := 0xD800 <= cp <= 0xDFFF.
(** Unicode scalar value: what UTF-8 may encode. *)
Definition scalar (cp : Z) : Prop := code_point cp /\ ~ surrogate cp.

(** The UTF-8 pattern for a code point (for surrogates: generalised UTF-8). *)
Definition utf8 (cp : Z) : list Z :=
  if cp <? 0x80 then [cp]
  else if cp <? 0x800 then [0xC0 + cp / 64; 0x80 + cp mod 64]
  else if cp <? 0x10000 then [0xE0 + cp / 4096; 0x80 + cp / 64 mod 64; 0x80 + cp mod 64]
  else [0xF0 + cp / 262144; 0x80 + cp / 4096 mod 64; 0x80 + cp / 64 mod 64; 0x80 + cp mod 64].

(** Text made of code points satisfying [P]. *)
Inductive utf8_text (P : Z -> Prop) : list Z -> Prop :=
| ut_nil : utf8_text P []
| ut_cons cp s : P cp -> utf8_text P s -> utf8_text P (utf8 cp ++ s).

(** Valid UTF-8. *)
Definition valid_utf8 : list Z -> Prop := utf8_text scalar.

(** UTF-16 encoding of a code point. *)
Definition utf16 (cp : Z) : list Z :=
  if cp <? 0x10000 then [cp]
  else [0xD800 + (cp - 0x10000) / 1024; 0xDC00 + (cp - 0x10000) mod 1024].
