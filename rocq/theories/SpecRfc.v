(** * Specification of RFC 8259 tokens and documents. Independent of the models. *)

From Verif Require Import Base SpecUtf8 SpecNum SpecGrammar.

(** RFC 8259 section 7, unescaped characters; the text is UTF-8 (section 8.1). *)
Definition rfc_raw (cp : Z) : Prop := scalar cp /\ 32 <= cp /\ cp <> 34 /\ cp <> 92.

(** A string body denotes a sequence of UTF-16 code units. *)
Inductive rfc_units : list Z -> list Z -> Prop :=
| ru_nil : rfc_units [] []
| ru_raw cp t u : rfc_raw cp -> rfc_units t u -> rfc_units (utf8 cp ++ t) (utf16 cp ++ u)
| ru_esc c x t u : short_escape c x -> rfc_units t u -> rfc_units (92 :: c :: t) (x :: u)
| ru_hex h cu t u : hex4 h cu -> rfc_units t u -> rfc_units (92 :: 117 :: h ++ t) (cu :: u).

(** The string denoted, in UTF-8: defined when the units are the UTF-16 encoding
    of a sequence of characters. *)
Definition rfc_str (t s : list Z) : Prop :=
  exists cps, Forall scalar cps /\ rfc_units t (flat_map utf16 cps) /\ s = flat_map utf8 cps.

(** A number denotes the nearest double. *)
Definition rfc_num (t : list Z) (d : spec_float) : Prop := exists neg m e, rfc_number t neg m e /\ rounds neg m e d.

(** Documents with their meaning, and the bare syntax. *)
Definition rfc_doc : list Z -> jv -> Prop := gdoc rfc_str rfc_num.
Definition rfc_text (t : list Z) : Prop :=
  exists j, gdoc (fun t _ => exists u, rfc_units t u) (fun t _ => exists neg m e, rfc_number t neg m e) t j.

(** A number whose integer part is a 0 directly followed by an exponent. *)
Definition zero_exp (t : list Z) : Prop :=
  exists sg e r, (sg = [] \/ sg = [45]) /\ (e = 101 \/ e = 69) /\ t = sg ++ 48 :: e :: r.

(** ** The part of RFC 8259 that the library supports *)

(** Raw characters without DEL; escapes without NUL and surrogates. *)
Definition core_raw (cp : Z) : Prop := rfc_raw cp /\ cp <> 127.
Definition core_unit (cu : Z) : Prop := cu <> 0 /\ ~ surrogate cu.
Definition core_str : list Z -> list Z -> Prop := string_body core_raw core_unit.
Definition core_num (t : list Z) (d : spec_float) : Prop := rfc_num t d /\ ~ zero_exp t.
Definition core_doc : list Z -> jv -> Prop := gdoc core_str core_num.
