(** * Specification of decoding UTF-8 and UTF-16, independent of the models. *)

From Verif Require Import Base SpecUtf8.

(** Decoding of arbitrary bytes: sequences of the UTF-8 pattern give their code
    point, a byte that starts none gives U+FFFD. *)
Inductive decodes : list Z -> list Z -> Prop :=
| d_nil : decodes [] []
| d_char cp s l : code_point cp -> cp <> 0 -> decodes s l -> decodes (utf8 cp ++ s) (cp :: l)
| d_bad c s l : (forall cp r, code_point cp -> c :: s <> utf8 cp ++ r) -> c <> 0 ->
    decodes s l -> decodes (c :: s) (0xFFFD :: l).

Definition encode8 (l : list Z) : list Z := concat (map utf8 l).
Definition encode16 (l : list Z) : list Z := concat (map utf16 l).

Definition high (u : Z) : Prop := 0xD800 <= u < 0xDC00.
Definition low (u : Z) : Prop := 0xDC00 <= u < 0xE000.

(** The code point of a surrogate pair. *)
Definition pair_code (h l : Z) : Z := 0x10000 + (h - 0xD800) * 1024 + (l - 0xDC00).

(** Decoding of arbitrary units: surrogates outside pairs are dropped. *)
Inductive wdecodes : list Z -> list Z -> Prop :=
| w_nil : wdecodes [] []
| w_unit u w l : ~ surrogate u -> 0 < u < 65536 -> wdecodes w l -> wdecodes (u :: w) (u :: l)
| w_pair h o w l : high h -> low o -> wdecodes w l -> wdecodes (h :: o :: w) (pair_code h o :: l)
| w_low u w l : low u -> wdecodes w l -> wdecodes (u :: w) l
| w_high u w l : high u -> (forall o w', w = o :: w' -> ~ low o) -> wdecodes w l -> wdecodes (u :: w) l.

(** The longest prefix whose UTF-8 encoding has at most [max] bytes. *)
Fixpoint fitting (max : Z) (l : list Z) : list Z :=
  match l with
  | [] => []
  | cp :: l' => if Z.of_nat (length (utf8 cp)) <=? max
                then cp :: fitting (max - Z.of_nat (length (utf8 cp))) l' else []
  end.

(** The shortest prefix whose UTF-16 encoding has at least [max] units, or all. *)
Fixpoint reaching (max : Z) (l : list Z) : list Z :=
  match l with
  | [] => []
  | cp :: l' => if 0 <? max then cp :: reaching (max - Z.of_nat (length (utf16 cp))) l' else []
  end.

(** Storage of exactly the given contents, a zero, and the rest of [old]. *)
Definition holding (s old : list Z) : list Z := s ++ 0 :: skipn (S (length s)) old.
