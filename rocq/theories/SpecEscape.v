(** * Specification of escape sequences: the inside of C string literals (ISO C 5.2.2 and
    6.4.4.4; octal escapes and trigraphs are left out). Independent of the models. *)

From Verif Require Import Base SpecGrammar.

(** The simple escapes. *)
Inductive c_simple : Z -> Z -> Prop :=
| cs_a : c_simple 97 7 | cs_b : c_simple 98 8 | cs_t : c_simple 116 9 | cs_n : c_simple 110 10
| cs_v : c_simple 118 11 | cs_f : c_simple 102 12 | cs_r : c_simple 114 13
| cs_quote : c_simple 34 34 | cs_apostrophe : c_simple 39 39 | cs_question : c_simple 63 63 | cs_backslash : c_simple 92 92.

(** Hexadecimal digits and their value. *)
Inductive hexes : list Z -> Z -> Prop :=
| hx_nil : hexes [] 0
| hx_snoc ds v c x : hexes ds v -> hex_digit c = Some x -> hexes (ds ++ [c]) (16 * v + x).

(** Literals and the characters they denote. [ends ds rest] tells where the digits of \x end. *)
Inductive c_body (ends : list Z -> list Z -> Prop) : list Z -> list Z -> Prop :=
| cb_nil : c_body ends [] []
| cb_plain c t s : c <> 34 -> c <> 92 -> c <> 10 -> c_body ends t s -> c_body ends (c :: t) (c :: s)
| cb_simple c x t s : c_simple c x -> c_body ends t s -> c_body ends (92 :: c :: t) (x :: s)
| cb_hex ds v t s : ds <> [] -> hexes ds v -> ends ds t -> c_body ends t s -> c_body ends (92 :: 120 :: ds ++ t) (v :: s).

(** C: the longest run of digits. A reader that takes two digits. *)
Definition is_hex (c : Z) : Prop := hex_digit c <> None.
Definition longest (ds rest : list Z) : Prop := match rest with c :: _ => ~ is_hex c | [] => True end.
Definition two (ds rest : list Z) : Prop := length ds = 2%nat.

(** The characters with an escape of their own, the other control characters, and the rest. *)
Definition short (c : Z) : Prop := 7 <= c <= 13 \/ c = 34 \/ c = 92.
Definition control (c : Z) : Prop := (0 < c < 32 \/ c = 127) /\ ~ 7 <= c <= 13.
Definition plain (c : Z) : Prop := c <> 0 /\ ~ short c /\ ~ control c.

(** The spelling of a character. *)
Inductive spelled : Z -> list Z -> Prop :=
| sp_plain c : plain c -> spelled c [c]
| sp_short c k : short c -> c_simple k c -> spelled c [92; k]
| sp_control c h l x y : control c -> hex_digit h = Some x -> hex_digit l = Some y -> c = 16 * x + y -> spelled c [92; 120; h; l].

(** No character spelled with \x stands before a hexadecimal digit. *)
Inductive apart : list Z -> Prop :=
| ap_nil : apart []
| ap_one c : apart [c]
| ap_cons c e t : ~ (control c /\ is_hex e) -> apart (e :: t) -> apart (c :: e :: t).

(** Texts of code points whose control characters have a short escape in JSON. *)
Inductive json_text : list Z -> Prop :=
| jt_nil : json_text []
| jt_raw cp t : lib_raw cp -> json_text t -> json_text (SpecUtf8.utf8 cp ++ t)
| jt_esc c t : In c [8; 9; 10; 12; 13; 34; 92] -> json_text t -> json_text (c :: t).
