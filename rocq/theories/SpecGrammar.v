(** * Specification of JSON texts: abstract values and the RFC 8259 grammar.
    Independent of the models. *)

From Verif Require Import Base SpecUtf8 SpecNum.

(** Abstract JSON values. *)
Inductive jv : Type :=
| JStr (s : list Z)
| JNum (d : spec_float)
| JBool (b : bool)
| JNull
| JArr (l : list jv)
| JObj (members : list (list Z * jv)).

(** White space: space, tab, line feed, carriage return. *)
Definition wsc (c : Z) : Prop := c = 32 \/ c = 9 \/ c = 10 \/ c = 13.
Definition ws (s : list Z) : Prop := Forall wsc s.

Section Grammar.
(** The token languages with their meanings: the body of a string token (without
    the quotation marks), and a number token. *)
Variable str : list Z -> list Z -> Prop.
Variable num : list Z -> spec_float -> Prop.

(** RFC 8259 sections 2-5: values, elements, members. *)
Inductive gval : list Z -> jv -> Prop :=
| g_str t s : str t s -> gval (34 :: t ++ [34]) (JStr s)
| g_num t d : num t d -> gval t (JNum d)
| g_true : gval [116; 114; 117; 101] (JBool true)
| g_false : gval [102; 97; 108; 115; 101] (JBool false)
| g_null : gval [110; 117; 108; 108] JNull
| g_arr0 w : ws w -> gval (91 :: w ++ [93]) (JArr [])
| g_arr t l : gelems t l -> gval (91 :: t ++ [93]) (JArr l)
| g_obj0 w : ws w -> gval (123 :: w ++ [125]) (JObj [])
| g_obj t l : gmembers t l -> gval (123 :: t ++ [125]) (JObj l)
with gelems : list Z -> list jv -> Prop :=
| ge_one w1 t w2 v : ws w1 -> gval t v -> ws w2 -> gelems (w1 ++ t ++ w2) [v]
| ge_cons w1 t w2 v t' l : ws w1 -> gval t v -> ws w2 -> gelems t' l ->
    gelems (w1 ++ t ++ w2 ++ 44 :: t') (v :: l)
with gmembers : list Z -> list (list Z * jv) -> Prop :=
| gm_one w1 n nm w2 w3 t w4 v : ws w1 -> str n nm -> ws w2 -> ws w3 -> gval t v -> ws w4 ->
    gmembers (w1 ++ 34 :: n ++ 34 :: w2 ++ 58 :: w3 ++ t ++ w4) [(nm, v)]
| gm_cons w1 n nm w2 w3 t w4 v t' l : ws w1 -> str n nm -> ws w2 -> ws w3 -> gval t v -> ws w4 ->
    gmembers t' l ->
    gmembers (w1 ++ 34 :: n ++ 34 :: w2 ++ 58 :: w3 ++ t ++ w4 ++ 44 :: t') ((nm, v) :: l).

(** A document. *)
Inductive gdoc : list Z -> jv -> Prop :=
| gdoc_intro w1 t w2 v : ws w1 -> gval t v -> ws w2 -> gdoc (w1 ++ t ++ w2) v.
End Grammar.

Scheme gval_mind := Minimality for gval Sort Prop
  with gelems_mind := Minimality for gelems Sort Prop
  with gmembers_mind := Minimality for gmembers Sort Prop.
Combined Scheme grammar_mind from gval_mind, gelems_mind, gmembers_mind.

(** ** String tokens *)

(** The eight short escapes. *)
Inductive short_escape : Z -> Z -> Prop :=
| se_quote : short_escape 34 34
| se_backslash : short_escape 92 92
| se_slash : short_escape 47 47
| se_b : short_escape 98 8
| se_f : short_escape 102 12
| se_n : short_escape 110 10
| se_r : short_escape 114 13
| se_t : short_escape 116 9.

Definition hex_digit (c : Z) : option Z :=
  if (48 <=? c) && (c <=? 57) then Some (c - 48)
  else if (65 <=? c) && (c <=? 70) then Some (c - 55)
  else if (97 <=? c) && (c <=? 102) then Some (c - 87)
  else None.

(** Four hexadecimal digits and their value. *)
Inductive hex4 : list Z -> Z -> Prop :=
| hex4_intro a b c d x y z w :
    hex_digit a = Some x -> hex_digit b = Some y -> hex_digit c = Some z -> hex_digit d = Some w ->
    hex4 [a; b; c; d] (((x * 16 + y) * 16 + z) * 16 + w).

(** String bodies and the bytes they denote, for a set of characters that may
    appear raw and a set of code units that may be escaped; each escape \uXXXX
    denotes the (generalised) UTF-8 encoding of XXXX. *)
Inductive string_body (raw : Z -> Prop) (unit_ok : Z -> Prop) : list Z -> list Z -> Prop :=
| sb_nil : string_body raw unit_ok [] []
| sb_raw cp t s : raw cp -> string_body raw unit_ok t s ->
    string_body raw unit_ok (utf8 cp ++ t) (utf8 cp ++ s)
| sb_esc c x t s : short_escape c x -> string_body raw unit_ok t s ->
    string_body raw unit_ok (92 :: c :: t) (x :: s)
| sb_hex h cp t s : hex4 h cp -> unit_ok cp -> string_body raw unit_ok t s ->
    string_body raw unit_ok (92 :: 117 :: h ++ t) (utf8 cp ++ s).

(** The library's language: raw code points (surrogates included) from U+0020,
    without U+0022, U+005C and U+007F; escaped units other than 0. *)
Definition lib_raw (cp : Z) : Prop :=
  code_point cp /\ 32 <= cp /\ cp <> 34 /\ cp <> 92 /\ cp <> 127.
Definition lib_str : list Z -> list Z -> Prop := string_body lib_raw (fun cp => cp <> 0).

(** ** The library's number tokens *)

Definition float_char (c : Z) : Prop := digit c \/ c = 46 \/ c = 101 \/ c = 69 \/ c = 43 \/ c = 45.

Inductive lib_num : list Z -> spec_float -> Prop :=
| lib_num_intro sg neg w run pre suf n m e d :
    sign_text sg neg -> ws w -> (sg = [] -> w = []) ->
    Forall float_char run ->
    (sg = [] -> forall c r, run = c :: r -> c <> 43 /\ c <> 45) ->
    (forall c r, run = 48 :: c :: r -> c = 46) ->
    run = pre ++ suf -> decimal pre n m e ->
    (forall pre' suf' n' m' e', run = pre' ++ suf' -> decimal pre' n' m' e' -> (length pre' <= length pre)%nat) ->
    rounds (xorb neg n) m e d ->
    lib_num (sg ++ w ++ run) d.

(** The language the library supports. *)
Definition lib_val := gval lib_str lib_num.
Definition lib_doc := gdoc lib_str lib_num.
