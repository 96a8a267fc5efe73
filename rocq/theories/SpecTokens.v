(** * Specification of documents as token sequences with white space between
    the tokens. Independent of the models. *)

From Verif Require Import Base SpecNum SpecGrammar.

(** A token is its text. [layout tks t]: [t] is the tokens [tks] with any white
    space before, between and after them. *)
Inductive layout : list (list Z) -> list Z -> Prop :=
| lay_nil w : ws w -> layout [] w
| lay_cons w tk tks t : ws w -> layout tks t -> layout (tk :: tks) (w ++ tk ++ t).

Section Tokens.
Variable str : list Z -> list Z -> Prop.
Variable num : list Z -> spec_float -> Prop.

Inductive tval : list (list Z) -> jv -> Prop :=
| tv_str t s : str t s -> tval [34 :: t ++ [34]] (JStr s)
| tv_num t d : num t d -> tval [t] (JNum d)
| tv_true : tval [[116; 114; 117; 101]] (JBool true)
| tv_false : tval [[102; 97; 108; 115; 101]] (JBool false)
| tv_null : tval [[110; 117; 108; 108]] JNull
| tv_arr0 : tval [[91]; [93]] (JArr [])
| tv_arr ts l : telems ts l -> tval ([91] :: ts ++ [[93]]) (JArr l)
| tv_obj0 : tval [[123]; [125]] (JObj [])
| tv_obj ts l : tmembers ts l -> tval ([123] :: ts ++ [[125]]) (JObj l)
with telems : list (list Z) -> list jv -> Prop :=
| te_one ts v : tval ts v -> telems ts [v]
| te_cons ts v ts' l : tval ts v -> telems ts' l -> telems (ts ++ [44] :: ts') (v :: l)
with tmembers : list (list Z) -> list (list Z * jv) -> Prop :=
| tm_one n nm ts v : str n nm -> tval ts v -> tmembers ((34 :: n ++ [34]) :: [58] :: ts) [(nm, v)]
| tm_cons n nm ts v ts' l : str n nm -> tval ts v -> tmembers ts' l ->
    tmembers ((34 :: n ++ [34]) :: [58] :: ts ++ [44] :: ts') ((nm, v) :: l).
End Tokens.

Scheme tval_mind := Minimality for tval Sort Prop
  with telems_mind := Minimality for telems Sort Prop
  with tmembers_mind := Minimality for tmembers Sort Prop.
Combined Scheme tokens_mind from tval_mind, telems_mind, tmembers_mind.

Definition lib_tokens := tval lib_str lib_num.
