(** * Nesting of JSON values, and the number tokens of builds without system
    conversions. Independent of the models. *)

From Verif Require Import Base SpecNum SpecGrammar SpecRfc SpecPortable.

(** How deep values are nested: 1 for a value without elements. *)
Fixpoint nesting (j : jv) : nat :=
  match j with
  | JArr l => S ((fix deepest l := match l with [] => O | x :: l' => Nat.max (nesting x) (deepest l') end) l)
  | JObj ms => S ((fix deepest ms := match ms with [] => O | (_, x) :: ms' => Nat.max (nesting x) (deepest ms') end) ms)
  | _ => 1%nat
  end.

Fixpoint deepest (l : list jv) : nat :=
  match l with [] => O | x :: l' => Nat.max (nesting x) (deepest l') end.

Fixpoint deepest_member (ms : list (list Z * jv)) : nat :=
  match ms with [] => O | (_, x) :: ms' => Nat.max (nesting x) (deepest_member ms') end.

Lemma nesting_arr l : nesting (JArr l) = S (deepest l).
Proof. reflexivity. Qed.

Lemma nesting_obj ms : nesting (JObj ms) = S (deepest_member ms).
Proof. reflexivity. Qed.

(** The opening brackets and braces of a text. *)
Definition opening (c : Z) : bool := (c =? 91) || (c =? 123).
Definition openings (s : list Z) : nat := length (filter opening s).

(** Number tokens of these builds: a sign, blanks after a sign, and a literal. The
    parts are whether the sign is a minus, and the digits before and behind the point
    and of the exponent. *)
Inductive p_token : list Z -> bool -> list Z -> list Z -> option (bool * list Z) -> Prop :=
| p_token_intro sg neg b w ip f fp x ex :
    sign_text sg neg -> ws b -> (sg = [] -> b = []) ->
    p_whole w ip -> p_frac f fp -> ip ++ fp <> [] -> p_exp x ex ->
    p_token (sg ++ b ++ w ++ f ++ x) neg ip fp ex.

Definition p_syntax (t : list Z) (_ : spec_float) : Prop := exists neg ip fp ex, p_token t neg ip fp ex.

(** The same value but for the numbers in it. *)
Inductive alike : jv -> jv -> Prop :=
| al_str s : alike (JStr s) (JStr s)
| al_num d d' : alike (JNum d) (JNum d')
| al_bool b : alike (JBool b) (JBool b)
| al_null : alike JNull JNull
| al_arr l l' : Forall2 alike l l' -> alike (JArr l) (JArr l')
| al_obj ms ms' : Forall2 (fun a b => fst a = fst b /\ alike (snd a) (snd b)) ms ms' -> alike (JObj ms) (JObj ms').

(** RFC 8259 numbers, no 0 before an exponent. *)
Definition plain_number (t : list Z) (_ : spec_float) : Prop :=
  (exists neg m e, rfc_number t neg m e) /\ ~ zero_exp t.

(** Integers up to 2^53 with their value. *)
Definition whole_number (t : list Z) (d : spec_float) : Prop :=
  exists sg neg ds, (sg = [] /\ neg = false \/ sg = [45] /\ neg = true) /\ digits ds /\
    (ds = [48] \/ exists c r, ds = c :: r /\ c <> 48) /\ dvalue ds <= 2 ^ 53 /\
    t = sg ++ ds /\ rounds neg (dvalue ds) 0 d.

(** [n] arrays around an empty one. *)
Definition nested (n : nat) : list Z := repeat 91 (S n) ++ repeat 93 (S n).
