(** * Documents whose texts grow when they are written. Independent of the models. *)

From Verif Require Import Base SpecGrammar.

(** No object has two members of the same name. *)
Inductive distinct : jv -> Prop :=
| ds_str s : distinct (JStr s)
| ds_num d : distinct (JNum d)
| ds_bool b : distinct (JBool b)
| ds_null : distinct JNull
| ds_arr l : Forall distinct l -> distinct (JArr l)
| ds_obj ms : NoDup (map fst ms) -> Forall (fun m => distinct (snd m)) ms -> distinct (JObj ms).

(** {"a":{"a":...null...,"a":null},"a":null} with [d] objects. *)
Fixpoint twice (d : nat) : jv :=
  match d with O => JNull | S d' => JObj [([97], twice d'); ([97], JNull)] end.
Fixpoint twice_text (d : nat) : list Z :=
  match d with
  | O => [110; 117; 108; 108]
  | S d' => [123; 34; 97; 34; 58] ++ twice_text d' ++ [44; 34; 97; 34; 58; 110; 117; 108; 108; 125]
  end.

(** [[...[]...]] with [d + 1] arrays. *)
Fixpoint nest (d : nat) : jv := match d with O => JArr [] | S d' => JArr [nest d'] end.
Fixpoint nest_text (d : nat) : list Z := match d with O => [91; 93] | S d' => 91 :: nest_text d' ++ [93] end.
