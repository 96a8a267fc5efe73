(** * Specification for the ownership of value objects: how many values a text
    has, how many of them are kept, and when a text repeats a name. *)

From Coq Require Import List ZArith.
From Verif Require Import Base SpecGrammar.

(** The number of values in a JSON value. *)
Fixpoint all_values (j : jv) : nat :=
  match j with
  | JArr l => S (list_sum (map all_values l))
  | JObj ms => S (list_sum (map (fun m => all_values (snd m)) ms))
  | _ => 1%nat
  end.

(** The number of those that a document with the first member of every name
    keeps. *)
Definition kept_members (kept : jv -> nat) : list (list Z) -> list (list Z * jv) -> nat :=
  fix go (seen : list (list Z)) (ms : list (list Z * jv)) : nat :=
    match ms with
    | [] => 0%nat
    | (k, j) :: ms' =>
        ((if in_dec (list_eq_dec Z.eq_dec) k seen then 0 else kept j) + go (k :: seen) ms')%nat
    end.

Fixpoint kept (j : jv) : nat :=
  match j with
  | JArr l => S (list_sum (map kept l))
  | JObj ms => S (kept_members kept [] ms)
  | _ => 1%nat
  end.

(** Somewhere in the text an opening brace is followed by members of which two
    have the same name. *)
Definition repeats (text : list Z) : Prop :=
  exists before t members after,
    text = before ++ 123 :: t ++ after /\
    gmembers lib_str lib_num t members /\ ~ NoDup (map fst members).

(** No object in the value has two members with the same name. *)
Inductive distinct : jv -> Prop :=
| di_str s : distinct (JStr s)
| di_num d : distinct (JNum d)
| di_bool b : distinct (JBool b)
| di_null : distinct JNull
| di_arr l : Forall distinct l -> distinct (JArr l)
| di_obj ms : NoDup (map fst ms) -> Forall (fun m => distinct (snd m)) ms -> distinct (JObj ms).
