(** * What an interrupted Write may leave in a file. Independent of the models. *)

From Verif Require Import Base SpecGrammar.

(** The file [old] after the first [b] bytes of [text] have replaced its first bytes. *)
Definition overwritten (b : nat) (text old : list Z) : list Z := firstn b text ++ skipn b old.

(** [s] is made of a first part of each of the [pieces]. *)
Inductive cut : list (list Z) -> list Z -> Prop :=
| cut_nil : cut [] []
| cut_cons p q pieces s : cut pieces s -> cut ((p ++ q) :: pieces) (p ++ s).

(** An array or an object. *)
Definition container (j : jv) : Prop := match j with JArr _ | JObj _ => True | _ => False end.
