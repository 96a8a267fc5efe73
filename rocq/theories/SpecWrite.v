(** * Specification of the text Write must produce. Independent of the models. *)

From Verif Require Import Base SpecUtf8 SpecMap SpecNum SpecGrammar SpecRfc.

(** Every member with the value of the first member of the same name. *)
Definition first_values (ms : list (list Z * jv)) : list (list Z * jv) :=
  map (fun m => (fst m, match assoc (fst m) ms with Some j => j | None => snd m end)) ms.

Fixpoint normal (j : jv) : jv :=
  match j with
  | JArr l => JArr (map normal l)
  | JObj ms => JObj (first_values (map (fun m => (fst m, normal (snd m))) ms))
  | _ => j
  end.

(** All strings and names of a value satisfy [S], all numbers satisfy [N]. *)
Inductive tokens (S : list Z -> Prop) (N : spec_float -> Prop) : jv -> Prop :=
| tk_str s : S s -> tokens S N (JStr s)
| tk_num d : N d -> tokens S N (JNum d)
| tk_bool b : tokens S N (JBool b)
| tk_null : tokens S N JNull
| tk_arr l : Forall (tokens S N) l -> tokens S N (JArr l)
| tk_obj ms : Forall (fun m => S (fst m) /\ tokens S N (snd m)) ms -> tokens S N (JObj ms).

(** Strings of characters that need no escape: valid UTF-8, no control
    character, quotation mark, backslash or DEL; the second form also admits
    encoded surrogates, which the library reads. *)
Definition plain (s : list Z) : Prop := exists cps, Forall core_raw cps /\ s = flat_map utf8 cps.
Definition lib_plain (s : list Z) : Prop := exists cps, Forall lib_raw cps /\ s = flat_map utf8 cps.

Definition finite_number (d : spec_float) : Prop := valid_double d /\ is_finite d.

(** The indented: one line for each element or member, indented by one more unit
    than the bracket. *)
Fixpoint lines (ls : list (list Z)) : list Z :=
  match ls with
  | [] => []
  | [x] => x ++ [10]
  | x :: r => x ++ [44; 10] ++ lines r
  end.

Section Indented.
Variable number : spec_float -> list Z.
Variable unit : list Z.

Fixpoint indented (indent : list Z) (j : jv) : list Z :=
  match j with
  | JStr s => 34 :: s ++ [34]
  | JNum d => number d
  | JBool true => [116; 114; 117; 101]
  | JBool false => [102; 97; 108; 115; 101]
  | JNull => [110; 117; 108; 108]
  | JArr l => [91; 10] ++ lines (map (fun x => (indent ++ unit) ++ indented (indent ++ unit) x) l) ++ indent ++ [93]
  | JObj ms =>
      [123; 10] ++
      lines (map (fun m => (indent ++ unit) ++ 34 :: fst m ++ [34; 32; 58; 32] ++ indented (indent ++ unit) (snd m)) ms) ++
      indent ++ [125]
  end.
End Indented.
