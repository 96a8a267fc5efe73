(** * String literals as byte lists, for examples and witnesses. *)

From Coq Require Import String Ascii.
From Verif Require Import Base.
Export Coq.Strings.String.StringSyntax.

(** The bytes of a literal. *)
Fixpoint b (s : string) : list Z :=
  match s with
  | EmptyString => []
  | String c s' => Z.of_N (N_of_ascii c) :: b s'
  end.

(** The characters of a byte list, for display. *)
Fixpoint show (s : list Z) : string :=
  match s with
  | [] => EmptyString
  | c :: s' => String (ascii_of_N (Z.to_N c)) (show s')
  end.

(** A terminated buffer. *)
Definition buf (s : string) : list Z := b s ++ [0].

Notation "'`' s" := (b s%string) (at level 1, only parsing).
