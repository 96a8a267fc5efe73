(** * Specification of hexadecimal texts and of four character types. Independent
    of the models. *)

From Verif Require Import Base.

(** [c] is the capital hexadecimal digit of the value [d]. *)
Definition hex_char (c d : Z) : Prop := 0 <= d < 10 /\ c = 48 + d \/ 10 <= d < 16 /\ c = 55 + d.

(** [t] is a sequence of capital hexadecimal digits, and denotes [v]. *)
Inductive hex_text : list Z -> Z -> Prop :=
| hex_nil : hex_text [] 0
| hex_snoc t v c d : hex_text t v -> hex_char c d -> hex_text (t ++ [c]) (16 * v + d).

(** The number of a type: four characters, the first one in the highest byte,
    missing ones are zero. *)
Definition type_number (s : list Z) (v : Z) : Prop :=
  exists a b c d, firstn 4 (s ++ [0; 0; 0; 0]) = [a; b; c; d] /\
    v = a * 2 ^ 24 + b * 2 ^ 16 + c * 2 ^ 8 + d.

(** Powers of two. *)
Definition power2 (x : Z) : Prop := exists k, 0 <= k /\ x = 2 ^ k.
