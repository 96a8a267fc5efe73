(** * Specification of decimal numerals and of bounded strings. Independent of
    the models. *)

From Verif Require Import Base SpecNum.

(** [t] is the decimal numeral of the integer [n]. *)
Inductive numeral : Z -> list Z -> Prop :=
| num_zero : numeral 0 [48]
| num_pos d ds : digits (d :: ds) -> d <> 48 -> numeral (dvalue (d :: ds)) (d :: ds)
| num_neg d ds : digits (d :: ds) -> d <> 48 -> numeral (- dvalue (d :: ds)) (45 :: d :: ds).

(** A storage [b] holds the string [s]. *)
Definition holds (b s : list Z) : Prop := nul_free s /\ exists rest, b = s ++ 0 :: rest.

(** Operations on strings and their meaning without a length limit. Texts are
    given by pointers to arrays with a NUL. *)
Inductive str_op : Type :=
| OpAssign (p : ptr)                 (* construction from or assignment of a text *)
| OpSet (p : ptr) (n : Z)            (* at most n characters of a text *)
| OpInt (n : Z) | OpInt64 (n : Z)    (* decimal text of an integer *)
| OpAppend (p : ptr)
| OpAppendChar (k : Z)
| OpAppendInt (n : Z) | OpAppendInt64 (n : Z)
| OpAppendString (p : ptr) (n : Z).  (* at most n characters of a text *)

Inductive meaning : str_op -> list Z -> list Z -> Prop :=
| m_assign p s : meaning (OpAssign p) s (cstr p)
| m_set p n s : meaning (OpSet p n) s (firstn (Z.to_nat n) (cstr p))
| m_int n t s : numeral n t -> meaning (OpInt n) s t
| m_int64 n t s : numeral n t -> meaning (OpInt64 n) s t
| m_append p s : meaning (OpAppend p) s (s ++ cstr p)
| m_append_char k s : meaning (OpAppendChar k) s (s ++ [k])
| m_append_int n t s : numeral n t -> meaning (OpAppendInt n) s (s ++ t)
| m_append_int64 n t s : numeral n t -> meaning (OpAppendInt64 n) s (s ++ t)
| m_append_string p n s : meaning (OpAppendString p n) s (s ++ firstn (Z.to_nat n) (cstr p)).

(** Operands in range: texts with a NUL, no NUL character, integers other than
    the least one of their type. *)
Definition operand_ok (o : str_op) : Prop :=
  match o with
  | OpAssign p | OpSet p _ | OpAppend p | OpAppendString p _ => In 0 p
  | OpInt n | OpAppendInt n => - 2 ^ 31 < n < 2 ^ 31
  | OpInt64 n | OpAppendInt64 n => - 2 ^ 63 < n < 2 ^ 63
  | OpAppendChar k => k <> 0
  end.

(** Operations that do not look at the previous contents. *)
Definition initialises (o : str_op) : Prop :=
  match o with OpAssign _ | OpSet _ _ | OpInt _ | OpInt64 _ => True | _ => False end.

(** A run of operations, each cut to [len] characters. *)
Inductive cut_run (len : nat) : list str_op -> list Z -> list Z -> Prop :=
| cut_nil s : cut_run len [] s s
| cut_cons o ops s s1 s2 : meaning o s s1 -> cut_run len ops (firstn len s1) s2 -> cut_run len (o :: ops) s s2.

(** ** Programs over several dynamic strings. Objects are named by their position
    in a list; constructors add one at the end. *)
Inductive cmd : Type :=
| NewEmpty | NewText (p : ptr) | NewPart (p : ptr) (n : Z) | NewInt (n : Z) | NewInt64 (n : Z)
| NewCopy (j : nat) | NewMove (j : nat)
| NewConcat (j : nat) (p : ptr) | NewConcatInt (j : nat) (n : Z) | NewConcatInt64 (j : nat) (n : Z)
| Do (i : nat) (o : str_op)
| Assign (i j : nat) | Move (i j : nat) | Append (i j : nat)
| Length (i : nat) (n : Z) | Purge (i : nat) | Lower (i : nat) | Upper (i : nat) | Replace (i : nat) (x y : Z)
| Escape (i : nat).

Definition put {A} (l : list A) (i : nat) (x : A) : list A := firstn i l ++ x :: skipn (S i) l.

(** ASCII case. *)
Definition lower (c : Z) : Z := if (65 <=? c) && (c <=? 90) then c + 32 else c.
Definition upper (c : Z) : Z := if (97 <=? c) && (c <=? 122) then c - 32 else c.

(** Effect of a command on the texts. A string that was moved from holds its old
    text or none. (Escape is not used in the theorems.) *)
Inductive effect : cmd -> list (list Z) -> list (list Z) -> Prop :=
| e_empty S : effect NewEmpty S (S ++ [[]])
| e_text p S : effect (NewText p) S (S ++ [cstr p])
| e_part p n S : effect (NewPart p n) S (S ++ [firstn (Z.to_nat n) (cstr p)])
| e_int n t S : numeral n t -> effect (NewInt n) S (S ++ [t])
| e_int64 n t S : numeral n t -> effect (NewInt64 n) S (S ++ [t])
| e_copy j s S : nth_error S j = Some s -> effect (NewCopy j) S (S ++ [s])
| e_newmove j s s' S : nth_error S j = Some s -> s' = s \/ s' = [] -> effect (NewMove j) S (put S j s' ++ [s])
| e_concat j p s S : nth_error S j = Some s -> effect (NewConcat j p) S (S ++ [s ++ cstr p])
| e_concat_int j n s t S : nth_error S j = Some s -> numeral n t -> effect (NewConcatInt j n) S (S ++ [s ++ t])
| e_concat_int64 j n s t S : nth_error S j = Some s -> numeral n t -> effect (NewConcatInt64 j n) S (S ++ [s ++ t])
| e_do i o s s' S : nth_error S i = Some s -> meaning o s s' -> effect (Do i o) S (put S i s')
| e_assign i j s0 s S : nth_error S i = Some s0 -> nth_error S j = Some s -> effect (Assign i j) S (put S i s)
| e_move i j s0 s s' S : nth_error S i = Some s0 -> nth_error S j = Some s -> s' = s \/ s' = [] ->
    effect (Move i j) S (put (put S i s) j s')
| e_append i j s s' S : nth_error S i = Some s -> nth_error S j = Some s' -> effect (Append i j) S (put S i (s ++ s'))
| e_length i n s S : nth_error S i = Some s -> effect (Length i n) S (put S i (firstn (Z.to_nat n) s))
| e_purge i s S : nth_error S i = Some s -> effect (Purge i) S (put S i [])
| e_lower i s S : nth_error S i = Some s -> effect (Lower i) S (put S i (map lower s))
| e_upper i s S : nth_error S i = Some s -> effect (Upper i) S (put S i (map upper s))
| e_replace i x y s S : nth_error S i = Some s -> effect (Replace i x y) S (put S i (map (fun c => if c =? x then y else c) s)).
