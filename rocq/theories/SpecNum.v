(** * Specification of decimal literals and of rounding to binary64.
    Independent of the models (no algorithm here). *)

From Coq Require Export Floats.SpecFloat.
From Verif Require Import Base.

Definition digit (c : Z) : Prop := 48 <= c <= 57.
Definition digits (s : list Z) : Prop := Forall digit s.

(** Value of a digit string. *)
Fixpoint dvalue (s : list Z) : Z :=
  match s with
  | [] => 0
  | c :: s' => (c - 48) * 10 ^ Z.of_nat (length s') + dvalue s'
  end.

(** An optional sign, and whether it is a minus. *)
Inductive sign_text : list Z -> bool -> Prop :=
| sg_none : sign_text [] false
| sg_plus : sign_text [43] false
| sg_minus : sign_text [45] true.

(** An optional exponent part and its value. *)
Inductive exp_text : list Z -> Z -> Prop :=
| ex_none : exp_text [] 0
| ex_some e sg neg ds : (e = 101 \/ e = 69) -> sign_text sg neg -> digits ds -> ds <> [] ->
    exp_text (e :: sg ++ ds) (if neg then - dvalue ds else dvalue ds).

(** An optional fraction part and its digits. *)
Inductive frac_text : list Z -> list Z -> Prop :=
| fr_none : frac_text [] []
| fr_some ds : digits ds -> frac_text (46 :: ds) ds.

(** Decimal floating literals of the C language: [t] denotes
    (-1)^neg * m * 10^e. *)
Inductive decimal : list Z -> bool -> Z -> Z -> Prop :=
| decimal_intro sg neg ip fr fp ex x :
    sign_text sg neg -> digits ip -> frac_text fr fp -> ip ++ fp <> [] -> exp_text ex x ->
    decimal (sg ++ ip ++ fr ++ ex) neg (dvalue (ip ++ fp)) (x - Z.of_nat (length fp)).

(** RFC 8259 numbers: -? int frac? exp?. *)
Inductive rfc_number : list Z -> bool -> Z -> Z -> Prop :=
| rfc_number_intro sg neg ip fr fp ex x :
    (sg = [] /\ neg = false \/ sg = [45] /\ neg = true) ->
    digits ip -> (ip = [48] \/ exists c r, ip = c :: r /\ c <> 48) ->
    frac_text fr fp -> (fr <> [] -> fp <> []) -> exp_text ex x ->
    rfc_number (sg ++ ip ++ fr ++ ex) neg (dvalue (ip ++ fp)) (x - Z.of_nat (length fp)).

(** ** Rounding.  Magnitudes are measured in units of 2^-1074, of which every
    finite double is an integer multiple. *)

(** Canonical doubles (the 2^64 bit patterns, NaNs identified). *)
Definition valid_double (d : spec_float) : Prop := valid_binary 53 1024 d = true.

Definition magnitude (d : spec_float) : Z :=
  match d with
  | S754_finite _ m e => Zpos m * 2 ^ (e + 1074)
  | _ => 0
  end.

Definition is_finite (d : spec_float) : Prop :=
  match d with S754_zero _ | S754_finite _ _ _ => True | _ => False end.

Definition sign_of (d : spec_float) : option bool :=
  match d with
  | S754_zero s | S754_infinity s | S754_finite s _ _ => Some s
  | S754_nan => None
  end.

Definition even_mantissa (d : spec_float) : Prop :=
  match d with S754_finite _ m _ => Z.even (Zpos m) = true | _ => True end.

(** A/B is the magnitude in units: m * 10^e * 2^1074. *)
Definition dec_A (m e : Z) : Z := m * 10 ^ Z.max 0 e * 2 ^ 1074.
Definition dec_B (e : Z) : Z := 10 ^ Z.max 0 (- e).

(** Half way between the largest finite double and 2^1024. *)
Definition overflow_threshold : Z := (2 ^ 1024 - 2 ^ 970) * 2 ^ 1074.

(** [d] is the double nearest to (-1)^neg * m * 10^e, ties to even. *)
Definition rounds (neg : bool) (m e : Z) (d : spec_float) : Prop :=
  let A := dec_A m e in
  let B := dec_B e in
  valid_double d /\ sign_of d = Some neg /\
  (B * overflow_threshold <= A -> d = S754_infinity neg) /\
  (A < B * overflow_threshold ->
     is_finite d /\
     forall g, valid_double g -> is_finite g ->
       Z.abs (A - B * magnitude d) <= Z.abs (A - B * magnitude g) /\
       (Z.abs (A - B * magnitude d) = Z.abs (A - B * magnitude g) ->
        magnitude d <> magnitude g -> even_mantissa d)).
