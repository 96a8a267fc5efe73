(** * Numbers: strtod, "%.17g", ReadDoubleLiteral (system conversions).

    Code/Json4C4/C4Json.cpp:805-841 and 1211-1230.  [strtod] and [snprintf] are
    C library functions; they are modelled as the correctly rounding functions
    of the C standard / IEEE 754 ("C" locale, round to nearest even).  A double
    is a [spec_float] of the standard library with precision 53 and emax 1024. *)

From Coq Require Export Floats.SpecFloat.
From Verif Require Import Base.

Definition double := spec_float.

(** Unary minus on double (C4Json.cpp:1179-1182). *)
Definition dneg (d : double) : double :=
  match d with
  | S754_zero s => S754_zero (negb s)
  | S754_infinity s => S754_infinity (negb s)
  | S754_nan => S754_nan
  | S754_finite s m e => S754_finite (negb s) m e
  end.

(** ** Rounding a positive rational p/q to binary64 *)

(** Round n/d (d > 0) to an integer, ties to even. *)
Definition div_half_even (n d : Z) : Z :=
  let q := n / d in
  let r := n mod d in
  match 2 * r ?= d with
  | Lt => q
  | Gt => q + 1
  | Eq => if Z.even q then q else q + 1
  end.

(** p/q scaled by 2^-k as a fraction. *)
Definition scale_num (p k : Z) : Z := p * 2 ^ Z.max 0 (- k).
Definition scale_den (q k : Z) : Z := q * 2 ^ Z.max 0 k.

(** The exponent k of the binade of p/q: 2^52 <= p/q/2^k < 2^53, but not below
    the subnormal exponent -1074. *)
Definition binade (p q : Z) : Z :=
  let k0 := Z.log2 p - Z.log2 q - 53 in
  let k := if scale_num p k0 <? scale_den q k0 * 2 ^ 53 then k0 else k0 + 1 in
  Z.max k (-1074).

Definition round_ratio (neg : bool) (p q : Z) : double :=
  let k := binade p q in
  let m := div_half_even (scale_num p k) (scale_den q k) in
  let '(m, k) := if m =? 2 ^ 53 then (2 ^ 52, k + 1) else (m, k) in
  if 971 <? k then S754_infinity neg
  else match m with
       | Zpos m' => S754_finite neg m' k
       | _ => S754_zero neg
       end.

(** The double nearest to (-1)^neg * m * 10^e. *)
Definition dec_to_double (neg : bool) (m e : Z) : double :=
  if m =? 0 then S754_zero neg
  else if 0 <=? e then round_ratio neg (m * 10 ^ e) 1
  else round_ratio neg m (10 ^ (- e)).

(** ** strtod *)

Definition is_digit (c : Z) : bool := (48 <=? c) && (c <=? 57).

Fixpoint span_digits (s : list Z) : list Z * list Z :=
  match s with
  | c :: s' => if is_digit c then let '(d, r) := span_digits s' in (c :: d, r) else ([], s)
  | [] => ([], [])
  end.

Definition digits_val (ds : list Z) : Z := fold_left (fun a c => 10 * a + (c - 48)) ds 0.

Definition take_sign (s : list Z) : bool * list Z :=
  match s with
  | c :: s' => if c =? 45 then (true, s') else if c =? 43 then (false, s') else (false, s)
  | [] => (false, [])
  end.

(** The optional exponent part: value and remaining text. *)
Definition take_exponent (s : list Z) : Z * list Z :=
  match s with
  | c :: s1 =>
      if (c =? 101) || (c =? 69) then
        let '(neg, s2) := take_sign s1 in
        let '(ds, s3) := span_digits s2 in
        match ds with
        | [] => (0, s)
        | _ => ((if neg then - digits_val ds else digits_val ds), s3)
        end
      else (0, s)
  | [] => (0, [])
  end.

(** strtod on a C string over the characters 0-9 . e E + - (the only ones that
    occur at C4Json.cpp:820-826, so no leading blanks, hexadecimal, inf or
    nan).  Result: [None] when nothing was converted (end == str), otherwise
    the value and the unconverted rest. *)
Definition strtod (s : list Z) : option (double * list Z) :=
  let '(neg, s1) := take_sign s in
  let '(ip, s2) := span_digits s1 in
  let '(fp, s3) := match s2 with
                   | c :: s' => if c =? 46 then
                                  let '(fp, s'') := span_digits s' in
                                  match ip, fp with
                                  | [], [] => ([], s2)
                                  | _, _ => (fp, s'')
                                  end
                                else ([], s2)
                   | [] => ([], [])
                   end in
  match ip, fp with
  | [], [] => None
  | _, _ =>
      let '(ex, s4) := take_exponent s3 in
      Some (dec_to_double neg (digits_val (ip ++ fp)) (ex - Z.of_nat (length fp)), s4)
  end.

(** ** snprintf("%.17g") *)

(** x / 10^n as a fraction, for x = P/Q. *)
Definition dec_num (P n : Z) : Z := P * 10 ^ Z.max 0 (- n).
Definition dec_den (Q n : Z) : Z := Q * 10 ^ Z.max 0 n.

(** The decimal exponent: the least X >= X0 with P/Q < 10^(X+1), searched over
    [n] candidates. *)
Fixpoint dec_exp (n : nat) (X : Z) (P Q : Z) : Z :=
  match n with
  | O => X
  | S n' => if dec_num P (X + 1) <? dec_den Q (X + 1) then X else dec_exp n' (X + 1) P Q
  end.

(** 17 significant digits D and exponent X: P/Q is rounded to D * 10^(X-16). *)
Definition sci17 (P Q : Z) : Z * Z :=
  let X := dec_exp 700 (-330) P Q in
  let D := div_half_even (dec_num P (X - 16)) (dec_den Q (X - 16)) in
  if D =? 10 ^ 17 then (10 ^ 16, X + 1) else (D, X).

(** The n low decimal digits of z, most significant first, as characters. *)
Fixpoint low_digits (n : nat) (z : Z) : list Z :=
  match n with
  | O => []
  | S n' => low_digits n' (z / 10) ++ [48 + z mod 10]
  end.

(** Removal of trailing '0' characters. *)
Fixpoint strip0 (s : list Z) : list Z :=
  match s with
  | [] => []
  | c :: s' => match strip0 s' with
               | [] => if c =? 48 then [] else [c]
               | r => c :: r
               end
  end.

Definition frac_part (ds : list Z) : list Z :=
  match strip0 ds with [] => [] | r => 46 :: r end.

(** Exponent: sign and at least two digits. *)
Definition exp_part (X : Z) : list Z :=
  [101; if X <? 0 then 45 else 43] ++
  (let a := Z.abs X in if a <? 100 then low_digits 2 a else low_digits 3 a).

Definition format_sci (D X : Z) : list Z :=
  let ds := low_digits 17 D in
  if (X <? -4) || (17 <=? X) then
    firstn 1 ds ++ frac_part (skipn 1 ds) ++ exp_part X
  else if 0 <=? X then
    firstn (Z.to_nat (X + 1)) ds ++ frac_part (skipn (Z.to_nat (X + 1)) ds)
  else
    [48] ++ frac_part (repeat 48 (Z.to_nat (- X - 1)) ++ ds).

(** The text of a double under "%.17g". *)
Definition fmt17g (d : double) : list Z :=
  match d with
  | S754_zero s => (if s then [45] else []) ++ [48]
  | S754_infinity s => (if s then [45] else []) ++ [105; 110; 102]
  | S754_nan => [110; 97; 110]
  | S754_finite s m e =>
      let P := Zpos m * 2 ^ Z.max 0 e in
      let Q := 2 ^ Z.max 0 (- e) in
      let '(D, X) := sci17 P Q in
      (if s then [45] else []) ++ format_sci D X
  end.

(** snprintf(output, n, ...): at most n-1 characters are stored. *)
Definition snprintf17g (n : nat) (d : double) : list Z := firstn (n - 1) (fmt17g d).
