(** * The number literals of builds without system conversions. *)

From Verif Require Import Base SpecNum.

(** Digits in which single underscores may separate digits: the text and the
    digits. *)
Inductive groups : list Z -> list Z -> Prop :=
| g_one c : digit c -> groups [c] [c]
| g_digit c t ds : digit c -> groups t ds -> groups (c :: t) (c :: ds)
| g_sep c t ds : digit c -> groups t ds -> groups (c :: 95 :: t) (c :: ds).

(** The same with an underscore between any two digits. *)
Inductive singles : list Z -> list Z -> Prop :=
| s_one c : digit c -> singles [c] [c]
| s_sep c t ds : digit c -> singles t ds -> singles (c :: 95 :: t) (c :: ds).

(** Integer part: may be absent; after a leading 0 every further digit needs an
    underscore. *)
Inductive p_whole : list Z -> list Z -> Prop :=
| pw_none : p_whole [] []
| pw_plain c t ds : groups (c :: t) ds -> c <> 48 -> p_whole (c :: t) ds
| pw_zero t ds : singles (48 :: t) ds -> p_whole (48 :: t) ds.

(** Fraction: digits may be absent after the point. *)
Inductive p_frac : list Z -> list Z -> Prop :=
| pf_none : p_frac [] []
| pf_point : p_frac [46] []
| pf_some t ds : groups t ds -> p_frac (46 :: t) ds.

(** Exponent. *)
Inductive p_exp : list Z -> option (bool * list Z) -> Prop :=
| pe_none : p_exp [] None
| pe_some e sg neg t ds : (e = 101 \/ e = 69) -> sign_text sg neg -> groups t ds ->
    p_exp (e :: sg ++ t) (Some (neg, ds)).

(** The literal [w ++ f ++ x] can end before the byte [c]. *)
Definition ends (f x : list Z) (c : Z) : Prop :=
  ~ digit c /\ c <> 95 /\
  (f = [] -> x = [] -> c <> 46) /\ (x = [] -> c <> 101 /\ c <> 69).

(** The literal at the start of [p]: its parts and what follows. *)
Inductive p_number : list Z -> list Z -> list Z -> list Z -> option (bool * list Z) -> Prop :=
| p_number_intro w ip f fp x ex c rest :
    p_whole w ip -> p_frac f fp -> ip ++ fp <> [] -> p_exp x ex -> ends f x c ->
    p_number (w ++ f ++ x ++ c :: rest) (w ++ f ++ x) ip fp ex.

(** A 0 and then two digits in a row, before anything but single digits and
    underscores. *)
Definition leading_zero (p : list Z) : Prop :=
  exists t ds c rest, singles (48 :: t) ds /\ digit c /\ p = 48 :: t ++ c :: rest.
