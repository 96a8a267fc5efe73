(** * Specification of searching, comparing and reading in texts. Independent of
    the models. *)

From Verif Require Import Base SpecNum SpecText SpecMap.

(** [s] is the text at [p], or its first [n] bytes if it is longer. *)
Definition cut (p : list Z) (n : nat) (s : list Z) : Prop :=
  nul_free s /\
  ((length s < n)%nat /\ (exists rest, p = s ++ 0 :: rest) \/ length s = n /\ exists rest, p = s ++ rest).

(** [r] is the first position with [P], or -1 if there is none. *)
Definition first_at (P : nat -> Prop) (r : Z) : Prop :=
  (r = -1 /\ forall j, ~ P j) \/
  (exists n, r = Z.of_nat n /\ P n /\ forall j, (j < n)%nat -> ~ P j).

(** [t] occurs in [s] at position [j]; the same up to [f] on the characters. *)
Definition occurs (s t : list Z) (j : nat) : Prop := (j <= length s)%nat /\ exists post, skipn j s = t ++ post.
Definition occurs_up_to (f : Z -> Z) (s t : list Z) (j : nat) : Prop := occurs (map f s) (map f t) j.

(** The inside of a quoted string: backslash and any character, or characters
    other than quote and backslash; [q] is the quote. *)
Inductive inside (q : Z) : list Z -> list Z -> Prop :=
| in_nil : inside q [] []
| in_char c b t : c <> q -> c <> 92 -> inside q b t -> inside q (c :: b) (c :: t)
| in_escape c b t : inside q b t -> inside q (92 :: c :: b) (c :: t).

(** Text in which every double quote belongs to a complete quoted string. *)
Inductive quotes_closed : list Z -> Prop :=
| qc_nil : quotes_closed []
| qc_char c s : c <> 34 -> quotes_closed s -> quotes_closed (c :: s)
| qc_quoted b t s : inside 34 b t -> quotes_closed s -> quotes_closed (34 :: b ++ 34 :: s).

(** [k] stands at position [j] of [s], not inside quotes. *)
Definition unquoted_at (s : list Z) (k : Z) (j : nat) : Prop :=
  nth_error s j = Some k /\ quotes_closed (firstn j s).

(** ** Texts with numbers in them *)

(** The sort key of a text: characters (changed by [f]), and the values of the
    digit groups at the place of the digits. *)
Inductive sort_key (f : Z -> Z) : list Z -> list (Z * Z) -> Prop :=
| sk_nil : sort_key f [] []
| sk_char c s k : ~ digit c -> sort_key f s k -> sort_key f (c :: s) ((f c, 0) :: k)
| sk_group ds s k : ds <> [] -> Forall digit ds -> (forall c s', s = c :: s' -> ~ digit c) ->
    sort_key f s k -> sort_key f (ds ++ s) ((48, dvalue ds) :: k).

(** No digit group begins with a superfluous zero or reaches 2^32. *)
Inductive plain_numbers : list Z -> Prop :=
| pn_nil : plain_numbers []
| pn_char c s : ~ digit c -> plain_numbers s -> plain_numbers (c :: s)
| pn_group ds s : ds <> [] -> Forall digit ds -> (forall c s', s = c :: s' -> ~ digit c) ->
    (ds = [48] \/ hd 48 ds <> 48) -> dvalue ds < 2 ^ 32 -> plain_numbers s -> plain_numbers (ds ++ s).

(** Lexicographic order of sort keys. *)
Inductive key_lt : list (Z * Z) -> list (Z * Z) -> Prop :=
| kl_nil y b : key_lt [] (y :: b)
| kl_char x y m n a b : x < y -> key_lt ((x, m) :: a) ((y, n) :: b)
| kl_num x m n a b : m < n -> key_lt ((x, m) :: a) ((x, n) :: b)
| kl_tail x a b : key_lt a b -> key_lt (x :: a) (x :: b).

(** ** Tokens at the start of a text *)

(** [t] is the longest prefix of [s] with [P]; every prefix of such a prefix is one. *)
Definition longest_prefix (P : list Z -> Prop) (s t : list Z) : Prop :=
  P t /\ exists rest, s = t ++ rest /\ forall c rest', rest = c :: rest' -> ~ P (t ++ [c]).

(** -?[0-9]* *)
Definition integer_token (t : list Z) : Prop := exists t', Forall digit t' /\ (t = t' \/ t = 45 :: t').

(** -? and then digits, at most one '.', at most one 'e' or 'E', in any order. *)
Definition is_e (c : Z) : Prop := c = 101 \/ c = 69.
Inductive float_body : bool -> bool -> list Z -> Prop :=
| fb_nil d e : float_body d e []
| fb_digit c d e t : digit c -> float_body d e t -> float_body d e (c :: t)
| fb_point e t : float_body false e t -> float_body true e (46 :: t)
| fb_exp c d t : is_e c -> float_body d false t -> float_body d true (c :: t).
Definition float_token (t : list Z) : Prop := exists t', float_body true true t' /\ (t = t' \/ t = 45 :: t').

(** Where an unquoted string ends: at the end, a blank or control character, or two
    slashes. *)
Inductive string_ends : list Z -> Prop :=
| se_nil : string_ends []
| se_blank c s : c < 33 -> string_ends (c :: s)
| se_comment s : string_ends (47 :: 47 :: s).

(** [t] is [s] up to the first position where [E] holds of the remaining text. *)
Definition up_to (E : list Z -> Prop) (s t : list Z) : Prop :=
  exists rest, s = t ++ rest /\ E rest /\ forall j, (j < length t)%nat -> ~ E (skipn j s).

(** The storage [b'] is [b] with [t] and a NUL written at the start, nothing else changed. *)
Definition stored (b t b' : list Z) : Prop :=
  length b' = length b /\ firstn (S (length t)) b' = t ++ [0] /\ skipn (S (length t)) b' = skipn (S (length t)) b.

(** Big-endian value of up to four characters. *)
Definition packed (t : list Z) : Z := fold_left (fun v c => v * 256 + c) t 0.

(** ** Paths *)

(** The path without its extension: the part before the last '.' of the last
    component, or everything. *)
Inductive name_part : list Z -> list Z -> Prop :=
| np_ext pre ext : Forall (fun c => c <> 46 /\ c <> 47) ext -> name_part (pre ++ 46 :: ext) pre
| np_none dir last : (dir = [] \/ exists d, dir = d ++ [47]) -> Forall (fun c => c <> 46 /\ c <> 47) last ->
    name_part (dir ++ last) (dir ++ last).

(** The directory part: up to and including the last '/'. *)
Inductive directory_part : list Z -> list Z -> Prop :=
| dp dir last : (dir = [] \/ exists d, dir = d ++ [47]) -> Forall (fun c => c <> 47) last ->
    directory_part (dir ++ last) dir.
