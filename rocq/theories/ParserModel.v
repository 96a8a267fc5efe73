(** * Model of the parser, Code/Json4C4/C4Json.cpp:611-1808.

    Allocation succeeds everywhere in this file, so the [kException] results of
    [MayThrow] (Code/Json4C4/C4Json.h:173-191) do not occur. *)

From Verif Require Import Base TextModel NumModel MapModel.

(** Code/Json4C4/C4Json.h:131-160, enum class Status. *)
Inductive status : Type :=
| kOk
| KFileOpenError
| KFileReadError
| KFileTooLarge
| kTextBufferContentsInvalid
| kUnterminatedTextBuffer
| kExpectedOpeningCurlyBraces
| kExpectedClosingCurlyBracesOrComma
| kExpectedOpeningSquareBrackets
| kExpectedClosingSquareBracketsOrComma
| kStringIllegalChar
| kStringIllegalEscape
| kExpectedColon
| kExpectedBeginingDoubleQuotes
| kExpectedEndingDoubleQuotes
| kFloatInvalid
| kExpectedTrueOrFalse
| kExpectedNull
| kExpectedJsonValue
| kExpectedEndOfFile
| kPrematureNullTerminator
| kNumbersCannotHaveLeadingZeros
| kInvalidStructuredData
| kMissingObjectElement
| kException
| kInvalidValueType
| kNameNotPresent.

(** Equality test on statuses (built in for the C++ enum). *)
Definition status_eq_dec (a b : status) : {a = b} + {a <> b}.
Proof. decide equality. Defined.
Definition status_eqb (a b : status) : bool := if status_eq_dec a b then true else false.

(** Value trees: the classes StringValue (C4Json.cpp:1088-1160), NumberValue
    (1162-1231), BoolValue (1233-1287), NullValue (1289-1326), ArrayValue and
    ObjectValue (C4Json.h:471-519). An object has its map (keyed by the name
    stored in each member) and the array insertionOrder. *)
Inductive value : Type :=
| VString (s : list Z)
| VNumber (d : double)
| VBool (b : bool)
| VNull
| VArray (l : list value)
| VObject (m : tree value) (order : list (list Z)).

(** C4Json.cpp:611-621, ComputeWhitespaceLength.
    space = 0x20, tab = 0x09, newLine = 0x0A, carriageReturn = 0x0D (594-597). *)
Definition is_ws (c : Z) : bool := (c =? 32) || (c =? 9) || (c =? 10) || (c =? 13).

Fixpoint compute_whitespace_length (p : ptr) : out nat :=
  match p with
  | [] => UB
  | c :: p' =>
      if negb (c =? 0) && is_ws c
      then let! n := compute_whitespace_length p' in Ret (S n)
      else Ret O
  end.

(** C4Json.cpp:623-634, ComputeFloatLiteralLength. *)
Definition is_float_char (c : Z) : bool :=
  ((48 <=? c) && (c <=? 57)) || (c =? 46) || (c =? 101) || (c =? 69) || (c =? 43) || (c =? 45).

Fixpoint compute_float_literal_length (p : ptr) : out nat :=
  match p with
  | [] => UB
  | c :: p' =>
      if negb (c =? 0) && is_float_char c
      then let! n := compute_float_literal_length p' in Ret (S n)
      else Ret O
  end.

(** [text += ComputeWhitespaceLength(text)] *)
Definition skip_ws (p : ptr) : out ptr :=
  let! n := compute_whitespace_length p in Ret (skipn n p).

(** C4Json.cpp:636-673, ReadEscapeChar: (returned length, *value). *)
Definition read_escape_char (p : ptr) : out (nat * Z) :=
  let! c := rd p 0 in
  if (c =? 34) || (c =? 92) || (c =? 47) then Ret (1%nat, c)
  else if c =? 98 then Ret (1%nat, 8)
  else if c =? 102 then Ret (1%nat, 12)
  else if c =? 110 then Ret (1%nat, 10)
  else if c =? 114 then Ret (1%nat, 13)
  else if c =? 116 then Ret (1%nat, 9)
  else Ret (0%nat, 0).

(** C4Json.cpp:534-536, hexadecimalCharValue. *)
Definition hexadecimal_char_value : list Z :=
  [0; 1; 2; 3; 4; 5; 6; 7; 8; 9; -1; -1; -1; -1; -1; -1; -1; 10; 11;
   12; 13; 14; 15; -1; -1; -1; -1; -1; -1; -1; -1; -1; -1; -1; -1; -1; -1; -1;
   -1; -1; -1; -1; -1; -1; -1; -1; -1; -1; -1; 10; 11; 12; 13; 14; 15].

(** C4Json.cpp:684-699, the loop over the four hexadecimal digits, [n] digits
    left, next index [a]; [None] is the early [return 0]. *)
Fixpoint read_hex (n : nat) (a : nat) (code : Z) (p : ptr) : out (option Z) :=
  match n with
  | O => Ret (Some code)
  | S n' =>
      let! b := rd p a in
      let c := u32 (b - 48) in
      if 55 <=? c then Ret None
      else match nth_error hexadecimal_char_value (Z.to_nat c) with
           | None => UB
           | Some x =>
               if x <? 0 then Ret None
               else read_hex n' (S a) (Z.lor (u32 (Z.shiftl code 4)) x) p
           end
  end.

(** The destination of the second pass: storage and write position. *)
Definition dest := option (list Z * nat).

Definition put (dst : dest) (s : list Z) : out dest :=
  match dst with
  | None => Ret None
  | Some (b, i) => let! b' := wrs b i s in Ret (Some (b', (i + length s)%nat))
  end.

(** C4Json.cpp:675-733, ReadStringEscapeChar: (returned text length,
    *stringLength, destination). The destination position is advanced here;
    in C++ the caller does [string += stringLen] (787-790). *)
Definition read_string_escape_char (p : ptr) (dst : dest) : out (nat * nat * dest) :=
  let! c := rd p 0 in
  if c =? 117 then
    let! h := read_hex 4 1 0 p in
    match h with
    | None => Ret (0%nat, 0%nat, dst)
    | Some code =>
        if negb (code =? 0) then
          match dst with
          | Some _ =>
              let s := write_unicode_char code in
              let! dst' := put dst s in
              Ret (5%nat, length s, dst')
          | None =>
              Ret (5%nat, (1 + (if (0x80 <=? code)%Z then 1 else 0) + (if (0x800 <=? code)%Z then 1 else 0))%nat, dst)
          end
        else Ret (0%nat, 0%nat, dst)
    end
  else
    let! (text_length, v) := read_escape_char p in
    if negb (Nat.eqb text_length 0) then
      let! dst' := put dst [v] in
      Ret (text_length, 1%nat, dst')
    else Ret (0%nat, 0%nat, dst).

(** The bytes p[0..n-1], each read. *)
Fixpoint rds (p : ptr) (n : nat) : out (list Z) :=
  match n with
  | O => Ret []
  | S n' => match p with
            | [] => UB
            | c :: p' => let! s := rds p' n' in Ret (c :: s)
            end
  end.

(** C4Json.cpp:735-803, ReadStringLiteral. [dst = None] is the call without a
    string buffer. [tl] and [sl] are the running text and string lengths. The
    result carries the final lengths when the status is kOk (the C++ leaves
    the out parameters unassigned otherwise). *)
Fixpoint read_string_literal (fuel : nat) (p : ptr) (tl sl : nat) (dst : dest)
  : out (status * option (nat * nat) * dest) :=
  match fuel with
  | O => OutOfFuel
  | S fuel' =>
      let! c := rd p 0 in
      if c =? 0 then Ret (kPrematureNullTerminator, None, dst)
      else if c =? 34 then Ret (kOk, Some (tl, sl), dst)
      else if (c <? 32) || (c =? 127) then Ret (kStringIllegalChar, None, dst)
      else if negb (c =? 92) then
        let! len := validate_unicode_char p in
        if Nat.eqb len 0 then Ret (kStringIllegalChar, None, dst)
        else
          let! dst' := match dst with
                       | None => Ret None
                       | Some _ => let! s := rds p len in put dst s
                       end in
          read_string_literal fuel' (skipn len p) (tl + len) (sl + len) dst'
      else
        let p1 := skipn 1 p in
        let! (text_len, string_len, dst') := read_string_escape_char p1 dst in
        if Nat.eqb text_len 0 then Ret (kStringIllegalEscape, None, dst')
        else read_string_literal fuel' (skipn text_len p1) (tl + 1 + text_len) (sl + string_len) dst'
  end.

(** C4Json.cpp:1091-1136, StringValue::Parse on a fresh StringValue; the result
    is the status, the string data and the text pointer.
    [data.SetStringLength(n)] on a fresh String<> provides n+1 bytes with the
    terminator set (Code/Terathon/TSString.cpp:599-653); the other bytes are
    not specified, here 0xAA. Simplification: the storage is exactly n+1 bytes
    although the real one can be longer. *)
Definition string_parse (p : ptr) : out (status * list Z * ptr) :=
  let! c := rd p 0 in
  if negb (c =? 34) then Ret (kExpectedBeginingDoubleQuotes, [], p)
  else
    let p1 := skipn 1 p in
    let! r1 := read_string_literal (length p1) p1 0 0 None in
    match r1 with
    | (st, Some (text_length, string_length), _) =>
        let storage := repeat 0xAA string_length ++ [0] in
        let! r2 := read_string_literal (length p1) p1 0 0 (Some (storage, O)) in
        let '(_, len2, dst) := r2 in
        let text_length := match len2 with Some (tl, _) => tl | None => text_length end in
        let data := match dst with Some (b, _) => cstr b | None => [] end in
        let p2 := skipn text_length p1 in
        let! c2 := rd p2 0 in
        if negb (c2 =? 34) then Ret (kExpectedEndingDoubleQuotes, data, p2)
        else Ret (kOk, data, skipn 1 p2)
    | (st, None, _) => Ret (st, [], p1)
    end.

(** C4Json.cpp:805-841, ReadDoubleLiteral with system conversions: (status,
    *textLength, *value). The copy into [str] (820-824) takes the first
    *textLength bytes, none of which is NUL. *)
Definition read_double_literal (p : ptr) : out (status * nat * double) :=
  let! len := compute_float_literal_length p in
  if Nat.eqb len 0 then Ret (kFloatInvalid, len, S754_nan)
  else
    let! c0 := rd p 0 in
    let! leading := (if (c0 =? 48) && (1 <? Z.of_nat len)
                     then let! c1 := rd p 1 in Ret (negb (c1 =? 46))
                     else Ret false) in
    if (leading : bool) then Ret (kNumbersCannotHaveLeadingZeros, len, S754_nan)
    else
      let! str := rds p len in
      match strtod str with
      | None => Ret (kFloatInvalid, len, S754_nan)
      | Some (v, _) => Ret (kOk, len, v)
      end.

(** C4Json.cpp:992-1010, ParseSign. *)
Definition parse_sign (p : ptr) : out (bool * ptr) :=
  let! c := rd p 0 in
  if c =? 45 then let! p' := skip_ws (skipn 1 p) in Ret (true, p')
  else if c =? 43 then let! p' := skip_ws (skipn 1 p) in Ret (false, p')
  else Ret (false, p).

(** C4Json.cpp:1165-1193, NumberValue::Parse. *)
Definition number_parse (p : ptr) : out (status * double * ptr) :=
  let! (negative, p1) := parse_sign p in
  let! (st, len, d) := read_double_literal p1 in
  if negb (status_eqb st kOk) then Ret (st, d, p1)
  else
    let d := if negative then dneg d else d in
    let! p2 := skip_ws (skipn len p1) in
    Ret (kOk, d, p2).

(** [text[0] == s[0] && text[1] == s[1] && ...], evaluated left to right with
    short circuit. *)
Fixpoint looking_at (s : list Z) (i : nat) (p : ptr) : out bool :=
  match s with
  | [] => Ret true
  | x :: s' => let! c := rd p i in if c =? x then looking_at s' (S i) p else Ret false
  end.

(** C4Json.cpp:1236-1255, BoolValue::Parse. *)
Definition bool_parse (p : ptr) : out (status * bool * ptr) :=
  let! t := looking_at [116; 114; 117; 101] 0 p in
  if (t : bool) then Ret (kOk, true, skipn 4 p)
  else
    let! f := looking_at [102; 97; 108; 115; 101] 0 p in
    if (f : bool) then Ret (kOk, false, skipn 5 p)
    else Ret (kExpectedTrueOrFalse, true, p).

(** C4Json.cpp:1292-1302, NullValue::Parse. *)
Definition null_parse (p : ptr) : out (status * ptr) :=
  let! n := looking_at [110; 117; 108; 108] 0 p in
  if (n : bool) then Ret (kOk, skipn 4 p) else Ret (kExpectedNull, p).

(** C4Json.cpp:1472-1477, ObjectValue::InsertAccountedMapElement. The flag says
    whether the map took the element. *)
Definition insert_accounted (m : tree value) (order : list (list Z)) (name : list Z) (v : value)
  : out (tree value * list (list Z) * bool) :=
  let! (m', inserted) := insert_map_element m name v in
  Ret (m', order ++ [name], inserted).

(** Result of parsing a value: the status, the value when kOk (on any other
    status ParseValue deletes it, C4Json.cpp:1033-1040), the text pointer. *)
Definition presult := (status * option value * ptr)%type.

(** C4Json.cpp:1043-1086 ParseAnyValue, with ParseValue<T> (1012-1041) inlined;
    1357-1420 ArrayValue::Parse and 1479-1562 ObjectValue::Parse: the loops
    start with the pointer on the opening bracket or on a comma. *)
Fixpoint parse_any (fuel : nat) (p : ptr) {struct fuel} : out presult :=
  match fuel with
  | O => OutOfFuel
  | S fuel' =>
      let! (st, s, p1) := string_parse p in
      if status_eqb st kOk then Ret (kOk, Some (VString s), p1)
      else if negb (status_eqb st kExpectedBeginingDoubleQuotes) then Ret (st, None, p1)
      else
      let! (st, d, p1) := number_parse p in
      if status_eqb st kOk then Ret (kOk, Some (VNumber d), p1)
      else if status_eqb st kNumbersCannotHaveLeadingZeros then Ret (st, None, p1)
      else
      let! (st, b, p1) := bool_parse p in
      if status_eqb st kOk then Ret (kOk, Some (VBool b), p1)
      else
      let! (st, p1) := null_parse p in
      if status_eqb st kOk then Ret (kOk, Some VNull, p1)
      else
      (* ArrayValue::Parse, 1359-1362 *)
      let! c := rd p 0 in
      let! (st, v, p1) := (if negb (c =? 91) then Ret (kExpectedOpeningSquareBrackets, None, p)
                           else array_loop fuel' [] true p) in
      if status_eqb st kOk || negb (status_eqb st kExpectedOpeningSquareBrackets)
      then Ret (st, v, p1)
      else
      (* ObjectValue::Parse, 1481-1484 *)
      let! c := rd p1 0 in
      let! (st, v, p2) := (if negb (c =? 123) then Ret (kExpectedOpeningCurlyBraces, None, p1)
                           else object_loop fuel' Leaf [] true p1) in
      if status_eqb st kOk || negb (status_eqb st kExpectedOpeningCurlyBraces)
         || status_eqb st kNumbersCannotHaveLeadingZeros
      then Ret (st, v, p2)
      else Ret (kExpectedJsonValue, None, p2)
  end

with array_loop (fuel : nat) (acc : list value) (empty : bool) (p : ptr) {struct fuel} : out presult :=
  match fuel with
  | O => OutOfFuel
  | S fuel' =>
      let! p := skip_ws (skipn 1 p) in
      let! c := rd p 0 in
      if c =? 93 then
        if negb empty then Ret (kExpectedJsonValue, None, p)
        else Ret (kOk, Some (VArray acc), skipn 1 p)
      else
      let! (st, v, p) := parse_any fuel' p in
      match v with
      | Some v =>
          let acc := acc ++ [v] in
          let! p := skip_ws p in
          let! c := rd p 0 in
          if c =? 44 then array_loop fuel' acc false p
          else if negb (c =? 93) then Ret (kExpectedClosingSquareBracketsOrComma, None, p)
          else Ret (kOk, Some (VArray acc), skipn 1 p)
      | None => Ret (st, None, p)
      end
  end

with object_loop (fuel : nat) (m : tree value) (order : list (list Z)) (empty : bool) (p : ptr)
  {struct fuel} : out presult :=
  match fuel with
  | O => OutOfFuel
  | S fuel' =>
      let! p := skip_ws (skipn 1 p) in
      let! c := rd p 0 in
      if c =? 125 then
        if negb empty then Ret (kExpectedJsonValue, None, p)
        else Ret (kOk, Some (VObject m order), skipn 1 p)
      else
      let! (st, name, p) := string_parse p in
      if negb (status_eqb st kOk) then Ret (st, None, p)
      else
      let! p := skip_ws p in
      let! c := rd p 0 in
      if negb (c =? 58) then Ret (kExpectedColon, None, p)
      else
      let! p := skip_ws (skipn 1 p) in
      let! (st, v, p) := parse_any fuel' p in
      match v with
      | Some v =>
          let! (m, order, _) := insert_accounted m order name v in
          let! p := skip_ws p in
          let! c := rd p 0 in
          if c =? 44 then object_loop fuel' m order false p
          else if negb (c =? 125) then Ret (kExpectedClosingCurlyBracesOrComma, None, p)
          else Ret (kOk, Some (VObject m order), skipn 1 p)
      | None => Ret (st, None, p)
      end
  end.

(** C4Json.h:164-169, struct ParseResult. *)
Record parse_result : Type := PR { pr_status : status; pr_line : Z; pr_column : Z }.

(** C4Json.cpp:1723-1730: walk back from the error position to [start]; the
    list is the bytes between them, last byte first. *)
Fixpoint error_walk (rev_bytes : list Z) (line column : Z) : Z * Z :=
  match rev_bytes with
  | [] => (line, column)
  | c :: r =>
      let line := if c =? 10 then line + 1 else line in
      let column := column + (if line =? 1 then 1 else 0) in
      error_walk r line column
  end.

(** Fuel that suffices for a text of the given length (see C01). *)
Definition parse_fuel (p : ptr) : nat := S (2 * length p).

(** C4Json.cpp:1693-1734, ParseJsonRoot: the result and the new root. The root
    pointer is only assigned by a successful ParseValue (C4Json.cpp:1033). *)
Definition parse_json_root (root : option value) (buf : list Z) : out (parse_result * option value) :=
  if Z.of_nat (length buf) <? 3 then Ret (PR kTextBufferContentsInvalid 0 0, root)
  else if negb (last buf 0 =? 0) then Ret (PR kUnterminatedTextBuffer 0 0, root)
  else
    let! start := skip_ws buf in
    let! (st, v, text) := parse_any (parse_fuel start) start in
    let root := match v with Some v => Some v | None => root end in
    let! text := skip_ws text in
    let! st := (if status_eqb st kOk
                then let! c := rd text 0 in
                     Ret (if negb (c =? 0) then kExpectedEndOfFile else kOk)
                else Ret st) in
    if negb (status_eqb st kOk) then
      let between := firstn (length start - length text) start in
      let '(line, column) := error_walk (rev between) 1 1 in
      Ret (PR st line column, root)
    else Ret (PR st 0 0, root).

(** C4Json.cpp:1786-1808, StructuredData::Parse(const Array<char>&); the state
    of a StructuredData is its root pointer. *)
Definition sd_parse (root : option value) (buf : list Z) : out (parse_result * option value) :=
  if Z.of_nat (length buf) <? 3 then Ret (PR kTextBufferContentsInvalid 0 0, root)
  else if negb (last buf 0 =? 0) then Ret (PR kUnterminatedTextBuffer 0 0, root)
  else parse_json_root None buf.
