(** * The parser of either build, with the depth of its recursion.

    ReadDoubleLiteral is compiled in two versions (Code/Json4C4/C4Json.cpp:805-990);
    the rest of the parser is the same. Here NumberValue::Parse is a parameter:
    [number_parse] (ParserModel.v) or [portable_number_parse] (PortableModel.v).
    ParseAnyValue calls itself through ArrayValue::Parse and ObjectValue::Parse; the
    functions below also give how many activations of ParseAnyValue are on the stack
    at most. Each takes a bounded number of frames (ParseAnyValue, ParseValue,
    MayThrow, the lambda, Parse). *)

From Verif Require Import Base TextModel NumModel MapModel ParserModel.

(** NumberValue::Parse, C4Json.cpp:1165-1198. *)
Definition number_parser := ptr -> out (status * double * ptr).

(** C4Json.cpp:1043-1086, 1357-1420 and 1479-1562, as [parse_any], [array_loop] and
    [object_loop] of ParserModel.v. [d] is the depth reached by the elements so far. *)
Fixpoint parse_value (num_parse : number_parser) (fuel : nat) (p : ptr) {struct fuel} : out (presult * nat) :=
  match fuel with
  | O => OutOfFuel
  | S fuel' =>
      let! (st, s, p1) := string_parse p in
      if status_eqb st kOk then Ret ((kOk, Some (VString s), p1), 1%nat)
      else if negb (status_eqb st kExpectedBeginingDoubleQuotes) then Ret ((st, None, p1), 1%nat)
      else
      let! (st, d, p1) := num_parse p in
      if status_eqb st kOk then Ret ((kOk, Some (VNumber d), p1), 1%nat)
      else if status_eqb st kNumbersCannotHaveLeadingZeros then Ret ((st, None, p1), 1%nat)
      else
      let! (st, b, p1) := bool_parse p in
      if status_eqb st kOk then Ret ((kOk, Some (VBool b), p1), 1%nat)
      else
      let! (st, p1) := null_parse p in
      if status_eqb st kOk then Ret ((kOk, Some VNull, p1), 1%nat)
      else
      (* ArrayValue::Parse, 1359-1362 *)
      let! c := rd p 0 in
      let! (r, d1) := (if negb (c =? 91) then Ret ((kExpectedOpeningSquareBrackets, None, p), O)
                       else elements_loop num_parse fuel' [] true O p) in
      let '(st, v, p1) := r in
      if status_eqb st kOk || negb (status_eqb st kExpectedOpeningSquareBrackets)
      then Ret ((st, v, p1), S d1)
      else
      (* ObjectValue::Parse, 1481-1484 *)
      let! c := rd p1 0 in
      let! (r, d2) := (if negb (c =? 123) then Ret ((kExpectedOpeningCurlyBraces, None, p1), O)
                       else members_loop num_parse fuel' Leaf [] true O p1) in
      let '(st, v, p2) := r in
      if status_eqb st kOk || negb (status_eqb st kExpectedOpeningCurlyBraces)
         || status_eqb st kNumbersCannotHaveLeadingZeros
      then Ret ((st, v, p2), S (Nat.max d1 d2))
      else Ret ((kExpectedJsonValue, None, p2), S (Nat.max d1 d2))
  end

with elements_loop (num_parse : number_parser) (fuel : nat) (acc : list value) (empty : bool) (d : nat) (p : ptr) {struct fuel} : out (presult * nat) :=
  match fuel with
  | O => OutOfFuel
  | S fuel' =>
      let! p := skip_ws (skipn 1 p) in
      let! c := rd p 0 in
      if c =? 93 then
        if negb empty then Ret ((kExpectedJsonValue, None, p), d)
        else Ret ((kOk, Some (VArray acc), skipn 1 p), d)
      else
      let! (r, d1) := parse_value num_parse fuel' p in
      let '(st, v, p) := r in
      let d := Nat.max d d1 in
      match v with
      | Some v =>
          let acc := acc ++ [v] in
          let! p := skip_ws p in
          let! c := rd p 0 in
          if c =? 44 then elements_loop num_parse fuel' acc false d p
          else if negb (c =? 93) then Ret ((kExpectedClosingSquareBracketsOrComma, None, p), d)
          else Ret ((kOk, Some (VArray acc), skipn 1 p), d)
      | None => Ret ((st, None, p), d)
      end
  end

with members_loop (num_parse : number_parser) (fuel : nat) (m : tree value) (order : list (list Z)) (empty : bool) (d : nat) (p : ptr)
  {struct fuel} : out (presult * nat) :=
  match fuel with
  | O => OutOfFuel
  | S fuel' =>
      let! p := skip_ws (skipn 1 p) in
      let! c := rd p 0 in
      if c =? 125 then
        if negb empty then Ret ((kExpectedJsonValue, None, p), d)
        else Ret ((kOk, Some (VObject m order), skipn 1 p), d)
      else
      let! (st, name, p) := string_parse p in
      if negb (status_eqb st kOk) then Ret ((st, None, p), d)
      else
      let! p := skip_ws p in
      let! c := rd p 0 in
      if negb (c =? 58) then Ret ((kExpectedColon, None, p), d)
      else
      let! p := skip_ws (skipn 1 p) in
      let! (r, d1) := parse_value num_parse fuel' p in
      let '(st, v, p) := r in
      let d := Nat.max d d1 in
      match v with
      | Some v =>
          let! (m, order, _) := insert_accounted m order name v in
          let! p := skip_ws p in
          let! c := rd p 0 in
          if c =? 44 then members_loop num_parse fuel' m order false d p
          else if negb (c =? 125) then Ret ((kExpectedClosingCurlyBracesOrComma, None, p), d)
          else Ret ((kOk, Some (VObject m order), skipn 1 p), d)
      | None => Ret ((st, None, p), d)
      end
  end.

(** C4Json.cpp:1693-1734, ParseJsonRoot on an empty root: the result, the new root and
    the depth. *)
Definition parse_root (num_parse : number_parser) (buf : list Z) : out (parse_result * option value * nat) :=
  if Z.of_nat (length buf) <? 3 then Ret (PR kTextBufferContentsInvalid 0 0, None, O)
  else if negb (last buf 0 =? 0) then Ret (PR kUnterminatedTextBuffer 0 0, None, O)
  else
    let! start := skip_ws buf in
    let! (r, d) := parse_value num_parse (parse_fuel start) start in
    let '(st, v, text) := r in
    let! text := skip_ws text in
    let! st := (if status_eqb st kOk
                then let! c := rd text 0 in
                     Ret (if negb (c =? 0) then kExpectedEndOfFile else kOk)
                else Ret st) in
    if negb (status_eqb st kOk) then
      let between := firstn (length start - length text) start in
      let '(line, column) := error_walk (rev between) 1 1 in
      Ret (PR st line column, v, d)
    else Ret (PR st 0 0, v, d).

(** C4Json.cpp:1786-1808, StructuredData::Parse(const Array<char>&): the result, the
    new root and the depth. *)
Definition build_parse (num_parse : number_parser) (root : option value) (buf : list Z) : out (parse_result * option value * nat) :=
  if Z.of_nat (length buf) <? 3 then Ret (PR kTextBufferContentsInvalid 0 0, root, O)
  else if negb (last buf 0 =? 0) then Ret (PR kUnterminatedTextBuffer 0 0, root, O)
  else parse_root num_parse buf.

(** The same with a stack that has room for [room] activations of ParseAnyValue:
    [None] is a stack overflow. *)
Definition parse_in (num_parse : number_parser) (room : nat) (root : option value) (buf : list Z) : out (option (parse_result * option value)) :=
  let! (r, d) := build_parse num_parse root buf in
  Ret (if (d <=? room)%nat then Some r else None).
