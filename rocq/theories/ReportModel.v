(** * Model of the error reports: StatusToString and ParseResultToString.

    Uninitialised storage of the temporaries is a parameter: [g k] is the
    initial contents of the k-th String object. *)

From Verif Require Import Base ParserModel Str StringModel.

(** C4Json.h:131-160, the numbers of the enumeration Status. *)
Definition status_number (s : status) : nat :=
  match s with
  | kOk => 0 | KFileOpenError => 1 | KFileReadError => 2 | KFileTooLarge => 3
  | kTextBufferContentsInvalid => 4 | kUnterminatedTextBuffer => 5
  | kExpectedOpeningCurlyBraces => 6 | kExpectedClosingCurlyBracesOrComma => 7
  | kExpectedOpeningSquareBrackets => 8 | kExpectedClosingSquareBracketsOrComma => 9
  | kStringIllegalChar => 10 | kStringIllegalEscape => 11 | kExpectedColon => 12
  | kExpectedBeginingDoubleQuotes => 13 | kExpectedEndingDoubleQuotes => 14
  | kFloatInvalid => 15 | kExpectedTrueOrFalse => 16 | kExpectedNull => 17
  | kExpectedJsonValue => 18 | kExpectedEndOfFile => 19 | kPrematureNullTerminator => 20
  | kNumbersCannotHaveLeadingZeros => 21 | kInvalidStructuredData => 22
  | kMissingObjectElement => 23 | kException => 24 | kInvalidValueType => 25
  | kNameNotPresent => 26
  end.

(** C4Json.cpp:502-527, StatusString: an array of 26 pointers. *)
Definition status_string : list ptr :=
  [ buf "Ok";
    buf "Could not open file";
    buf "Could not read file";
    buf "Invalid JSON text";
    buf "Unterminated text buffer";
    buf "Expected opening curly braces";
    buf "Expected closing curly braces or comma";
    buf "Expected opening square braces";
    buf "Expected closing square braces or comma";
    buf "Illegal character";
    buf "Illegal escape";
    buf "Expected colon";
    buf "Expected begining double quotes";
    buf "Expected ending double quotes";
    buf "Invalid number";
    buf "Expected 'true' or 'false'";
    buf "Expected 'null'";
    buf "Expected a JSON value (object, array, string, number, 'true', 'false', or 'null')";
    buf "Expected end of file";
    buf "File ends prematurely";
    buf "Numbers cannot have leading zeros";
    buf "JSON structure is invalid";
    buf "An expected object value pair was not found";
    buf "An exception was caught";
    buf "JSON structured data contains invalid value type";
    buf "Could not find requested name of name/value pair" ].

(** C4Json.cpp:529-532, StatusToString: reading outside the array is undefined. *)
Definition status_to_string (g : nat -> list Z) (s : status) : out (list Z) :=
  match nth_error status_string (status_number s) with
  | Some p => fix_assign 256 (g 0%nat) p
  | None => UB
  end.

(** C4Json.cpp:1843-1853, ParseResultToString. Each + makes a new String<24>. *)
Definition parse_result_to_string (g : nat -> list Z) (r : parse_result) : out (list Z) :=
  let 'PR st line column := r in
  let! s := status_to_string g st in
  if negb (line =? 0) && negb (status_eqb st kException) then
    let! a := fix_assign 24 (g 1%nat) (buf ". Line: ") in
    let! l := fix_assign_int 24 (g 2%nat) line in
    let! al := fix_plus 24 (g 3%nat) a l in
    let! k := fix_assign 24 (g 4%nat) (buf ", column: ") in
    let! alk := fix_plus 24 (g 5%nat) al k in
    let! c := fix_assign_int 24 (g 6%nat) column in
    let! alkc := fix_plus 24 (g 7%nat) alk c in
    fix_append 256 s alkc
  else Ret s.
