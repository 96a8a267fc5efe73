(** * What error reports should say. *)

From Verif Require Import Base ParserModel Str.

(** Line and one-based column of the position after [before]. *)
Fixpoint line_feeds (s : list Z) : Z :=
  match s with [] => 0 | c :: s' => (if c =? 10 then 1 else 0) + line_feeds s' end.
Fixpoint last_line (s acc : list Z) : list Z :=
  match s with [] => acc | c :: s' => last_line s' (if c =? 10 then [] else acc ++ [c]) end.
Definition line_of (before : list Z) : Z := 1 + line_feeds before.
Definition column_of (before : list Z) : Z := 1 + Z.of_nat (length (last_line before [])).

(** One description per status, in the words used by the library. There is none
    in the library for a file that is too large. *)
Definition description (s : status) : list Z :=
  match s with
  | kOk => `"Ok"
  | KFileOpenError => `"Could not open file"
  | KFileReadError => `"Could not read file"
  | KFileTooLarge => `"File too large"
  | kTextBufferContentsInvalid => `"Invalid JSON text"
  | kUnterminatedTextBuffer => `"Unterminated text buffer"
  | kExpectedOpeningCurlyBraces => `"Expected opening curly braces"
  | kExpectedClosingCurlyBracesOrComma => `"Expected closing curly braces or comma"
  | kExpectedOpeningSquareBrackets => `"Expected opening square braces"
  | kExpectedClosingSquareBracketsOrComma => `"Expected closing square braces or comma"
  | kStringIllegalChar => `"Illegal character"
  | kStringIllegalEscape => `"Illegal escape"
  | kExpectedColon => `"Expected colon"
  | kExpectedBeginingDoubleQuotes => `"Expected begining double quotes"
  | kExpectedEndingDoubleQuotes => `"Expected ending double quotes"
  | kFloatInvalid => `"Invalid number"
  | kExpectedTrueOrFalse => `"Expected 'true' or 'false'"
  | kExpectedNull => `"Expected 'null'"
  | kExpectedJsonValue => `"Expected a JSON value (object, array, string, number, 'true', 'false', or 'null')"
  | kExpectedEndOfFile => `"Expected end of file"
  | kPrematureNullTerminator => `"File ends prematurely"
  | kNumbersCannotHaveLeadingZeros => `"Numbers cannot have leading zeros"
  | kInvalidStructuredData => `"JSON structure is invalid"
  | kMissingObjectElement => `"An expected object value pair was not found"
  | kException => `"An exception was caught"
  | kInvalidValueType => `"JSON structured data contains invalid value type"
  | kNameNotPresent => `"Could not find requested name of name/value pair"
  end.

(** All statuses in the order of the enumeration. *)
Definition all_statuses : list status :=
  [ kOk; KFileOpenError; KFileReadError; KFileTooLarge; kTextBufferContentsInvalid;
    kUnterminatedTextBuffer; kExpectedOpeningCurlyBraces; kExpectedClosingCurlyBracesOrComma;
    kExpectedOpeningSquareBrackets; kExpectedClosingSquareBracketsOrComma; kStringIllegalChar;
    kStringIllegalEscape; kExpectedColon; kExpectedBeginingDoubleQuotes; kExpectedEndingDoubleQuotes;
    kFloatInvalid; kExpectedTrueOrFalse; kExpectedNull; kExpectedJsonValue; kExpectedEndOfFile;
    kPrematureNullTerminator; kNumbersCannotHaveLeadingZeros; kInvalidStructuredData;
    kMissingObjectElement; kException; kInvalidValueType; kNameNotPresent ].

(** [s'] comes right after [s] in the enumeration. *)
Definition next_status (s s' : status) : Prop :=
  exists l r, all_statuses = l ++ s :: s' :: r.
