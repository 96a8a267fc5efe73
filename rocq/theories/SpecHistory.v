(** * Specification of what calls do to the document of a StructuredData. *)

From Verif Require Import Base MapModel ParserModel WriterModel SpecMap SpecGrammar SpecMeaning SchemaModel SpecSchema FileModel HistoryModel.

(** The statuses of a text that is not a value. *)
Inductive syntax_error : status -> Prop :=
| se_nul : syntax_error kPrematureNullTerminator
| se_char : syntax_error kStringIllegalChar
| se_esc : syntax_error kStringIllegalEscape
| se_zero : syntax_error kNumbersCannotHaveLeadingZeros
| se_value : syntax_error kExpectedJsonValue
| se_bracket : syntax_error kExpectedClosingSquareBracketsOrComma
| se_brace : syntax_error kExpectedClosingCurlyBracesOrComma
| se_colon : syntax_error kExpectedColon
| se_name : syntax_error kExpectedBeginingDoubleQuotes.

(** Parse of a character array, for a StructuredData that holds [before]: the
    status and what it holds after. *)
Inductive parse_effect (before : option value) (buf : list Z) : status -> option value -> Prop :=
| pe_short : (length buf < 3)%nat -> parse_effect before buf kTextBufferContentsInvalid before
| pe_open : (3 <= length buf)%nat -> last buf 0 <> 0 -> parse_effect before buf kUnterminatedTextBuffer before
| pe_ok t rest j v : (3 <= length buf)%nat -> last buf 0 = 0 -> buf = t ++ 0 :: rest -> lib_doc t j -> represents v j ->
    parse_effect before buf kOk (Some v)
| pe_more w t w' c rest j v : (3 <= length buf)%nat -> last buf 0 = 0 -> buf = w ++ t ++ w' ++ c :: rest ->
    ws w -> lib_val t j -> ws w' -> c <> 0 -> ~ wsc c -> represents v j ->
    parse_effect before buf kExpectedEndOfFile (Some v)
| pe_error st : (3 <= length buf)%nat -> last buf 0 = 0 -> syntax_error st -> parse_effect before buf st None.

(** Parse of a file: it is not opened, too large, cannot be read, or an array of
    its size plus one is parsed. *)
Inductive parse_file_effect (before : option value) : source -> status -> option value -> Prop :=
| pf_open : parse_file_effect before NoFile KFileOpenError before
| pf_large n contents reads : 65534 < n -> parse_file_effect before (AFile (Some n) contents reads) KFileTooLarge before
| pf_read fstat contents reads : In None reads -> parse_file_effect before (AFile fstat contents reads) KFileReadError before
| pf_parse fstat contents reads buf st after :
    Z.of_nat (length buf) = match fstat with Some n => n | None => 0 end + 1 -> Z.of_nat (length buf) <= 65535 -> bytes buf -> last buf 0 = 0 ->
    parse_effect before buf st after -> parse_file_effect before (AFile fstat contents reads) st after.

Definition effect (before : option value) (op : call) (st : status) (after : option value) : Prop :=
  match op with
  | CParse buf => parse_effect before buf st after
  | CParseFile s => parse_file_effect before s st after
  | CWrite _ _ _ | CValidate _ | CDeserialize _ _ _ => after = before
  | CSerialize t d => exists v, after = Some v /\ (reporting t -> st = kOk -> shows v (json t d))
  end.

(** Calls that the compiler and the caller make possible: arrays of bytes, file
    sizes, objects of their types. *)
Definition legal (op : call) : Prop :=
  match op with
  | CParse buf => bytes buf
  | CParseFile NoFile => True
  | CParseFile (AFile fstat contents _) => match fstat with Some n => 0 <= n | None => True end /\ bytes contents
  | CWrite _ _ _ => True
  | CValidate t => proper t
  | CDeserialize _ t d => proper t /\ has_type t d
  | CSerialize t d => proper t /\ has_type t d
  end.

(** Serialized types have no anonymous map members. *)
Definition tidy_call (op : call) : Prop := match op with CSerialize t _ => tidy t | _ => True end.
