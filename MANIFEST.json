{
 "claims": [
  {
   "property": "C01",
   "status": "proved",
   "theorems": [
    "C01_parse_total"
   ],
   "note": "C01_unterminated covers arrays without the terminator"
  },
  {
   "property": "C02",
   "status": "proved",
   "theorems": [
    "C02_sound"
   ],
   "note": ""
  },
  {
   "property": "C03",
   "status": "proved",
   "theorems": [
    "C03_complete"
   ],
   "note": ""
  },
  {
   "property": "C04",
   "status": "partial",
   "theorems": [
    "C04_rfc_accepted_refuted",
    "C04_rfc_accepted_partial"
   ],
   "note": "False of the code: one-byte documents, 0e1, raw DEL, escaped NUL and surrogate pairs. The partial theorem covers every RFC document without these."
  },
  {
   "property": "C05",
   "status": "partial",
   "theorems": [
    "C05_only_rfc_refuted",
    "C05_only_rfc_partial"
   ],
   "note": "False of the code: nine kinds of non-RFC text are accepted. The partial theorem: with RFC number tokens and UTF-8 tokens the text is RFC."
  },
  {
   "property": "C06",
   "status": "proved",
   "theorems": [
    "C06_string_tokens"
   ],
   "note": ""
  },
  {
   "property": "C07",
   "status": "partial",
   "theorems": [
    "C07_surrogate_pairs_refuted",
    "C07_decoded_utf8_partial"
   ],
   "note": "False of the code for every surrogate pair. The partial theorem: without surrogates the decoded string is valid UTF-8."
  },
  {
   "property": "C08",
   "status": "proved",
   "theorems": [
    "C08_number_tokens",
    "C08_rfc_numbers"
   ],
   "note": ""
  },
  {
   "property": "C09",
   "status": "proved",
   "theorems": [
    "C09_correctly_rounded",
    "C09_library_tokens"
   ],
   "note": ""
  },
  {
   "property": "C10",
   "status": "proved",
   "theorems": [
    "C10_number_round_trip"
   ],
   "note": "as a token inside a document, and as a whole document of at least two bytes (a one digit root number is C13_refuted)"
  },
  {
   "property": "C11",
   "status": "proved",
   "theorems": [
    "C11_write_parse",
    "C11_parse_write_parse",
    "C11_written_rfc",
    "C11_two_bytes"
   ],
   "note": ""
  },
  {
   "property": "C12",
   "status": "partial",
   "theorems": [
    "C12_refuted",
    "C12_strings_partial"
   ],
   "note": "False of the code: Write does not escape. The partial theorem characterises exactly the strings that survive."
  },
  {
   "property": "C13",
   "status": "partial",
   "theorems": [
    "C13_refuted",
    "C13_numbers_partial"
   ],
   "note": "False of the code: 1e999 is parsed to an infinity and written as inf; a root number of one digit is refused by Parse. The partial theorem: exactly the finite numbers survive."
  },
  {
   "property": "C14",
   "status": "proved",
   "theorems": [
    "C14_lookup_first"
   ],
   "note": ""
  },
  {
   "property": "C15",
   "status": "proved",
   "theorems": [
    "C15_write_layout",
    "C15_write_layout_tree",
    "C15_first_values"
   ],
   "note": ""
  },
  {
   "property": "C16",
   "status": "proved",
   "theorems": [
    "C16_insert_lookup"
   ],
   "note": ""
  },
  {
   "property": "C17",
   "status": "proved",
   "theorems": [
    "C17_iteration_sorted"
   ],
   "note": ""
  },
  {
   "property": "C18",
   "status": "proved",
   "theorems": [
    "C18_balanced"
   ],
   "note": ""
  },
  {
   "property": "C19",
   "status": "proved",
   "theorems": [
    "C19_remove_exactly_one"
   ],
   "note": ""
  },
  {
   "property": "C20",
   "status": "partial",
   "theorems": [
    "C20_refuted",
    "C20_partial"
   ],
   "note": "False of the code when the replaced element is the root of the map: rootElement is not updated, the map loses its other elements and keeps a pointer to the element it hands back. Proved for all histories in which no root is replaced."
  },
  {
   "property": "C21",
   "status": "partial",
   "theorems": [
    "C21_refuted",
    "C21_position_partial",
    "C21_line_partial",
    "C21_counted_from_first_token"
   ],
   "note": "False of the code: line and column count from the first token, not from the start of the text. Proved when the text starts with a token; the exact offset is C21_counted_from_first_token."
  },
  {
   "property": "C22",
   "status": "partial",
   "theorems": [
    "C22_refuted",
    "C22_wrong_refuted",
    "C22_messages_partial",
    "C22_shifted"
   ],
   "note": "False of the code: the table lacks an entry for KFileTooLarge, so all later messages are shifted and the last index is out of bounds. The partial theorem: right for exactly three statuses."
  },
  {
   "property": "C23",
   "status": "partial",
   "theorems": [
    "C23_refuted",
    "C23_report_partial",
    "C23_cut",
    "C23_no_position"
   ],
   "note": "False of the code: the position is cut to 24 characters. The partial theorem: complete exactly when line and column have at most six digits together."
  },
  {
   "property": "C24",
   "status": "proved",
   "theorems": [
    "C24_what_is_held",
    "C24_by_status"
   ],
   "note": ""
  },
  {
   "property": "C25",
   "status": "partial",
   "theorems": [
    "C25_refuted",
    "C25_well_formed_partial"
   ],
   "note": "False of the code for a prototype with an anonymous map member after a named one. Proved for all histories without such types."
  },
  {
   "property": "C26",
   "status": "proved",
   "theorems": [
    "C26_validate_predicts"
   ],
   "note": ""
  },
  {
   "property": "C27",
   "status": "partial",
   "theorems": [
    "C27_refuted",
    "C47_valid_delivers",
    "C47_text_delivers",
    "C27_ok_delivers_partial"
   ],
   "note": "False of the code: kNameNotPresent from inside an optional member is taken for its absence. Proved for all valid documents, and for all documents when optional members have no required parts."
  },
  {
   "property": "C28",
   "status": "partial",
   "theorems": [
    "C28_refuted",
    "C28_absent_partial",
    "C28_present_partial"
   ],
   "note": "Absence: proved for all types and places. Presence: false of the code when the member's type has required parts; proved otherwise."
  },
  {
   "property": "C29",
   "status": "partial",
   "theorems": [
    "C29_refuted",
    "C46_storable_round_trip"
   ],
   "note": "False of the code for std::vector members and std::string with zero bytes. Proved for the other types (C46)."
  },
  {
   "property": "C30",
   "status": "partial",
   "theorems": [
    "C30_refuted",
    "C30_refuted_names",
    "C30_complete_partial"
   ],
   "note": "False of the code: the status of a named member is ignored. Proved when named members are of storable types."
  },
  {
   "property": "C31",
   "status": "partial",
   "theorems": [
    "C31_refuted",
    "C31_map_written_empty"
   ],
   "note": "False of the code for every map: the text written is always an object without members, though the tree has them all."
  },
  {
   "property": "C32",
   "status": "partial",
   "theorems": [
    "C32_refuted",
    "C32_exact_partial"
   ],
   "note": "False of the code: the file is not truncated and write errors are ignored. Proved when no write fails and the old file is not longer (see C48)."
  },
  {
   "property": "C33",
   "status": "partial",
   "theorems": [
    "C33_refuted",
    "C33_hang_refuted",
    "C33_overlay",
    "C33_safe_partial"
   ],
   "note": "False of the code: every read goes to the start of the buffer; a file that shrinks hangs the call. C33_overlay gives the exact result for every split; C49 the correct case."
  },
  {
   "property": "C34",
   "status": "proved",
   "theorems": [
    "C34_size_limit"
   ],
   "note": "for the size that fstat reports; when fstat fails the size is taken as 0"
  },
  {
   "property": "C35",
   "status": "partial",
   "theorems": [
    "C35_refuted",
    "C35_unsigned_refuted",
    "C35_int32_partial",
    "C35_int64_partial"
   ],
   "note": "False of the code for INT_MIN (printed as -0) and for unsigned values from 2^31 on. Proved for all other int32 and int64 values and all capacities."
  },
  {
   "property": "C36",
   "status": "partial",
   "theorems": [
    "C36_refuted",
    "C36_four_refuted",
    "C36_fixed_strings_partial",
    "C36_meaning_unique"
   ],
   "note": "False of the code when a string is appended to itself and for the four character constructor with len < 4. Proved for all histories with operands outside the object."
  },
  {
   "property": "C37",
   "status": "partial",
   "theorems": [
    "C37_refuted",
    "C37_self_append_refuted",
    "C37_self_assign_refuted",
    "C37_escape_refuted",
    "C37_memory_partial",
    "C37_texts_partial",
    "C37_safe_legal"
   ],
   "note": "False of the code: SetStringLength, self append, self assignment, EncodeEscapeSequences. The partial theorems cover all programs without these; float and uint16 conversions are not modelled here."
  },
  {
   "property": "C38",
   "status": "proved",
   "theorems": [
    "C38_char",
    "C38_round_trip"
   ],
   "note": ""
  },
  {
   "property": "C39",
   "status": "proved",
   "theorems": [
    "C39_key_order"
   ],
   "note": ""
  },
  {
   "property": "C40",
   "status": "partial",
   "theorems": [
    "C40_refuted",
    "C40_insert_refuted",
    "C40_lists_partial",
    "C40_append_own",
    "C40_growth"
   ],
   "note": "False of the code if the element passed is one of the array itself: appending to a full array uses a dangling reference, inserting before it inserts another element or uses a destroyed one. Proved for elements from elsewhere, with the number of allocations; exact condition for appending an own element."
  },
  {
   "property": "C41",
   "status": "partial",
   "theorems": [
    "C41_refuted",
    "C41_exact",
    "C41_no_leak_partial",
    "C41_history_partial"
   ],
   "note": "False of the code: the value of a repeated member name is lost. C41_exact counts the objects lost for every accepted text; proved for texts that repeat no name, and over histories with the destructor."
  },
  {
   "property": "C42",
   "status": "proved",
   "theorems": [
    "C42_portable_total",
    "C42_number_parse_total"
   ],
   "note": ""
  },
  {
   "property": "C43",
   "status": "proved",
   "theorems": [
    "C43_white_space"
   ],
   "note": ""
  },
  {
   "property": "C44",
   "status": "proved",
   "theorems": [
    "C44_one_meaning"
   ],
   "note": ""
  },
  {
   "property": "C45",
   "status": "proved",
   "theorems": [
    "C45_full_round_trip"
   ],
   "note": ""
  },
  {
   "property": "C46",
   "status": "proved",
   "theorems": [
    "C46_storable_round_trip"
   ],
   "note": "the positive part of C29"
  },
  {
   "property": "C47",
   "status": "proved",
   "theorems": [
    "C47_text_delivers",
    "C47_valid_delivers"
   ],
   "note": "the positive part of C27"
  },
  {
   "property": "C48",
   "status": "proved",
   "theorems": [
    "C48_written"
   ],
   "note": ""
  },
  {
   "property": "C49",
   "status": "proved",
   "theorems": [
    "C49_one_read"
   ],
   "note": ""
  },
  {
   "property": "C50",
   "status": "proved",
   "theorems": [
    "C50_only_null_document",
    "C50_null_document_refuted"
   ],
   "note": "the second theorem shows that the excepted case does have undefined behaviour"
  },
  {
   "property": "C51",
   "status": "proved",
   "theorems": [
    "C51_parse_statuses",
    "C51_all_reached"
   ],
   "note": ""
  },
  {
   "property": "C52",
   "status": "proved",
   "theorems": [
    "C52_pointer_maps"
   ],
   "note": ""
  },
  {
   "property": "C53",
   "status": "partial",
   "theorems": [
    "C53_refuted",
    "C53_partial"
   ],
   "note": "False of the code if the map changes in between. Proved for a reservation used at once."
  },
  {
   "property": "C54",
   "status": "proved",
   "theorems": [
    "C54_portable_language",
    "C54_rfc_accepted"
   ],
   "note": ""
  },
  {
   "property": "C55",
   "status": "partial",
   "theorems": [
    "C55_refuted",
    "C55_integers_partial",
    "C55_no_nan",
    "C55_zero"
   ],
   "note": "False of the code: 0e309 is read as NaN, 0.15 and 3e-1 are not correctly rounded, 1_0 is read as a number. Proved: integers up to 2^53 with exponent 0 to 22 are correctly rounded, exponents below 309 never give NaN, zeros with larger ones always do."
  },
  {
   "property": "C56",
   "status": "partial",
   "theorems": [
    "C56_refuted",
    "C56_wide_to_string",
    "C56_string_to_wide_partial"
   ],
   "note": "False of ConvertStringToWideText: a character outside the BMP with one unit left writes one unit too many. Proved for ConvertWideTextToString; for ConvertStringToWideText the exact condition and result."
  },
  {
   "property": "C57",
   "status": "proved",
   "theorems": [
    "C57_string_to_wide",
    "C57_wide_to_string"
   ],
   "note": ""
  },
  {
   "property": "C58",
   "status": "partial",
   "theorems": [
    "C58_refuted",
    "C58_counts_partial",
    "C58_steps"
   ],
   "note": "False of the code: on text ending inside a sequence the counts read behind the terminator. Proved for valid UTF-8."
  },
  {
   "property": "C59",
   "status": "partial",
   "theorems": [
    "C59_refuted",
    "C59_no_base_partial"
   ],
   "note": "False of Array<type, baseCount> with baseCount > 0: the move constructor loses the block of an array whose elements fit into the member storage again. Proved for baseCount 0, the only one the JSON library uses."
  },
  {
   "property": "C60",
   "status": "proved",
   "theorems": [
    "C60_find",
    "C60_equal"
   ],
   "note": ""
  },
  {
   "property": "C61",
   "status": "proved",
   "theorems": [
    "C61_any_failure",
    "C61_histories",
    "C61_without_failures"
   ],
   "note": ""
  },
  {
   "property": "C62",
   "status": "partial",
   "theorems": [
    "C62_refuted",
    "C62_status_partial",
    "C62_exception_only_then"
   ],
   "note": "False of the code: when the object of a number, boolean or null cannot be allocated the status is kExpectedJsonValue. Proved: it is one of the two, and kException has no other cause."
  },
  {
   "property": "C63",
   "status": "partial",
   "theorems": [
    "C63_refuted",
    "C63_member_refuted",
    "C63_no_leak_partial"
   ],
   "note": "False of the code: the element is lost when the array cannot grow, the member when its name cannot be stored. Proved for all other statuses and texts that repeat no name."
  },
  {
   "property": "C64",
   "status": "proved",
   "theorems": [
    "C64_find_char",
    "C64_find_char_max",
    "C64_count",
    "C64_find_unquoted",
    "C64_any_array"
   ],
   "note": "FindUnquotedChar for characters other than the quote"
  },
  {
   "property": "C65",
   "status": "partial",
   "theorems": [
    "C65_refuted",
    "C65_caseless_refuted",
    "C65_find_text_partial",
    "C65_caseless_exact",
    "C65_empty"
   ],
   "note": "False of the code: the empty text is never found, and FindTextCaseless compares the first character with its case. Proved for FindText with non-empty texts; the exact result of FindTextCaseless."
  },
  {
   "property": "C66",
   "status": "proved",
   "theorems": [
    "C66_bounded",
    "C66_caseless",
    "C66_trichotomy"
   ],
   "note": ""
  },
  {
   "property": "C67",
   "status": "partial",
   "theorems": [
    "C67_refuted",
    "C67_large_refuted",
    "C67_total",
    "C67_by_key_partial",
    "C67_order_partial"
   ],
   "note": "False of the code: with superfluous zeros two texts are each less than the other, numbers wrap at 2^32. Proved for texts whose numbers have no superfluous zeros and are below 2^32."
  },
  {
   "property": "C68",
   "status": "proved",
   "theorems": [
    "C68_read_integer",
    "C68_read_float",
    "C68_read_plain",
    "C68_read_quoted",
    "C68_read_type",
    "C68_unique"
   ],
   "note": ""
  },
  {
   "property": "C69",
   "status": "partial",
   "theorems": [
    "C69_refuted",
    "C69_no_sign_partial"
   ],
   "note": "False of the code: a minus sign in the exponent ends the token. Proved for literals without sign in the exponent and without leading plus."
  },
  {
   "property": "C70",
   "status": "proved",
   "theorems": [
    "C70_resource",
    "C70_directory",
    "C70_unique"
   ],
   "note": ""
  },
  {
   "property": "C71",
   "status": "proved",
   "theorems": [
    "C71_hash",
    "C71_one_change"
   ],
   "note": ""
  },
  {
   "property": "C72",
   "status": "proved",
   "theorems": [
    "C72_zero",
    "C72_min_max",
    "C72_modulo"
   ],
   "note": ""
  },
  {
   "property": "C73",
   "status": "partial",
   "theorems": [
    "C73_refuted",
    "C73_sign_partial",
    "C73_overflow_zero_partial",
    "C73_powers_partial"
   ],
   "note": "False of the code: undefined for the least number, for 0, above 2^31 and when a difference overflows. Proved: right for all other arguments; the exceptions are exactly these."
  },
  {
   "property": "C74",
   "status": "partial",
   "theorems": [
    "C74_refuted",
    "C74_partial"
   ],
   "note": "False of the code: exchanging a variable with itself makes it 0. Proved for two different variables."
  },
  {
   "property": "C75",
   "status": "partial",
   "theorems": [
    "C75_refuted",
    "C75_partial"
   ],
   "note": "False of the code for characters from 128 on where char is signed. Proved otherwise."
  },
  {
   "property": "C76",
   "status": "proved",
   "theorems": [
    "C76_hex",
    "C76_injective"
   ],
   "note": ""
  },
  {
   "property": "C77",
   "status": "partial",
   "theorems": [
    "C77_refuted",
    "C77_text",
    "C77_type_partial",
    "C77_hex_text"
   ],
   "note": "False of the code for types with a zero byte before another byte. Proved: texts (cut to four characters), and exactly the types of texts."
  },
  {
   "property": "C78",
   "status": "partial",
   "theorems": [
    "C78_refuted",
    "C78_partial"
   ],
   "note": "Before C++20 the shift of a number from 512 on is undefined. Proved otherwise for any results of Log and Exp that scale the number to between 2^-31 and 2^24; those of the code do so from about 1e-37 on, and below it the call is undefined (C92)."
  },
  {
   "property": "C79",
   "status": "partial",
   "theorems": [
    "C79_refuted",
    "C79_partial",
    "C80_dynamic_string"
   ],
   "note": "False of the code: with an exponent only the characters of its numeral are counted, and what is appended to such a String<0> overwrites its text (1e10 becomes 0.kg). Proved from 1e-4 up to 1e5."
  },
  {
   "property": "C80",
   "status": "proved",
   "theorems": [
    "C80_accurate",
    "C80_fixed_string",
    "C80_dynamic_string"
   ],
   "note": "with the shift as in C++20"
  },
  {
   "property": "C81",
   "status": "partial",
   "theorems": [
    "C81_refuted",
    "C81_exact_partial",
    "C81_injective_partial"
   ],
   "note": "False of the code: 168 consecutive floats are written 0.92. Proved for multiples of 1/16, which are written exactly."
  },
  {
   "property": "C82",
   "status": "partial",
   "theorems": [
    "C82_refuted",
    "C82_partial"
   ],
   "note": "False of the code for infinities, NaN and texts that are cut. Proved for all finite floats and at least 29 characters."
  },
  {
   "property": "C83",
   "status": "partial",
   "theorems": [
    "C83_refuted",
    "C83_append_again",
    "C83_progress_partial",
    "C83_lists_partial",
    "C83_blocks_partial"
   ],
   "note": "False of the code: an append that throws leaves an array that claims room it does not have; the next append writes behind the storage. Proved if such an array is then only cleared, shortened, purged or destroyed."
  },
  {
   "property": "C84",
   "status": "partial",
   "theorems": [
    "C84_refuted",
    "C84_brackets",
    "C84_room_partial",
    "C84_same_parser",
    "C84_exact_partial"
   ],
   "note": "False of the code: nesting is not limited, so for every stack there is a valid text (and a run of brackets) that overflows it. Proved: never if the text has fewer opening brackets than the stack has room, and for accepted texts exactly if the nesting fits."
  },
  {
   "property": "C85",
   "status": "proved",
   "theorems": [
    "C85_total",
    "C85_sound",
    "C85_complete",
    "C85_language"
   ],
   "note": "texts of at least two characters"
  },
  {
   "property": "C86",
   "status": "partial",
   "theorems": [
    "C86_refuted",
    "C86_shape_partial",
    "C86_whole_partial"
   ],
   "note": "False of the code: 1_0 and 0e1 are accepted by one build, 1-2 by the other, 0.15 has two values. Proved: same acceptance and shape for RFC 8259 numbers without 0 before an exponent; same values for integers up to 2^53."
  },
  {
   "property": "C87",
   "status": "partial",
   "theorems": [
    "C87_refuted",
    "C87_total",
    "C87_text_partial",
    "C87_read_partial",
    "C87_exact_partial"
   ],
   "note": "False of the code: 2^128 is written INF, 2^-130 and -0 as 0.0, 0.5 + 2^-40 as 0.5; before C++20 writing 512 is undefined. Proved with the shift of C++20: every number that Log and Exp scale (C92) is written; from 1e-4 up to 1e5 the text is an RFC 8259 number within 1.02e-5 + 2^-24 of the number; multiples of 1/16 (1/2 for the portable reader) are read back exactly."
  },
  {
   "property": "C88",
   "status": "partial",
   "theorems": [
    "C88_refuted",
    "C88_shape_partial",
    "C88_same_partial"
   ],
   "note": "False of the code by C87 and because strings are not escaped (C12). Proved for plain strings: with numbers from 1e-4 up to 1e5 and 0 only the numbers change; with multiples of 1/2 the value is the same, in both builds."
  },
  {
   "property": "C89",
   "status": "partial",
   "theorems": [
    "C89_floor",
    "C89_ceil",
    "C89_special",
    "C89_positive_refuted",
    "C89_positive_partial"
   ],
   "note": "Floor and Ceil proved in full. PositiveFloor is false of the code without SSE4 (8388609 gives 8388608), proved up to 2^23."
  },
  {
   "property": "C90",
   "status": "partial",
   "theorems": [
    "C90_refuted",
    "C90_defined",
    "C90_monotone_partial",
    "C90_outside"
   ],
   "note": "False of the code: undefined outside -2^31 to 2^31, for infinities and NaN, and 0 from 90 on (the table has two entries too few). Proved: defined exactly in that range; monotone below 90."
  },
  {
   "property": "C91",
   "status": "partial",
   "theorems": [
    "C91_refuted",
    "C91_monotone_partial",
    "C91_sign",
    "C91_special"
   ],
   "note": "False of the code: Log(134217720) > Log(134217728), infinity and NaN give finite numbers. Proved: monotone between powers of two, sign, 0 and negative numbers."
  },
  {
   "property": "C92",
   "status": "partial",
   "theorems": [
    "C92_refuted",
    "C92_defined_partial",
    "C92_accurate"
   ],
   "note": "False of the code: undefined for every normal float below about 1e-37, where the scaled number is infinite. Proved for all other floats: defined, and within 2e-5 where there is an exponent (see C80 for the rest)."
  },
  {
   "property": "C93",
   "status": "partial",
   "theorems": [
    "C93_refuted",
    "C93_written",
    "C93_read_partial",
    "C93_shape_partial"
   ],
   "note": "False of the code: 2e-38 is read by both builds, and writing it is undefined; 1e39 is written INF. Proved: exactly which finite numbers are written 0.0, as a number (within 1/49000, or 1.02e-5 + 2^-24 without an exponent), as INF, or not at all; the numbers between 1e-4 and 1e5 with the shift of C++20; documents of the others keep their shape."
  },
  {
   "property": "C94",
   "status": "partial",
   "theorems": [
    "C94_refuted",
    "C94_mixes_partial",
    "C94_stops_partial",
    "C94_scalar_partial"
   ],
   "note": "False of the code: the members before the one that does not fit are overwritten and arrays lose their elements. Proved for every outcome: the object keeps its type and holds only old content and content of the document; structures are read up to the first member that does not fit and not touched after it (types whose optional members have no required parts); single values are kept. Calling Validate first avoids it (C26)."
  },
  {
   "property": "C95",
   "status": "proved",
   "theorems": [
    "C95_strings",
    "C95_buffers",
    "C95_round_trip",
    "C95_blank",
    "C95_part"
   ],
   "note": "Allocations succeed; lengths below 2^31."
  },
  {
   "property": "C96",
   "status": "partial",
   "theorems": [
    "C96_lost_refuted",
    "C96_merged_refuted",
    "C96_maps",
    "C96_text_keys",
    "C96_text_maps",
    "C96_file_keys_partial",
    "C96_file_maps_partial"
   ],
   "note": "False of FileNameKey: a map of three names does not find the first any more; two different names count as equal. Proved for ConstCharKey and StringKey, for FileNameKey when the numbers in the names have no superfluous zeros and are below 2^32, and for every key class whose operators fit together."
  },
  {
   "property": "C97",
   "status": "partial",
   "theorems": [
    "C97_dangling_refuted",
    "C97_dangling",
    "C97_silent_refuted",
    "C97_leak_refuted",
    "C97_leak_twice_refuted",
    "C97_leak_anonymous_refuted",
    "C97_safe_partial",
    "C97_agrees",
    "C97_cut",
    "C97_reported_partial",
    "C97_histories_partial"
   ],
   "note": "False of the code: when the new root cannot be made the document keeps a pointer to the deleted one; contents of members are lost with kOk; maps lose elements. Proved: no undefined step otherwise, for every type and every set of failing requests; no loss for types without maps, repeated names and anonymous maps; without failures the results of C29-C31."
  },
  {
   "property": "C98",
   "status": "partial",
   "theorems": [
    "C98_freed_refuted",
    "C98_freed",
    "C98_append_again",
    "C98_assign_again",
    "C98_overflow_refuted",
    "C98_length_thrown",
    "C98_escape_thrown",
    "C98_total",
    "C98_done",
    "C98_short",
    "C98_thrown_partial",
    "C98_careful_partial"
   ],
   "note": "False of the code: an assignment that throws leaves a deleted text behind; an append that throws records storage that is not there, and repeating it writes behind the storage. Proved: nothing undefined before the throw; after it reading, destroying and purging are safe, except after an assignment to a text on the heap; calls that end do what they mean; short assignments never throw. EncodeEscapeSequences and SetStringLength to 1..15 excluded (C37)."
  },
  {
   "property": "C99",
   "status": "partial",
   "theorems": [
    "C99_refuted",
    "C99_agrees",
    "C99_parsed_partial",
    "C99_write",
    "C99_schema"
   ],
   "note": "False of the code: Write and the destructor recurse along the nesting, and for every stack size a valid text overflows it. Proved: for parsed documents Write recurses exactly as deep as the tree and no deeper than Parse did, the destructor at most that times 2 + 2 log2 of the text's length; Validate, Deserialize and Serialize recurse at most as deep as the type, whatever the document."
  },
  {
   "property": "C100",
   "status": "partial",
   "theorems": [
    "C100_String_refuted",
    "C100_Array_refuted",
    "C100_ObjectMap_refuted",
    "C100_again_refuted",
    "C100_partial",
    "C100_enough_memory",
    "C100_new_object"
   ],
   "note": "False of the code: a String whose text is on the heap is left with a deleted text, so that destroying the object, or the temporary of an Array inside the call, deletes it twice; an ObjectMap loses an element whose long name cannot be stored; repeating the call overflows the String. Proved for every type, document and set of failing requests, when no String outside arrays has 16 or more characters before the call: the call returns kException after a failed request or else the result of C26-C28, the object can be destroyed, and at most one element is lost, none when the names are short or there is no ObjectMap (ObjectMap elements are counted, not blocks of strings and arrays)."
  },
  {
   "property": "C101",
   "status": "partial",
   "theorems": [
    "C101_refuted",
    "C101_overwritten_partial",
    "C101_every_point",
    "C101_cut_partial",
    "C101_complete",
    "C101_rejected_partial",
    "C101_new_file_partial",
    "C101_same_partial"
   ],
   "note": "False of the code: a Write of [3,4] over [1,2] that is cut leaves the valid document [3,2], and a cut 123 in a new file is 12. Proved for every end of the program, split of the writes and set of failing requests: without failing writes the file is a first part of the text and the old bytes behind it, and each such file occurs; with failing writes a first part of each piece. An array or object (finite numbers, strings that need no escapes, white space as indentation) in a file that is not longer than what is written is rejected by Parse until it is complete; writing a document over its own text changes nothing."
  },
  {
   "property": "C102",
   "status": "partial",
   "theorems": [
    "C102_refuted",
    "C102_partial",
    "C102_enough_memory"
   ],
   "note": "False of the code: for every array or object and every indentation of at least 1 the program ends when the first request fails. Proved for every set of failing requests: Write returns what it returns with enough memory, or the program ends after a first part of its WriteFile calls and one of the first n * levels / 4 requests failed; never with indentation 0 or without an array or object at the root."
  },
  {
   "property": "C103",
   "status": "partial",
   "theorems": [
    "C103_refuted",
    "C103_bound_partial",
    "C103_square"
   ],
   "note": "False of the code: for every d a text of 15 d + 4 bytes that Parse accepts is written as at least 2^d bytes (members with equal names). Proved for documents without equal names in an object: at most (indentation * nesting + 26) times the size of the parsed text; the square of the nesting is reached."
  },
  {
   "property": "C104",
   "status": "partial",
   "theorems": [
    "C104_refuted",
    "C104_round_trip_partial",
    "C104_small_partial"
   ],
   "note": "False of the code: a file of 362 bytes is written as one of 65883, which Parse refuses. Proved for finite numbers, strings that need no escapes and white space as indentation, when the written text has 2 to 65534 bytes, the file was not longer, no write fails and the first read delivers everything; a condition on the parsed text alone is given."
  },
  {
   "property": "C105",
   "status": "proved",
   "theorems": [
    "C105_read",
    "C105_write",
    "C105_round_trip",
    "C105_failures",
    "C105_limits"
   ],
   "note": "For the Windows branch. C105_limits shows that the conditions are needed: a failing write is not reported, and a file shorter than its reported size is read for ever."
  },
  {
   "property": "C106",
   "status": "partial",
   "theorems": [
    "C106_refuted",
    "C106_length_refuted",
    "C106_json_refuted",
    "C106_text",
    "C106_reads_back",
    "C106_injective",
    "C106_c_partial",
    "C106_json_partial"
   ],
   "note": "False of the code: C reads \\x01A, the result for the two characters 1 and A, as one character; the recorded length is one too small after every change, so that appending a character replaces the last one; Parse rejects \\a. Proved: the storage holds the text spelled character by character, for all texts; a reader that takes two digits after \\x reads the text back, and different texts are spelled differently; C reads it back when no character spelled with \\x stands before a hexadecimal digit; in quotation marks it is a JSON text of the same string when the only control characters are \\b \\t \\n \\f \\r."
  },
  {
   "property": "C107",
   "status": "partial",
   "theorems": [
    "C107_refuted",
    "C107_middle_refuted",
    "C107_partial",
    "C107_negative"
   ],
   "note": "False of the code for every integer from 2^31 (uint32) or 2^63 (uint64) on: it appears as a negative number, 2^31 and 2^63 as -0. Proved for the smaller ones, for construction, assignment, += and + of both string classes."
  },
  {
   "property": "C108",
   "status": "partial",
   "theorems": [
    "C108_refuted",
    "C108_partial",
    "C108_new_elements"
   ],
   "note": "False of the code: an Array element {} for a structure with an optional bool without an initialiser gets an indeterminate bool. Proved for the types whose Array and std::vector elements have an initialiser for every number and bool that the document may leave out (and for all other types, including maps, whose new elements are zero): the result depends on the document and the object only. For structures of optional members: absent members of new elements hold their initialisers, or empty strings and containers, and in maps 0 and false. Indeterminate values are one unknown double and one unknown bool per call in the model."
  },
  {
   "property": "C109",
   "status": "partial",
   "theorems": [
    "C109_refuted",
    "C109_partial",
    "C109_floats",
    "C109_near_partial",
    "C109_pair_partial"
   ],
   "note": "False of the code: for NaN, and for two infinities, the index into the table comes from an undefined conversion. Proved for all other floats, in all three builds: defined, at most a quarter (half) turn, odd, on the side of the argument, and with two arguments in the half plane that x gives. Up to 1 the result is within 2^-18 of the angle with that tangent (table entries by the addition theorem), above 1 it is the quarter turn less that for the reciprocal."
  },
  {
   "property": "C110",
   "status": "partial",
   "theorems": [
    "C110_refuted",
    "C110_partial",
    "C110_symmetry",
    "C110_tangent"
   ],
   "note": "False of the code: with SSE2 the sine of 3.6e12 is below -1e27, and without SIMD arguments from about 5.3e7 on are undefined. Proved for all arguments up to 2^17 in all three builds: within 2^-16 of sine and cosine of an angle that differs from the argument by at most 2^-21 of it and 2^-27. For all floats: Sin and Tan odd, Cos even, Tan the quotient of what CosSin stores."
  },
  {
   "property": "C111",
   "status": "partial",
   "theorems": [
    "C111_refuted",
    "C111_partial"
   ],
   "note": "False of the code: Sin(0.024) differs in the fourth digit between the plain and the SIMD build, where the constants 1/6 and 1/120 are exchanged. Proved for all arguments up to 2^17: SSE2 and SSE4 agree exactly, all builds up to 2^-15."
  },
  {
   "property": "C112",
   "status": "partial",
   "theorems": [
    "C112_refuted",
    "C112_builds_partial",
    "C112_least",
    "C112_zero",
    "C112_clamp",
    "C112_signs_partial"
   ],
   "note": "False of the code for NaN and -0: Saturate(NaN) is 1 without SIMD and 0 with it, Fmax and Fsgn differ for NaN, NonzeroFsgn for -0. Proved: without NaN all builds agree and the results are the least and greatest argument; Clamp and Saturate stay within their limits for every float including NaN and change nothing that is within; the signs of all finite floats (NonzeroFsgn without zeros)."
  },
  {
   "property": "C113",
   "status": "partial",
   "theorems": [
    "C113_refuted",
    "C113_floor_ceil_partial",
    "C113_frac_partial"
   ],
   "note": "False of the code: with SSE2 FloorCeil(8388609) stores 8388608 as the floor and NegativeFloor(-8388611) is not -8388611; Frac of the negative numbers closest to 0 is 1. Proved: up to 2^23 in magnitude, and for the other two builds for all numbers, these are floor and ceiling; Frac is the fractional part rounded, from 0 to 1, the same in all builds, exact for numbers that are not negative."
  },
  {
   "property": "C114",
   "status": "partial",
   "theorems": [
    "C114_refuted",
    "C114_partial",
    "C114_small"
   ],
   "note": "False of the code: without SIMD Sqrt(1) is less than 1 and InverseSqrt of infinity infinite; with SSE Sqrt and InverseSqrt of infinity, and Sqrt of minus infinity, are NaN. Proved for all normal positive floats, without SIMD and with SSE for every processor whose _mm_rsqrt_ss has the documented accuracy: the square of InverseSqrt(x) times x is within 2^-15 of 1, the square of Sqrt(x) within x * 2^-14 of x. Sqrt is 0 and InverseSqrt infinite for all other finite floats."
  },
  {
   "property": "C115",
   "status": "partial",
   "theorems": [
    "C115_refuted",
    "C115_arcsin_partial",
    "C115_arccos_partial",
    "C115_arcsin_tangent_partial",
    "C115_arccos_tangent_partial"
   ],
   "note": "False of the code: undefined for NaN, and with SSE Arccos is undefined for 2^64, whose square is infinite. Proved: Arcsin for all other floats and Arccos for all other floats without SIMD, up to 2^63 with SSE, is defined, in the range and on the side that the sign gives, and exactly the limit of the range from 1 on. For normal arguments below 1 the results are Arctan (C109) of numbers whose squares are those of the tangents up to 2^-14 and 2^-13, with 1 - y^2 up to 2^-23. Zero has no sign in the model, so that nothing is said of Arccos(-0)."
  },
  {
   "property": "C116",
   "status": "partial",
   "theorems": [
    "C116_refuted",
    "C116_partial",
    "C116_one"
   ],
   "note": "False of the code: Pow(0, 1) and Pow(-1, 2) are undefined, Pow(2, 200) is 0. Proved for normal positive bases and exponents up to 2^18 in magnitude, in all builds: defined, not negative, for bases above 1 not decreasing in the exponent until it is 0, for bases below 1 not increasing; exponent 0 and base 1 give exactly 1. How close it is to the power is not proved."
  }
 ]
}