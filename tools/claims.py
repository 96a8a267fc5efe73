claim("C01", "proved", ["C01_parse_total"], "C01_unterminated covers arrays without the terminator")
claim("C02", "proved", ["C02_sound"])
claim("C03", "proved", ["C03_complete"])
claim("C04", "partial", ["C04_rfc_accepted_refuted", "C04_rfc_accepted_partial"],
      "False of the code: one-byte documents, 0e1, raw DEL, escaped NUL and surrogate pairs. The partial theorem covers every RFC document without these.")
claim("C05", "partial", ["C05_only_rfc_refuted", "C05_only_rfc_partial"],
      "False of the code: nine kinds of non-RFC text are accepted. The partial theorem: with RFC number tokens and UTF-8 tokens the text is RFC.")
claim("C06", "proved", ["C06_string_tokens"])
claim("C07", "partial", ["C07_surrogate_pairs_refuted", "C07_decoded_utf8_partial"],
      "False of the code for every surrogate pair. The partial theorem: without surrogates the decoded string is valid UTF-8.")
claim("C08", "proved", ["C08_number_tokens", "C08_rfc_numbers"])
claim("C09", "proved", ["C09_correctly_rounded", "C09_library_tokens"])
claim("C10", "proved", ["C10_number_round_trip"], "as a token inside a document, and as a whole document of at least two bytes (a one digit root number is C13_refuted)")
claim("C11", "proved", ["C11_write_parse", "C11_parse_write_parse", "C11_written_rfc", "C11_two_bytes"])
claim("C12", "partial", ["C12_refuted", "C12_strings_partial"],
      "False of the code: Write does not escape. The partial theorem characterises exactly the strings that survive.")
claim("C13", "partial", ["C13_refuted", "C13_numbers_partial"],
      "False of the code: 1e999 is parsed to an infinity and written as inf; a root number of one digit is refused by Parse. The partial theorem: exactly the finite numbers survive.")
claim("C14", "proved", ["C14_lookup_first"])
claim("C15", "proved", ["C15_write_layout", "C15_write_layout_tree", "C15_first_values"])
claim("C16", "proved", ["C16_insert_lookup"])
claim("C17", "proved", ["C17_iteration_sorted"])
claim("C18", "proved", ["C18_balanced"])
claim("C19", "proved", ["C19_remove_exactly_one"])
claim("C21", "partial", ["C21_refuted", "C21_position_partial", "C21_line_partial", "C21_counted_from_first_token"],
      "False of the code: line and column count from the first token, not from the start of the text. Proved when the text starts with a token; the exact offset is C21_counted_from_first_token.")
claim("C22", "partial", ["C22_refuted", "C22_wrong_refuted", "C22_messages_partial", "C22_shifted"],
      "False of the code: the table lacks an entry for KFileTooLarge, so all later messages are shifted and the last index is out of bounds. The partial theorem: right for exactly three statuses.")
claim("C23", "partial", ["C23_refuted", "C23_report_partial", "C23_cut", "C23_no_position"],
      "False of the code: the position is cut to 24 characters. The partial theorem: complete exactly when line and column have at most six digits together.")
claim("C35", "partial", ["C35_refuted", "C35_unsigned_refuted", "C35_int32_partial", "C35_int64_partial"],
      "False of the code for INT_MIN (printed as -0) and for unsigned values from 2^31 on. Proved for all other int32 and int64 values and all capacities.")
claim("C36", "partial", ["C36_refuted", "C36_four_refuted", "C36_fixed_strings_partial", "C36_meaning_unique"],
      "False of the code when a string is appended to itself and for the four character constructor with len < 4. Proved for all histories with operands outside the object.")
claim("C37", "partial", ["C37_refuted", "C37_self_append_refuted", "C37_self_assign_refuted", "C37_escape_refuted", "C37_memory_partial", "C37_texts_partial", "C37_safe_legal"],
      "False of the code: SetStringLength, self append, self assignment, EncodeEscapeSequences. The partial theorems cover all programs without these; float and uint16 conversions are not modelled here.")
claim("C39", "proved", ["C39_key_order"])
claim("C43", "proved", ["C43_white_space"])
claim("C44", "proved", ["C44_one_meaning"])
claim("C26", "proved", ["C26_validate_predicts"])
claim("C27", "partial", ["C27_refuted", "C47_valid_delivers", "C47_text_delivers", "C27_ok_delivers_partial"],
      "False of the code: kNameNotPresent from inside an optional member is taken for its absence. Proved for all valid documents, and for all documents when optional members have no required parts.")
claim("C28", "partial", ["C28_refuted", "C28_absent_partial", "C28_present_partial"],
      "Absence: proved for all types and places. Presence: false of the code when the member's type has required parts; proved otherwise.")
claim("C29", "partial", ["C29_refuted", "C46_storable_round_trip"],
      "False of the code for std::vector members and std::string with zero bytes. Proved for the other types (C46).")
claim("C30", "partial", ["C30_refuted", "C30_refuted_names", "C30_complete_partial"],
      "False of the code: the status of a named member is ignored. Proved when named members are of storable types.")
claim("C31", "partial", ["C31_refuted", "C31_map_written_empty"],
      "False of the code for every map: the text written is always an object without members, though the tree has them all.")
claim("C45", "proved", ["C45_full_round_trip"])
claim("C46", "proved", ["C46_storable_round_trip"], "the positive part of C29")
claim("C47", "proved", ["C47_text_delivers", "C47_valid_delivers"], "the positive part of C27")
claim("C24", "proved", ["C24_what_is_held", "C24_by_status"])
claim("C25", "partial", ["C25_refuted", "C25_well_formed_partial"],
      "False of the code for a prototype with an anonymous map member after a named one. Proved for all histories without such types.")
claim("C32", "partial", ["C32_refuted", "C32_exact_partial"],
      "False of the code: the file is not truncated and write errors are ignored. Proved when no write fails and the old file is not longer (see C48).")
claim("C33", "partial", ["C33_refuted", "C33_hang_refuted", "C33_overlay", "C33_safe_partial"],
      "False of the code: every read goes to the start of the buffer; a file that shrinks hangs the call. C33_overlay gives the exact result for every split; C49 the correct case.")
claim("C34", "proved", ["C34_size_limit"], "for the size that fstat reports; when fstat fails the size is taken as 0")
claim("C48", "proved", ["C48_written"])
claim("C49", "proved", ["C49_one_read"])
claim("C50", "proved", ["C50_only_null_document", "C50_null_document_refuted"], "the second theorem shows that the excepted case does have undefined behaviour")
claim("C51", "proved", ["C51_parse_statuses", "C51_all_reached"])
claim("C20", "partial", ["C20_refuted", "C20_partial"],
      "False of the code when the replaced element is the root of the map: rootElement is not updated, the map loses its other elements and keeps a pointer to the element it hands back. Proved for all histories in which no root is replaced.")
claim("C52", "proved", ["C52_pointer_maps"])
claim("C53", "partial", ["C53_refuted", "C53_partial"],
      "False of the code if the map changes in between. Proved for a reservation used at once.")
claim("C42", "proved", ["C42_portable_total", "C42_number_parse_total"])
claim("C54", "proved", ["C54_portable_language", "C54_rfc_accepted"])
claim("C55", "partial", ["C55_refuted", "C55_integers_partial", "C55_no_nan", "C55_zero"],
      "False of the code: 0e309 is read as NaN, 0.15 and 3e-1 are not correctly rounded, 1_0 is read as a number. Proved: integers up to 2^53 with exponent 0 to 22 are correctly rounded, exponents below 309 never give NaN, zeros with larger ones always do.")
claim("C38", "proved", ["C38_char", "C38_round_trip"])
claim("C56", "partial", ["C56_refuted", "C56_wide_to_string", "C56_string_to_wide_partial"],
      "False of ConvertStringToWideText: a character outside the BMP with one unit left writes one unit too many. Proved for ConvertWideTextToString; for ConvertStringToWideText the exact condition and result.")
claim("C57", "proved", ["C57_string_to_wide", "C57_wide_to_string"])
claim("C58", "partial", ["C58_refuted", "C58_counts_partial", "C58_steps"],
      "False of the code: on text ending inside a sequence the counts read behind the terminator. Proved for valid UTF-8.")
claim("C40", "partial", ["C40_refuted", "C40_insert_refuted", "C40_lists_partial", "C40_append_own", "C40_growth"],
      "False of the code if the element passed is one of the array itself: appending to a full array uses a dangling reference, inserting before it inserts another element or uses a destroyed one. Proved for elements from elsewhere, with the number of allocations; exact condition for appending an own element.")
claim("C59", "partial", ["C59_refuted", "C59_no_base_partial"],
      "False of Array<type, baseCount> with baseCount > 0: the move constructor loses the block of an array whose elements fit into the member storage again. Proved for baseCount 0, the only one the JSON library uses.")
claim("C60", "proved", ["C60_find", "C60_equal"])
claim("C41", "partial", ["C41_refuted", "C41_exact", "C41_no_leak_partial", "C41_history_partial"],
      "False of the code: the value of a repeated member name is lost. C41_exact counts the objects lost for every accepted text; proved for texts that repeat no name, and over histories with the destructor.")
claim("C61", "proved", ["C61_any_failure", "C61_histories", "C61_without_failures"])
claim("C62", "partial", ["C62_refuted", "C62_status_partial", "C62_exception_only_then"],
      "False of the code: when the object of a number, boolean or null cannot be allocated the status is kExpectedJsonValue. Proved: it is one of the two, and kException has no other cause.")
claim("C63", "partial", ["C63_refuted", "C63_member_refuted", "C63_no_leak_partial"],
      "False of the code: the element is lost when the array cannot grow, the member when its name cannot be stored. Proved for all other statuses and texts that repeat no name.")
claim("C64", "proved", ["C64_find_char", "C64_find_char_max", "C64_count", "C64_find_unquoted", "C64_any_array"], "FindUnquotedChar for characters other than the quote")
claim("C65", "partial", ["C65_refuted", "C65_caseless_refuted", "C65_find_text_partial", "C65_caseless_exact", "C65_empty"],
      "False of the code: the empty text is never found, and FindTextCaseless compares the first character with its case. Proved for FindText with non-empty texts; the exact result of FindTextCaseless.")
claim("C66", "proved", ["C66_bounded", "C66_caseless", "C66_trichotomy"])
claim("C67", "partial", ["C67_refuted", "C67_large_refuted", "C67_total", "C67_by_key_partial", "C67_order_partial"],
      "False of the code: with superfluous zeros two texts are each less than the other, numbers wrap at 2^32. Proved for texts whose numbers have no superfluous zeros and are below 2^32.")
claim("C68", "proved", ["C68_read_integer", "C68_read_float", "C68_read_plain", "C68_read_quoted", "C68_read_type", "C68_unique"])
claim("C69", "partial", ["C69_refuted", "C69_no_sign_partial"],
      "False of the code: a minus sign in the exponent ends the token. Proved for literals without sign in the exponent and without leading plus.")
claim("C70", "proved", ["C70_resource", "C70_directory", "C70_unique"])
claim("C71", "proved", ["C71_hash", "C71_one_change"])
claim("C72", "proved", ["C72_zero", "C72_min_max", "C72_modulo"])
claim("C73", "partial", ["C73_refuted", "C73_sign_partial", "C73_overflow_zero_partial", "C73_powers_partial"],
      "False of the code: undefined for the least number, for 0, above 2^31 and when a difference overflows. Proved: right for all other arguments; the exceptions are exactly these.")
claim("C74", "partial", ["C74_refuted", "C74_partial"],
      "False of the code: exchanging a variable with itself makes it 0. Proved for two different variables.")
claim("C75", "partial", ["C75_refuted", "C75_partial"],
      "False of the code for characters from 128 on where char is signed. Proved otherwise.")
claim("C76", "proved", ["C76_hex", "C76_injective"])
claim("C77", "partial", ["C77_refuted", "C77_text", "C77_type_partial", "C77_hex_text"],
      "False of the code for types with a zero byte before another byte. Proved: texts (cut to four characters), and exactly the types of texts.")
claim("C78", "partial", ["C78_refuted", "C78_partial"],
      "Before C++20 the shift of a number from 512 on is undefined. Proved otherwise for any results of Log and Exp that scale the number to between 2^-31 and 2^24; those of the code do so from about 1e-37 on, and below it the call is undefined (C92).")
claim("C79", "partial", ["C79_refuted", "C79_partial", "C80_dynamic_string"],
      "False of the code: with an exponent only the characters of its numeral are counted, and what is appended to such a String<0> overwrites its text (1e10 becomes 0.kg). Proved from 1e-4 up to 1e5.")
claim("C80", "proved", ["C80_accurate", "C80_fixed_string", "C80_dynamic_string"], "with the shift as in C++20")
claim("C81", "partial", ["C81_refuted", "C81_exact_partial", "C81_injective_partial"],
      "False of the code: 168 consecutive floats are written 0.92. Proved for multiples of 1/16, which are written exactly.")
claim("C82", "partial", ["C82_refuted", "C82_partial"],
      "False of the code for infinities, NaN and texts that are cut. Proved for all finite floats and at least 29 characters.")
claim("C83", "partial", ["C83_refuted", "C83_append_again", "C83_progress_partial", "C83_lists_partial", "C83_blocks_partial"],
      "False of the code: an append that throws leaves an array that claims room it does not have; the next append writes behind the storage. Proved if such an array is then only cleared, shortened, purged or destroyed.")
claim("C84", "partial", ["C84_refuted", "C84_brackets", "C84_room_partial", "C84_same_parser", "C84_exact_partial"],
      "False of the code: nesting is not limited, so for every stack there is a valid text (and a run of brackets) that overflows it. Proved: never if the text has fewer opening brackets than the stack has room, and for accepted texts exactly if the nesting fits.")
claim("C85", "proved", ["C85_total", "C85_sound", "C85_complete", "C85_language"], "texts of at least two characters")
claim("C86", "partial", ["C86_refuted", "C86_shape_partial", "C86_whole_partial"],
      "False of the code: 1_0 and 0e1 are accepted by one build, 1-2 by the other, 0.15 has two values. Proved: same acceptance and shape for RFC 8259 numbers without 0 before an exponent; same values for integers up to 2^53.")
claim("C87", "partial", ["C87_refuted", "C87_total", "C87_text_partial", "C87_read_partial", "C87_exact_partial"],
      "False of the code: 2^128 is written INF, 2^-130 and -0 as 0.0, 0.5 + 2^-40 as 0.5; before C++20 writing 512 is undefined. Proved with the shift of C++20: every number that Log and Exp scale (C92) is written; from 1e-4 up to 1e5 the text is an RFC 8259 number within 1.02e-5 + 2^-24 of the number; multiples of 1/16 (1/2 for the portable reader) are read back exactly.")
claim("C88", "partial", ["C88_refuted", "C88_shape_partial", "C88_same_partial"],
      "False of the code by C87 and because strings are not escaped (C12). Proved for plain strings: with numbers from 1e-4 up to 1e5 and 0 only the numbers change; with multiples of 1/2 the value is the same, in both builds.")
claim("C89", "partial", ["C89_floor", "C89_ceil", "C89_special", "C89_positive_refuted", "C89_positive_partial"],
      "Floor and Ceil proved in full. PositiveFloor is false of the code without SSE4 (8388609 gives 8388608), proved up to 2^23.")
claim("C90", "partial", ["C90_refuted", "C90_defined", "C90_monotone_partial", "C90_outside"],
      "False of the code: undefined outside -2^31 to 2^31, for infinities and NaN, and 0 from 90 on (the table has two entries too few). Proved: defined exactly in that range; monotone below 90.")
claim("C91", "partial", ["C91_refuted", "C91_monotone_partial", "C91_sign", "C91_special"],
      "False of the code: Log(134217720) > Log(134217728), infinity and NaN give finite numbers. Proved: monotone between powers of two, sign, 0 and negative numbers.")
claim("C92", "partial", ["C92_refuted", "C92_defined_partial", "C92_accurate"],
      "False of the code: undefined for every normal float below about 1e-37, where the scaled number is infinite. Proved for all other floats: defined, and within 2e-5 where there is an exponent (see C80 for the rest).")
claim("C93", "partial", ["C93_refuted", "C93_written", "C93_read_partial", "C93_shape_partial"],
      "False of the code: 2e-38 is read by both builds, and writing it is undefined; 1e39 is written INF. Proved: exactly which finite numbers are written 0.0, as a number (within 1/49000, or 1.02e-5 + 2^-24 without an exponent), as INF, or not at all; the numbers between 1e-4 and 1e5 with the shift of C++20; documents of the others keep their shape.")
claim("C94", "partial", ["C94_refuted", "C94_mixes_partial", "C94_stops_partial", "C94_scalar_partial"],
      "False of the code: the members before the one that does not fit are overwritten and arrays lose their elements. Proved for every outcome: the object keeps its type and holds only old content and content of the document; structures are read up to the first member that does not fit and not touched after it (types whose optional members have no required parts); single values are kept. Calling Validate first avoids it (C26).")
claim("C95", "proved", ["C95_strings", "C95_buffers", "C95_round_trip", "C95_blank", "C95_part"],
      "Allocations succeed; lengths below 2^31.")
claim("C96", "partial", ["C96_lost_refuted", "C96_merged_refuted", "C96_maps", "C96_text_keys", "C96_text_maps", "C96_file_keys_partial", "C96_file_maps_partial"],
      "False of FileNameKey: a map of three names does not find the first any more; two different names count as equal. Proved for ConstCharKey and StringKey, for FileNameKey when the numbers in the names have no superfluous zeros and are below 2^32, and for every key class whose operators fit together.")
claim("C97", "partial", ["C97_dangling_refuted", "C97_dangling", "C97_silent_refuted", "C97_leak_refuted", "C97_leak_twice_refuted", "C97_leak_anonymous_refuted", "C97_safe_partial", "C97_agrees", "C97_cut", "C97_reported_partial", "C97_histories_partial"],
      "False of the code: when the new root cannot be made the document keeps a pointer to the deleted one; contents of members are lost with kOk; maps lose elements. Proved: no undefined step otherwise, for every type and every set of failing requests; no loss for types without maps, repeated names and anonymous maps; without failures the results of C29-C31.")
claim("C98", "partial", ["C98_freed_refuted", "C98_freed", "C98_append_again", "C98_assign_again", "C98_overflow_refuted", "C98_length_thrown", "C98_escape_thrown", "C98_total", "C98_done", "C98_short", "C98_thrown_partial", "C98_careful_partial"],
      "False of the code: an assignment that throws leaves a deleted text behind; an append that throws records storage that is not there, and repeating it writes behind the storage. Proved: nothing undefined before the throw; after it reading, destroying and purging are safe, except after an assignment to a text on the heap; calls that end do what they mean; short assignments never throw. EncodeEscapeSequences and SetStringLength to 1..15 excluded (C37).")
claim("C99", "partial", ["C99_refuted", "C99_agrees", "C99_parsed_partial", "C99_write", "C99_schema"],
      "False of the code: Write and the destructor recurse along the nesting, and for every stack size a valid text overflows it. Proved: for parsed documents Write recurses exactly as deep as the tree and no deeper than Parse did, the destructor at most that times 2 + 2 log2 of the text's length; Validate, Deserialize and Serialize recurse at most as deep as the type, whatever the document.")
claim("C100", "partial", ["C100_String_refuted", "C100_Array_refuted", "C100_ObjectMap_refuted", "C100_again_refuted", "C100_partial", "C100_enough_memory", "C100_new_object"],
      "False of the code: a String whose text is on the heap is left with a deleted text, so that destroying the object, or the temporary of an Array inside the call, deletes it twice; an ObjectMap loses an element whose long name cannot be stored; repeating the call overflows the String. Proved for every type, document and set of failing requests, when no String outside arrays has 16 or more characters before the call: the call returns kException after a failed request or else the result of C26-C28, the object can be destroyed, and at most one element is lost, none when the names are short or there is no ObjectMap (ObjectMap elements are counted, not blocks of strings and arrays).")
claim("C101", "partial", ["C101_refuted", "C101_overwritten_partial", "C101_every_point", "C101_cut_partial", "C101_complete", "C101_rejected_partial", "C101_new_file_partial", "C101_same_partial"],
      "False of the code: a Write of [3,4] over [1,2] that is cut leaves the valid document [3,2], and a cut 123 in a new file is 12. Proved for every end of the program, split of the writes and set of failing requests: without failing writes the file is a first part of the text and the old bytes behind it, and each such file occurs; with failing writes a first part of each piece. An array or object (finite numbers, strings that need no escapes, white space as indentation) in a file that is not longer than what is written is rejected by Parse until it is complete; writing a document over its own text changes nothing.")
claim("C102", "partial", ["C102_refuted", "C102_partial", "C102_enough_memory"],
      "False of the code: for every array or object and every indentation of at least 1 the program ends when the first request fails. Proved for every set of failing requests: Write returns what it returns with enough memory, or the program ends after a first part of its WriteFile calls and one of the first n * levels / 4 requests failed; never with indentation 0 or without an array or object at the root.")
claim("C103", "partial", ["C103_refuted", "C103_bound_partial", "C103_square"],
      "False of the code: for every d a text of 15 d + 4 bytes that Parse accepts is written as at least 2^d bytes (members with equal names). Proved for documents without equal names in an object: at most (indentation * nesting + 26) times the size of the parsed text; the square of the nesting is reached.")
claim("C104", "partial", ["C104_refuted", "C104_round_trip_partial", "C104_small_partial"],
      "False of the code: a file of 362 bytes is written as one of 65883, which Parse refuses. Proved for finite numbers, strings that need no escapes and white space as indentation, when the written text has 2 to 65534 bytes, the file was not longer, no write fails and the first read delivers everything; a condition on the parsed text alone is given.")
claim("C105", "proved", ["C105_read", "C105_write", "C105_round_trip", "C105_failures", "C105_limits"],
      "For the Windows branch. C105_limits shows that the conditions are needed: a failing write is not reported, and a file shorter than its reported size is read for ever.")
claim("C106", "partial", ["C106_refuted", "C106_length_refuted", "C106_json_refuted", "C106_text", "C106_reads_back", "C106_injective", "C106_c_partial", "C106_json_partial"],
      "False of the code: C reads \\x01A, the result for the two characters 1 and A, as one character; the recorded length is one too small after every change, so that appending a character replaces the last one; Parse rejects \\a. Proved: the storage holds the text spelled character by character, for all texts; a reader that takes two digits after \\x reads the text back, and different texts are spelled differently; C reads it back when no character spelled with \\x stands before a hexadecimal digit; in quotation marks it is a JSON text of the same string when the only control characters are \\b \\t \\n \\f \\r.")
claim("C107", "partial", ["C107_refuted", "C107_middle_refuted", "C107_partial", "C107_negative"],
      "False of the code for every integer from 2^31 (uint32) or 2^63 (uint64) on: it appears as a negative number, 2^31 and 2^63 as -0. Proved for the smaller ones, for construction, assignment, += and + of both string classes.")
claim("C108", "partial", ["C108_refuted", "C108_partial", "C108_new_elements"],
      "False of the code: an Array element {} for a structure with an optional bool without an initialiser gets an indeterminate bool. Proved for the types whose Array and std::vector elements have an initialiser for every number and bool that the document may leave out (and for all other types, including maps, whose new elements are zero): the result depends on the document and the object only. For structures of optional members: absent members of new elements hold their initialisers, or empty strings and containers, and in maps 0 and false. Indeterminate values are one unknown double and one unknown bool per call in the model.")
claim("C109", "partial", ["C109_refuted", "C109_partial", "C109_floats", "C109_near_partial", "C109_pair_partial"],
      "False of the code: for NaN, and for two infinities, the index into the table comes from an undefined conversion. Proved for all other floats, in all three builds: defined, at most a quarter (half) turn, odd, on the side of the argument, and with two arguments in the half plane that x gives. Up to 1 the result is within 2^-18 of the angle with that tangent (table entries by the addition theorem), above 1 it is the quarter turn less that for the reciprocal.")
claim("C110", "partial", ["C110_refuted", "C110_partial", "C110_symmetry", "C110_tangent"],
      "False of the code: with SSE2 the sine of 3.6e12 is below -1e27, and without SIMD arguments from about 5.3e7 on are undefined. Proved for all arguments up to 2^17 in all three builds: within 2^-16 of sine and cosine of an angle that differs from the argument by at most 2^-21 of it and 2^-27. For all floats: Sin and Tan odd, Cos even, Tan the quotient of what CosSin stores.")
claim("C111", "partial", ["C111_refuted", "C111_partial"],
      "False of the code: Sin(0.024) differs in the fourth digit between the plain and the SIMD build, where the constants 1/6 and 1/120 are exchanged. Proved for all arguments up to 2^17: SSE2 and SSE4 agree exactly, all builds up to 2^-15.")
claim("C112", "partial", ["C112_refuted", "C112_builds_partial", "C112_least", "C112_zero", "C112_clamp", "C112_signs_partial"],
      "False of the code for NaN and -0: Saturate(NaN) is 1 without SIMD and 0 with it, Fmax and Fsgn differ for NaN, NonzeroFsgn for -0. Proved: without NaN all builds agree and the results are the least and greatest argument; Clamp and Saturate stay within their limits for every float including NaN and change nothing that is within; the signs of all finite floats (NonzeroFsgn without zeros).")
claim("C113", "partial", ["C113_refuted", "C113_floor_ceil_partial", "C113_frac_partial"],
      "False of the code: with SSE2 FloorCeil(8388609) stores 8388608 as the floor and NegativeFloor(-8388611) is not -8388611; Frac of the negative numbers closest to 0 is 1. Proved: up to 2^23 in magnitude, and for the other two builds for all numbers, these are floor and ceiling; Frac is the fractional part rounded, from 0 to 1, the same in all builds, exact for numbers that are not negative.")
claim("C114", "partial", ["C114_refuted", "C114_partial", "C114_small"],
      "False of the code: without SIMD Sqrt(1) is less than 1 and InverseSqrt of infinity infinite; with SSE Sqrt and InverseSqrt of infinity, and Sqrt of minus infinity, are NaN. Proved for all normal positive floats, without SIMD and with SSE for every processor whose _mm_rsqrt_ss has the documented accuracy: the square of InverseSqrt(x) times x is within 2^-15 of 1, the square of Sqrt(x) within x * 2^-14 of x. Sqrt is 0 and InverseSqrt infinite for all other finite floats.")
claim("C115", "partial", ["C115_refuted", "C115_arcsin_partial", "C115_arccos_partial", "C115_arcsin_tangent_partial", "C115_arccos_tangent_partial"],
      "False of the code: undefined for NaN, and with SSE Arccos is undefined for 2^64, whose square is infinite. Proved: Arcsin for all other floats and Arccos for all other floats without SIMD, up to 2^63 with SSE, is defined, in the range and on the side that the sign gives, and exactly the limit of the range from 1 on. For normal arguments below 1 the results are Arctan (C109) of numbers whose squares are those of the tangents up to 2^-14 and 2^-13, with 1 - y^2 up to 2^-23. Zero has no sign in the model, so that nothing is said of Arccos(-0).")
claim("C116", "partial", ["C116_refuted", "C116_partial", "C116_one"],
      "False of the code: Pow(0, 1) and Pow(-1, 2) are undefined, Pow(2, 200) is 0. Proved for normal positive bases and exponents up to 2^18 in magnitude, in all builds: defined, not negative, for bases above 1 not decreasing in the exponent until it is 0, for bases below 1 not increasing; exponent 0 and base 1 give exactly 1. How close it is to the power is not proved.")
