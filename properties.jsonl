{"id": "C01", "title": "Parse is total and memory safe", "statement": "For every character array whose last element is NUL, StructuredData::Parse(array) returns (it never loops), never reads outside the array, and never writes outside the storage it obtained for a decoded string.", "quantifier": "all NUL-terminated byte arrays of any length", "why_tests_cant": "an out-of-bounds read or a non-terminating loop may need one particular malformed tail; no finite corpus covers all byte strings", "anchors": ["Code/Json4C4/C4Json.cpp: StructuredData::Parse, ParseJsonRoot, ParseAnyValue, ReadStringLiteral, ReadStringEscapeChar, ReadDoubleLiteral", "Code/Terathon/TSText.cpp: Text::ValidateUnicodeChar"]}
{"id": "C02", "title": "Accepted documents have JSON structure (soundness)", "statement": "If Parse(array) returns kOk, then the text up to the first NUL reached is whitespace, one JSON value, whitespace, in the RFC 8259 structure (objects, arrays, literals, punctuation) whose string tokens and number tokens belong to the token languages stated in C06 and C08, and the value tree held by the StructuredData is the meaning of that text.", "quantifier": "all NUL-terminated byte arrays on which Parse returns kOk", "why_tests_cant": "soundness is about every accepted input; the jsonchecker files are 35 inputs", "anchors": ["Code/Json4C4/C4Json.cpp: ParseJsonRoot, ParseAnyValue, ArrayValue::Parse, ObjectValue::Parse, StringValue::Parse, NumberValue::Parse"]}
{"id": "C03", "title": "All documents of the supported language are accepted (completeness)", "statement": "Every text of at least two bytes that is a document of the supported language (RFC structure with the string and number tokens of C06 and C08) is accepted with kOk and yields exactly the meaning of the text, whatever its size, nesting depth and white space.", "quantifier": "all documents generated by the grammar, of any size and depth", "why_tests_cant": "infinitely many documents", "anchors": ["Code/Json4C4/C4Json.cpp: ParseJsonRoot, ParseAnyValue, ArrayValue::Parse, ObjectValue::Parse"]}
{"id": "C04", "title": "RFC 8259 documents are accepted", "statement": "Every RFC 8259 JSON text is accepted by Parse with the meaning RFC 8259 gives it (the README claims RFC 8259 compliance).", "quantifier": "all RFC 8259 texts", "why_tests_cant": "infinitely many texts; compliance fails only on rare token forms", "anchors": ["README.md", "Code/Json4C4/C4Json.cpp: ReadDoubleLiteral, ReadStringLiteral, ReadStringEscapeChar, ParseJsonRoot"]}
{"id": "C05", "title": "Only RFC 8259 documents are accepted", "statement": "If Parse returns kOk then the characters of the array before its terminating NUL form an RFC 8259 JSON text.", "quantifier": "all NUL-terminated byte arrays on which Parse returns kOk", "why_tests_cant": "rejection of all non-JSON inputs cannot be enumerated", "anchors": ["README.md", "Code/Json4C4/C4Json.cpp: ReadDoubleLiteral, ParseSign, ParseJsonRoot"]}
{"id": "C06", "title": "String tokens decode to exactly the denoted bytes", "statement": "A string token is accepted iff every raw character is an (encoded) code point of at least U+0020 other than U+007F, the quotation mark and the backslash, and every escape is one of the eight short escapes or \\uXXXX with non-zero XXXX; the resulting string is the concatenation of the raw bytes, the escaped characters and the UTF-8 (generalised) encoding of each \\uXXXX; it never contains NUL.", "quantifier": "all string tokens of any length", "why_tests_cant": "all byte sequences inside quotes", "anchors": ["Code/Json4C4/C4Json.cpp: ReadStringLiteral, ReadStringEscapeChar, ReadEscapeChar, StringValue::Parse", "Code/Terathon/TSText.cpp: Text::WriteUnicodeChar"]}
{"id": "C07", "title": "Surrogate pair escapes denote one character", "statement": "A pair of escapes \\uD8xx\\uDCxx decodes to the UTF-8 encoding of the supplementary character it denotes, so that decoded strings are valid UTF-8 whenever the input document is valid.", "quantifier": "all surrogate pair escapes", "why_tests_cant": "1048576 pairs, and strings mixing them with other content", "anchors": ["Code/Json4C4/C4Json.cpp: ReadStringEscapeChar"]}
{"id": "C08", "title": "Number tokens: accepted language", "statement": "A number is accepted iff it is an optional sign, optional white space after the sign, and then a maximal run of the characters 0-9 . e E + - that does not start with 0 followed by anything but '.', and of which some prefix is a decimal number; its value is the value of the longest such prefix. Every RFC 8259 number whose integer part is not 0 directly followed by an exponent is accepted with its whole text used.", "quantifier": "all byte sequences at a value position", "why_tests_cant": "all byte sequences", "anchors": ["Code/Json4C4/C4Json.cpp: NumberValue::Parse, ParseSign, ReadDoubleLiteral, ComputeFloatLiteralLength"]}
{"id": "C09", "title": "Numbers are correctly rounded", "statement": "The double stored for an accepted decimal literal is the representable binary64 value nearest to the decimal value (ties to even), infinity beyond the range, with the sign of the literal.", "quantifier": "all decimal literals of any length and exponent", "why_tests_cant": "rounding errors appear only at rare halfway cases", "anchors": ["Code/Json4C4/C4Json.cpp: ReadDoubleLiteral (strtod), NumberValue::Parse"]}
{"id": "C10", "title": "Written numbers fit the buffer and read back identically", "statement": "For every finite double, the text produced by Write for it fits the 32 byte buffer, is an RFC 8259 number that Parse accepts in any document (of at least two bytes), and parses back to the identical double (including the sign of zero).", "quantifier": "all 2^64 bit patterns that are finite", "why_tests_cant": "2^64 values", "anchors": ["Code/Json4C4/C4Json.cpp: NumberValue::Write, NumberValue::Parse"]}
{"id": "C11", "title": "Write then Parse gives the same document", "statement": "For every value tree whose strings and names contain only characters that need no escape, whose numbers are finite, whose objects were built by Parse or by member-wise Serialize, and for every white space indentation character and every indentation length, the text produced by Write, if it has at least two bytes, parses with kOk to an equal value tree.", "quantifier": "all value trees of any size and depth, all indentation settings", "why_tests_cant": "infinitely many documents", "anchors": ["Code/Json4C4/C4Json.cpp: ArrayValue::Write, ObjectValue::Write, StringValue::Write, NumberValue::Write, BoolValue::Write, NullValue::Write"]}
{"id": "C12", "title": "Write emits valid JSON for every string", "statement": "Whatever string a value tree contains (for example one obtained by parsing an escape), Write produces a document that Parse accepts and that has the same content.", "quantifier": "all value trees", "why_tests_cant": "depends on the contents of every string", "anchors": ["Code/Json4C4/C4Json.cpp: StringValue::Write, ObjectValue::Write"]}
{"id": "C13", "title": "Write emits valid JSON for every number", "statement": "Whatever number a value tree obtained by Parse contains, Write produces a document that Parse accepts.", "quantifier": "all value trees obtained by Parse", "why_tests_cant": "depends on overflowing literals", "anchors": ["Code/Json4C4/C4Json.cpp: NumberValue::Write"]}
{"id": "C14", "title": "Lookup after Parse returns the first binding of a name", "statement": "After parsing an object, FindMapElement(name) and the typed Find functions return the value of the first member with that name in the text, and report absence exactly when no member has that name; the typed functions return null iff the value has another type.", "quantifier": "all objects with any number of members, all names", "why_tests_cant": "member count and name combinations are unbounded", "anchors": ["Code/Json4C4/C4Json.cpp: InsertAccountedMapElement, ObjectValue::Parse, ObjectValue::FindString/FindDouble/FindBool/FindNull/FindArray/FindObject"]}
{"id": "C15", "title": "Write preserves member order and repeats duplicates with the first value", "statement": "Write emits the members of a parsed object in the order of their occurrence in the text; a name that occurs n times is emitted n times, each time with the first value.", "quantifier": "all parsed objects", "why_tests_cant": "unbounded number of members", "anchors": ["Code/Json4C4/C4Json.cpp: ObjectValue::Write, InsertAccountedMapElement"]}
{"id": "C16", "title": "Map insertion and lookup form a finite map", "statement": "InsertMapElement adds the element iff its key is absent (and returns that), leaves every other key's lookup unchanged, and leaves the map unchanged otherwise; no insertion dereferences a null node.", "quantifier": "all maps reachable by any sequence of insertions and removals, all keys", "why_tests_cant": "rebalancing cases depend on the whole history", "anchors": ["Code/Terathon/TSMap.h: Map::InsertMapElement, Map::FindMapElement", "Code/Terathon/TSMap.cpp: InsertLeftSubnode, InsertRightSubnode, RotateLeft, RotateRight, ZigZagLeft, ZigZagRight"]}
{"id": "C17", "title": "Map iteration visits each element once in key order", "statement": "Iterating a map from its first element with GetNextMapElement visits exactly its elements, each once, in strictly increasing unsigned byte order of the keys; GetMapElementCount and index access agree with it.", "quantifier": "all reachable maps", "why_tests_cant": "unbounded histories", "anchors": ["Code/Terathon/TSMap.cpp: GetFirstMapElement, GetNextMapElement, GetMapElementCount"]}
{"id": "C18", "title": "Map stays balanced", "statement": "After any sequence of insertions and removals, stored balance factors equal the height differences, all are in {-1,0,1}, and the depth is at most 2*log2(n+1) for n elements, so lookup needs logarithmically many comparisons.", "quantifier": "all histories of insertions and removals", "why_tests_cant": "all histories", "anchors": ["Code/Terathon/TSMap.cpp: InsertLeftSubnode, InsertRightSubnode, RemoveBranchNode, RemoveMapElement"]}
{"id": "C19", "title": "Map removal removes exactly one element", "statement": "RemoveMapElement removes the given element and changes the lookup of no other key.", "quantifier": "all reachable maps and all of their elements", "why_tests_cant": "rebalancing after deletion depends on the whole history", "anchors": ["Code/Terathon/TSMap.cpp: RemoveMapElement, RemoveBranchNode"]}
{"id": "C20", "title": "InsertReplaceMapElement replaces the element with the same key", "statement": "After InsertReplaceMapElement(e), looking up e's key gives e and all other keys are unchanged.", "quantifier": "all reachable maps and all keys", "why_tests_cant": "depends on the position of the replaced node", "anchors": ["Code/Terathon/TSMap.h: Map::InsertReplaceMapElement", "Code/Terathon/TSMap.cpp: ReplaceMapElement"]}
{"id": "C21", "title": "Reported error position is the position of the error", "statement": "When Parse fails with a syntax error, errorLine is one plus the number of line feeds before the reported position in the array and errorColumn is the one-based byte column in that line, and the reported position lies inside the text.", "quantifier": "all rejected arrays", "why_tests_cant": "all byte strings", "anchors": ["Code/Json4C4/C4Json.cpp: ParseJsonRoot"]}
{"id": "C22", "title": "Error messages describe the status", "statement": "StatusToString(status) is defined for every status a call can return and gives the description of that status.", "quantifier": "all 27 status values", "why_tests_cant": "a table lookup is out of range for one of the values; a test that passes may be reading past the table", "anchors": ["Code/Json4C4/C4Json.cpp: StatusString, StatusToString, ParseResultToString", "Code/Json4C4/C4Json.h: enum Status"]}
{"id": "C23", "title": "Error report contains the full line and column", "statement": "ParseResultToString appends '. Line: L, column: C' with the complete decimal line and column numbers.", "quantifier": "all lines and columns", "why_tests_cant": "depends on the number of digits", "anchors": ["Code/Json4C4/C4Json.cpp: ParseResultToString", "Code/Terathon/TSString.h: String<len>"]}
{"id": "C24", "title": "What a StructuredData holds after each call", "statement": "After any history of Parse and SerializeFrom calls: a Parse that returned kOk leaves exactly the parsed document; a Parse that failed before looking at the text (file errors, fewer than three elements, missing terminator) leaves the previous document; a Parse that failed inside the value leaves no document; a Parse that failed only because of text after the value still holds the parsed value.", "quantifier": "all histories of calls", "why_tests_cant": "all sequences of calls", "anchors": ["Code/Json4C4/C4Json.cpp: StructuredData::Parse, ParseJsonRoot", "Code/Json4C4/C4Json.h: StructuredData"]}
{"id": "C25", "title": "Documents built by the library are well formed", "statement": "In every value tree a StructuredData can hold after any history of calls, each object's map is ordered and balanced, and each recorded member name is present, so Write never returns kMissingObjectElement and never dereferences null.", "quantifier": "all histories of calls", "why_tests_cant": "all sequences of calls", "anchors": ["Code/Json4C4/C4Json.cpp: ObjectValue::Parse, ObjectValue::Write, InsertAccountedMapElement", "Code/Json4C4/C4Json.h: StructuredData::SerializeFrom"]}
{"id": "C26", "title": "Validate agrees with Deserialize", "statement": "For every user type (built from strings, doubles, bools, null, arrays, object maps, std containers and prototypes with optional members), every value tree and every prior content of the destination, Validate returns the same status as Deserialize; in particular Deserialize succeeds whenever Validate does.", "quantifier": "all types, all value trees, all prior destinations", "why_tests_cant": "unbounded types and documents", "anchors": ["Code/Json4C4/C4Json.h: Validate, Deserialize, ValidateProto, DeserializeProto"]}
{"id": "C27", "title": "Deserialize delivers the content of the document", "statement": "If Deserialize returns kOk then every member of the destination named by the prototype holds the value the document has for that name, arrays have exactly the document's elements in order, and members not named by the prototype and extra document members have no effect.", "quantifier": "all types and all value trees", "why_tests_cant": "unbounded types and documents", "anchors": ["Code/Json4C4/C4Json.h: Deserialize, DeserializeProto"]}
{"id": "C28", "title": "Optional members", "statement": "With Json::optional, absence of the member is not an error and leaves the destination member unchanged; a member that is present must be valid.", "quantifier": "all prototypes and documents", "why_tests_cant": "unbounded nesting", "anchors": ["Code/Json4C4/C4Json.h: ValidateProto(optional), DeserializeProto(optional)"]}
{"id": "C29", "title": "SerializeFrom then DeserializeTo is the identity", "statement": "For every user type with distinct member names and every object of that type, SerializeFrom followed by DeserializeTo a default object returns kOk twice and yields an equal object.", "quantifier": "all types and objects", "why_tests_cant": "unbounded types and objects", "anchors": ["Code/Json4C4/C4Json.h: Serialize, SerializeProto, Deserialize, DeserializeProto, Detail::CreateValueFor"]}
{"id": "C30", "title": "Serialize reports failures", "statement": "If SerializeFrom returns kOk then the value tree contains all the data of the object.", "quantifier": "all types and objects", "why_tests_cant": "a nested status is dropped silently; only particular types show it", "anchors": ["Code/Json4C4/C4Json.h: Serialize(Value*, const char*, const T&), Detail::CreateValueFor"]}
{"id": "C31", "title": "Serialized object maps are written", "statement": "Writing a document produced by SerializeFrom an ObjectMap (or a std::map) emits all its members.", "quantifier": "all maps", "why_tests_cant": "unbounded maps", "anchors": ["Code/Json4C4/C4Json.h: Serialize(Value*, const ObjectMap<T>&)", "Code/Json4C4/C4Json.cpp: ObjectValue::Write"]}
{"id": "C32", "title": "A successful Write leaves exactly the document in the file", "statement": "If Write(fileName) returns kOk then the file contains exactly the document text.", "quantifier": "all documents, all previous file contents, all system call outcomes (short writes, errors)", "why_tests_cant": "the outcome depends on previous contents and on the kernel's answers at each write", "anchors": ["Code/Json4C4/C4Json.cpp: StructuredData::Write, File::OpenFile, File::WriteFile, operator<<"]}
{"id": "C33", "title": "Parse(fileName) parses the file contents", "statement": "If the file exists and has at most 65534 bytes then Parse(fileName) gives the same result as parsing the file's bytes, however the system splits the reads.", "quantifier": "all file contents and all sequences of read results", "why_tests_cant": "short reads are decided by the kernel", "anchors": ["Code/Json4C4/C4Json.cpp: StructuredData::Parse, File::ReadFile, File::GetFileSize"]}
{"id": "C34", "title": "File size limit", "statement": "Parse(fileName) refuses a file larger than 65534 bytes with KFileTooLarge, keeps the previous document, and never reads it.", "quantifier": "all files", "why_tests_cant": "all sizes", "anchors": ["Code/Json4C4/C4Json.cpp: StructuredData::Parse, MAX_FILE_SIZE"]}
{"id": "C35", "title": "Integers are printed in decimal", "statement": "String conversion of an int32 yields its decimal representation (cut to the capacity), never writing more than capacity+1 bytes.", "quantifier": "all int32 values and capacities", "why_tests_cant": "2^32 values", "anchors": ["Code/Terathon/TSText.cpp: Text::IntegerToString", "Code/Terathon/TSString.h: String<len>"]}
{"id": "C36", "title": "Fixed capacity strings never overflow", "statement": "Every construction, assignment and append on String<len> keeps a terminated string of at most len bytes inside its len+1 byte storage and equals the len-byte truncation of the unbounded operation.", "quantifier": "all len > 0, all sequences of operations, all operands", "why_tests_cant": "all histories", "anchors": ["Code/Terathon/TSString.h: String<len>", "Code/Terathon/TSText.cpp: Text::CopyText"]}
{"id": "C37", "title": "Dynamic strings never overflow", "statement": "After any sequence of String<> operations, the storage holds the string and its terminator, and no operation writes outside the storage.", "quantifier": "all sequences of operations", "why_tests_cant": "all histories: the defect needs three particular SetStringLength calls", "anchors": ["Code/Terathon/TSString.cpp: String<0>", "Code/Terathon/TSString.h: String<0>"]}
{"id": "C38", "title": "Unicode conversions round trip", "statement": "Reading back a code point written by WriteUnicodeChar gives the code point and the same length; converting UTF-8 to UTF-16 and back returns the same bytes for all valid UTF-8, with exactly the computed number of units written.", "quantifier": "all code points and all strings", "why_tests_cant": "unbounded strings", "anchors": ["Code/Terathon/TSText.cpp: ReadUnicodeChar, WriteUnicodeChar, ValidateUnicodeChar, ConvertStringToWideText, ConvertWideTextToString"]}
{"id": "C39", "title": "Key order is a strict total order", "statement": "CompareTextLessThan is a strict total order on strings (unsigned bytewise lexicographic), consistent with CompareText equality and with CompareTextLessEqual.", "quantifier": "all pairs and triples of strings", "why_tests_cant": "unbounded strings", "anchors": ["Code/Terathon/TSText.cpp: CompareTextLessThan, CompareTextLessEqual, CompareText"]}
{"id": "C40", "title": "Dynamic arrays keep their elements", "statement": "Any sequence of append, insert, remove, resize, reserve and purge on Array<T> behaves as on a list, capacity always covers the count, and appends reallocate O(log n) times.", "quantifier": "all sequences of operations", "why_tests_cant": "all histories", "anchors": ["Code/Terathon/TSArray.h: Array<type, 0>"]}
{"id": "C41", "title": "No value is leaked", "statement": "After Parse returns, the value objects alive are exactly those reachable from the document.", "quantifier": "all arrays", "why_tests_cant": "depends on duplicate names in the text", "anchors": ["Code/Json4C4/C4Json.cpp: ObjectValue::Parse, ArrayValue::Parse, ParseValue"]}
{"id": "C42", "title": "Portable number reader stays inside its tables", "statement": "Without system conversions (JSON4C4_USE_SYSTEM_DOUBLE_STRING_CONVERSIONS undefined) reading a number terminates inside the text, its power-of-ten table indices are in range, and no integer overflows.", "quantifier": "all byte sequences", "why_tests_cant": "all byte sequences", "anchors": ["Code/Json4C4/C4Json.cpp: ReadDoubleLiteral (TERATHON_NO_SYSTEM)"]}
{"id": "C43", "title": "White space is insignificant", "statement": "Inserting or removing space, tab, LF or CR between tokens of an accepted document changes neither the status nor the value.", "quantifier": "all documents and insertion points", "why_tests_cant": "unbounded", "anchors": ["Code/Json4C4/C4Json.cpp: ComputeWhitespaceLength, ArrayValue::Parse, ObjectValue::Parse, ParseJsonRoot"]}
{"id": "C44", "title": "Parsing is deterministic: one text, one meaning", "statement": "A document of the supported language has exactly one meaning: two derivations of the same text denote the same value tree.", "quantifier": "all documents and derivations", "why_tests_cant": "unbounded derivations", "anchors": ["Code/Json4C4/C4Json.cpp: ParseAnyValue"]}
{"id": "C45", "title": "The whole way: serialize, write, parse, deserialize", "statement": "For every user type built from strings, doubles, bools, null, Array and prototypes with distinct names, and every object whose strings need no escape and whose numbers are finite: SerializeFrom, Write with any white space indentation, Parse of the written text and DeserializeTo a default object all return kOk, and the object has the original content. (The root must not be a bare number.)", "quantifier": "all types of that class, all objects, all indentations, all previous documents", "why_tests_cant": "unbounded types and objects, and all finite doubles", "anchors": ["Code/Json4C4/C4Json.cpp: StructuredData::Write, Parse", "Code/Json4C4/C4Json.h: StructuredData::SerializeFrom, DeserializeTo"]}
{"id": "C46", "title": "Serialization of storable types round trips", "statement": "For every user type without std::vector, with distinct member names, anonymous members only of structure type and maps initially empty: SerializeFrom then DeserializeTo a default object returns kOk twice and gives equal content, whatever the uninitialised temporaries hold.", "quantifier": "all types of that class, all objects, all previous documents, all junk in uninitialised objects", "why_tests_cant": "unbounded types and objects; uninitialised memory", "anchors": ["Code/Json4C4/C4Json.h: Serialize, Deserialize, Detail::CreateValueFor, SerializeProto, DeserializeProto"]}
{"id": "C47", "title": "Valid documents are always delivered", "statement": "If the document is valid for the user type (required members present and valid, optional members valid where present, array elements valid), then Parse followed by DeserializeTo returns kOk and every destination member holds the value the document has for it; document members that no prototype names have no effect.", "quantifier": "all types, all texts, all previous contents of the destination", "why_tests_cant": "unbounded types and documents", "anchors": ["Code/Json4C4/C4Json.h: Deserialize, DeserializeProto", "Code/Json4C4/C4Json.cpp: StructuredData::Parse"]}
{"id": "C48", "title": "Writing survives split writes", "statement": "If no write call of the system fails, then after Write(fileName) the file holds the document text followed by what it held beyond that length before, however the system splits the writes; the status is that of the document.", "quantifier": "all documents, previous file contents and sequences of write results", "why_tests_cant": "schedules of short writes cannot be enumerated", "anchors": ["Code/Json4C4/C4Json.cpp: File::WriteFile, File::operator<<, StructuredData::Write"]}
{"id": "C49", "title": "Reading in one piece is reading the bytes", "statement": "If the first read call of the system delivers the whole file (of at most 65534 bytes), Parse(fileName) gives exactly the result and the document of parsing the file's bytes.", "quantifier": "all files and previous documents", "why_tests_cant": "all files", "anchors": ["Code/Json4C4/C4Json.cpp: File::ReadFile, StructuredData::Parse(const char*)"]}
{"id": "C50", "title": "The only undefined behaviour is a missing document", "statement": "In every history of Parse, Write, Validate, DeserializeTo and SerializeFrom calls on a StructuredData (serialized types having no anonymous map member), the only call with undefined behaviour is Validate or DeserializeTo while the StructuredData holds no document.", "quantifier": "all histories of calls", "why_tests_cant": "unbounded histories", "anchors": ["Code/Json4C4/C4Json.cpp: StructuredData", "Code/Json4C4/C4Json.h: StructuredData::DeserializeTo, Validate"]}
{"id": "C51", "title": "Statuses of Parse", "statement": "Parse of an array returns one of thirteen statuses (kOk, two for a bad array, kExpectedEndOfFile, nine syntax errors) and each of them is returned for some text; kFloatInvalid, kExpectedTrueOrFalse, kExpectedNull, kExpectedEndingDoubleQuotes and the opening bracket statuses are never returned.", "quantifier": "all arrays", "why_tests_cant": "absence of a status over all texts", "anchors": ["Code/Json4C4/C4Json.cpp: ParseJsonRoot, ParseAnyValue"]}
{"id": "C52", "title": "Maps are memory safe and own their elements", "statement": "Every history of creating elements (at unused addresses), InsertMapElement, Detach, delete, RemoveAllMapElements and PurgeMap over any number of maps dereferences no null or dangling pointer, returns true or false as the set of keys in the map says, and leaves exactly the expected elements alive, each owned by the expected map; lookups and iterations in both directions give exactly the owned elements in key order.", "quantifier": "all histories over any number of maps, elements and keys", "why_tests_cant": "unbounded histories; tree shapes; elements moving between maps", "anchors": ["Code/Terathon/TSMap.cpp: all", "Code/Terathon/TSMap.h: Map, MapElement"]}
{"id": "C53", "title": "Reservations", "statement": "After ReserveMapElement succeeds, InsertMapElement with the reservation inserts the element and loses none.", "quantifier": "all maps, keys and calls between the two", "why_tests_cant": "depends on the calls made between reserving and inserting", "anchors": ["Code/Terathon/TSMap.h: ReserveMapElement, InsertMapElement(element, reservation)"]}
{"id": "C54", "title": "Literals of the portable number reader", "statement": "Without system conversions a number literal is accepted, with exactly its length, iff it is an optional integer part and an optional fraction with at least one digit, and an optional exponent, single underscores being allowed between digits; kNumbersCannotHaveLeadingZeros is returned iff two digits follow each other in an integer part that starts with 0; every other text gives kFloatInvalid. Every RFC 8259 number is accepted.", "quantifier": "all byte sequences", "why_tests_cant": "all byte sequences", "anchors": ["Code/Json4C4/C4Json.cpp: ReadDoubleLiteral (TERATHON_NO_SYSTEM)"]}
{"id": "C55", "title": "The portable number reader rounds correctly", "statement": "Without system conversions every JSON number is read as the double nearest to its value, and nothing else is read as a number.", "quantifier": "all number literals", "why_tests_cant": "unbounded literals; rounding errors depend on every digit", "anchors": ["Code/Json4C4/C4Json.cpp: ReadDoubleLiteral (TERATHON_NO_SYSTEM), minusPower10, plusPower10"]}
{"id": "C56", "title": "Unicode conversions stay within their storage", "statement": "ConvertStringToWideText and ConvertWideTextToString with a maximum of max units or bytes write only within storage for max + 1 of them, for every text.", "quantifier": "all texts and maxima", "why_tests_cant": "needs every alignment of surrogate pairs with the end of the storage", "anchors": ["Code/Terathon/TSText.cpp: ConvertStringToWideText, ConvertWideTextToString"]}
{"id": "C57", "title": "Unicode conversions of ill-formed text", "statement": "Every terminated text is converted, without reading behind its terminator: bytes that start no UTF-8 pattern become U+FFFD, surrogates outside pairs are dropped, the result of GetWideTextCharCount and GetUnicodeStringLength is the length of the conversion, and conversion from UTF-16 always gives valid UTF-8.", "quantifier": "all texts", "why_tests_cant": "unbounded texts", "anchors": ["Code/Terathon/TSText.cpp: ReadUnicodeChar, GetWideTextCharCount, ConvertStringToWideText, GetUnicodeStringLength, ConvertWideTextToString"]}
{"id": "C58", "title": "Character counts", "statement": "For every terminated text, GetUnicodeCharCount, GetUnicodeCharStringByteCount and the functions stepping by one character read nothing behind the terminator; on valid UTF-8 they give the number of code points, the bytes of the first n code points and the bytes of the next or previous one.", "quantifier": "all texts", "why_tests_cant": "unbounded texts; texts ending inside a sequence", "anchors": ["Code/Terathon/TSText.cpp: GetUnicodeCharCount, GetUnicodeCharStringByteCount, GetNextUnicodeCharByteCount, GetPreviousUnicodeCharByteCount"]}
{"id": "C59", "title": "Dynamic arrays release their storage", "statement": "After every history of calls on any number of arrays, every block still allocated is the storage of exactly one live array; after all arrays are destroyed none is left.", "quantifier": "all histories over any number of arrays", "why_tests_cant": "leaks depend on the sizes an array had before", "anchors": ["Code/Terathon/TSArray.h: Array(Array&&), ~Array, PurgeArray, SetReservedCount"]}
{"id": "C60", "title": "Searching and comparing dynamic arrays", "statement": "After every history, FindArrayElementIndex returns the index of the first equal element or -1, and operator == says whether both arrays hold the same list.", "quantifier": "all histories, all element types with an equality", "why_tests_cant": "all lists", "anchors": ["Code/Terathon/TSArray.h: FindArrayElementIndex, operator =="]}
{"id": "C61", "title": "Parsing with failing allocations is safe", "statement": "Whatever allocations fail, in whatever number and order, Parse(array) returns, no object is deleted twice or used after its end, the document is the one without failures or there is none, and kOk is returned only with the document of the text; the destructor then succeeds.", "quantifier": "all texts, all sets of failing allocations, all histories of one document", "why_tests_cant": "every subset of the allocations of every text", "anchors": ["Code/Json4C4/C4Json.cpp: ParseValue, ParseAnyValue, StringValue::Parse, ReadDoubleLiteral, ArrayValue::Parse, ObjectValue::Parse, StructuredData::Parse", "Code/Json4C4/C4Json.h: MayThrow"]}
{"id": "C62", "title": "Failing allocations are reported", "statement": "If an allocation failure changes the outcome of Parse(array), the status is kException; and kException is returned only if an allocation failed.", "quantifier": "all texts, all sets of failing allocations", "why_tests_cant": "every subset of the allocations of every text", "anchors": ["Code/Json4C4/C4Json.cpp: ParseAnyValue, ParseValue", "Code/Json4C4/C4Json.h: MayThrow"]}
{"id": "C63", "title": "Nothing leaks when allocations fail", "statement": "After Parse(array) with any allocations failing, every value object alive is reachable from the document.", "quantifier": "all texts, all sets of failing allocations", "why_tests_cant": "every subset of the allocations of every text", "anchors": ["Code/Json4C4/C4Json.cpp: ArrayValue::Parse, ObjectValue::Parse, ParseValue"]}
{"id": "C64", "title": "Searching for characters", "statement": "FindChar returns the first position of the character in the text (or in its first max bytes) or -1, CountChars the number of its occurrences, FindUnquotedChar the first position outside double-quoted parts; none of them reads behind the terminator or behind max bytes.", "quantifier": "all texts, characters and bounds", "why_tests_cant": "unbounded texts", "anchors": ["Code/Terathon/TSText.cpp: Text::FindChar, Text::FindUnquotedChar, Text::CountChars"]}
{"id": "C65", "title": "Searching for texts", "statement": "FindText returns the first position at which the second text occurs in the first, or -1 if it does not occur; FindTextCaseless the same without regard to the case of letters.", "quantifier": "all pairs of texts", "why_tests_cant": "unbounded texts; overlapping partial matches", "anchors": ["Code/Terathon/TSText.cpp: Text::FindText, Text::FindTextCaseless"]}
{"id": "C66", "title": "Bounded and caseless comparisons", "statement": "The comparison functions with a bound compare the first max bytes, the caseless ones the texts with letters in one case: equality is equality of these, the order functions are the lexicographic order and its reflexive closure. Of two texts exactly one of less, equal and greater (all caseless) is true. Nothing is read behind a terminator or behind max bytes.", "quantifier": "all pairs of texts and bounds", "why_tests_cant": "unbounded texts", "anchors": ["Code/Terathon/TSText.cpp: Text::CompareText, CompareTextCaseless, CompareTextLessThan, CompareTextLessThanCaseless, CompareTextLessEqual, CompareTextLessEqualCaseless"]}
{"id": "C67", "title": "Comparing texts with numbers", "statement": "CompareNumberedTextLessThan and its caseless variant are strict total orders in which groups of digits are ordered by their value.", "quantifier": "all texts", "why_tests_cant": "order laws relate three texts of any length", "anchors": ["Code/Terathon/TSText.cpp: Text::CompareNumberedTextLessThan, CompareNumberedTextLessThanCaseless"]}
{"id": "C68", "title": "Reading tokens from a text", "statement": "ReadInteger, ReadFloat and ReadString store the longest token at the start of the text, cut to max characters, with a terminator, write nothing else, and return the length read; escapes in quoted strings stand for the character behind the backslash. ReadType returns the characters between single quotes as a number modulo 2^32. None reads behind the terminator.", "quantifier": "all texts, all bounds, all contents of the storage", "why_tests_cant": "every alignment of tokens, escapes and bounds", "anchors": ["Code/Terathon/TSText.cpp: Text::ReadInteger, ReadFloat, ReadString, ReadType"]}
{"id": "C69", "title": "ReadFloat reads decimal numbers", "statement": "If the text starts with a decimal number followed by something that is no part of a number, ReadFloat reads exactly this number.", "quantifier": "all decimal numbers and continuations", "why_tests_cant": "unbounded numerals", "anchors": ["Code/Terathon/TSText.cpp: Text::ReadFloat"]}
{"id": "C70", "title": "Parts of paths", "statement": "GetResourceNameLength is the length of the path without the extension of its last component, GetDirectoryPathLength the length of the part up to the last slash.", "quantifier": "all texts", "why_tests_cant": "unbounded paths", "anchors": ["Code/Terathon/TSText.cpp: Text::GetResourceNameLength, GetDirectoryPathLength"]}
{"id": "C71", "title": "Hash of a text", "statement": "Hash depends on the characters of the text only, and two texts that differ in exactly one character have different hashes.", "quantifier": "all texts and positions", "why_tests_cant": "all pairs of texts", "anchors": ["Code/Terathon/TSText.cpp: Text::Hash"]}
{"id": "C72", "title": "Integer helpers defined everywhere", "statement": "MinZero and MaxZero are the minimum and maximum with 0, Min and Max those of two numbers, and IncMod and DecMod count in a circle and undo each other, for all arguments of both widths.", "quantifier": "all numbers", "why_tests_cant": "2^64 arguments", "anchors": ["Code/Terathon/TSBasic.h: MinZero, MaxZero, Min, Max, IncMod, DecMod"]}
{"id": "C73", "title": "Integer helpers defined with exceptions", "statement": "Abs, Sgn, OverflowZero, the powers of two below and above a number and its logarithm are defined and right for every argument.", "quantifier": "all numbers", "why_tests_cant": "2^64 arguments", "anchors": ["Code/Terathon/TSBasic.h: Abs, Sgn, OverflowZero, Pow2Floor, Pow2Ceil, IntLog2, Cntlz"]}
{"id": "C74", "title": "Exchange", "statement": "Exchange of two integer variables gives each the value of the other and changes nothing else.", "quantifier": "all memories and pairs of variables", "why_tests_cant": "aliasing", "anchors": ["Code/Terathon/TSBasic.h: Exchange"]}
{"id": "C75", "title": "StaticHash is Hash", "statement": "The constant StaticHash<...>::value of the characters of a text is what Hash returns for the text at run time.", "quantifier": "all texts, both signs of char", "why_tests_cant": "all texts of up to 17 characters", "anchors": ["Code/Terathon/TSText.h: StaticHash", "Code/Terathon/TSText.cpp: Text::Hash"]}
{"id": "C76", "title": "Hexadecimal texts", "statement": "Integer64ToHexString16, IntegerToHexString8, 4 and 2 write exactly the last 16, 8, 4 and 2 hexadecimal digits of the number, a terminator, and nothing else; different numbers of 64 bits have different texts of 16 digits.", "quantifier": "all numbers, all contents of the storage", "why_tests_cant": "2^64 numbers", "anchors": ["Code/Terathon/TSString.cpp: Text::Integer64ToHexString16, IntegerToHexString8, IntegerToHexString4, IntegerToHexString2"]}
{"id": "C77", "title": "Types as texts", "statement": "StringToType and TypeToString are inverse to each other on texts of at most four characters and all types; TypeToHexCharString writes the number in hexadecimal and the characters.", "quantifier": "all texts and all numbers below 2^32", "why_tests_cant": "2^32 types", "anchors": ["Code/Terathon/TSString.cpp: Text::StringToType, Text::TypeToString, Text::TypeToHexCharString"]}
{"id": "C78", "title": "FloatToString stays in its storage", "statement": "For every float, limit and storage of limit + 1 characters, FloatToString returns, writes a text and its terminator, and nothing behind the limit; the result is between 0 and the limit.", "quantifier": "all 2^32 floats, all limits, all contents of the storage, all results of Log and Exp in range", "why_tests_cant": "floats times limits times contents", "anchors": ["Code/Terathon/TSText.cpp: Text::FloatToString"]}
{"id": "C79", "title": "FloatToString returns the length", "statement": "FloatToString returns the number of characters of the text it writes, and the length of a String<0> made from a float is that of its text.", "quantifier": "all floats and limits", "why_tests_cant": "2^32 floats times limits", "anchors": ["Code/Terathon/TSText.cpp: Text::FloatToString", "Code/Terathon/TSString.cpp: String<0>::String(float), operator =(float)"]}
{"id": "C80", "title": "FloatToString is accurate", "statement": "For floats of magnitude from 1e-4 up to 1e5 and a limit of at least 14 the text is a decimal number with the right sign, at most seven digits behind the point and no superfluous zero, which differs from the float by at most 1.02e-5; so are the texts of String<len> (len >= 14) and String<0> made from such floats.", "quantifier": "all such floats, limits and storages", "why_tests_cant": "half a billion floats", "anchors": ["Code/Terathon/TSText.cpp: Text::FloatToString", "Code/Terathon/TSString.h: String(float)", "Code/Terathon/TSString.cpp: String<0>::String(float), operator =(float)"]}
{"id": "C81", "title": "The text of a float determines it", "statement": "Two floats for which FloatToString writes the same text are the same.", "quantifier": "all pairs of floats", "why_tests_cant": "2^64 pairs", "anchors": ["Code/Terathon/TSText.cpp: Text::FloatToString"]}
{"id": "C82", "title": "The text of a float is a number", "statement": "What FloatToString writes is a number in the sense of RFC 8259, with the sign and the approximate value of the float.", "quantifier": "all floats and limits", "why_tests_cant": "2^32 floats times limits", "anchors": ["Code/Terathon/TSText.cpp: Text::FloatToString"]}
{"id": "C83", "title": "Arrays survive a lack of memory", "statement": "If an operation of an Array throws because memory cannot be allocated, the array holds the elements it held before, can be used further like any other array, and no storage is lost; a constructor that throws leaves nothing behind.", "quantifier": "all histories of calls with any choice of calls that get no memory, all element types and base counts", "why_tests_cant": "every call of every history may be the one that fails", "anchors": ["Code/Terathon/TSArray.h: Array::SetReservedCount, Array::Array, Array::ReserveArrayElementCount, Array::SetArrayElementCount, Array::AppendArrayElement, Array::InsertArrayElement"]}
{"id": "C84", "title": "Parsing needs a bounded stack", "statement": "There is a stack size with which StructuredData::Parse returns for every text.", "quantifier": "all texts of any length and nesting, all stack sizes, both builds", "why_tests_cant": "needs texts of every nesting depth", "anchors": ["Code/Json4C4/C4Json.cpp: ParseAnyValue, ArrayValue::Parse, ObjectValue::Parse, StructuredData::Parse"]}
{"id": "C85", "title": "Parsing without system conversions", "statement": "Built with TERATHON_NO_SYSTEM, StructuredData::Parse returns for every buffer without undefined behaviour, and accepts exactly the texts of a fixed grammar, with the value the grammar gives them but for the rounding of numbers.", "quantifier": "all byte buffers", "why_tests_cant": "infinite set of texts; the tests use the build with system conversions", "anchors": ["Code/Json4C4/C4Json.cpp: StructuredData::Parse, ParseJsonRoot, NumberValue::Parse (TERATHON_NO_SYSTEM)"]}
{"id": "C86", "title": "Both builds read the same", "statement": "With and without system conversions, StructuredData::Parse accepts the same texts and produces the same values.", "quantifier": "all byte buffers, both builds", "why_tests_cant": "infinite set of texts, two builds", "anchors": ["Code/Json4C4/C4Json.cpp: NumberValue::Parse, ReadDoubleLiteral, ComputeFloatLiteralLength"]}
{"id": "C87", "title": "Numbers written without system conversions", "statement": "Built with TERATHON_NO_SYSTEM, Write writes every number as a text that Parse reads as the same number.", "quantifier": "all doubles, all contents of the stack, all variants of the instruction set", "why_tests_cant": "2^64 numbers; the tests use the build with system conversions", "anchors": ["Code/Json4C4/C4Json.cpp: NumberValue::Write (TERATHON_NO_SYSTEM)", "Code/Terathon/TSString.h: Text::FloatToString(float)", "Code/Terathon/TSText.cpp: Text::FloatToString"]}
{"id": "C88", "title": "Documents written without system conversions", "statement": "Built with TERATHON_NO_SYSTEM, what StructuredData::Write writes is read by StructuredData::Parse of either build as the same value.", "quantifier": "all values, both builds, all indentations", "why_tests_cant": "infinite set of values, two builds", "anchors": ["Code/Json4C4/C4Json.cpp: StructuredData::Write, StructuredData::Parse, NumberValue::Write (TERATHON_NO_SYSTEM)"]}
{"id": "C89", "title": "Floor and Ceil", "statement": "For every finite float, Floor returns the greatest whole number not above it and Ceil the least not below it, in every build; infinities and NaN are returned unchanged; PositiveFloor agrees with Floor for all numbers that are not negative.", "quantifier": "all floats, all variants of the instruction set", "why_tests_cant": "2^32 inputs times the builds", "anchors": ["Code/Terathon/TSMath.h: Floor, Ceil, PositiveFloor, PositiveCeil", "Code/Terathon/TSSimd.h: SimdFloorScalar, SimdCeilScalar, SimdPositiveFloorScalar"]}
{"id": "C90", "title": "Exp is defined and monotone", "statement": "Exp is defined for every float and never decreases.", "quantifier": "all floats, all pairs of floats, all variants of the instruction set", "why_tests_cant": "2^64 pairs", "anchors": ["Code/Terathon/TSMath.cpp: Exp", "Code/Terathon/TSMath.h: Floor"]}
{"id": "C91", "title": "Log is monotone", "statement": "Log never decreases on positive floats, is infinite exactly for 0 and infinity, is NaN exactly for negative numbers and NaN, and is negative exactly below 1.", "quantifier": "all floats, all pairs of floats", "why_tests_cant": "2^64 pairs", "anchors": ["Code/Terathon/TSMath.cpp: Log"]}
{"id": "C92", "title": "FloatToString of every magnitude", "statement": "For every normal float FloatToString is defined, and writes an RFC 8259 number, with an exponent below 1e-4 and from 1e5 on, that differs from the float by at most 2e-5 of it.", "quantifier": "all floats, all variants of the instruction set, all limits of at least 15 characters", "why_tests_cant": "2^32 inputs times the builds", "anchors": ["Code/Terathon/TSText.cpp: Text::FloatToString", "Code/Terathon/TSMath.cpp: Log, Exp", "Code/Terathon/TSMath.h: Floor"]}
{"id": "C93", "title": "Numbers of every magnitude without system conversions", "statement": "Built with TERATHON_NO_SYSTEM, Write is defined for every finite number, writes an RFC 8259 number of at most 15 characters near it, and a document so written is read by both builds with the same shape.", "quantifier": "all doubles and documents, all variants of the instruction set, all contents of the stack, both builds", "why_tests_cant": "2^64 numbers times the builds", "anchors": ["Code/Json4C4/C4Json.cpp: NumberValue::Write, StructuredData::Write, StructuredData::Parse (TERATHON_NO_SYSTEM)", "Code/Terathon/TSText.cpp: Text::FloatToString", "Code/Terathon/TSMath.cpp: Log, Exp"]}
{"id": "C94", "title": "Deserialize that fails", "statement": "When DeserializeTo fails, the object is as it was before the call.", "quantifier": "all documents, all types with prototypes, all contents of the object", "why_tests_cant": "infinite set of types, documents and objects; the tests only deserialize documents that fit", "anchors": ["Code/Json4C4/C4Json.h: Deserialize (all overloads), DeserializeProto, StructuredData::DeserializeTo"]}
{"id": "C95", "title": "Strings and UTF-16 texts", "statement": "A String made of a UTF-16 text, by its constructor or from a WCharBuffer, holds its UTF-8 form without surrogates outside pairs; a WCharBuffer made of a String holds its UTF-16 form in a block that it fills; a valid text there and back is the same; a WCharBuffer made with a length holds at most that many units, then a zero.", "quantifier": "all UTF-16 texts, all byte strings, all lengths, all contents of new blocks", "why_tests_cant": "infinite set of texts; the tests do not run on Windows", "anchors": ["Code/Terathon/TSString.cpp: String<0>::String(const uint16 *)", "Code/Json4C4/C4Json.cpp: WCharBuffer", "Code/Terathon/TSText.cpp: Text::ConvertWideTextToString, Text::ConvertStringToWideText"]}
{"id": "C96", "title": "Maps with other keys", "statement": "In a Map whose keys are ConstCharKey, StringKey or FileNameKey, FindMapElement gives the first element inserted with an equal key (operator ==), InsertMapElement succeeds exactly when there is none, and the iteration gives the elements in increasing order.", "quantifier": "all sequences of insertions, all keys", "why_tests_cant": "infinite set of keys and sequences; the laws relate three keys and the shape of the tree", "anchors": ["Code/Terathon/TSString.h: ConstCharKey, StringKey, FileNameKey", "Code/Terathon/TSMap.h: Map::InsertMapElement, Map::FindMapElement"]}
{"id": "C97", "title": "SerializeFrom when memory runs out", "statement": "Whatever allocations fail, SerializeFrom returns; it returns kException exactly if one failed; afterwards the document can be used and destroyed, and no value object is lost.", "quantifier": "all types with prototypes, all objects, all documents, all sets of failing allocations, all sequences of Parse and SerializeFrom", "why_tests_cant": "the tests never run out of memory; infinite set of types, objects and failures", "anchors": ["Code/Json4C4/C4Json.h: StructuredData::SerializeFrom, Serialize (all overloads), SerializeProto, Detail::CreateValueFor, Detail::PurgePointerArray", "Code/Json4C4/C4Json.cpp: ObjectValue::InsertAccountedMapElement, StructuredData::~StructuredData"]}
{"id": "C98", "title": "Strings when memory runs out", "statement": "A call on a String<> that throws because memory runs out leaves the string as it was; it can be used and destroyed.", "quantifier": "all strings, all calls, all answers of the allocator, all sequences of calls", "why_tests_cant": "the tests never run out of memory", "anchors": ["Code/Terathon/TSString.cpp: String<0>::Resize, PurgeString, Set, operator=, operator+=, SetStringLength, AppendString, EncodeEscapeSequences", "Code/Json4C4/C4Json.h: Deserialize (strings)"]}
{"id": "C99", "title": "Recursion outside Parse", "statement": "A document that Parse accepted can be written and destroyed whatever the size of the stack; validating, reading or writing an object needs a stack that depends on its type only.", "quantifier": "all documents, all types with prototypes, all objects, all stack sizes", "why_tests_cant": "infinite set of documents; the tests only have shallow ones", "anchors": ["Code/Json4C4/C4Json.cpp: ArrayValue::~ArrayValue, ArrayValue::Write, ObjectValue::~ObjectValue, ObjectValue::Write", "Code/Json4C4/C4Json.h: Validate, Deserialize, Serialize (all overloads), ValidateProto, DeserializeProto, SerializeProto", "Code/Terathon/TSMap.cpp: MapElementBase::RemoveSubtree, MapElementBase::DeleteSubtree"]}
{"id": "C100", "title": "DeserializeTo when memory runs out", "statement": "Whatever allocations fail, DeserializeTo returns; it returns kException if one failed, and otherwise what it gives with enough memory; afterwards the object can be used and destroyed, and nothing is lost.", "quantifier": "all types with prototypes, all documents, all objects, all sets of failing allocations", "why_tests_cant": "the tests never run out of memory; infinite set of types, documents and failures", "anchors": ["Code/Json4C4/C4Json.h: StructuredData::DeserializeTo, Deserialize (all overloads), DeserializeProto, MayThrow, ObjectMapElement", "Code/Terathon/TSString.cpp: String<0>::operator=, String<0>::~String", "Code/Json4C4/C4Json.cpp: Deserialize (std::string)"]}
{"id": "C101", "title": "Interrupted Write", "statement": "When the program ends during a Write, the file holds the old document, the new one, or a text that Parse rejects.", "quantifier": "all documents, all files, all points at which the program ends, all ways in which the kernel splits the writes", "why_tests_cant": "the tests do not kill the program; every byte of every document is a crash point", "anchors": ["Code/Json4C4/C4Json.cpp: StructuredData::Write, ArrayValue::Write, ObjectValue::Write, File::OpenFile, File::WriteFile", "Code/Json4C4/C4Json.cpp: StructuredData::Parse"]}
{"id": "C102", "title": "Write when memory runs out", "statement": "Whatever allocations fail, Write returns a status.", "quantifier": "all documents, all indentations, all sets of failing allocations", "why_tests_cant": "the tests never run out of memory", "anchors": ["Code/Json4C4/C4Json.cpp: ExpandArray, ArrayValue::Write, ObjectValue::Write, StructuredData::Write", "Code/Json4C4/C4Json.h: StructuredData::Write", "Code/Terathon/TSArray.h: Array::AppendArrayElement, Array::SetReservedCount"]}
{"id": "C103", "title": "Size of the written text", "statement": "The size of what Write writes for a parsed document is bounded by a polynomial in the size of the parsed text.", "quantifier": "all texts that Parse accepts, all indentations", "why_tests_cant": "infinite set of texts; the growth shows only for nested members with equal names", "anchors": ["Code/Json4C4/C4Json.cpp: ObjectValue::Write, ArrayValue::Write, ObjectValue::Parse"]}
{"id": "C104", "title": "File round trip", "statement": "A document that was parsed from a file and is written to a file by Write can be parsed from that file.", "quantifier": "all files that Parse accepts, all indentations, all ways in which the kernel splits the writes", "why_tests_cant": "infinite set of files; needs documents whose written text is longer than the limit", "anchors": ["Code/Json4C4/C4Json.cpp: StructuredData::Parse(const char*), StructuredData::Write, MAX_FILE_SIZE"]}
{"id": "C105", "title": "Files on Windows", "statement": "On Windows, when no call of the system fails and the file has the size that the system reports: Parse of a file name has the result of Parse of the bytes of the file; Write leaves exactly its text, whatever the file held before; and Parse finds there the document that was written (up to 65534 bytes, finite numbers, strings that need no escapes).", "quantifier": "all files, all documents, all ways in which the system splits reads and writes", "why_tests_cant": "the tests do not run on Windows and do not split reads", "anchors": ["Code/Json4C4/C4Json.cpp: File (JSON4C4_WINDOWS), StructuredData::Parse(const char*), StructuredData::Write"]}
{"id": "C106", "title": "Escape sequences", "statement": "EncodeEscapeSequences replaces the text of the object by one without control characters that reads back to the old text by the rules of C, and as the inside of a JSON string by Parse; the object can be used further.", "quantifier": "all texts, all contents of new memory", "why_tests_cant": "infinite set of texts; the tests do not call it", "anchors": ["Code/Terathon/TSString.cpp: String<0>::EncodeEscapeSequences", "Code/Terathon/TSString.h: String<0>"]}
{"id": "C107", "title": "Texts of unsigned integers", "statement": "A string constructed from, assigned, appended or added an unsigned integer gets its decimal numeral (cut to the capacity for String<len>).", "quantifier": "all integers of the types, all strings, all capacities, all contents of new memory", "why_tests_cant": "4 294 967 296 and 2^64 integers; the tests do not use these overloads", "anchors": ["Code/Terathon/TSString.h: String<len>(uint32), operator=(uint32), operator+=(uint32), operator+=(uint64), operator+(uint32)", "Code/Terathon/TSString.cpp: String<0>(uint32), operator=(uint32), operator+=(uint32), operator+=(uint64)"]}
{"id": "C108", "title": "New elements are fully determined", "statement": "What DeserializeTo leaves in the object depends only on the object before the call and on the document: members of new container elements that the document does not give hold their initialisers or the values of value initialisation.", "quantifier": "all user types, all documents, all objects before the call, all contents of new memory", "why_tests_cant": "the contents of new memory are usually zero in tests", "anchors": ["Code/Json4C4/C4Json.h: Deserialize (Array, std::vector, ObjectMap, std::map, std::unordered_map), DeserializeProto"]}
{"id": "C109", "title": "Arcus tangent", "statement": "Arctan(x) is defined for every float, lies between minus a quarter and a quarter of a turn and on the side of its argument, and is close to the angle with that tangent; Arctan(y, x) is defined for all pairs of floats, lies within half a turn, on the side of y when y is larger than the smallest normal float in magnitude, within a quarter when x is not negative and beyond a quarter when x is negative and larger than that.", "quantifier": "all floats and pairs of floats, all builds", "why_tests_cant": "2^64 pairs of floats", "anchors": ["Code/Terathon/TSMath.cpp: Arctan(float), Arctan(float, float)"]}
{"id": "C110", "title": "Sine and cosine", "statement": "Sin, Cos and CosSin are defined for every finite float and close to sine and cosine of an angle close to the argument; Sin and Tan are odd, Cos is even, Tan is their quotient.", "quantifier": "all floats, all builds", "why_tests_cant": "2^32 floats, several builds; nothing to compare with in the tests", "anchors": ["Code/Terathon/TSMath.cpp: Sin, Cos, Tan, CosSin, Math::trigTable"]}
{"id": "C111", "title": "Builds agree on sine and cosine", "statement": "Sin, Cos, Tan and CosSin return the same floats without SIMD, with SSE2 and with SSE4.", "quantifier": "all floats, all pairs of builds", "why_tests_cant": "a test runs in one build", "anchors": ["Code/Terathon/TSMath.cpp: Sin, Cos, Tan, CosSin", "Code/Terathon/TSSimd.h: VecNmsubScalar, VecPositiveFloorScalar"]}
{"id": "C112", "title": "Minima, maxima, limits and signs", "statement": "Fmin and Fmax return the least and greatest of their arguments, Clamp and Saturate the closest number within the limits, Fsgn and NonzeroFsgn the sign, in all builds alike.", "quantifier": "all floats including infinities, NaN and -0, all builds", "why_tests_cant": "2^128 argument lists; a test runs in one build", "anchors": ["Code/Terathon/TSMath.h: Fmin, Fmax, FminZero, FmaxZero, Saturate, Clamp, Fsgn, NonzeroFsgn", "Code/Terathon/TSSimd.h: VecMinScalar, VecMaxScalar, VecFsgn, VecNonzeroFsgn"]}
{"id": "C113", "title": "Floors, ceilings and fractions", "statement": "FloorCeil stores Floor and Ceil; PositiveCeil, NegativeFloor and NegativeCeil are Ceil and Floor on their side; Frac is the argument less its floor, at least 0 and less than 1; in all builds alike.", "quantifier": "all finite floats, all builds", "why_tests_cant": "2^32 floats, several builds", "anchors": ["Code/Terathon/TSMath.h: FloorCeil, PositiveCeil, NegativeFloor, NegativeCeil, Frac", "Code/Terathon/TSSimd.h: VecFloorCeilScalar, VecPositiveCeilScalar, VecNegativeFloorScalar, VecNegativeCeilScalar"]}
{"id": "C114", "title": "Square roots", "statement": "For every float x that is not negative the square of Sqrt(x) is close to x, and the square of InverseSqrt(x) times x is close to 1; Sqrt of a negative number is 0; this holds in all builds and on all processors, for infinity as well, and is exact for 1.", "quantifier": "all floats, all builds, all results of _mm_rsqrt_ss that the manuals allow", "why_tests_cant": "2^32 floats, and the instruction's result differs between processors", "anchors": ["Code/Terathon/TSMath.cpp: Sqrt, InverseSqrt"]}
{"id": "C115", "title": "Arc sine and arc cosine", "statement": "Arcsin and Arccos are defined for every float, lie in the range from minus a quarter to a quarter turn, and from 0 to half a turn, on the side that the sign of the argument gives, are at the limits of the range for arguments of 1 and more, and otherwise close to the arc tangent of y / sqrt(1 - y^2) and sqrt(1 - x^2) / x.", "quantifier": "all floats, all builds, all results of _mm_rsqrt_ss that the manuals allow", "why_tests_cant": "2^32 floats, several builds and processors", "anchors": ["Code/Terathon/TSMath.cpp: Arcsin, Arccos"]}
{"id": "C116", "title": "Powers", "statement": "Pow(x, y) is defined for all floats for which the power is a real number, is not negative for positive bases, grows with the exponent for bases above 1 and falls for bases below 1, and is 1 for the exponent 0 and for the base 1.", "quantifier": "all bases, all pairs of exponents, all builds", "why_tests_cant": "2^96 triples of floats", "anchors": ["Code/Terathon/TSMath.h: Pow", "Code/Terathon/TSMath.cpp: Exp, Log"]}
