#!/usr/bin/env python3
"""Generates properties.jsonl (kept as a script so that the JSON stays well formed)."""
import json, os
J="Code/Json4C4/C4Json.cpp"; H="Code/Json4C4/C4Json.h"
T="Code/Terathon/"
P=[]
def p(title, statement, quant, why, *anchors):
    P.append(dict(id="C%02d"%(len(P)+1), title=title, statement=statement, quantifier=quant,
                  why_tests_cant=why, anchors=list(anchors)))

p("Parse is total and memory safe",
  "For every character array whose last element is NUL, StructuredData::Parse(array) returns (it never loops), never reads outside the array, and never writes outside the storage it obtained for a decoded string.",
  "all NUL-terminated byte arrays of any length",
  "an out-of-bounds read or a non-terminating loop may need one particular malformed tail; no finite corpus covers all byte strings",
  J+": StructuredData::Parse, ParseJsonRoot, ParseAnyValue, ReadStringLiteral, ReadStringEscapeChar, ReadDoubleLiteral", T+"TSText.cpp: Text::ValidateUnicodeChar")
p("Accepted documents have JSON structure (soundness)",
  "If Parse(array) returns kOk, then the text up to the first NUL reached is whitespace, one JSON value, whitespace, in the RFC 8259 structure (objects, arrays, literals, punctuation) whose string tokens and number tokens belong to the token languages stated in C06 and C08, and the value tree held by the StructuredData is the meaning of that text.",
  "all NUL-terminated byte arrays on which Parse returns kOk",
  "soundness is about every accepted input; the jsonchecker files are 35 inputs",
  J+": ParseJsonRoot, ParseAnyValue, ArrayValue::Parse, ObjectValue::Parse, StringValue::Parse, NumberValue::Parse")
p("All documents of the supported language are accepted (completeness)",
  "Every text of at least two bytes that is a document of the supported language (RFC structure with the string and number tokens of C06 and C08) is accepted with kOk and yields exactly the meaning of the text, whatever its size, nesting depth and white space.",
  "all documents generated by the grammar, of any size and depth",
  "infinitely many documents",
  J+": ParseJsonRoot, ParseAnyValue, ArrayValue::Parse, ObjectValue::Parse")
p("RFC 8259 documents are accepted",
  "Every RFC 8259 JSON text is accepted by Parse with the meaning RFC 8259 gives it (the README claims RFC 8259 compliance).",
  "all RFC 8259 texts",
  "infinitely many texts; compliance fails only on rare token forms",
  "README.md", J+": ReadDoubleLiteral, ReadStringLiteral, ReadStringEscapeChar, ParseJsonRoot")
p("Only RFC 8259 documents are accepted",
  "If Parse returns kOk then the characters of the array before its terminating NUL form an RFC 8259 JSON text.",
  "all NUL-terminated byte arrays on which Parse returns kOk",
  "rejection of all non-JSON inputs cannot be enumerated",
  "README.md", J+": ReadDoubleLiteral, ParseSign, ParseJsonRoot")
p("String tokens decode to exactly the denoted bytes",
  "A string token is accepted iff every raw character is an (encoded) code point of at least U+0020 other than U+007F, the quotation mark and the backslash, and every escape is one of the eight short escapes or \\uXXXX with non-zero XXXX; the resulting string is the concatenation of the raw bytes, the escaped characters and the UTF-8 (generalised) encoding of each \\uXXXX; it never contains NUL.",
  "all string tokens of any length",
  "all byte sequences inside quotes",
  J+": ReadStringLiteral, ReadStringEscapeChar, ReadEscapeChar, StringValue::Parse", T+"TSText.cpp: Text::WriteUnicodeChar")
p("Surrogate pair escapes denote one character",
  "A pair of escapes \\uD8xx\\uDCxx decodes to the UTF-8 encoding of the supplementary character it denotes, so that decoded strings are valid UTF-8 whenever the input document is valid.",
  "all surrogate pair escapes",
  "1048576 pairs, and strings mixing them with other content",
  J+": ReadStringEscapeChar")
p("Number tokens: accepted language",
  "A number is accepted iff it is an optional sign, optional white space after the sign, and then a maximal run of the characters 0-9 . e E + - that does not start with 0 followed by anything but '.', and of which some prefix is a decimal number; its value is the value of the longest such prefix. Every RFC 8259 number whose integer part is not 0 directly followed by an exponent is accepted with its whole text used.",
  "all byte sequences at a value position",
  "all byte sequences",
  J+": NumberValue::Parse, ParseSign, ReadDoubleLiteral, ComputeFloatLiteralLength")
p("Numbers are correctly rounded",
  "The double stored for an accepted decimal literal is the representable binary64 value nearest to the decimal value (ties to even), infinity beyond the range, with the sign of the literal.",
  "all decimal literals of any length and exponent",
  "rounding errors appear only at rare halfway cases",
  J+": ReadDoubleLiteral (strtod), NumberValue::Parse")
p("Written numbers fit the buffer and read back identically",
  "For every finite double, the text produced by Write for it fits the 32 byte buffer, is an RFC 8259 number that Parse accepts in any document (of at least two bytes), and parses back to the identical double (including the sign of zero).",
  "all 2^64 bit patterns that are finite",
  "2^64 values",
  J+": NumberValue::Write, NumberValue::Parse")
p("Write then Parse gives the same document",
  "For every value tree whose strings and names contain only characters that need no escape, whose numbers are finite, whose objects were built by Parse or by member-wise Serialize, and for every white space indentation character and every indentation length, the text produced by Write, if it has at least two bytes, parses with kOk to an equal value tree.",
  "all value trees of any size and depth, all indentation settings",
  "infinitely many documents",
  J+": ArrayValue::Write, ObjectValue::Write, StringValue::Write, NumberValue::Write, BoolValue::Write, NullValue::Write")
p("Write emits valid JSON for every string",
  "Whatever string a value tree contains (for example one obtained by parsing an escape), Write produces a document that Parse accepts and that has the same content.",
  "all value trees",
  "depends on the contents of every string",
  J+": StringValue::Write, ObjectValue::Write")
p("Write emits valid JSON for every number",
  "Whatever number a value tree obtained by Parse contains, Write produces a document that Parse accepts.",
  "all value trees obtained by Parse",
  "depends on overflowing literals",
  J+": NumberValue::Write")
p("Lookup after Parse returns the first binding of a name",
  "After parsing an object, FindMapElement(name) and the typed Find functions return the value of the first member with that name in the text, and report absence exactly when no member has that name; the typed functions return null iff the value has another type.",
  "all objects with any number of members, all names",
  "member count and name combinations are unbounded",
  J+": InsertAccountedMapElement, ObjectValue::Parse, ObjectValue::FindString/FindDouble/FindBool/FindNull/FindArray/FindObject")
p("Write preserves member order and repeats duplicates with the first value",
  "Write emits the members of a parsed object in the order of their occurrence in the text; a name that occurs n times is emitted n times, each time with the first value.",
  "all parsed objects",
  "unbounded number of members",
  J+": ObjectValue::Write, InsertAccountedMapElement")
p("Map insertion and lookup form a finite map",
  "InsertMapElement adds the element iff its key is absent (and returns that), leaves every other key's lookup unchanged, and leaves the map unchanged otherwise; no insertion dereferences a null node.",
  "all maps reachable by any sequence of insertions and removals, all keys",
  "rebalancing cases depend on the whole history",
  T+"TSMap.h: Map::InsertMapElement, Map::FindMapElement", T+"TSMap.cpp: InsertLeftSubnode, InsertRightSubnode, RotateLeft, RotateRight, ZigZagLeft, ZigZagRight")
p("Map iteration visits each element once in key order",
  "Iterating a map from its first element with GetNextMapElement visits exactly its elements, each once, in strictly increasing unsigned byte order of the keys; GetMapElementCount and index access agree with it.",
  "all reachable maps",
  "unbounded histories",
  T+"TSMap.cpp: GetFirstMapElement, GetNextMapElement, GetMapElementCount")
p("Map stays balanced",
  "After any sequence of insertions and removals, stored balance factors equal the height differences, all are in {-1,0,1}, and the depth is at most 2*log2(n+1) for n elements, so lookup needs logarithmically many comparisons.",
  "all histories of insertions and removals",
  "all histories",
  T+"TSMap.cpp: InsertLeftSubnode, InsertRightSubnode, RemoveBranchNode, RemoveMapElement")
p("Map removal removes exactly one element",
  "RemoveMapElement removes the given element and changes the lookup of no other key.",
  "all reachable maps and all of their elements",
  "rebalancing after deletion depends on the whole history",
  T+"TSMap.cpp: RemoveMapElement, RemoveBranchNode")
p("InsertReplaceMapElement replaces the element with the same key",
  "After InsertReplaceMapElement(e), looking up e's key gives e and all other keys are unchanged.",
  "all reachable maps and all keys",
  "depends on the position of the replaced node",
  T+"TSMap.h: Map::InsertReplaceMapElement", T+"TSMap.cpp: ReplaceMapElement")
p("Reported error position is the position of the error",
  "When Parse fails with a syntax error, errorLine is one plus the number of line feeds before the reported position in the array and errorColumn is the one-based byte column in that line, and the reported position lies inside the text.",
  "all rejected arrays",
  "all byte strings",
  J+": ParseJsonRoot")
p("Error messages describe the status",
  "StatusToString(status) is defined for every status a call can return and gives the description of that status.",
  "all 27 status values",
  "a table lookup is out of range for one of the values; a test that passes may be reading past the table",
  J+": StatusString, StatusToString, ParseResultToString", H+": enum Status")
p("Error report contains the full line and column",
  "ParseResultToString appends '. Line: L, column: C' with the complete decimal line and column numbers.",
  "all lines and columns",
  "depends on the number of digits",
  J+": ParseResultToString", T+"TSString.h: String<len>")
p("What a StructuredData holds after each call",
  "After any history of Parse and SerializeFrom calls: a Parse that returned kOk leaves exactly the parsed document; a Parse that failed before looking at the text (file errors, fewer than three elements, missing terminator) leaves the previous document; a Parse that failed inside the value leaves no document; a Parse that failed only because of text after the value still holds the parsed value.",
  "all histories of calls",
  "all sequences of calls",
  J+": StructuredData::Parse, ParseJsonRoot", H+": StructuredData")
p("Documents built by the library are well formed",
  "In every value tree a StructuredData can hold after any history of calls, each object's map is ordered and balanced, and each recorded member name is present, so Write never returns kMissingObjectElement and never dereferences null.",
  "all histories of calls",
  "all sequences of calls",
  J+": ObjectValue::Parse, ObjectValue::Write, InsertAccountedMapElement", H+": StructuredData::SerializeFrom")
p("Validate agrees with Deserialize",
  "For every user type (built from strings, doubles, bools, null, arrays, object maps, std containers and prototypes with optional members), every value tree and every prior content of the destination, Validate returns the same status as Deserialize; in particular Deserialize succeeds whenever Validate does.",
  "all types, all value trees, all prior destinations",
  "unbounded types and documents",
  H+": Validate, Deserialize, ValidateProto, DeserializeProto")
p("Deserialize delivers the content of the document",
  "If Deserialize returns kOk then every member of the destination named by the prototype holds the value the document has for that name, arrays have exactly the document's elements in order, and members not named by the prototype and extra document members have no effect.",
  "all types and all value trees",
  "unbounded types and documents",
  H+": Deserialize, DeserializeProto")
p("Optional members",
  "With Json::optional, absence of the member is not an error and leaves the destination member unchanged; a member that is present must be valid.",
  "all prototypes and documents",
  "unbounded nesting",
  H+": ValidateProto(optional), DeserializeProto(optional)")
p("SerializeFrom then DeserializeTo is the identity",
  "For every user type with distinct member names and every object of that type, SerializeFrom followed by DeserializeTo a default object returns kOk twice and yields an equal object.",
  "all types and objects",
  "unbounded types and objects",
  H+": Serialize, SerializeProto, Deserialize, DeserializeProto, Detail::CreateValueFor")
p("Serialize reports failures",
  "If SerializeFrom returns kOk then the value tree contains all the data of the object.",
  "all types and objects",
  "a nested status is dropped silently; only particular types show it",
  H+": Serialize(Value*, const char*, const T&), Detail::CreateValueFor")
p("Serialized object maps are written",
  "Writing a document produced by SerializeFrom an ObjectMap (or a std::map) emits all its members.",
  "all maps",
  "unbounded maps",
  H+": Serialize(Value*, const ObjectMap<T>&)", J+": ObjectValue::Write")
p("A successful Write leaves exactly the document in the file",
  "If Write(fileName) returns kOk then the file contains exactly the document text.",
  "all documents, all previous file contents, all system call outcomes (short writes, errors)",
  "the outcome depends on previous contents and on the kernel's answers at each write",
  J+": StructuredData::Write, File::OpenFile, File::WriteFile, operator<<")
p("Parse(fileName) parses the file contents",
  "If the file exists and has at most 65534 bytes then Parse(fileName) gives the same result as parsing the file's bytes, however the system splits the reads.",
  "all file contents and all sequences of read results",
  "short reads are decided by the kernel",
  J+": StructuredData::Parse, File::ReadFile, File::GetFileSize")
p("File size limit",
  "Parse(fileName) refuses a file larger than 65534 bytes with KFileTooLarge, keeps the previous document, and never reads it.",
  "all files",
  "all sizes",
  J+": StructuredData::Parse, MAX_FILE_SIZE")
p("Integers are printed in decimal",
  "String conversion of an int32 yields its decimal representation (cut to the capacity), never writing more than capacity+1 bytes.",
  "all int32 values and capacities",
  "2^32 values",
  T+"TSText.cpp: Text::IntegerToString", T+"TSString.h: String<len>")
p("Fixed capacity strings never overflow",
  "Every construction, assignment and append on String<len> keeps a terminated string of at most len bytes inside its len+1 byte storage and equals the len-byte truncation of the unbounded operation.",
  "all len > 0, all sequences of operations, all operands",
  "all histories",
  T+"TSString.h: String<len>", T+"TSText.cpp: Text::CopyText")
p("Dynamic strings never overflow",
  "After any sequence of String<> operations, the storage holds the string and its terminator, and no operation writes outside the storage.",
  "all sequences of operations",
  "all histories: the defect needs three particular SetStringLength calls",
  T+"TSString.cpp: String<0>", T+"TSString.h: String<0>")
p("Unicode conversions round trip",
  "Reading back a code point written by WriteUnicodeChar gives the code point and the same length; converting UTF-8 to UTF-16 and back returns the same bytes for all valid UTF-8, with exactly the computed number of units written.",
  "all code points and all strings",
  "unbounded strings",
  T+"TSText.cpp: ReadUnicodeChar, WriteUnicodeChar, ValidateUnicodeChar, ConvertStringToWideText, ConvertWideTextToString")
p("Key order is a strict total order",
  "CompareTextLessThan is a strict total order on strings (unsigned bytewise lexicographic), consistent with CompareText equality and with CompareTextLessEqual.",
  "all pairs and triples of strings",
  "unbounded strings",
  T+"TSText.cpp: CompareTextLessThan, CompareTextLessEqual, CompareText")
p("Dynamic arrays keep their elements",
  "Any sequence of append, insert, remove, resize, reserve and purge on Array<T> behaves as on a list, capacity always covers the count, and appends reallocate O(log n) times.",
  "all sequences of operations",
  "all histories",
  T+"TSArray.h: Array<type, 0>")
p("No value is leaked",
  "After Parse returns, the value objects alive are exactly those reachable from the document.",
  "all arrays",
  "depends on duplicate names in the text",
  J+": ObjectValue::Parse, ArrayValue::Parse, ParseValue")
p("Portable number reader stays inside its tables",
  "Without system conversions (JSON4C4_USE_SYSTEM_DOUBLE_STRING_CONVERSIONS undefined) reading a number terminates inside the text, its power-of-ten table indices are in range, and no integer overflows.",
  "all byte sequences",
  "all byte sequences",
  J+": ReadDoubleLiteral (TERATHON_NO_SYSTEM)")
p("White space is insignificant",
  "Inserting or removing space, tab, LF or CR between tokens of an accepted document changes neither the status nor the value.",
  "all documents and insertion points",
  "unbounded",
  J+": ComputeWhitespaceLength, ArrayValue::Parse, ObjectValue::Parse, ParseJsonRoot")
p("Parsing is deterministic: one text, one meaning",
  "A document of the supported language has exactly one meaning: two derivations of the same text denote the same value tree.",
  "all documents and derivations",
  "unbounded derivations",
  J+": ParseAnyValue")
p("The whole way: serialize, write, parse, deserialize",
  "For every user type built from strings, doubles, bools, null, Array and prototypes with distinct names, and every object whose strings need no escape and whose numbers are finite: SerializeFrom, Write with any white space indentation, Parse of the written text and DeserializeTo a default object all return kOk, and the object has the original content. (The root must not be a bare number.)",
  "all types of that class, all objects, all indentations, all previous documents",
  "unbounded types and objects, and all finite doubles",
  J+": StructuredData::Write, Parse", "Code/Json4C4/C4Json.h: StructuredData::SerializeFrom, DeserializeTo")
p("Serialization of storable types round trips",
  "For every user type without std::vector, with distinct member names, anonymous members only of structure type and maps initially empty: SerializeFrom then DeserializeTo a default object returns kOk twice and gives equal content, whatever the uninitialised temporaries hold.",
  "all types of that class, all objects, all previous documents, all junk in uninitialised objects",
  "unbounded types and objects; uninitialised memory",
  "Code/Json4C4/C4Json.h: Serialize, Deserialize, Detail::CreateValueFor, SerializeProto, DeserializeProto")
p("Valid documents are always delivered",
  "If the document is valid for the user type (required members present and valid, optional members valid where present, array elements valid), then Parse followed by DeserializeTo returns kOk and every destination member holds the value the document has for it; document members that no prototype names have no effect.",
  "all types, all texts, all previous contents of the destination",
  "unbounded types and documents",
  "Code/Json4C4/C4Json.h: Deserialize, DeserializeProto", J+": StructuredData::Parse")
p("Writing survives split writes",
  "If no write call of the system fails, then after Write(fileName) the file holds the document text followed by what it held beyond that length before, however the system splits the writes; the status is that of the document.",
  "all documents, previous file contents and sequences of write results",
  "schedules of short writes cannot be enumerated",
  J+": File::WriteFile, File::operator<<, StructuredData::Write")
p("Reading in one piece is reading the bytes",
  "If the first read call of the system delivers the whole file (of at most 65534 bytes), Parse(fileName) gives exactly the result and the document of parsing the file's bytes.",
  "all files and previous documents",
  "all files",
  J+": File::ReadFile, StructuredData::Parse(const char*)")
p("The only undefined behaviour is a missing document",
  "In every history of Parse, Write, Validate, DeserializeTo and SerializeFrom calls on a StructuredData (serialized types having no anonymous map member), the only call with undefined behaviour is Validate or DeserializeTo while the StructuredData holds no document.",
  "all histories of calls",
  "unbounded histories",
  J+": StructuredData", "Code/Json4C4/C4Json.h: StructuredData::DeserializeTo, Validate")
p("Statuses of Parse",
  "Parse of an array returns one of thirteen statuses (kOk, two for a bad array, kExpectedEndOfFile, nine syntax errors) and each of them is returned for some text; kFloatInvalid, kExpectedTrueOrFalse, kExpectedNull, kExpectedEndingDoubleQuotes and the opening bracket statuses are never returned.",
  "all arrays",
  "absence of a status over all texts",
  J+": ParseJsonRoot, ParseAnyValue")
p("Maps are memory safe and own their elements",
  "Every history of creating elements (at unused addresses), InsertMapElement, Detach, delete, RemoveAllMapElements and PurgeMap over any number of maps dereferences no null or dangling pointer, returns true or false as the set of keys in the map says, and leaves exactly the expected elements alive, each owned by the expected map; lookups and iterations in both directions give exactly the owned elements in key order.",
  "all histories over any number of maps, elements and keys",
  "unbounded histories; tree shapes; elements moving between maps",
  T+"TSMap.cpp: all", T+"TSMap.h: Map, MapElement")
p("Reservations",
  "After ReserveMapElement succeeds, InsertMapElement with the reservation inserts the element and loses none.",
  "all maps, keys and calls between the two",
  "depends on the calls made between reserving and inserting",
  T+"TSMap.h: ReserveMapElement, InsertMapElement(element, reservation)")
p("Literals of the portable number reader",
  "Without system conversions a number literal is accepted, with exactly its length, iff it is an optional integer part and an optional fraction with at least one digit, and an optional exponent, single underscores being allowed between digits; kNumbersCannotHaveLeadingZeros is returned iff two digits follow each other in an integer part that starts with 0; every other text gives kFloatInvalid. Every RFC 8259 number is accepted.",
  "all byte sequences",
  "all byte sequences",
  J+": ReadDoubleLiteral (TERATHON_NO_SYSTEM)")
p("The portable number reader rounds correctly",
  "Without system conversions every JSON number is read as the double nearest to its value, and nothing else is read as a number.",
  "all number literals",
  "unbounded literals; rounding errors depend on every digit",
  J+": ReadDoubleLiteral (TERATHON_NO_SYSTEM), minusPower10, plusPower10")
p("Unicode conversions stay within their storage",
  "ConvertStringToWideText and ConvertWideTextToString with a maximum of max units or bytes write only within storage for max + 1 of them, for every text.",
  "all texts and maxima",
  "needs every alignment of surrogate pairs with the end of the storage",
  T+"TSText.cpp: ConvertStringToWideText, ConvertWideTextToString")
p("Unicode conversions of ill-formed text",
  "Every terminated text is converted, without reading behind its terminator: bytes that start no UTF-8 pattern become U+FFFD, surrogates outside pairs are dropped, the result of GetWideTextCharCount and GetUnicodeStringLength is the length of the conversion, and conversion from UTF-16 always gives valid UTF-8.",
  "all texts",
  "unbounded texts",
  T+"TSText.cpp: ReadUnicodeChar, GetWideTextCharCount, ConvertStringToWideText, GetUnicodeStringLength, ConvertWideTextToString")
p("Character counts",
  "For every terminated text, GetUnicodeCharCount, GetUnicodeCharStringByteCount and the functions stepping by one character read nothing behind the terminator; on valid UTF-8 they give the number of code points, the bytes of the first n code points and the bytes of the next or previous one.",
  "all texts",
  "unbounded texts; texts ending inside a sequence",
  T+"TSText.cpp: GetUnicodeCharCount, GetUnicodeCharStringByteCount, GetNextUnicodeCharByteCount, GetPreviousUnicodeCharByteCount")
p("Dynamic arrays release their storage",
  "After every history of calls on any number of arrays, every block still allocated is the storage of exactly one live array; after all arrays are destroyed none is left.",
  "all histories over any number of arrays",
  "leaks depend on the sizes an array had before",
  T+"TSArray.h: Array(Array&&), ~Array, PurgeArray, SetReservedCount")
p("Searching and comparing dynamic arrays",
  "After every history, FindArrayElementIndex returns the index of the first equal element or -1, and operator == says whether both arrays hold the same list.",
  "all histories, all element types with an equality",
  "all lists",
  T+"TSArray.h: FindArrayElementIndex, operator ==")
p("Parsing with failing allocations is safe",
  "Whatever allocations fail, in whatever number and order, Parse(array) returns, no object is deleted twice or used after its end, the document is the one without failures or there is none, and kOk is returned only with the document of the text; the destructor then succeeds.",
  "all texts, all sets of failing allocations, all histories of one document",
  "every subset of the allocations of every text",
  J+": ParseValue, ParseAnyValue, StringValue::Parse, ReadDoubleLiteral, ArrayValue::Parse, ObjectValue::Parse, StructuredData::Parse", "Code/Json4C4/C4Json.h: MayThrow")
p("Failing allocations are reported",
  "If an allocation failure changes the outcome of Parse(array), the status is kException; and kException is returned only if an allocation failed.",
  "all texts, all sets of failing allocations",
  "every subset of the allocations of every text",
  J+": ParseAnyValue, ParseValue", "Code/Json4C4/C4Json.h: MayThrow")
p("Nothing leaks when allocations fail",
  "After Parse(array) with any allocations failing, every value object alive is reachable from the document.",
  "all texts, all sets of failing allocations",
  "every subset of the allocations of every text",
  J+": ArrayValue::Parse, ObjectValue::Parse, ParseValue")
p("Searching for characters",
  "FindChar returns the first position of the character in the text (or in its first max bytes) or -1, CountChars the number of its occurrences, FindUnquotedChar the first position outside double-quoted parts; none of them reads behind the terminator or behind max bytes.",
  "all texts, characters and bounds",
  "unbounded texts",
  T+"TSText.cpp: Text::FindChar, Text::FindUnquotedChar, Text::CountChars")
p("Searching for texts",
  "FindText returns the first position at which the second text occurs in the first, or -1 if it does not occur; FindTextCaseless the same without regard to the case of letters.",
  "all pairs of texts",
  "unbounded texts; overlapping partial matches",
  T+"TSText.cpp: Text::FindText, Text::FindTextCaseless")
p("Bounded and caseless comparisons",
  "The comparison functions with a bound compare the first max bytes, the caseless ones the texts with letters in one case: equality is equality of these, the order functions are the lexicographic order and its reflexive closure. Of two texts exactly one of less, equal and greater (all caseless) is true. Nothing is read behind a terminator or behind max bytes.",
  "all pairs of texts and bounds",
  "unbounded texts",
  T+"TSText.cpp: Text::CompareText, CompareTextCaseless, CompareTextLessThan, CompareTextLessThanCaseless, CompareTextLessEqual, CompareTextLessEqualCaseless")
p("Comparing texts with numbers",
  "CompareNumberedTextLessThan and its caseless variant are strict total orders in which groups of digits are ordered by their value.",
  "all texts",
  "order laws relate three texts of any length",
  T+"TSText.cpp: Text::CompareNumberedTextLessThan, CompareNumberedTextLessThanCaseless")
p("Reading tokens from a text",
  "ReadInteger, ReadFloat and ReadString store the longest token at the start of the text, cut to max characters, with a terminator, write nothing else, and return the length read; escapes in quoted strings stand for the character behind the backslash. ReadType returns the characters between single quotes as a number modulo 2^32. None reads behind the terminator.",
  "all texts, all bounds, all contents of the storage",
  "every alignment of tokens, escapes and bounds",
  T+"TSText.cpp: Text::ReadInteger, ReadFloat, ReadString, ReadType")
p("ReadFloat reads decimal numbers",
  "If the text starts with a decimal number followed by something that is no part of a number, ReadFloat reads exactly this number.",
  "all decimal numbers and continuations",
  "unbounded numerals",
  T+"TSText.cpp: Text::ReadFloat")
p("Parts of paths",
  "GetResourceNameLength is the length of the path without the extension of its last component, GetDirectoryPathLength the length of the part up to the last slash.",
  "all texts",
  "unbounded paths",
  T+"TSText.cpp: Text::GetResourceNameLength, GetDirectoryPathLength")
p("Hash of a text",
  "Hash depends on the characters of the text only, and two texts that differ in exactly one character have different hashes.",
  "all texts and positions",
  "all pairs of texts",
  T+"TSText.cpp: Text::Hash")
p("Integer helpers defined everywhere",
  "MinZero and MaxZero are the minimum and maximum with 0, Min and Max those of two numbers, and IncMod and DecMod count in a circle and undo each other, for all arguments of both widths.",
  "all numbers",
  "2^64 arguments",
  T+"TSBasic.h: MinZero, MaxZero, Min, Max, IncMod, DecMod")
p("Integer helpers defined with exceptions",
  "Abs, Sgn, OverflowZero, the powers of two below and above a number and its logarithm are defined and right for every argument.",
  "all numbers",
  "2^64 arguments",
  T+"TSBasic.h: Abs, Sgn, OverflowZero, Pow2Floor, Pow2Ceil, IntLog2, Cntlz")
p("Exchange",
  "Exchange of two integer variables gives each the value of the other and changes nothing else.",
  "all memories and pairs of variables",
  "aliasing",
  T+"TSBasic.h: Exchange")
p("StaticHash is Hash",
  "The constant StaticHash<...>::value of the characters of a text is what Hash returns for the text at run time.",
  "all texts, both signs of char",
  "all texts of up to 17 characters",
  T+"TSText.h: StaticHash", T+"TSText.cpp: Text::Hash")
p("Hexadecimal texts",
  "Integer64ToHexString16, IntegerToHexString8, 4 and 2 write exactly the last 16, 8, 4 and 2 hexadecimal digits of the number, a terminator, and nothing else; different numbers of 64 bits have different texts of 16 digits.",
  "all numbers, all contents of the storage",
  "2^64 numbers",
  T+"TSString.cpp: Text::Integer64ToHexString16, IntegerToHexString8, IntegerToHexString4, IntegerToHexString2")
p("Types as texts",
  "StringToType and TypeToString are inverse to each other on texts of at most four characters and all types; TypeToHexCharString writes the number in hexadecimal and the characters.",
  "all texts and all numbers below 2^32",
  "2^32 types",
  T+"TSString.cpp: Text::StringToType, Text::TypeToString, Text::TypeToHexCharString")
p("FloatToString stays in its storage",
  "For every float, limit and storage of limit + 1 characters, FloatToString returns, writes a text and its terminator, and nothing behind the limit; the result is between 0 and the limit.",
  "all 2^32 floats, all limits, all contents of the storage, all results of Log and Exp in range",
  "floats times limits times contents",
  T+"TSText.cpp: Text::FloatToString")
p("FloatToString returns the length",
  "FloatToString returns the number of characters of the text it writes, and the length of a String<0> made from a float is that of its text.",
  "all floats and limits",
  "2^32 floats times limits",
  T+"TSText.cpp: Text::FloatToString", T+"TSString.cpp: String<0>::String(float), operator =(float)")
p("FloatToString is accurate",
  "For floats of magnitude from 1e-4 up to 1e5 and a limit of at least 14 the text is a decimal number with the right sign, at most seven digits behind the point and no superfluous zero, which differs from the float by at most 1.02e-5; so are the texts of String<len> (len >= 14) and String<0> made from such floats.",
  "all such floats, limits and storages",
  "half a billion floats",
  T+"TSText.cpp: Text::FloatToString", T+"TSString.h: String(float)", T+"TSString.cpp: String<0>::String(float), operator =(float)")
p("The text of a float determines it",
  "Two floats for which FloatToString writes the same text are the same.",
  "all pairs of floats",
  "2^64 pairs",
  T+"TSText.cpp: Text::FloatToString")
p("The text of a float is a number",
  "What FloatToString writes is a number in the sense of RFC 8259, with the sign and the approximate value of the float.",
  "all floats and limits",
  "2^32 floats times limits",
  T+"TSText.cpp: Text::FloatToString")
p("Arrays survive a lack of memory",
  "If an operation of an Array throws because memory cannot be allocated, the array holds the elements it held before, can be used further like any other array, and no storage is lost; a constructor that throws leaves nothing behind.",
  "all histories of calls with any choice of calls that get no memory, all element types and base counts",
  "every call of every history may be the one that fails",
  T+"TSArray.h: Array::SetReservedCount, Array::Array, Array::ReserveArrayElementCount, Array::SetArrayElementCount, Array::AppendArrayElement, Array::InsertArrayElement")
p("Parsing needs a bounded stack",
  "There is a stack size with which StructuredData::Parse returns for every text.",
  "all texts of any length and nesting, all stack sizes, both builds",
  "needs texts of every nesting depth",
  J+": ParseAnyValue, ArrayValue::Parse, ObjectValue::Parse, StructuredData::Parse")
p("Parsing without system conversions",
  "Built with TERATHON_NO_SYSTEM, StructuredData::Parse returns for every buffer without undefined behaviour, and accepts exactly the texts of a fixed grammar, with the value the grammar gives them but for the rounding of numbers.",
  "all byte buffers",
  "infinite set of texts; the tests use the build with system conversions",
  J+": StructuredData::Parse, ParseJsonRoot, NumberValue::Parse (TERATHON_NO_SYSTEM)")
p("Both builds read the same",
  "With and without system conversions, StructuredData::Parse accepts the same texts and produces the same values.",
  "all byte buffers, both builds",
  "infinite set of texts, two builds",
  J+": NumberValue::Parse, ReadDoubleLiteral, ComputeFloatLiteralLength")
p("Numbers written without system conversions",
  "Built with TERATHON_NO_SYSTEM, Write writes every number as a text that Parse reads as the same number.",
  "all doubles, all contents of the stack, all variants of the instruction set",
  "2^64 numbers; the tests use the build with system conversions",
  J+": NumberValue::Write (TERATHON_NO_SYSTEM)", T+"TSString.h: Text::FloatToString(float)", T+"TSText.cpp: Text::FloatToString")
p("Documents written without system conversions",
  "Built with TERATHON_NO_SYSTEM, what StructuredData::Write writes is read by StructuredData::Parse of either build as the same value.",
  "all values, both builds, all indentations",
  "infinite set of values, two builds",
  J+": StructuredData::Write, StructuredData::Parse, NumberValue::Write (TERATHON_NO_SYSTEM)")
p("Floor and Ceil",
  "For every finite float, Floor returns the greatest whole number not above it and Ceil the least not below it, in every build; infinities and NaN are returned unchanged; PositiveFloor agrees with Floor for all numbers that are not negative.",
  "all floats, all variants of the instruction set",
  "2^32 inputs times the builds",
  T+"TSMath.h: Floor, Ceil, PositiveFloor, PositiveCeil", T+"TSSimd.h: SimdFloorScalar, SimdCeilScalar, SimdPositiveFloorScalar")
p("Exp is defined and monotone",
  "Exp is defined for every float and never decreases.",
  "all floats, all pairs of floats, all variants of the instruction set",
  "2^64 pairs",
  T+"TSMath.cpp: Exp", T+"TSMath.h: Floor")
p("Log is monotone",
  "Log never decreases on positive floats, is infinite exactly for 0 and infinity, is NaN exactly for negative numbers and NaN, and is negative exactly below 1.",
  "all floats, all pairs of floats",
  "2^64 pairs",
  T+"TSMath.cpp: Log")
p("FloatToString of every magnitude",
  "For every normal float FloatToString is defined, and writes an RFC 8259 number, with an exponent below 1e-4 and from 1e5 on, that differs from the float by at most 2e-5 of it.",
  "all floats, all variants of the instruction set, all limits of at least 15 characters",
  "2^32 inputs times the builds",
  T+"TSText.cpp: Text::FloatToString", T+"TSMath.cpp: Log, Exp", T+"TSMath.h: Floor")
p("Numbers of every magnitude without system conversions",
  "Built with TERATHON_NO_SYSTEM, Write is defined for every finite number, writes an RFC 8259 number of at most 15 characters near it, and a document so written is read by both builds with the same shape.",
  "all doubles and documents, all variants of the instruction set, all contents of the stack, both builds",
  "2^64 numbers times the builds",
  J+": NumberValue::Write, StructuredData::Write, StructuredData::Parse (TERATHON_NO_SYSTEM)", T+"TSText.cpp: Text::FloatToString", T+"TSMath.cpp: Log, Exp")
p("Deserialize that fails",
  "When DeserializeTo fails, the object is as it was before the call.",
  "all documents, all types with prototypes, all contents of the object",
  "infinite set of types, documents and objects; the tests only deserialize documents that fit",
  H+": Deserialize (all overloads), DeserializeProto, StructuredData::DeserializeTo")
p("Strings and UTF-16 texts",
  "A String made of a UTF-16 text, by its constructor or from a WCharBuffer, holds its UTF-8 form without surrogates outside pairs; a WCharBuffer made of a String holds its UTF-16 form in a block that it fills; a valid text there and back is the same; a WCharBuffer made with a length holds at most that many units, then a zero.",
  "all UTF-16 texts, all byte strings, all lengths, all contents of new blocks",
  "infinite set of texts; the tests do not run on Windows",
  T+"TSString.cpp: String<0>::String(const uint16 *)", J+": WCharBuffer", T+"TSText.cpp: Text::ConvertWideTextToString, Text::ConvertStringToWideText")
p("Maps with other keys",
  "In a Map whose keys are ConstCharKey, StringKey or FileNameKey, FindMapElement gives the first element inserted with an equal key (operator ==), InsertMapElement succeeds exactly when there is none, and the iteration gives the elements in increasing order.",
  "all sequences of insertions, all keys",
  "infinite set of keys and sequences; the laws relate three keys and the shape of the tree",
  T+"TSString.h: ConstCharKey, StringKey, FileNameKey", T+"TSMap.h: Map::InsertMapElement, Map::FindMapElement")
p("SerializeFrom when memory runs out",
  "Whatever allocations fail, SerializeFrom returns; it returns kException exactly if one failed; afterwards the document can be used and destroyed, and no value object is lost.",
  "all types with prototypes, all objects, all documents, all sets of failing allocations, all sequences of Parse and SerializeFrom",
  "the tests never run out of memory; infinite set of types, objects and failures",
  H+": StructuredData::SerializeFrom, Serialize (all overloads), SerializeProto, Detail::CreateValueFor, Detail::PurgePointerArray", J+": ObjectValue::InsertAccountedMapElement, StructuredData::~StructuredData")
p("Strings when memory runs out",
  "A call on a String<> that throws because memory runs out leaves the string as it was; it can be used and destroyed.",
  "all strings, all calls, all answers of the allocator, all sequences of calls",
  "the tests never run out of memory",
  T+"TSString.cpp: String<0>::Resize, PurgeString, Set, operator=, operator+=, SetStringLength, AppendString, EncodeEscapeSequences", H+": Deserialize (strings)")
p("Recursion outside Parse",
  "A document that Parse accepted can be written and destroyed whatever the size of the stack; validating, reading or writing an object needs a stack that depends on its type only.",
  "all documents, all types with prototypes, all objects, all stack sizes",
  "infinite set of documents; the tests only have shallow ones",
  J+": ArrayValue::~ArrayValue, ArrayValue::Write, ObjectValue::~ObjectValue, ObjectValue::Write", H+": Validate, Deserialize, Serialize (all overloads), ValidateProto, DeserializeProto, SerializeProto", T+"TSMap.cpp: MapElementBase::RemoveSubtree, MapElementBase::DeleteSubtree")
p("DeserializeTo when memory runs out",
  "Whatever allocations fail, DeserializeTo returns; it returns kException if one failed, and otherwise what it gives with enough memory; afterwards the object can be used and destroyed, and nothing is lost.",
  "all types with prototypes, all documents, all objects, all sets of failing allocations",
  "the tests never run out of memory; infinite set of types, documents and failures",
  H+": StructuredData::DeserializeTo, Deserialize (all overloads), DeserializeProto, MayThrow, ObjectMapElement", T+"TSString.cpp: String<0>::operator=, String<0>::~String", J+": Deserialize (std::string)")
p("Interrupted Write",
  "When the program ends during a Write, the file holds the old document, the new one, or a text that Parse rejects.",
  "all documents, all files, all points at which the program ends, all ways in which the kernel splits the writes",
  "the tests do not kill the program; every byte of every document is a crash point",
  J+": StructuredData::Write, ArrayValue::Write, ObjectValue::Write, File::OpenFile, File::WriteFile", J+": StructuredData::Parse")
p("Write when memory runs out",
  "Whatever allocations fail, Write returns a status.",
  "all documents, all indentations, all sets of failing allocations",
  "the tests never run out of memory",
  J+": ExpandArray, ArrayValue::Write, ObjectValue::Write, StructuredData::Write", H+": StructuredData::Write", T+"TSArray.h: Array::AppendArrayElement, Array::SetReservedCount")
p("Size of the written text",
  "The size of what Write writes for a parsed document is bounded by a polynomial in the size of the parsed text.",
  "all texts that Parse accepts, all indentations",
  "infinite set of texts; the growth shows only for nested members with equal names",
  J+": ObjectValue::Write, ArrayValue::Write, ObjectValue::Parse")
p("File round trip",
  "A document that was parsed from a file and is written to a file by Write can be parsed from that file.",
  "all files that Parse accepts, all indentations, all ways in which the kernel splits the writes",
  "infinite set of files; needs documents whose written text is longer than the limit",
  J+": StructuredData::Parse(const char*), StructuredData::Write, MAX_FILE_SIZE")
p("Files on Windows",
  "On Windows, when no call of the system fails and the file has the size that the system reports: Parse of a file name has the result of Parse of the bytes of the file; Write leaves exactly its text, whatever the file held before; and Parse finds there the document that was written (up to 65534 bytes, finite numbers, strings that need no escapes).",
  "all files, all documents, all ways in which the system splits reads and writes",
  "the tests do not run on Windows and do not split reads",
  J+": File (JSON4C4_WINDOWS), StructuredData::Parse(const char*), StructuredData::Write")
p("Escape sequences",
  "EncodeEscapeSequences replaces the text of the object by one without control characters that reads back to the old text by the rules of C, and as the inside of a JSON string by Parse; the object can be used further.",
  "all texts, all contents of new memory",
  "infinite set of texts; the tests do not call it",
  T+"TSString.cpp: String<0>::EncodeEscapeSequences", T+"TSString.h: String<0>")
p("Texts of unsigned integers",
  "A string constructed from, assigned, appended or added an unsigned integer gets its decimal numeral (cut to the capacity for String<len>).",
  "all integers of the types, all strings, all capacities, all contents of new memory",
  "4 294 967 296 and 2^64 integers; the tests do not use these overloads",
  T+"TSString.h: String<len>(uint32), operator=(uint32), operator+=(uint32), operator+=(uint64), operator+(uint32)", T+"TSString.cpp: String<0>(uint32), operator=(uint32), operator+=(uint32), operator+=(uint64)")
p("New elements are fully determined",
  "What DeserializeTo leaves in the object depends only on the object before the call and on the document: members of new container elements that the document does not give hold their initialisers or the values of value initialisation.",
  "all user types, all documents, all objects before the call, all contents of new memory",
  "the contents of new memory are usually zero in tests",
  H+": Deserialize (Array, std::vector, ObjectMap, std::map, std::unordered_map), DeserializeProto")
p("Arcus tangent",
  "Arctan(x) is defined for every float, lies between minus a quarter and a quarter of a turn and on the side of its argument, and is close to the angle with that tangent; Arctan(y, x) is defined for all pairs of floats, lies within half a turn, on the side of y when y is larger than the smallest normal float in magnitude, within a quarter when x is not negative and beyond a quarter when x is negative and larger than that.",
  "all floats and pairs of floats, all builds",
  "2^64 pairs of floats",
  T+"TSMath.cpp: Arctan(float), Arctan(float, float)")
p("Sine and cosine",
  "Sin, Cos and CosSin are defined for every finite float and close to sine and cosine of an angle close to the argument; Sin and Tan are odd, Cos is even, Tan is their quotient.",
  "all floats, all builds",
  "2^32 floats, several builds; nothing to compare with in the tests",
  T+"TSMath.cpp: Sin, Cos, Tan, CosSin, Math::trigTable")
p("Builds agree on sine and cosine",
  "Sin, Cos, Tan and CosSin return the same floats without SIMD, with SSE2 and with SSE4.",
  "all floats, all pairs of builds",
  "a test runs in one build",
  T+"TSMath.cpp: Sin, Cos, Tan, CosSin", T+"TSSimd.h: VecNmsubScalar, VecPositiveFloorScalar")
p("Minima, maxima, limits and signs",
  "Fmin and Fmax return the least and greatest of their arguments, Clamp and Saturate the closest number within the limits, Fsgn and NonzeroFsgn the sign, in all builds alike.",
  "all floats including infinities, NaN and -0, all builds",
  "2^128 argument lists; a test runs in one build",
  T+"TSMath.h: Fmin, Fmax, FminZero, FmaxZero, Saturate, Clamp, Fsgn, NonzeroFsgn", T+"TSSimd.h: VecMinScalar, VecMaxScalar, VecFsgn, VecNonzeroFsgn")
p("Floors, ceilings and fractions",
  "FloorCeil stores Floor and Ceil; PositiveCeil, NegativeFloor and NegativeCeil are Ceil and Floor on their side; Frac is the argument less its floor, at least 0 and less than 1; in all builds alike.",
  "all finite floats, all builds",
  "2^32 floats, several builds",
  T+"TSMath.h: FloorCeil, PositiveCeil, NegativeFloor, NegativeCeil, Frac", T+"TSSimd.h: VecFloorCeilScalar, VecPositiveCeilScalar, VecNegativeFloorScalar, VecNegativeCeilScalar")
p("Square roots",
  "For every float x that is not negative the square of Sqrt(x) is close to x, and the square of InverseSqrt(x) times x is close to 1; Sqrt of a negative number is 0; this holds in all builds and on all processors, for infinity as well, and is exact for 1.",
  "all floats, all builds, all results of _mm_rsqrt_ss that the manuals allow",
  "2^32 floats, and the instruction's result differs between processors",
  T+"TSMath.cpp: Sqrt, InverseSqrt")
p("Arc sine and arc cosine",
  "Arcsin and Arccos are defined for every float, lie in the range from minus a quarter to a quarter turn, and from 0 to half a turn, on the side that the sign of the argument gives, are at the limits of the range for arguments of 1 and more, and otherwise close to the arc tangent of y / sqrt(1 - y^2) and sqrt(1 - x^2) / x.",
  "all floats, all builds, all results of _mm_rsqrt_ss that the manuals allow",
  "2^32 floats, several builds and processors",
  T+"TSMath.cpp: Arcsin, Arccos")
p("Powers",
  "Pow(x, y) is defined for all floats for which the power is a real number, is not negative for positive bases, grows with the exponent for bases above 1 and falls for bases below 1, and is 1 for the exponent 0 and for the base 1.",
  "all bases, all pairs of exponents, all builds",
  "2^96 triples of floats",
  T+"TSMath.h: Pow", T+"TSMath.cpp: Exp, Log")
with open(os.path.join(os.path.dirname(__file__),"..","properties.jsonl"),"w") as f:
    for x in P: f.write(json.dumps(x)+"\n")
print(len(P))
