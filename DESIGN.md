# Formal model of Json4C4 in Rocq

## 1. Scope and trusted base

* Checker: Coq 8.16.1 kernel (with the `vm_compute` reduction machine where a proof uses it).
* Every property theorem lives in a `Prop*.v` file and is followed by `Print Assumptions`; see section 6.
* No own axioms, no functors, no module types, no plugins, no disabled kernel checks.
* Libraries used: Coq standard library only.

The code modelled is the configuration a user gets from the default standalone Linux build:
`JSON4C4_LINUX`, `TERATHON_NO_SYSTEM` undefined, system double conversions on, std support on.
The portable number reader (`TERATHON_NO_SYSTEM`) is modelled separately (`PortableModel.v`), the parser with either reader and the depth of its recursion in `BuildModel.v`, and writing in such a build in `NarrowModel.v`.

Trusted transcription choices (also repeated in comments on the definitions):

* A byte is a `Z` in 0..255; a `const char*` into the text is the list of bytes from the pointer to the end of the
  array. Reading beyond the list is the outcome `UB`. A write outside a buffer is `UB`. A null dereference is `UB`.
  A loop that does not finish within its fuel is `OutOfFuel`. Both outcomes are distinct from every normal result,
  and the safety theorems say that they do not occur.
* `int32` lengths inside a text do not wrap, because `Array::elementCount` is an `int32`. Where a sum or product of
  `int32` values can overflow (portable exponent, array growth, string growth), the model checks it.
* C stack depth is not modelled (recursion depth is unbounded in the model) except in `BuildModel.v`, which counts the
  parser's nested calls (C84), and `StackModel.v`, which counts those of the functions on trees (C99).
* Memory allocation succeeds (the `kException` paths are not taken) except in `OwnModel.v`, `OwnSerialModel.v`, `StrFailModel.v`, `DeserFailModel.v`,
  `WriteFailModel.v` and `ArrayFailModel.v`, where an arbitrary set of requests fails.
* `strtod` and `snprintf("%.17g")` are the C library's; they are modelled as correctly rounding (IEEE 754 / glibc
  behaviour in the "C" locale and round-to-nearest mode), over `Coq.Floats.SpecFloat.spec_float` with exact integer
  arithmetic, so that round trip is proved instead of assumed.
* The kernel (`open`, `fstat`, `read`, `write`) is an oracle: the list of results it will give.
* `std::string`, `std::vector`, `std::map` have their standard meaning.

The transcription is checked against the project's own tests: `Conform.v` (generated by `tools/conform.py`) runs the
files of `Code/Tests/test01.cpp` to `test05.cpp` through the model, which gives every result the tests expect. These are
examples, not theorems. In builds without system conversions test 02 fails: 2.45e-2 is read as the double below.

Modelled, function by function (the comment on each definition has the lines):

| Source | Modelled in |
|---|---|
| `C4Json.cpp` `File` (Linux), `Parse/Write(fileName)` | `FileModel.v` |
| `C4Json.cpp` `File` (Windows), `Parse/Write(fileName)` | `WinFileModel.v` |
| `C4Json.cpp` tables, `StatusToString`, `ParseResultToString` | `ReportModel.v` |
| `C4Json.cpp` `ReadHexLiteral`, `ReadCharLiteral`, `ReadEscapeChar`, `ReadStringLiteral`, `ComputeFloatLiteralLength`, `ReadDoubleLiteral`, white space | `ParserModel.v`, `NumModel.v`; the portable branch in `PortableModel.v` |
| `C4Json.cpp` every `Parse`, `ParseAnyValue`, `ParseJsonRoot` | `ParserModel.v`; with objects and failing allocations in `OwnModel.v` |
| `C4Json.cpp` every `Write` | `WriterModel.v`, `WriteFailModel.v` (interrupted) |
| `C4Json.cpp/.h` accessors of values | `AccessModel.v` |
| `C4Json.cpp/.h` `Validate`, `Deserialize`, `Serialize`, prototypes | `SchemaModel.v` |
| `C4Json.h` `StructuredData` as a state machine | `HistoryModel.v` |
| `TSMap.h/.cpp` | `MapModel.v` (trees), `HeapModel.v` (pointers), `KeyModel.v` (other keys) |
| `TSArray.h` | `ArrayModel.v`; with failing allocations in `ArrayFailModel.v` |
| `TSString.h/.cpp` | `StringModel.v` (`String<len>`), `DynModel.v`, `UintModel.v` (unsigned operands) and, with failing allocations, `StrFailModel.v` (`String<0>`), `WideStrModel.v` (from UTF-16), `KeyModel.v` (key classes) |
| `C4Json.cpp` `WCharBuffer` (Windows) | `WideStrModel.v` |
| `TSText.cpp` | `TextModel.v`, `WideModel.v`, `StringModel.v`, `ToolsModel.v`, `FloatTextModel.v` |
| `TSMath.h/.cpp` `Fabs`, `Floor`, `Ceil`, `PositiveFloor`, `Exp`, `Log` with the scalar branches of `TSSimd.h` they use (plain C++, SSE2, SSE4) | `MathModel.v` |
| `TSMath.cpp` `Sin`, `Cos`, `Tan`, `CosSin`, both `Arctan`, their tables, in the same three builds | `TrigModel.v` |
| `TSMath.h` `Fmin`, `Fmax`, `FminZero`, `FmaxZero`, `Saturate`, `Clamp`, `Fsgn`, `NonzeroFsgn`, `FloorCeil`, one-sided floors and ceilings, `Frac`, in the same three builds | `ClampModel.v` |
| `TSMath.cpp` `Sqrt`, `InverseSqrt`, `Arcsin`, `Arccos`; the result of `_mm_rsqrt_ss` is a parameter, limited by the accuracy in the manuals (`processor` in `PropSqrt.v`) | `SqrtModel.v` |
| `TSMath.h` `Pow` | `PowModel.v` |
| `TSBasic.h` helpers, `StaticHash`, type and hexadecimal texts | `BasicModel.v` |

Not modelled: C4 Engine build, the macOS branch of `File`, `GetTotalFileSize`, templates' overload resolution
(done by hand), user-written `Validate/Deserialize/Serialize` functions other than those made by the macros,
the rest of `TSMath` and `TSSimd` (vectors), Neon, evaluation order inside one
expression, alignment, object layout, threads (the library has no shared mutable state apart from constant tables).

## 2. Files

| Files | Content |
|---|---|
| `Base.v`, `Str.v` | outcome monad, pointers, generic lemmas; string literals for examples |
| `TextModel`, `NumModel`, `MapModel`, `ParserModel`, `AccessModel`, `WriterModel`, `StringModel`, `DynModel`, `ReportModel`, `SchemaModel`, `FileModel`, `HistoryModel`, `HeapModel`, `PortableModel`, `WideStrModel`, `KeyModel`, `OwnSerialModel`, `StrFailModel`, `StackModel`, `DeserFailModel`, `WriteFailModel`, `WinFileModel`, `UintModel`, `WideModel`, `ArrayModel`, `OwnModel`, `ToolsModel`, `BasicModel`, `FloatTextModel`, `ArrayFailModel`, `BuildModel`, `NarrowModel`, `MathModel`, `TrigModel`, `ClampModel`, `SqrtModel`, `PowModel` | the models (see the table above) |
| `SpecUtf8`, `SpecNum`, `SpecGrammar`, `SpecMeaning`, `SpecTokens`, `SpecRfc`, `SpecMap`, `SpecWrite`, `SpecText`, `SpecReport`, `SpecSchema`, `SpecAbort`, `SpecHistory`, `SpecHeap`, `SpecPortable`, `SpecWide`, `SpecArray`, `SpecOwn`, `SpecTools`, `SpecBasic`, `SpecFloatText`, `SpecArrayFail`, `SpecBuild`, `SpecNarrow`, `SpecMath`, `SpecReach`, `SpecKey`, `SpecOwnSerial`, `SpecStrFail`, `SpecStack`, `SpecDeserFail`, `SpecCrash`, `SpecSize`, `SpecEscape`, `SpecInitial`, `SpecTrig` | independent specifications |
| `*Proofs`, `HeapOps`, `HeapRemove`, `HeapInsert`, `HeapWorld`, `HeapHistory`, `ArrayWorld`, `PortableValue`, `OwnParse`, `ToolTokens`, `FloatNumber`, `FloatResult`, `NarrowWrite`, `NarrowReach`, `BuildPort`, `MathRound`, `MathFast`, `MathFloor`, `MathLog`, `MathDecade`, `MathScale`, `MathExp` | proofs |
| `Conform` | the project's own tests, run through the model |
| `Prop*` | the property theorems, `Print Assumptions`, and a concrete non-trivial instance each |

## 3. What is modelled and how it is proved, per property

| Id | Model | Proof plan |
|---|---|---|
| C01 | parser over suffix lists with `UB`/`OutOfFuel` | induction on fuel with the invariant "the suffix ends in NUL"; fuel linear in the length suffices; string second pass writes exactly the length of the first |
| C02 | parser, grammar relation parameterised by token languages | induction on fuel, inversion of each branch |
| C03 | same | induction on the grammar derivation, follow-set condition for numbers |
| C04 | RFC instance of the grammar | subset of C03's grammar under four explicit exclusions (`_partial`); one `_refuted` witness per exclusion |
| C05 | same | `_refuted` witnesses; `_partial`: structure and string tokens are RFC when the tokens are |
| C06 | `ReadStringLiteral` both passes | induction on the token; UTF-8 validity lemma |
| C07 | same | `_refuted`, plus the exact (CESU-8) result |
| C08 | `NumberValue::Parse` | case analysis on the maximal run, relation with an independent decimal prefix grammar |
| C09 | `strtod` model | nearest-value statement over integers/rationals, independent of the algorithm |
| C10 | `%.17g` model | 17 digit error below half an ulp; integer inequalities |
| C11 | writer + parser | writer output is in the grammar with the right meaning, then C03 |
| C12, C13 | writer + parser | `_refuted` witnesses (`"`, `1e999`) |
| C14, C15 | `ObjectValue::Parse`, map | fold of insertions, C16 |
| C16, C17, C18, C19 | AVL model | invariants ordered+balanced; in-order list semantics |
| C20 | pointer heap model | `_refuted` at the root, `_partial` elsewhere |
| C21 | `ParseJsonRoot` | exact formula relative to the first non-blank byte; `_refuted` with leading line feeds, `_partial` without leading blanks |
| C22, C23 | status table, `String<24>` concatenation | `_refuted`; exact characterisation of when the text is complete |
| C24, C25 | state machine over histories | invariant over all histories |
| C26, C27, C28, C29, C30 | type universe | induction on types; `_refuted` for `std::vector` and nested absence |
| C31 | serialise + write | `_refuted` |
| C32, C33, C34 | kernel oracle | `_refuted` (no truncation, ignored errors, short reads), positive theorems for the remaining schedules |
| C35, C36 | text model | induction on digits; `_refuted` at INT_MIN |
| C37 | buffer model | invariant for all operations but `SetStringLength` (and self assignment); `_refuted` |
| C38, C39 | text model | arithmetic of UTF-8/UTF-16; induction |
| C40 | list + capacity | refinement to lists |
| C41 | parser with addresses of value objects | mutual induction on fuel: live objects = objects of the result + those lost; exact count; `_refuted` for duplicate names |
| C42 | portable reader | index bounds invariant |
| C43, C44 | grammar | corollaries of C02/C03 |
| C45, C46, C47 | type universe | positive parts of C29 and C27: round trips of values and texts, induction on types |
| C48, C49 | kernel oracle | positive parts of C32 and C33 for the schedules on which the code is right |
| C50, C51 | state machine over histories | when calls have defined behaviour; which statuses occur |
| C52, C53 | pointer heap | refinement of the tree model: heap describes a forest; histories over many maps; reservations |
| C54, C55 | portable reader | exact language by induction on the loops; exact arithmetic for the positive part; `_refuted` rounding |
| C56, C57, C58 | Unicode functions with bounded storage | induction on decoded characters; `_refuted` write behind the storage and reads behind the terminator |
| C59, C60 | arrays with blocks and object lifetimes | world invariant (each block owned by one array) over histories |
| C61, C62, C63 | parser with failing allocations | the mutual induction of C41 with an arbitrary failure oracle |
| C64, C65 | text functions over pointers, bounds as rounds | induction on the text; first position as a least witness; `_refuted` for the empty text and the first letter |
| C66, C67 | same | lexicographic order on folded texts; sort keys with numbers; `_refuted` for leading zeros and wrapping |
| C68, C69, C70 | same, with storage | longest prefix of a token language; `_refuted` for the exponent sign |
| C71 | same | the step is injective in both arguments (odd multiplier has an inverse modulo 2^32) |
| C72 - C74 | `BasicModel`: the helpers of `TSBasic.h` with the undefined cases explicit | arithmetic; exact conditions |
| C75 - C77 | `BasicModel`, `ToolsModel` | induction on texts and digits; bytes of a number |
| C78, C79 | `FloatTextModel`: FloatToString on storage with bounds, Log/Exp as an arbitrary function (C79_refuted with that of `MathModel`) | every write extends a text within the limit (`st`) |
| C80 - C82 | same; floats as multiples of 2^-149 | the digits satisfy `m * 10^k = digits * 2^23 + rest`; a carry excludes a small rest (modulo 100) |
| C83 | arrays with failing allocations (`ArrayFailModel.v`) | simulation by the history without the failed calls, up to the capacity claimed |
| C84 | `BuildModel`: the parser with any number reader, which also returns the depth of the recursion | depth = nesting of the value, at most the opening brackets; `_refuted` by nested arrays for every room |
| C85, C86 | same, with the portable reader | the induction of C01-C10 over any number reader with an exact token language; tokens are exchanged in derivations |
| C87 | `NarrowModel`: the double is rounded to a float (IEEE 754), whose text is that of `FloatTextModel` | rounding error plus the error of C80; exact multiples of 1/16 stay exact |
| C88 | same, with the layout of `WriterModel` | the layout of C15 over any number text; grammar with the tokens of either build |
| C89 | `MathModel`: floats as multiples of 2^-149 with every operation rounded to the nearest float | exact results of the integer conversions and of the 2^23 trick, for all floats |
| C90, C91 | same: table, polynomials and series as in the code | monotone rounding of each operation; table entries and the 254 binades by computation, the mantissas by monotony |
| C92 | same, with `FloatTextModel` | error of Log and Exp at the 76 powers of ten and monotony between them; the text of C80 for the scaled number |
| C93 | `NarrowModel` with `MathModel` | the conversion to float is the rounding of `MathModel`; monotone, so five classes of doubles by four bounds; C80 and C92 in each |
| C94 | `SchemaModel` (`deserialize` returns the object also on failure) | mutual induction over types and prototypes with a relation between document, old and new content; `_refuted` by a structure whose second member does not fit |
| C95 | `WideStrModel` with `WideModel` and `DynModel` | C57 on the block of a new string or buffer; round trip by C38 |
| C96 | `KeyModel` with the trees of `MapModel`; insertion and lookup only | the laws of the operators imply the behaviour of the map (the proofs of C16-C18 for any strict weak order); laws of FileNameKey from C66 and C67, `_refuted` by maps of two and three names |
| C97 | `OwnSerialModel`: `SchemaModel.serialize` with the heap of `OwnModel` and an arbitrary set of failing requests | induction over the type, with the list of objects alive as invariant; agreement with `serialize` when nothing fails; `_refuted` by a dangling root, a silent loss, three leaks |
| C98 | `StrFailModel`: `DynModel` step by step, with a pointer that can be dangling and requests that can fail; one object | each call is the one of `DynModel` or throws in a known state; then by cases; `_refuted` by three states |
| C99 | `StackModel`: delete, Write, Validate, Deserialize and Serialize that also return the depth of the recursion | each is the original function and the depth is bounded, by induction on the tree or the type; balance of the maps (C15) for the destructor; `_refuted` by nested arrays for every room |
| C100 | `DeserFailModel`: Deserialize with Strings as objects (`StrFailModel`) and requests that throw; ObjectMap elements are counted | invariant over types: every step is either that of `deserialize` or an exception that leaves an object without deleted texts, by induction on the type with one lemma per loop; `_refuted` by computed runs |
| C101 | `WriteFailModel`: the WriteFile calls with a program that ends between two calls of the kernel | what is left is a first part of the text over the old file, by induction on the calls; no proper first part of an array or object is a document (unambiguous grammar); `_refuted` by computed runs |
| C102 | `WriteFailModel`: Write with an indentation array whose requests throw | either the Write of `WriterModel` or a first part of its calls, by induction on the tree, with an invariant between requests and reserved size |
| C103 | `ParserModel`, `WriterModel` | lengths of the layout of C15: lower bounds for two families of texts by induction, the upper bound by induction on the grammar |
| C104 | same, `FileModel` | from C103, C11, C48, C49 and C34 |
| C105 | `WinFileModel`: ReadFile at p, files made empty by CREATE_ALWAYS | invariant of the read loop: the bytes read so far, then the rest of the buffer |
| C106 | `DynModel` EncodeEscapeSequences | the spelling of each character by cases; C literals and JSON strings by induction on the text; `_refuted` by the text 1, A and, for the length, in general |
| C107 | `UintModel`, `StringModel` | from the theorems on signed operands (C36, C37) and arithmetic modulo 2^32 and 2^64 |
| C108 | `SchemaModel` (`fresh`, with unknown numbers and bools) | by induction on the type, comparing two runs with different unknown values; the converse by a witness |
| C109 | `TrigModel` with `MathModel`; `SpecTrig`: angles with tangent k/64 by the addition theorem | an interval and an error for every operation, by monotone rounding; the table by computation |
| C110, C111 | same; `SpecTrig`: 256 rotations by one angle, and the expansion to the second order | error of each operation from its magnitude; all 256 table entries against the rotations by computation |
| C112, C113 | `ClampModel` with `MathModel` | the order of the floats with infinities, by cases; rounding to integers as for C89 |
| C114, C115 | `SqrtModel` with `MathModel` and `TrigModel` | the first approximation by a cubic on three intervals, each step of Newton's method with all its rounding errors; the ranges from C109 |
| C116 | `PowModel` with `MathModel` | the order of Exp (C90) and the sign of Log (C91), with the rounding of the product |

## 4. How the theorems are stated

* Properties are stated over the model functions that stand for API calls (`sd_parse`, `sd_write`, map, array and
  string operations, histories of them) and over specification relations from `Spec*.v` that do not use the models.
* If a property is false of the code, the theorem with suffix `_refuted` gives a concrete input on which the model
  violates it; theorems with suffix `_partial` prove it under the weakest condition found, and theorems without
  suffix next to them give the exact behaviour. The condition is part of the statement, the note in
  `MANIFEST.json` says what is missing.
* `seeded/LOG.jsonl` records edits of the models that are realistic bugs and the theorems that failed for each.

## 5. Findings (proved of the model as `_refuted`)

Parsing
* C04/C05/C07: one-byte documents, `0e1`, raw DEL, `\u0000` are refused; surrogate pairs become CESU-8; trailing
  junk in numbers (`12e+5-7`), leading `+`, white space after a sign and others are accepted.
* C21/C23: positions count from the first token; the report is cut at 24 characters.
* C22: the message table lacks an entry, so messages from there on are shifted and the last index is out of bounds.
* C41/C63: the value of a repeated name is leaked; an element is leaked if the array cannot grow.
* C84: recursion is not limited; for every stack size a valid text overflows it.
* C86: `1_0` and `0e1` are read only without system conversions, `1-2` only with them, `0.15` differently.
* C62: a failed allocation of a number, boolean or null is reported as kExpectedJsonValue.
* C42/C55 (portable reader): no overrun, but `0e309` is NaN and common decimals are not correctly rounded.

Writing and storing
* C12/C13: strings are written without escapes; infinities are written as `inf`.
* C25/C29/C30/C31: maps are written without members; `std::vector` and strings with zero bytes do not round trip;
  a failing named member is ignored.
* C27/C28: an absent required part inside an optional member counts as absence of the member.
* C87/C88 (without system conversions): numbers become floats and are written with seven digits; large ones as `INF`.
* C32/C33: files are not truncated, write errors are ignored, partial reads overwrite each other, a shrinking file
  hangs.

Containers and text
* C20: `ReplaceMapElement` on the root loses the other elements. C53: a reservation used after a change breaks the map.
* C35/C36/C37: `INT_MIN` is printed as `-0`; appending a string to itself, self assignment, `SetStringLength` and
  `EncodeEscapeSequences` misuse memory.
* C40/C59: passing an element of the array itself; the move constructor with member storage leaks.
* C65/C67/C69: the empty text is not found, caseless search is case sensitive in the first letter; numbered comparison is
  not antisymmetric with leading zeros; `1e-5` is read as `1e`.
* C73/C74/C75/C77: helpers undefined at the least number and 0; `Exchange` of a variable with itself; `StaticHash` with
  signed char; types with zero bytes.
* C83: `SetReservedCount` raises the reserved count before it allocates; after a bad_alloc the array writes behind its storage.
* C78/C79/C81/C82: `FloatToString` shifts too far from 512 on (before C++20), returns the wrong length with an exponent,
  which corrupts `String<0>`, merges up to 168 neighbouring floats, writes `INF`.
* C89 - C92: `PositiveFloor` (SSE2) of 8388609 is 8388608; `Exp` is 0 from 90 on, since its table of 180 numbers has 178, and
  undefined for huge arguments; `Log` decreases at some powers of two; `FloatToString` is undefined for normal floats
  below about 1e-37 and writes 1e10 as `0.99999e10`.
* C93: without system conversions writing 2e-38, which is read, is undefined.
* C94: a DeserializeTo that fails has changed the members before the one that does not fit, and arrays have lost their elements.
* C96: a Map with FileNameKey keys loses elements ("1b", "01a", "0": the first is not found any more and can be
  inserted again) and takes different names for equal ("img4294967296", "img8589934592").
* C97: a SerializeFrom that cannot allocate the new root leaves the document pointing to the deleted old root; destroying
  the document is then undefined. A string member whose text cannot be allocated is stored empty and kOk returned.
  Maps lose an element when its name cannot be allocated; without any failure, members of one name and anonymous maps
  lose the earlier objects.
* C98: an assignment to a `String<>` of 16 or more characters that cannot allocate leaves a pointer to the deleted text
  (the destructor deletes it again); this happens to the user's strings in Deserialize. An append that cannot allocate
  records the size that it did not get; the same append again, with enough memory, writes behind the storage.
* C99: Write and the destructor recurse once per level of nesting, the destructor of an object also once per level of its map; for every stack
  size a valid text overflows it (after Parse itself, which needs at least as many calls, succeeded).
* C100: when the assignment to a String with a text of 16 or more characters fails in DeserializeTo, the object is left with a deleted text and its
  destructor deletes it again; in an Array whose elements have such an initialiser this happens inside DeserializeTo. An ObjectMap element whose name
  of 16 or more characters cannot be stored is never deleted. Calling DeserializeTo again after kException can write behind a String's 16 characters.
* C56/C58: one unit behind the storage; reads behind the terminator on text that ends inside a sequence.
* C101: the file is overwritten in place. A program that ends during Write leaves the first bytes of the new text and the old bytes behind them, which
  can be a third valid document ([1,2] replaced by [3,4] can become [3,2]).
* C102: Write is noexcept and does not catch what the growth of its indentation array throws: when memory runs out the program ends, with two bytes
  of the new text in the file.
* C103: of members with equal names each is written with the value of the first. A text of 15 d + 4 bytes can make Write write 2^d bytes, so a file
  that Parse accepts can make Write run practically for ever and fill the disk.
* C104: 362 bytes (181 arrays, one in the other) are written as 65883 bytes with the default indentation, and Parse refuses that file.
* C106: after EncodeEscapeSequences the length is one too small (the next append overwrites the last character, copying writes behind 16 bytes, C37);
  \x01 before a hexadecimal digit is another character for C; \a, \v and \x are no JSON.
* C107: unsigned integers from 2^31 (2^63) on become negative numbers in texts, 2^31 and 2^63 become "-0".
* C108: DeserializeTo makes the elements of an Array or std::vector with `T temp;`, so optional numbers and bools without an initialiser that the
  document leaves out are indeterminate there (in ObjectMap, std::map and std::unordered_map they are 0 and false).
* C109: Arctan(NaN) and Arctan(y, x) for two infinities use the result of an undefined conversion as an index.
* C110: PositiveFloor for SSE2 is wrong from 2^23 on, so that Sin and Cos return values up to 10^27 for large arguments; without SIMD the
  conversion to an integer is undefined from 2^31 * tau / 256 on.
* C111: In the SIMD branches of Sin, Cos, Tan and CosSin the factors of VecNmsubScalar for the sine are exchanged (1/120 - b2/6 for 1/6 - b2/120).
* C112, C113: `Saturate(NaN)` is 1 without SIMD and 0 with it; `NonzeroFsgn(-0.0F)` 1 and -1; `FloorCeil` with SSE2 lacks the test for 2^23 that `Floor` has;
  `Frac` of a small negative number is 1.
* C114, C115: `Sqrt` of infinity is NaN with SSE (0 times infinity in Newton's step), `InverseSqrt` of infinity is infinite without SIMD; `Sqrt` of minus
  infinity is NaN with SSE, so that `Arccos` of 2^64 reads the table at an undefined index.
* C116: `Pow(0, 1)` converts minus infinity to an integer; a power too large for `Exp` is 0.

## 6. Assumptions

`Print Assumptions` answers "Closed under the global context" for every theorem named in `MANIFEST.json`: no axiom is
used, not even one of the standard library. (A list of all axioms in the loaded libraries shows seven in
`Coq.ssr.ssrunder.Under_rel`; they are parameters of a module type of the standard library, loaded with
`Coq.ssr`, and no theorem here depends on them.)

## 7. Known gaps

* `MathModel.v`: round to nearest, no contraction of products and sums, no flush to zero, and (for SSE) the rounding mode
  of `MXCSR` at its default.
* `String<len>`: conversions from `float` and `uint16*` are not part of the histories of C36/C37 (for `float` see C80, for `uint16*` and `String<0>` C95).
* The depth of the recursion is counted only in C84 and C99 (not in SerializeFrom's deletions or Text functions); elsewhere recursion as deep as the text demands succeeds.
