# Formal model of maho: design

The prover is Rocq/Coq 8.16.1.  Everything is under `rocq/theories`; only the
standard library is used.

## Layout

| file kind | contents |
|---|---|
| `Model*.v` | the code of /repo, function by function; no proofs; every definition cites file and lines |
| `Spec*.v`  | small specifications, written without the model's helpers |
| `Lemmas*.v`| proofs |
| `Prop*.v`  | only the property theorems, each closed by `exact`, with `Print Assumptions` beneath, and the concrete cases (`Example`) meeting the hypotheses |
| `Check*.v` | the tests of /repo replayed on the model: one `Example` for each test function, closed by computation; written by `tools/gotests.py` from the test files of /repo read as text |

## Conventions

* A Go `int64`/`uint64` is a `Z` with a range predicate; arithmetic that can wrap is wrapped explicitly.
* A Go `[]byte`/`string` is a `list Byte.byte`; where slices share memory and the code can observe it (the scanner's buffer), the buffer is an explicit heap cell.
* `error` returns are values, `panic` and run-time panics (nil dereference, index out of range) are a separate outcome.
* A `float64` is its 64-bit pattern; comparison is on the exact value scaled by 2^1074.
* goroutines: state machines whose steps interleave arbitrarily; a mutex is a field of the state.

## Plan per property

| id | modelled | proof |
|---|---|---|
| C01-C04 | encode.go | induction on the number/bytes |
| C05-C08 | key.go MakeKey, column keys, floats as bit patterns | order embedding, prefix-freeness by induction over the key list |
| C09-C12 | value.go Compare, CastValue, ConvertValue, ConvertRow | case analysis, decimal printing/parsing lemmas; counterexamples by computation |
| C13 | column.go | arithmetic |
| C14-C16 | identifier.go: intern table; ID as two atomic steps (read-locked lookup, write-locked create) | invariant over all schedules |
| C17-C30 | storage/basic: store, tree handles, transactions, tables, row sets, row references; one step per API call, any order | invariants over all call sequences; refinement to an abstract store; counterexamples by computation |
| C31-C32 | engine/typedinfo.go, typedtable.go over struct descriptors | induction over fields; with a function that uses the store itself the rows visited are those of the start, by the stability of open row sets (C29) |
| C33-C35 | engine/engine.go, init.go over the storage model | refinement to finite maps |
| C36-C38 | evaluate/*.go, Resolve of the statements; several sessions over one store | case analysis and invariants over schedules |
| C39-C43 | scanner.go on a list of runes, buffer as an explicit cell | induction over the input |
| C44-C46 | parser.go expressions and adjustPrecedence; String of expressions | reference precedence grammar, induction; the printed text as a list of pieces that are scanned one by one |
| C47-C52 | parser.go statements | invariants of the parser state; grammar as a token printer, parse after print |
| C53 | String of statements, Parse | the printed text as a list of pieces; each piece is derived in the grammar of C52 |
| C54 | scan, readRune, RuneReader | what was read and the position kept by the scanner move together; a position is a number of newlines and what follows the last one |
| C55 | Parse, every parse function | what a parse function consumed on the tape is a phrase; predicate transformer over `act`, then the tokens of the tape are those of the text; for the converse (C55_exact) a weakest precondition over lists of tokens, by induction on SpecAccepts (LemmasExact*), then the tape in step with the list, where bytes in literals of bytes may differ; the tokens of a text are unique because Scan is a function that has every lexeme as its result (C55_unique) |
| C56 | main | the loop follows the results of Parse (C48); C52 for each statement in turn |
| C57 | testutil rows | CompareRows is a total order on comparable rows; sorted lists with the same counts are equal row by row |
| C58 | testutil values, rows | the texts of SpecTestutil: what is read is one of them, and all of them are read; then what FormatRows writes is one |
| C59 | testutil names, columns | the same with the texts of SpecTestColumns and the table of identifiers |
| C60 | testStorage, selectFunc | a case and a relation between the states before and after its calls, both ways; the loops by the rows that are left |
| C61 | ColumnType.String, parseColumnType | the text as a list of pieces (C53), derived in the grammar of C52; C55 for the types that are parsed |
| C62 | parseCopy, RuneReader, ReadRune | parseCopy as a head that reads tokens and a tail that takes the reader; C52 and C55 for the head, the scanner of C39 and the positions of C54 for the tail |
| C63 | CastValue, ConvertValue, ConvertRow | the relation `casts` of SpecCast: floats by the stdlib's spec_float and their distance to the integer, UTF-8 by RFC 3629, numerals; both directions, and the errors |
| C64 | MakeTypedInfo, fieldTags, fieldNameToColumnName | a relation between a field and its column (SpecInfo): tags as items with commas between them, snake case by runes, types by kind; both directions, by induction on the fields |
| C65 | String of statements and expressions, Parse | which String methods are called and which package fmt calls (SpecBreaks); the first panic by induction on expressions; C55 and induction on what is accepted for the statements parsed |
| C66 | RowToStruct | what a field holds after a value (SpecRead); case analysis on the type of the field and the value, induction on the columns |
| C67 | positions of errors | every token of the tape was scanned from a state of C54, into the context of the third token before; invariant over the runs of the parser (LemmasPlace); the text of an error is stated in decimal numerals, without the code (SpecPlace); lines and columns stay below the length of the text (LemmasPlaceRange) |
| C68 | readers that fail | the scanner with failing reads (ModelReader) is run in step with that of ModelScanner on another text behind the failure; more fuel changes nothing (LemmasReader) |
| C69 | the engine on any storage | runs of a program with every answer to every call (SpecAny); by composition of programs (LemmasAny) |
| C70 | a failing reader under the parser | the parser with failing reads (ModelParserReader) is run in step with that of ModelParser on another text behind the failure; a failure that the scanner forgot is told by the next token, and a statement needs one (LemmasFails, LemmasFailsParse, LemmasFailsTold); that only COPY takes the reader is by walking the grammar (LemmasCopyOnly) |
| C71 | identifier.go with accesses that take time and a mutex | every goroutine is at a point of its code, given the variables before the section of the writer and as they are; the sections are steps of the atomic model (LemmasIdentRace) |
| C72 | storage/basic with accesses that take time and the store's mutex | every goroutine is at a point of its code; its code run to the end is the call of the atomic model; what has the mutex may be past its point of action, what has not can only read what it has (LemmasStoreRace, LemmasStoreLinear); that calls end by the order of what a call has still to do (LemmasStoreGoes) |
| C73 | texts of errors: got, Format and the functions that expect | cases of the token; the first two bytes of the texts differ by kind (LemmasGot); tokens and integers of all contexts stay in range (LemmasGotRange) |

## Trusted base

### What has to be believed

1. The kernel of Coq 8.16.1 (and `coqchk`, which re-checks the compiled files).
2. That `Model*.v` says what the Go code does: the model is hand-written, each
   definition cites file and lines.  Nothing is extracted or executed against the
   Go program.  The tables of the tests in /repo are replayed on the model in `Check*.v`
   (encode, types, testutil, scanner, token, parser, String of statements, the storage
   tests on storage/basic, the engine, typed tables): the model gives what each test
   wants.  Not replayed: `TestConcurrentID` (C16 is about all schedules), `TestTableType`
   of the engine and the tests of evaluate with a mock engine.
3. The assumptions about libraries, which are hypotheses of the theorems that need
   them (never axioms); each has an inhabitant used in the examples:

| class (file) | stands for | assumed (predicate) |
|---|---|---|
| `FloatLib` (ModelValue.v) | `strconv.FormatFloat`, `strconv.ParseFloat` (also in the scanner), conversion of out-of-range floats to int64 | `FloatLib_ok`: results are 64-bit patterns and int64s |
| `CaseLib` (ModelIdent.v) | `strings.ToLower`, `strings.ToUpper` beyond ASCII | `CaseLib_ok`: ASCII text is mapped as expected; the case of ASCII letters in the argument does not matter |
| `GobLib` (ModelStore.v), `EGobLib` (ModelEngine.v) | `encoding/gob` for the two table-type structs, fields as wire values | `GobLib_ok`, `EGobLib_ok`: decode (encode x) = x |
| `RuneLib` (ModelRune.v) | tables of package `unicode` | `RuneLib_ascii` / `RuneLib_scan`: right on ASCII; classes disjoint; nothing below zero is in a class |
| `Float32Lib` (ModelTyped.v) | rounding float64 to float32 and back | `Float32Lib_ok`: idempotent, result below 2^64 |
| `BufLib` (ModelScanner.v) | size classes of Go's allocator for a growing `bytes.Buffer` | nothing |
| `PrintLib` (ModelParser.v) | `fmt` of a float64 (in SET x = 0.5, and when an expression is printed) | nothing |
| `GotLib` (ModelGot.v) | `fmt` of a string with %q and of a float with %f, the text of a lexical error | `GotLib_ok`: different strings are quoted differently |
| `SortLib` (ModelTestutil.v) | `sort.Slice` with CompareRows (in RowsEqual) | SortLib_ok: it permutes, and sorts if the comparison is a strict weak order on the rows |

4. `google/btree` is a list sorted by key: `ReplaceOrInsert`, `Delete`, `Get`,
   `AscendGreaterOrEqual` are the functions on sorted lists, `Clone` copies
   (storage/basic/btree.go is modelled on top of that).
5. Go's integers, slices, maps, interfaces and defer/recover as written out in the model.

### Assumptions of the theorems

Below every theorem of `Prop*.v` stands `Print Assumptions`; each prints "Closed under
the global context": no axiom is used.  The axioms found in the loaded standard library by
`vcheck` (`Coq.ssr.ssrunder.Under_rel.*`) come with ssreflect's `Under_rel` module type
implementation loaded by the standard library and are used by no theorem here.

### What is modelled

| code | model | remarks |
|---|---|---|
| encode/encode.go, encode/key.go | ModelEncode.v, ModelKey.v | all functions |
| types/value.go, column.go, name.go | ModelValue.v, ModelColumn.v, ModelFloat.v | error texts are kinds; float to text is an oracle |
| types/identifier.go | ModelIdent.v, ModelIdentRace.v | ModelIdent: `ID` as two atomic steps (RLock lookup, Lock create), proved right from ModelIdentRace, where the accesses to the variables take time and only the mutex keeps them apart (C71_atomic). Accesses that race (String with ID, C71_race_refuted) still read and write whole values there: what Go's runtime does on a race is outside the model |
| storage/basic/basic.go, btree.go | ModelStore.v, ModelStoreRace.v | ModelStore: one step per API call under the store's mutex, proved right from ModelStoreRace, where the accesses to the store and its trees take time and only the mutex keeps them apart (C72_linear). A transaction is used by one goroutine at a time (two that share one race on its fields); decoding the names of a table type is one action there. Blocked calls; open rows, rows handles, iterators, finished transactions, panics; callers' aliasing of returned rows (`rows.Next` without columns) |
| engine/typedinfo.go, typedtable.go | ModelTyped.v | reflection as struct descriptors; named types such as `type T int64` are not modelled |
| engine/engine.go, init.go | ModelEngine.v | programs over the storage model |
| evaluate/session.go, evaluate.go | ModelSession.v | a statement is one step: it holds the store's lock or does not use the store |
| parser/sql/*.go (data, Resolve) | ModelSql.v | |
| parser/token, parser/scanner | ModelScanner.v, ModelReader.v, ModelParserReader.v | input is a finite list of runes; reader errors other than EOF are modelled in ModelReader.v for Scan and in ModelParserReader.v for RuneReader, the parser and the console; the buffer's array is a cell shared by slices |
| parser/parser.go | ModelParser.v | the functions are trees of actions (scan a token, un-read one, look at it, register a name), carried out by `run` on the ring of three tokens; the runtime panics of the code and its recover are outcomes; of error texts the position they begin with is modelled (ModelErrorText.v), and for the five functions that expect something the whole text (ModelGot.v), with the texts of lexical errors left open; bytes literals are looked up in the scanner's buffer when the statement is returned |
| parser/sql/*.go, types/value.go (String) | ModelPrint.v | a `String` method returns a text or panics; `fmt`'s `%s` calls it, writes the text of a panic into the result (`%!s(PANIC=String method: ...)`) and `%!s(<nil>)` for a nil interface; the options of a statement are printed in the order of the list that stands for the map |
| main.go | ModelMain.v, ModelParserReader.v | the text of errors is not modelled |
| types/column.go ColumnType.String | ModelColumnText.v | |
| storage/test/test.go | ModelStorageTest.v | the store is storage/basic; every panic of a method counts as one with a text (those are recovered from); the texts of reports |
| testutil/parse.go, rows.go | ModelTestutil.v | the reader is a list of runes; the texts of errors and what is registered before an error are not modelled; the two slices given to RowsEqual are taken to share no rows |
| the rest of storage/test, tests | `Check*.v` (cases only) | no theorems |

Simplifications are stated in the comment of the definition concerned.  The general ones:
error texts are replaced by constructors; `fmt` formatting is modelled only where text is
compared; memory exhaustion and stack overflow are not modelled; lengths of slices are below
2^63 (where code truncates lengths to 32 bits the truncation is modelled).

## Findings

Statements that the code does not satisfy; each is a `_refuted` theorem, a note in MANIFEST.json,
or is visible in the statement of the theorem named.

| where | what | theorem |
|---|---|---|
| encode/encode.go DecodeVarint | a varint of more than 64 bits is decoded to something, not rejected | C03_decode_varint_overflow_refuted |
| encode/key.go | NULL in a descending column sorts first, as in an ascending one | C08_descending_null_refuted |
| types/value.go Compare | not transitive on mixed integers and floats beyond 2^53; NaN equals nothing and breaks antisymmetry | C09_compare_mixed_refuted, C09_compare_nan_refuted |
| types/value.go ConvertRow | NOT NULL is not checked for columns a row is too short for | C11_not_null_refuted |
| types/identifier.go GobDecode | keywords that are not reserved, and names whose lower case is longer than 128 bytes, come back as another identifier | C16_gob_nonreserved_refuted, C16_gob_long_refuted |
| storage/basic | a predicate over a column with NULL panics | C22_null_predicate_refuted |
| storage/basic | a table id used again with another key reads rows of the dropped table | C23_recreated_refuted |
| storage/basic | an INSERT of several rows that fails keeps the rows before; an UPDATE that changes a key and fails loses the row | C26_insert_atomic_refuted, C26_update_atomic_refuted |
| storage/basic | an UPDATE of non-key columns stores unconverted values | C27_stored_types_refuted |
| storage/basic | dropping a table keeps its rows; handles to it keep working | C28_drop_removes_rows_refuted, C28_handle_refuted |
| storage/basic OpenTable | panics for names that are non-reserved keywords | C30_open_keyword_refuted |
| engine/typedtable.go TypedTableDelete | panics if the function has deleted the row itself | C32_busy_case |
| engine/typedtable.go | `*int32`, `*int`, `*float32` fields can be written but panic when read | C31_narrow_pointer_refuted |
| engine | table ids are truncated to 32 bits for storage | C34_storage_ids_refuted |
| engine | dropping a database or schema leaves its schemas and tables; dropping a table is not implemented | C35_drop_database_refuted, C35_drop_schema_refuted, C35_drop_table_refuted |
| evaluate | an unsupported statement panics after Begin: the store stays locked forever | C36_unsupported, C36_locked_forever |
| parser/sql | tables in SELECT, in subqueries and in foreign keys are not resolved | C38_statement_tables_refuted, C38_select_refuted, C38_reference_refuted |
| parser/scanner | the bytes of a literal are overwritten by the next token | C41_bytes_stay_refuted |
| parser/scanner | the minimal int64 cannot be written | C42_too_large |
| parser/scanner | a minus or slash at the end of the input is dropped | C43_nothing_ignored_refuted |
| parser/scanner | the escape `\UFFFFFFFD` makes an error token without an error | C39_sound (`bad_escape`) |
| parser | USE NULL, SET x = NULL and the escape `\UFFFFFFFD` make Parse panic | C50_no_panic_refuted |
| parser | a key constraint may have the name of a CHECK constraint behind it | C51_names_refuted |
| parser | precedence is wrong in the left operand of IN, NOT IN, ANY, SOME and ALL | C44_left_operand_refuted |
| parser | `NOT a IS NULL = b` is `(NOT a IS NULL) = b`; `a IS NULL AND b` is rejected; `a + b IS NULL` is `a + (b IS NULL)` | C44_not_refuted, C44_is_null |
| parser | after a lexical error in front of a statement the next call starts in the middle of that statement | C49_lexical_refuted |
| parser | after an error in the last statement, behind whose semicolon nothing follows, another error is reported in place of the end of the file | C49_last_refuted |
| parser | an empty statement takes the next one with it (`BEGIN;; COMMIT` is an error at COMMIT) | C49_empty |
| parser/sql String | text is printed without doubling its quotes: text with a quote is never read back as it was, `a' OR 'b` is read as an OR | C46_quote, C46_quote_refuted |
| parser/sql String | bytes are printed as `'\x...'`, which is read as text | C46_bytes, C46_bytes_refuted |
| parser/sql String | the minimal int64 and names that need quotes are not read back | C46_least_refuted, C46_name_refuted |
| parser/sql String | a float that is printed without a dot (1 for 1.0) is read as an integer, one with an exponent (1.5e+06) as another float | C46_float, C46_float_refuted, C46_exponent |
| parser/sql String | printed and read back, a statement may be lost: text in SET and in options is not quoted; TEXT is printed STRING, which is no type; sizes of columns, names of NOT NULL constraints, ON DELETE, VERBOSE and HAVING without GROUP BY are left out; foreign keys and checks without a name, SELECT without FROM, UPDATE to DEFAULT, COPY without columns, ANY as a left operand and DROP CONSTRAINT "" are printed as something that is no statement | C53_losses, C53_refuted |
| parser/sql String | INSERT with DEFAULT panics when printed | C53_losses |
| scan | the look-ahead for comments moves the position of a minus, a slash and a negative number one rune too far, to column 0 of the next line before a newline | C54_sign, C54_sign_refuted |
| scan | the position of the end of a statement or of the file is not set: errors there are reported where an older token stood | C54_end, C54_eof, C54_end_refuted |
| parseSubExpr | after NOT or a minus before `x IS NULL`, `IN (...)` etc. a further operator is accepted and takes the negation as its operand; without NOT it is a syntax error | C55_refuted, C44_not_refuted |
| parseShow | SHOW accepts any reserved word as a variable | C55_more |
| parseOptions | an option given twice is accepted, the last value counts | C55_more |
| parseCreateDetails, parseAlterTable | `CONSTRAINT ""` is accepted and means no name | C55_more |
| main | panics with Parse; the data of COPY is read as statements; INSERT with DEFAULT is printed as a panic | C56_exits_refuted, C56_more |
| testutil RowsEqual | a row with NaN equals a row with any number; integers and floats that are equal as floats are equal; with both in a column the same rows in another order can be found different; the rows of the caller are left sorted | C57_nan_refuted, C57_mixed_refuted, C57_order_refuted, C57_kept_refuted |
| testutil ParseRows | no negative integer and no row without values can be written; a string that starts with \x is printed as bytes are; a first NUL of a string is dropped; any byte counts as a hex digit | C58_never_negative, C58_injective_refuted, value_text |
| testutil ParseColumns | a length is cut to 32 bits where the parser of statements has a limit; DOUBLE PRECISION is not accepted | C59_size_refuted, C59_case |
| storage/test Next | a case that asks for a row without columns passes on an error | C60_empty_refuted |
| types/column.go ColumnType.String | panics for CHAR(0) and the like, that parseColumnType accepts; REAL is written as DOUBLE, another type | C61_size_refuted, C61_real_refuted |
| types/column.go BoolColType | the predefined type of booleans has no size; its text BOOL is read as a type of size one | C61_predefined, C61_bool_refuted |
| parseCopy | with DELIMITER, a comment between the delimiter and the semicolon is an error; the line is dropped before the semicolon is looked for, so that the semicolon may be found in the data, which are lost up to it | C62_comment_refuted, C62_data_refuted |
| types/value.go ConvertValue | lengths are compared in 32 bits: a text of 2^32 bytes fits any column | C63_length_refuted |
| types/value.go CastValue | integers above 2^53 are rounded without an error; infinities and NaN are cast to an integer that Go leaves open | C63_same_number_refuted, C63_finite_refuted |
| engine MakeTypedInfo | fields that differ in capitals only, like UserID and UserId, get the same column; a size of 2^32 becomes 0 | C64_distinct_refuted, C64_size_refuted |
| parser/sql String | INSERT with DEFAULT is the only statement that is parsed and cannot be printed: a nil dereference | C65_parsed, C65_refuted |
| engine/typedtable.go:27-32 | A typed update stores, in a text column, the name of the Go type of a field that is not text, like "<int16 Value>", and no error is returned | C66_stored |
| engine/typedinfo.go, types/column.go | An int8 field makes a column of size 1, which admits every int64; a typed update stores 300 and RowToStruct reads 44 | C66_int8_refuted |
| parser/scanner/scanner.go:127-129, parser/parser.go:73 | An error at the end of a statement or of the file is reported at the third token before | C67_end_refuted |
| parser/parser.go:1395, parser/scanner/scanner.go:79-95 | COPY ... DELIMITER ',' without a semicolon on its line: a rune of the next line is glued to the line after that, and the error is reported at line 3, column 0 | C67_copy_refuted |
| parser/parser.go:35-36, 45-46 | A lexical error at the first token of a statement is reported without a position | C67_bare_refuted |
| parser/scanner/scanner.go:177-216, 222-240, 504-506 | An error of the reader behind an operator, a closing quote or a letter e, b or x is not reported; a rune 0 that is not in the text is, as the next token | C68_told_refuted, C68_behind |
| engine/typedtable.go:216-228, 299-306 | io.EOF from Delete or Update of a storage would be taken for the end of the rows, and DropDatabase would succeed without deleting; the basic storage does not return it | C69_eof_refuted, C69_basic |
| engine/engine.go:130-142 | A panic inside a function with a transaction of its own leaves the transaction neither committed nor rolled back, with the basic storage the lock is then held for ever | C69_completes |
| parser/scanner/scanner.go:79-95, parser/parser.go:1395 | An error of the reader in the rest of the line of a COPY is lost: the console goes on without writing anything about it | C70_told_refuted, C70_failed |
| main.go:31-38 | An error of the reader other than io.EOF does not end the console: with a standard input that always fails it writes prompts and errors for ever | C70_forever, C70_goes |
| types/identifier.go:322-324, 345-350 | `String` (and `GobEncode`) reads the map `names` without the mutex while `ID` may write it: a data race, for which Go's runtime ends the program when it notices it | C71_race_refuted, C71_races |
| parser/parser.go:126-127 | `got` prints the string of the context for a literal of bytes, not the bytes: `VALUES ('abc', x'00' x'01')` is reported as "got bytes abc" | C73_bytes_refuted, C73_stale_refuted |
| parser/parser.go:112-135, parser/token/token.go:74-82 | A parameter is reported as "token -10", whichever it is | C73_parameter_refuted |

## Tests against wrong programs

`tools/mutate.py` edits one definition of the model in a copy outside /verif, rebuilds, and
lists the theorems that no longer hold.  `tools/survey.py` does the same for many edits, but
stops at the first lemma whose proof fails and lists the theorems that rest on it: that a
proof fails does not tell that the theorem is false.  `tools/wrong.py` writes edits.
`seeded/LOG.jsonl` has one line per attempt.  Edits no theorem noticed led to stronger
theorems (named in the log) or are equivalent programs.
