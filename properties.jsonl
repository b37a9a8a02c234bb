{"id": "C01", "title": "Varint encoding round-trips and is self-delimiting", "statement": "Decoding the bytes produced by EncodeVarint for a uint64, followed by any other bytes, succeeds, returns exactly that number, and leaves exactly the other bytes; the encoding is between 1 and 10 bytes long.", "quantifier": "every uint64 and every buffer prefix and suffix", "why_tests_cant": "2^64 inputs times arbitrary trailing data; tests sample about a dozen numbers", "anchors": ["encode/encode.go:EncodeVarint", "encode/encode.go:DecodeVarint"]}
{"id": "C02", "title": "Zigzag encoding round-trips every int64", "statement": "DecodeZigzag64(EncodeZigzag64(n) ++ rest) returns (rest, n, true) for every int64 n, and numbers of magnitude below 64 take one byte.", "quantifier": "every int64 (including the minimum) and every suffix", "why_tests_cant": "the sign/shift arithmetic has to be right at all 2^64 points", "anchors": ["encode/encode.go:EncodeZigzag64", "encode/encode.go:DecodeZigzag64"]}
{"id": "C03", "title": "DecodeVarint is total and never over-reads", "statement": "On any byte string DecodeVarint either fails or returns a suffix of its input after consuming between 1 and 10 bytes, with a value below 2^64; it fails exactly when no terminating byte occurs among the first 10 bytes.  It does not detect overflow in the tenth byte: distinct encodings can decode to the same number, so decoding is not injective.", "quantifier": "every byte string", "why_tests_cant": "malformed and truncated inputs are unbounded", "anchors": ["encode/encode.go:DecodeVarint"]}
{"id": "C04", "title": "Fixed-width integers are encoded big-endian and preserve order", "statement": "EncodeUint64/EncodeUint32 append exactly 8/4 bytes whose big-endian value is the number, and bytes.Compare on two encodings agrees with numeric order.", "quantifier": "every uint64/uint32 and every buffer", "why_tests_cant": "order preservation is a statement about all pairs", "anchors": ["encode/encode.go:EncodeUint64", "encode/encode.go:EncodeUint32"]}
{"id": "C05", "title": "Key bytes sort exactly like the primary key columns", "statement": "For any list of key columns, each ascending or descending, and any two rows, bytes.Compare of MakeKey of the rows is the lexicographic comparison of the key columns: false<true, integers numerically, floats numerically with NaN first, strings and bytes bytewise, descending columns reversed, NULL first in both directions, and different value types ordered NULL<bool<integer<float<string<bytes.", "quantifier": "every key column list, every pair of rows, every value including embedded zero bytes, infinities, NaN, signed zeros and extreme integers", "why_tests_cant": "an order embedding quantifies over pairs of unbounded values; fuzzing misses rare boundary pairs such as escape bytes at ends of strings", "anchors": ["encode/key.go:MakeKey", "encode/key.go:encodeKeyBytes"]}
{"id": "C06", "title": "Key bytes are equal exactly when the key columns are equal", "statement": "Two rows have the same key bytes if and only if every key column holds the same value, where the two float zeros count as the same and all NaNs count as the same.", "quantifier": "every key column list and every pair of rows", "why_tests_cant": "collisions between unbounded strings cannot be excluded by sampling, and a collision silently merges or rejects rows", "anchors": ["encode/key.go:MakeKey"]}
{"id": "C07", "title": "No key is a proper prefix of another", "statement": "For a fixed list of key columns, the key of one row is never a proper prefix of the key of another row, and the key of a column list is the concatenation of the keys of its parts.", "quantifier": "every key column list and every pair of rows", "why_tests_cant": "prefix-freeness over unbounded strings", "anchors": ["encode/key.go:encodeKeyBytes", "encode/key.go:MakeKey"]}
{"id": "C08", "title": "Index order agrees with Compare", "statement": "For a single key column whose two values have the same type, are not NaN, and are both non-NULL if the column is descending, key order is types.Compare order (reversed for a descending column).  With a NULL in a descending column the key order is not the reverse of Compare: NULL still sorts first.", "quantifier": "every pair of same-typed values, both directions", "why_tests_cant": "agreement between two independently written orders is a statement about all pairs", "anchors": ["encode/key.go:MakeKey", "types/value.go:Compare"]}
{"id": "C09", "title": "Compare is a total order on values it can order, and is not one with NaN or mixed numbers", "statement": "types.Compare never panics; it is antisymmetric on all values, and reflexive, transitive and total on any set of values containing no NaN and no mix of integers and floats.  On mixed integers and floats it is not transitive (integers beyond 2^53 are rounded first), and NaN compares equal to every number.", "quantifier": "every triple of values", "why_tests_cant": "order laws are over all triples; a sort using a non-transitive comparison can misorder without any single comparison looking wrong", "anchors": ["types/value.go:Compare", "types/value.go:compare"]}
{"id": "C10", "title": "ConvertValue returns only values the column admits", "statement": "If ConvertValue succeeds, the result is NULL only in a nullable column, otherwise has the column's type, fits the declared size (characters and bytes at most Size bytes, 2- and 4-byte integers in range), and converting it again returns it unchanged; converting a value that already conforms succeeds and returns it unchanged.", "quantifier": "every column type and every value", "why_tests_cant": "the product of column types and values is unbounded", "anchors": ["types/value.go:ConvertValue", "types/value.go:CastValue"]}
{"id": "C11", "title": "ConvertRow pads short rows, rejects long ones, and does not enforce NOT NULL on the padding", "statement": "ConvertRow fails on rows longer than the column list; otherwise on success the row has exactly one value per column, every supplied value is converted by its own column, and the rest are NULL.  A column that must not be NULL therefore becomes NULL when the row is short: the claim that a converted row satisfies every NOT NULL column is false.", "quantifier": "every list of column types and every row", "why_tests_cant": "row lengths and types are unbounded", "anchors": ["types/value.go:ConvertRow"]}
{"id": "C12", "title": "Casting integers to text and back is lossless", "statement": "Casting any int64 to a string and the string back to an integer yields the same integer, also with surrounding blanks, tabs and newlines; casting text that is not a decimal integer in range fails.", "quantifier": "every int64 and every padding", "why_tests_cant": "all 2^64 integers; parser and formatter boundary cases", "anchors": ["types/value.go:CastValue"]}
{"id": "C13", "title": "Column keys round-trip", "statement": "MakeColumnKey(n, r).Column() = n and .Reverse() = r for every column number below 2^31-1, and distinct (n, r) give distinct keys; ColumnKeyUpdated is true exactly when an updated column is a key column.", "quantifier": "every column number in range, both directions, every list of keys and columns", "why_tests_cant": "needs every column number", "anchors": ["types/column.go:MakeColumnKey", "types/column.go:ColumnKey.Column", "types/column.go:ColumnKeyUpdated"]}
{"id": "C14", "title": "Identifiers are interned consistently under every interleaving", "statement": "However calls of types.ID from any number of goroutines interleave, two calls with the same spelling return the same identifier, calls whose spellings normalise differently return different identifiers, identifiers once returned never change meaning, and String gives back the normalised spelling.", "quantifier": "every finite schedule of concurrent ID calls and every set of names", "why_tests_cant": "the race between the read-locked lookup and the write-locked creation only appears in particular schedules", "anchors": ["types/identifier.go:ID", "types/identifier.go:lookupID", "types/identifier.go:Identifier.String"]}
{"id": "C15", "title": "Unquoted identifiers are case-insensitive, quoted ones are exact", "statement": "Unquoted spellings differing only in ASCII case give the same identifier; a keyword spelling gives the keyword; a quoted spelling is never a reserved word and keeps its case; only the first 128 bytes matter.", "quantifier": "every name", "why_tests_cant": "all spellings of all keywords and all other names", "anchors": ["types/identifier.go:ID", "types/identifier.go:lookupID"]}
{"id": "C16", "title": "Identifiers survive serialisation, except non-reserved keywords", "statement": "Serialising an identifier with GobEncode and reading it back with GobDecode gives the same identifier for reserved words and for every identifier that is not a non-reserved keyword; for non-reserved keywords such as PATH, TEXT or INT used as a column name it gives a different identifier.", "quantifier": "every identifier in every reachable intern table", "why_tests_cant": "the failing class is a small set of spellings that tests happen not to use", "anchors": ["types/identifier.go:Identifier.GobEncode", "types/identifier.go:Identifier.GobDecode"]}
{"id": "C17", "title": "Uncommitted work is invisible and committed work is never altered except by Commit", "statement": "For every sequence of storage API calls, legal or not, the committed contents of the store change only in a successful Commit, and then become exactly the contents the committing transaction was seeing.", "quantifier": "every finite sequence of calls on any number of transactions, tables, row sets and row references", "why_tests_cant": "copy-on-write aliasing errors only show for particular call orders", "anchors": ["storage/basic/basic.go:transaction.Commit", "storage/basic/basic.go:transaction.forWrite", "storage/basic/basic.go:store.Begin"]}
{"id": "C18", "title": "Transactions are serialisable", "statement": "For every interleaving of API calls by any clients, the final committed state equals the state obtained by running only the committed transactions, one after the other in commit order, on a fresh store, and each call in them returns the same result there.", "quantifier": "every finite history of calls", "why_tests_cant": "requires all schedules", "anchors": ["storage/basic/basic.go:store.Begin", "storage/basic/basic.go:transaction.Commit", "storage/basic/basic.go:transaction.Rollback"]}
{"id": "C19", "title": "At most one transaction is active, and the lock is held exactly while one is", "statement": "At every moment at most one transaction is uncompleted; Begin succeeds exactly when none is, and a Commit or Rollback that returns without error lets the next Begin succeed.", "quantifier": "every finite history of calls", "why_tests_cant": "mutual exclusion is a property of all schedules", "anchors": ["storage/basic/basic.go:store.Begin", "storage/basic/basic.go:transaction.Commit", "storage/basic/basic.go:transaction.Rollback"]}
{"id": "C20", "title": "Rollback leaves no trace", "statement": "After Rollback the committed contents are what they were when the transaction began, whatever the transaction did, and a later transaction cannot tell that it ran.", "quantifier": "every history of calls inside the rolled-back transaction", "why_tests_cant": "histories are unbounded", "anchors": ["storage/basic/basic.go:transaction.Rollback"]}
{"id": "C21", "title": "A completed transaction is dead", "statement": "After a transaction committed or rolled back, Commit and Rollback on it return an error, and every other call on it or on tables, rows and row references obtained from it either panics or only reads already fetched rows; none changes the store.", "quantifier": "every history and every handle obtained before completion", "why_tests_cant": "use-after-commit needs unusual call orders", "anchors": ["storage/basic/basic.go:transaction.Commit", "storage/basic/basic.go:table.Insert", "storage/basic/basic.go:rowRef.Update"]}
{"id": "C22", "title": "A range scan returns exactly the matching rows in key order", "statement": "Rows(cols, min, max, pred) yields exactly the rows of that table whose key is between the keys of min and max inclusive (absent bounds mean unbounded) and which satisfy the predicate, each once, in strictly ascending key order, projected to cols.", "quantifier": "every table contents, every bound, predicate and projection", "why_tests_cant": "scan results depend on unbounded contents and bounds", "anchors": ["storage/basic/basic.go:table.Rows", "storage/basic/basic.go:rows.Next", "storage/basic/btree.go:lessItems"]}
{"id": "C23", "title": "Primary keys are unique", "statement": "In every reachable state no two rows of a table have equal primary key columns, and inserting a row whose key is present fails and leaves the existing row in place.", "quantifier": "every history of calls", "why_tests_cant": "invariant over all reachable states", "anchors": ["storage/basic/basic.go:table.Insert", "storage/basic/basic.go:rowRef.Update"]}
{"id": "C24", "title": "Inserted rows are found, and only they are added", "statement": "A successful Insert adds exactly the converted rows to that table: a scan afterwards returns the old rows and the new ones; no other row of any table changes.", "quantifier": "every table state and every batch of rows", "why_tests_cant": "frame conditions quantify over all other rows and tables", "anchors": ["storage/basic/basic.go:table.Insert"]}
{"id": "C25", "title": "Update and Delete touch exactly the referenced row", "statement": "RowRef.Delete removes exactly the row the reference was taken from; a successful RowRef.Update replaces exactly that row by the row with the given columns set; everything else is unchanged.", "quantifier": "every table state, row reference and set of columns", "why_tests_cant": "frame conditions over unbounded contents", "anchors": ["storage/basic/basic.go:rowRef.Update", "storage/basic/basic.go:rowRef.Delete"]}
{"id": "C26", "title": "A failing Insert or Update does not leave partial effects (false)", "statement": "If Insert or RowRef.Update returns an error the table is as it was before the call.  The code violates this: a multi-row Insert that fails on a later row keeps the earlier rows, and an Update moving a row onto an existing key deletes the row and then fails.", "quantifier": "every table state and call", "why_tests_cant": "only inputs failing half-way show it", "anchors": ["storage/basic/basic.go:table.Insert", "storage/basic/basic.go:rowRef.Update"]}
{"id": "C27", "title": "Stored rows satisfy their column types (false for Update)", "statement": "Every stored row has one value per column, each admitted by its column type.  Rows written by Insert have it except NOT NULL on omitted columns; RowRef.Update of non-key columns stores the given values unchecked, so it is violated.", "quantifier": "every history of calls", "why_tests_cant": "needs all reachable states", "anchors": ["storage/basic/basic.go:table.Insert", "storage/basic/basic.go:rowRef.Update", "types/value.go:ConvertRow"]}
{"id": "C28", "title": "Dropping a table removes its rows (false)", "statement": "After DropTable, creating a table with the same id gives an empty table.  The code violates this: rows of the dropped table reappear.", "quantifier": "every history of calls", "why_tests_cant": "needs drop and re-create of the same id", "anchors": ["storage/basic/basic.go:transaction.DropTable"]}
{"id": "C29", "title": "Open row sets are stable and block completion", "statement": "The rows yielded by an open row set are fixed when it is opened, whatever is written afterwards in the transaction; Commit and Rollback panic, changing nothing, exactly while the number of row sets opened minus closed is not zero; using a closed row set panics.", "quantifier": "every history of calls", "why_tests_cant": "depends on interleaving of reads and writes", "anchors": ["storage/basic/basic.go:rows.Next", "storage/basic/basic.go:rows.Close", "storage/basic/basic.go:transaction.Commit"]}
{"id": "C30", "title": "Tables are created, opened and dropped consistently", "statement": "A table can be opened exactly when created and not since dropped, and only with the name, column names, column types and key it was created with; a table using the reserved row-id column name otherwise than as generated is refused.", "quantifier": "every history of calls", "why_tests_cant": "invariant over all histories", "anchors": ["storage/basic/basic.go:transaction.CreateTable", "storage/basic/basic.go:transaction.OpenTable", "storage/basic/basic.go:transaction.DropTable", "storage/basic/basic.go:store.SetupColumns"]}
{"id": "C31", "title": "Typed structs round-trip through rows", "statement": "For every struct type accepted by MakeTypedInfo whose nullable fields are bytes or pointers to bool, string, float64 or int64, converting a struct to a row and back gives the same struct; for pointers to narrower integers reading back panics.", "quantifier": "every struct type and value", "why_tests_cant": "struct shapes and values are unbounded", "anchors": ["engine/typedtable.go:TypedInfo.structToRow", "engine/typedtable.go:TypedInfo.RowToStruct", "engine/typedinfo.go:MakeTypedInfo"]}
{"id": "C32", "title": "Typed lookup, select, update and delete act on exactly the addressed rows", "statement": "TypedTableLookup finds the row with the given primary key if there is one and never more than one; TypedTableUpdate and TypedTableDelete change exactly the rows in range for which the callback asks it, and every exit path closes the row set; a callback that uses the store itself, even this table, is called for exactly the rows in range at the start.", "quantifier": "every table contents and key, every callback", "why_tests_cant": "unbounded contents", "anchors": ["engine/typedtable.go:TypedTableLookup", "engine/typedtable.go:TypedTableUpdate", "engine/typedtable.go:TypedTableDelete"]}
{"id": "C33", "title": "The catalogue behaves like a map", "statement": "CreateDatabase/DropDatabase/ListDatabases, CreateSchema/DropSchema/ListSchemas and CreateTable/OpenTable behave like finite sets and maps keyed by name: creating an existing name or using a missing parent fails without changing the listing, listing returns exactly the existing names in ascending order, dropping a missing name fails unless IF EXISTS, and OpenTable returns what CreateTable stored.", "quantifier": "every sequence of catalogue calls from a freshly initialised store", "why_tests_cant": "sequences are unbounded", "anchors": ["engine/engine.go:CreateDatabase", "engine/engine.go:DropDatabase", "engine/engine.go:ListDatabases", "engine/engine.go:CreateSchema", "engine/engine.go:ListSchemas", "engine/engine.go:CreateTable", "engine/engine.go:OpenTable", "engine/init.go:Init"]}
{"id": "C34", "title": "Table ids are unique", "statement": "In every reachable catalogue the table ids recorded for tables are pairwise distinct, ids given to user tables are above 511, and the next id is larger than all of them, as long as fewer than 2^63 tables have been created.", "quantifier": "every sequence of catalogue calls", "why_tests_cant": "invariant over all histories", "anchors": ["engine/engine.go:nextTableId", "engine/engine.go:CreateTable"]}
{"id": "C35", "title": "Dropping a parent removes or protects its children (false)", "statement": "After DropDatabase no schema of it exists, after DropSchema no table of it exists, after DROP TABLE the table cannot be opened.  The code violates all three: schemas and tables are orphaned and reappear when the parent is re-created, and DropTable does nothing and reports success.", "quantifier": "every sequence of catalogue calls", "why_tests_cant": "needs drop and re-create sequences", "anchors": ["engine/engine.go:DropDatabase", "engine/engine.go:DropSchema", "engine/engine.go:DropTable"]}
{"id": "C36", "title": "Autocommitted statements are atomic", "statement": "A statement evaluated outside a transaction either succeeds and its effects are committed, or returns an error and the committed catalogue is unchanged; in both cases the store is unlocked afterwards.  A statement the evaluator does not support panics and leaves the store locked forever.", "quantifier": "every session state and statement", "why_tests_cant": "must hold for every statement and every store", "anchors": ["evaluate/session.go:Session.Evaluate", "evaluate/evaluate.go:Evaluate"]}
{"id": "C37", "title": "Sessions follow the transaction protocol", "statement": "BEGIN fails exactly inside a transaction, COMMIT and ROLLBACK exactly outside one, CREATE/DROP DATABASE are refused inside one; between BEGIN and COMMIT all statements of the session run in one transaction, and other sessions see none of it before the commit and none of it ever after a ROLLBACK.", "quantifier": "every interleaving of statements of any number of sessions", "why_tests_cant": "requires all schedules", "anchors": ["evaluate/session.go:Session.Evaluate"]}
{"id": "C38", "title": "Names are resolved against the session defaults", "statement": "Resolving a table or schema name fills in the default database only when no database is given and the default schema only when neither is given, never changes a given part, and is idempotent; after SET DATABASE/SCHEMA later names use the new default; statement resolution applies exactly this to every table or schema the statement names.", "quantifier": "every session, name and statement", "why_tests_cant": "all name shapes and statement kinds", "anchors": ["evaluate/session.go:Session.ResolveTable", "evaluate/session.go:Session.ResolveSchema", "parser/sql/datadef.go:Resolve"]}
{"id": "C39", "title": "Scanning terminates and consumes its input in order", "statement": "For every input the scanner returns a token after finitely many reads, every token other than end of file consumes at least one character, no character is read twice or skipped, and after end of file it keeps returning end of file.", "quantifier": "every finite input text", "why_tests_cant": "all texts, including malformed ones", "anchors": ["parser/scanner/scanner.go:Scanner.Scan", "parser/scanner/scanner.go:readRune", "parser/scanner/scanner.go:unreadRune"]}
{"id": "C40", "title": "String literals round-trip", "statement": "For every text s, scanning a single-quoted literal in which each quote of s is doubled yields a string token with value exactly s and stops right behind the closing quote (unless newline-separated continuation follows).", "quantifier": "every text, including quotes, backslashes and newlines", "why_tests_cant": "unbounded texts", "anchors": ["parser/scanner/scanner.go:scanQuotedConstant", "parser/scanner/scanner.go:scanString"]}
{"id": "C41", "title": "Byte literals round-trip, but their value does not outlive the next token", "statement": "For every byte string b, scanning the hex literal of b yields b.  The token's value aliases the scanner's buffer, so scanning a following token that is buffered overwrites it: an expression list with a byte literal followed by another literal or name holds corrupted bytes.", "quantifier": "every byte string and every following token", "why_tests_cant": "aliasing shows only with particular following tokens", "anchors": ["parser/scanner/scanner.go:scanHexBytes", "parser/parser.go:parseSubExpr"]}
{"id": "C42", "title": "Number literals denote their value", "statement": "For every n from 0 to 2^63-1 scanning the decimal digits of n yields the integer n, with a leading minus yields -n; larger numerals are an error.  The minimum int64 cannot be written: its literal is rejected.", "quantifier": "every numeral", "why_tests_cant": "all numerals and boundaries", "anchors": ["parser/scanner/scanner.go:scanNumber"]}
{"id": "C43", "title": "Nothing after the last complete statement is silently ignored (false)", "statement": "A program text that is not a complete statement is rejected.  The code violates this: a dangling '-' or '/' at the end of the input is dropped, so an incomplete expression is accepted.", "quantifier": "every input text", "why_tests_cant": "depends on the exact end of input", "anchors": ["parser/scanner/scanner.go:Scanner.scan"]}
{"id": "C44", "title": "Expressions are grouped by operator precedence", "statement": "For every token sequence that is an expression, ParseExpr returns the tree in which operators are grouped by the documented precedence, binary operators associate to the left, and parentheses are respected; the operands and operators appear in the tree in source order.  The left operand of IN, NOT IN, ANY, SOME and ALL is not regrouped: precedence inside its parentheses is wrong.", "quantifier": "every expression of any size and nesting", "why_tests_cant": "number of operator mixes and nestings is unbounded", "anchors": ["parser/parser.go:adjustPrecedence", "parser/parser.go:parseSubExpr", "parser/parser.go:parseExpr"]}
{"id": "C45", "title": "Precedence adjustment terminates, is idempotent and keeps the token order", "statement": "adjustPrecedence terminates on every expression tree, a second application changes nothing, and the in-order sequence of operators and operands is unchanged.", "quantifier": "every expression tree", "why_tests_cant": "the function is recursive on its own rewritten output; termination on every tree cannot be tested", "anchors": ["parser/parser.go:adjustPrecedence"]}
{"id": "C46", "title": "Printing an expression and parsing it back gives the same expression", "statement": "For every expression over integers, booleans, NULL, simple names, calls and operators, parsing its printed form yields the same expression up to redundant parentheses.  It fails for string literals containing quotes and for byte literals.", "quantifier": "every expression in the fragment, of any size", "why_tests_cant": "unbounded expressions", "anchors": ["parser/sql/expr.go:String", "parser/parser.go:ParseExpr"]}
{"id": "C47", "title": "The parser's look-back never overflows", "statement": "No input makes the parser un-read more tokens than it keeps; the panic about too much look-back cannot occur, and a token that is un-read is read again unchanged.", "quantifier": "every input text", "why_tests_cant": "depends on every path through the grammar", "anchors": ["parser/parser.go:unscan", "parser/parser.go:scanRune"]}
{"id": "C48", "title": "Parsing terminates and always makes progress", "statement": "Each call of Parse on a finite input terminates and either returns end of file or consumes at least one token, so repeated calls reach end of file.", "quantifier": "every input text", "why_tests_cant": "all inputs", "anchors": ["parser/parser.go:Parse"]}
{"id": "C49", "title": "A syntax error does not affect later statements", "statement": "After Parse reports an error, the next call resumes directly after the next semicolon following the error (or the one at the error), and parses the next statement as if it stood alone.", "quantifier": "every erroneous statement followed by every statement", "why_tests_cant": "all pairs of texts", "anchors": ["parser/parser.go:Parse"]}
{"id": "C50", "title": "No input crashes the parser (false)", "statement": "For every input Parse returns a statement or an error.  The code violates this: SET variable = NULL and USE NULL dereference a nil value, and an escape sequence whose code point equals an internal marker makes the error reporter dereference a nil error.", "quantifier": "every input text", "why_tests_cant": "a crash on rare inputs", "anchors": ["parser/parser.go:parseSet", "parser/parser.go:parseUse", "parser/parser.go:got", "parser/scanner/scanner.go:scanUnicode"]}
{"id": "C51", "title": "Parsed CREATE TABLE statements are well-formed", "statement": "A CREATE TABLE statement returned by Parse has pairwise distinct column names, one type and one default slot per column, at most one primary key, no two key constraints over the same columns and directions, and key constraints whose names differ from all other constraints' names; names of CHECK constraints are not checked for duplicates.", "quantifier": "every input text", "why_tests_cant": "all inputs", "anchors": ["parser/parser.go:parseCreateDetails", "parser/parser.go:addKeyConstraint", "parser/parser.go:addColumnConstraint", "parser/parser.go:parseColumn"]}
{"id": "C52", "title": "Every statement can be written and is parsed as written", "statement": "For every statement of the supported grammar, parsing its token sequence returns exactly that statement.", "quantifier": "every statement of every kind, with any number of columns, rows, constraints and nested expressions", "why_tests_cant": "unbounded statements", "anchors": ["parser/parser.go:parseStmt"]}
{"id": "C53", "title": "A printed statement is read back", "statement": "The text printed for a statement is parsed to that statement, up to parentheses around expressions, and nothing of the text is left.", "quantifier": "every statement of every kind that the printed form determines, every table of identifiers, every parser that has the text left to read", "why_tests_cant": "unbounded statements, nesting and tables of identifiers", "anchors": ["parser/sql/datadef.go:String", "parser/sql/query.go:String", "parser/sql/stmt.go:String", "parser/parser.go:Parse"]}
{"id": "C54", "title": "Tokens have the position they start at", "statement": "The line and the column reported with a token are those of its first rune, whatever white space, comments and data of COPY were read before it; which tokens have another position is said.", "quantifier": "every text, every sequence of tokens scanned before, every context scanned into", "why_tests_cant": "unbounded texts, any mix of newlines, comments and tokens before", "anchors": ["parser/scanner/scanner.go:scan", "parser/scanner/scanner.go:readRune", "parser/scanner/scanner.go:RuneReader"]}
{"id": "C55", "title": "Only statements of the grammar are accepted", "statement": "If Parse returns a statement then the text before the semicolon or the end is a list of tokens that the grammar, with a few stated additions, gives as that statement, and the text behind it is left; and a text is accepted exactly if its tokens, which are unique, are such a list, Parse consuming just these tokens.", "quantifier": "every text, every parser before a statement, every statement except COPY", "why_tests_cant": "unbounded texts that must be rejected; tests have only texts that are accepted or a few that are not", "anchors": ["parser/parser.go:Parse", "parser/parser.go:parseStmt", "parser/parser.go:parseExpr", "parser/parser.go:expectEndOfStatement"]}
{"id": "C56", "title": "The console prints every statement and ends", "statement": "For every input the console ends; for an input of statements it writes the text of each of them in order, behind a prompt, and nothing else; it panics only with Parse.", "quantifier": "every input, every number of statements", "why_tests_cant": "unbounded inputs; main is not tested at all", "anchors": ["main.go:main", "parser/parser.go:Parse"]}
{"id": "C57", "title": "Rows are compared as they should be in tests", "statement": "RowsEqual does not panic; in order it holds just if the rows are the same but for the sign of zero, in any order just if some order of the one is the other. What is left to the caller is its rows, sorted if they were compared in any order and are of one number, else as they were.", "quantifier": "all lists of rows without NaN and without integers where others have floats; every sort that is correct", "why_tests_cant": "the helper decides whether tests pass; it is not tested itself; unbounded rows", "anchors": ["testutil/rows.go:CompareRows", "testutil/rows.go:RowsEqual"]}
{"id": "C58", "title": "Rows in tests are read exactly from their text", "statement": "ParseValue, ParseRow and ParseRows read exactly the texts of a small grammar, and leave what follows; what FormatRows writes for writable rows is read as these rows.", "quantifier": "every text, all rows", "why_tests_cant": "unbounded texts, also those to be rejected", "anchors": ["testutil/parse.go:ParseValue", "testutil/parse.go:ParseRow", "testutil/parse.go:ParseRows", "testutil/rows.go:FormatRows"]}
{"id": "C59", "title": "Columns in tests are read exactly from their text", "statement": "ParseIdentifiers and ParseColumns read exactly the texts of a small grammar, and give the numbers of the names, the types and the key that are written.", "quantifier": "every text, every table of identifiers", "why_tests_cant": "unbounded texts, also those to be rejected", "anchors": ["testutil/parse.go:ParseIdentifier", "testutil/parse.go:ParseIdentifiers", "testutil/parse.go:ParseColumns"]}
{"id": "C61", "title": "The text of a column type is read back", "statement": "A CREATE TABLE written with ColumnType.String for its columns is parsed as the table with exactly these types; different types have different texts; String panics exactly for lengths of zero and for integers that are not of 2, 4 or 8 bytes; all types Parse gives are read back but those of length zero and REAL.", "quantifier": "all lists of columns, all types, every text", "why_tests_cant": "2^32 lengths, unbounded lists of columns", "anchors": ["types/column.go:ColumnType.String", "parser/parser.go:parseColumnType"]}
{"id": "C60", "title": "A test of a storage engine passes just if every call has the outcome it tells", "statement": "testStorage reports nothing exactly if each call made for a case has the outcome the case tells (a panic, an error, a row, the end of the rows, the attributes of a table, the rows of a table), from the state the calls before led to; a case that asks for a row without columns passes also on an error.", "quantifier": "all lists of cases, all states of a store and a transaction", "why_tests_cant": "the driver is itself what tests; nothing tests it", "anchors": ["storage/test/test.go:testStorage", "storage/test/test.go:selectFunc"]}
{"id": "C62", "title": "COPY is parsed exactly when its text says it, and its data are the lines behind it", "statement": "A text that is a COPY, as stated in SpecCopy, is parsed as that COPY, with the delimiter given or a tab, and nothing else is. The data begin behind the first newline after the statement, or after the delimiter; the line of the data is the number of newlines before them plus one; the reader of the data reads them rune by rune, and the parser goes on behind what was read.", "quantifier": "every text, every parser before a statement, every way to split the data", "why_tests_cant": "unbounded texts; the tests have a few COPY statements and no comment behind a DELIMITER", "anchors": ["parser/parser.go:parseCopy", "parser/scanner/scanner.go:RuneReader", "parser/scanner/scanner.go:ReadRune"]}
{"id": "C63", "title": "Casts and conversions give exactly the values they should", "statement": "CastValue returns the value that the relation of SpecCast says and otherwise the error of a cast: the nearest float of an integer (ties to even), the integer part of a float if it is an int64, the usual numeral of an integer, text from bytes exactly if they are UTF-8, truth values and numbers from text with blanks around. ConvertValue returns that value exactly if the column admits it; its error says why not; the error of ConvertRow is that of the first value refused.", "quantifier": "every value, value type, column type, row and float library", "why_tests_cant": "unbounded texts and rows, 2^64 integers and floats; rounding and the borders of UTF-8 are not in the tests", "anchors": ["types/value.go:CastValue", "types/value.go:ConvertValue", "types/value.go:ConvertRow"]}
{"id": "C64", "title": "The columns made for a struct are those its fields and tags describe", "statement": "MakeTypedInfo succeeds exactly if every field of the struct is described by its name, tag and type as in SpecInfo, and then gives, in order, the described column names (registered as identifiers), types, sizes, NOT NULL and the primary key; otherwise it panics. A tag can be read in one way only. Nothing but identifiers is touched.", "quantifier": "every struct type, tag text, field name, identifier table and unicode table", "why_tests_cant": "unbounded tags and names; tests have some twenty structs", "anchors": ["engine/typedinfo.go:MakeTypedInfo", "engine/typedinfo.go:fieldTags", "engine/typedinfo.go:fieldNameToColumnName"]}
{"id": "C65", "title": "Which statements cannot be printed", "statement": "The String method of a statement, an expression, an item of FROM or a key panics exactly if it is flawed itself (a reference to no name, a key with fewer directions than columns, a table with fewer names or defaults than types) or a part is whose String method is called, with the error of the first such part; otherwise it returns a text. Of the statements that Parse returns, only INSERT with DEFAULT panics, with a nil dereference, and no part of any of them does, at any depth, but DEFAULT itself.", "quantifier": "every statement tree and part of one, every table of identifiers; every input text and parser state for what is parsed", "why_tests_cant": "statement trees and texts are unbounded, and the tests print few statements", "anchors": ["parser/sql/expr.go:String", "parser/sql/query.go:String", "parser/sql/datadef.go:String", "parser/parser.go:Parse"]}
{"id": "C66", "title": "Reading a row into a struct", "statement": "RowToStruct fills a struct of the type exactly if the row has a value for every column and each field can take its value, and then a field holds that value: an integer reduced to the bits of the field, a float rounded to the field's size, NULL as nil. Otherwise it panics. A row that the columns admit is read and written again unchanged exactly if the fields can hold its values.", "quantifier": "every struct type that MakeTypedInfo accepts, every row of any length and values", "why_tests_cant": "rows and struct types are unbounded, and the tests read only rows made from structs of the same type", "anchors": ["engine/typedtable.go:RowToStruct", "engine/typedtable.go:structToRow", "engine/typedinfo.go:MakeTypedInfo"]}
{"id": "C67", "title": "Where a syntax error is reported", "statement": "The error that Parse returns is made of the context of the last token read: a token of the text, read by this call, with the line and the column of its first rune (of the rune behind it for a minus or a slash). At the end of a statement or of the file they are those of the third token before. The text of the error begins with that position, in the usual numerals, or - exactly for a lexical error at the first token of a call that skips no statement - with none. Lines and columns are at most the number of runes of the text and one.", "quantifier": "every text, every sequence of calls of the parser", "why_tests_cant": "texts and positions are unbounded, and no test of the repository looks at the position of an error", "anchors": ["parser/parser.go:error", "parser/parser.go:Parse", "parser/parser.go:scanRune", "parser/scanner/scanner.go:Position.String", "parser/scanner/scanner.go:Scan"]}
{"id": "C68", "title": "Scanning what a reader delivers that may fail", "statement": "Whatever a reader delivers and however often it fails, Scan returns a token; where no read fails it is that of the other properties. A token that ends before the failing read does not depend on it. Otherwise nothing is read behind the failure, and the token is an error with the error of the reader - or it is a constant, an operator or one of five letters as at the end of the text, and the error is lost, the next token being an unexpected rune 0; or it is the error of a lone dollar.", "quantifier": "every sequence of runes and failures, every sequence of calls", "why_tests_cant": "no test of the repository has a reader that fails, and the places where one may fail are unbounded", "anchors": ["parser/scanner/scanner.go:readRune", "parser/scanner/scanner.go:scan", "parser/scanner/scanner.go:scanQuotedConstant", "parser/scanner/scanner.go:scanIdentifier", "parser/scanner/scanner.go:scanNumber"]}
{"id": "C69", "title": "The engine on any storage passes errors on, closes row sets and completes transactions", "statement": "Whatever a storage returns from every call, a function of package engine returns no error only if every call went well; it returns the error of the first call that did not, and then only closes its row set; its own errors are those for a missing database, schema or table. Every row set that is opened is closed, even if the function panics, and rows are changed only through a reference to the current row. A function with a transaction of its own commits it without an error, rolls it back with one, and does neither after a panic. The basic storage is one such storage.", "quantifier": "every storage, that is every sequence of values, errors and panics of its methods; every function of package engine and of typed tables", "why_tests_cant": "the tests of the repository run the engine on the basic storage only, which returns almost no errors", "anchors": ["engine/typedtable.go:typedTableSelect", "engine/typedtable.go:TypedTableLookup", "engine/typedtable.go:TypedTableUpdate", "engine/typedtable.go:TypedTableDelete", "engine/engine.go:withTransaction", "engine/engine.go:ListDatabases", "engine/engine.go:OpenTable", "engine/engine.go:CreateTable", "engine/init.go:Init"]}
{"id": "C70", "title": "Parsing and the console with a reader that may fail", "statement": "Whatever a reader delivers and however often it fails, Parse returns, and it returns the end of the file only after everything was read and with no failure left; where no read fails it is the Parse of the other properties. If a read fails, either the result does not depend on it and the failure is left for the next call, or the result is an error or a panic, or it is a COPY and the failure was in the rest of its line, where it is lost; at most one more failure was met. The console ends for every finite sequence of runes and failures, never because of a failure: with a reader that fails again and again it writes prompts and errors for ever.", "quantifier": "every sequence of runes and failures, every sequence of calls of Parse and of reads of COPY data, every number of rounds of the console", "why_tests_cant": "no test of the repository has a reader that fails, and the places where one may fail are unbounded", "anchors": ["parser/parser.go:Parse", "parser/parser.go:scanRune", "parser/parser.go:scan", "parser/parser.go:parseCopy", "parser/scanner/scanner.go:RuneReader", "parser/scanner/scanner.go:ReadRune", "main.go:main"]}
{"id": "C71", "title": "Goroutines that use identifiers, interrupted anywhere", "statement": "With goroutines that call ID and String and may be interrupted between and within any two accesses to the package variables: the only two accesses to one variable at the same time of which one writes are ID writing the name of a new identifier and String reading names without the mutex (a data race, which there is). The sections under the mutex act as single steps: the calls that have returned are those of an execution of C14-C16's atomic model. So identifiers are equal just if their spellings mean the same, the name of an identifier returned is there and a later String gives it; some goroutine can always go on, and a call has at most 20 steps.", "quantifier": "every number of goroutines, every schedule of their accesses and of the mutex, all names, all case mappings", "why_tests_cant": "TestConcurrentID calls ID from eight goroutines in the schedules it happens to get and never calls String meanwhile; the schedules are unbounded", "anchors": ["types/identifier.go:lookupID", "types/identifier.go:ID", "types/identifier.go:String", "types/identifier.go:GobEncode"]}
{"id": "C72", "title": "Goroutines that use a store, interrupted anywhere", "statement": "With goroutines that each use a transaction of their own and may be interrupted between and within any two accesses to the store's variables and trees: no two of them access the store's tree variable or a tree at the same time, so there are no data races; every call acts at a single point in time between its start and its return, so what callers see and what they leave is what C17-C30's model, with one step per call, gives; the mutex is never unlocked when it is not locked, is locked only while a transaction is open, and a transaction between its calls holds it and keeps all others out; a call that has begun can always go on and does not go on for ever, except that Begin waits while a transaction is open.", "quantifier": "every number of goroutines and transactions, every schedule of their accesses and of the mutex, all calls, rows, and predicates", "why_tests_cant": "no test of the repository uses a store from two goroutines, and the schedules are unbounded", "anchors": ["storage/basic/basic.go:Begin", "storage/basic/basic.go:forWrite", "storage/basic/basic.go:Commit", "storage/basic/basic.go:Rollback", "storage/basic/basic.go:OpenTable", "storage/basic/basic.go:CreateTable", "storage/basic/basic.go:DropTable"]}
{"id": "C73", "title": "What a syntax error says was expected and found", "statement": "The functions of the parser that expect a reserved word, an identifier, one of some tokens, an integer of a range or the end of the statement end with an error just if the next token is another one. The text of the error has the position, the list of what was expected, and the text of the token found; for every token that text is exactly the one specified. This holds amid every statement of every input, as tokens and integers of contexts stay in range. It tells which token it is, up to the spelling of names, unless it is a literal of bytes, a float, a parameter or a lexical error. For bytes it does not tell the bytes, but a string that stood in the text before.", "quantifier": "every context of a scanner, every table of identifiers, all names, strings, numbers and runes; every state of the parser, every list of expected words and tokens", "why_tests_cant": "the tests of the repository do not look at the texts of errors, and tokens and states are unbounded", "anchors": ["parser/parser.go:got", "parser/parser.go:expectReserved", "parser/parser.go:expectIdentifier", "parser/parser.go:expectTokens", "parser/parser.go:expectInteger", "parser/parser.go:expectEndOfStatement", "parser/token/token.go:Format"]}
