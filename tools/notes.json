{
 "C03": {
  "note": "the overflow clause is C03_decode_varint_overflow_refuted"
 },
 "C08": {
  "note": "the exception for NULL in a descending column is C08_descending_null_refuted"
 },
 "C09": {
  "note": "the failures with NaN and mixed numbers are the _refuted theorems"
 },
 "C10": {
  "note": "for results shorter than 4 GiB: the code compares lengths in 32 bits; float text conversion is an oracle"
 },
 "C11": {
  "note": "NOT NULL on omitted columns is refuted by C11_not_null_refuted"
 },
 "C22": {
  "note": "a predicate over a column with NULL panics: C22_null_predicate_refuted"
 },
 "C23": {
  "note": "for table ids not used again after a drop; C23_recreated_refuted shows that is needed"
 },
 "C26": {
  "note": "the claim is false of the code (the two _refuted theorems); what is left behind is characterised"
 },
 "C27": {
  "note": "false for updates (C27_stored_types_refuted); proved for histories without updates"
 },
 "C28": {
  "note": "false of the code (the _refuted theorems); proved for ids never used by a dropped table"
 },
 "C30": {
  "note": "names that are non-reserved keywords are excluded: C30_open_keyword_refuted"
 },
 "C31": {
  "note": "a nil slice in a NOT NULL column comes back empty; rounding to float32 is an oracle; the panic on narrower pointers is C31_narrow_pointer_refuted"
 },
 "C32": {
  "note": "what a callback that calls the store itself does to the table is told step by step only (C32_busy_*); Go structs are modelled by field lists (reflect)"
 },
 "C34": {
  "note": "the recorded numbers are unique; the 32-bit ids that storage uses are not: C34_storage_ids_refuted"
 },
 "C35": {
  "note": "the claim is false of the code (the _refuted theorems); what is left behind is characterised"
 },
 "C36": {
  "note": "a statement is one step (it holds the lock or does not use the store); evaluator panics inside supported statements are covered too"
 },
 "C37": {
  "note": "interleavings of whole statements"
 },
 "C38": {
  "note": "tables in SELECT, subqueries and foreign keys are not resolved: the _refuted theorems; proved for the table or schema a statement is about"
 },
 "C39": {
  "note": "soundness and completeness against a grammar; the input is a finite list of runes, what happens with reader errors is C68 and C70"
 },
 "C40": {
  "note": "white space behind the closing quote is read as well (quote_ends)"
 },
 "C41": {
  "note": "the second half is the _refuted theorem: a following name overwrites the bytes"
 },
 "C42": {
  "note": "for numerals of ASCII digits; C39 covers what other digits do"
 },
 "C43": {
  "note": "the claim is false of the code (the _refuted theorem)"
 },
 "C45": {
  "note": "grouped: by precedence, to the left among binary operators"
 },
 "C47": {
  "note": "the ring is shown to act like an unbounded tape, so no look-back panic occurs"
 },
 "C48": {
  "note": "inputs are finite lists of runes; a panic (C50) also ends the calls"
 },
 "C50": {
  "note": "the claim is false of the code (the _refuted theorem); all panics are characterised"
 },
 "C51": {
  "note": "key names may equal the name of a CHECK constraint written later: C51_names_refuted"
 },
 "C44": {
  "note": "expressions without literals of bytes; the left operand of IN and ANY and operators behind NOT a IS NULL are the _refuted theorems"
 },
 "C52": {
  "note": "the grammar leaves out COPY and literals of bytes (C41); text to tokens is by the grammar of C39"
 },
 "C49": {
  "note": "not after a lexical error in front of a statement nor at the end of the file: the _refuted theorems; independence of what was read before leaves out the escape sequence of C50"
 },
 "C46": {
  "note": "also with subqueries and for text without quotes; not for the least int64, text with quotes, bytes and names that need quotes: the _refuted theorems; floats are printed by an oracle: returned if the text is digits, a dot and digits (C46_float_case), never if there is no dot (C46_float)"
 },
 "C53": {
  "note": "for the statements of plain_stmt; not for every statement that Parse returns: C53_refuted, C53_losses"
 },
 "C54": {
  "note": "not for a minus, a slash, a negative number and the end of a statement or of the file: C54_sign, C54_end, C54_eof, C54_sign_refuted, C54_end_refuted"
 },
 "C55": {
  "note": "not for COPY, that is C62; what is accepted beyond the grammar of C52 is in SpecAccepts, marked (+): C55_refuted, C55_more"
 },
 "C56": {
  "note": "it panics with USE NULL and the like: C56_exits_refuted, C56_panics"
 },
 "C57": {
  "note": "not with NaN nor with integers and floats in one column: C57_nan_refuted, C57_mixed_refuted, C57_order_refuted; the rows of the caller are left sorted: C57_kept_refuted"
 },
 "C58": {
  "note": "not all values are writable: C58_never_negative, C58_injective_refuted"
 },
 "C59": {
  "note": "lengths are cut: C59_size_refuted"
 },
 "C61": {
  "note": "not for every type that is parsed or predefined: C61_size_refuted, C61_real_refuted, C61_bool_refuted"
 },
 "C60": {
  "note": "not for a case that asks for a row without columns: C60_empty_refuted"
 },
 "C62": {
  "note": "behind a DELIMITER the line is dropped before the semicolon is looked for, so that not every text that reads as a COPY is accepted, nor the other way: C62_comment_refuted, C62_data_refuted"
 },
 "C63": {
  "note": "for columns, texts of 2^32 bytes and more are left out: C63_length_refuted; casts may change numbers: C63_same_number_refuted, C63_finite_refuted"
 },
 "C64": {
  "note": "the columns of a table need not differ and a size is cut to 32 bits: C64_distinct_refuted, C64_size_refuted"
 },
 "C65": {
  "note": "INSERT with DEFAULT cannot be printed: C65_refuted"
 },
 "C66": {
  "note": "An int8 column admits integers of more than 8 bits, which are cut off when read: C66_int8_refuted"
 },
 "C67": {
  "note": "An error at the end of a statement has the position of an older token, and some lexical errors have none: C67_end_refuted, C67_bare_refuted; behind a COPY that has no semicolon on its line positions may be wrong: C67_copy_refuted"
 },
 "C68": {
  "note": "Errors of the reader are not always reported as such: C68_told_refuted"
 },
 "C69": {
  "note": "Holds for storages where only Next returns io.EOF, as the basic one: C69_eof_refuted, C69_basic"
 },
 "C70": {
  "note": "A failure in the rest of the line of a COPY is not reported: C70_told_refuted"
 },
 "C71": {
  "note": "There is a data race between String and ID: C71_race_refuted; C71_races shows there is no other"
 },
 "C72": {
  "note": "Assumes that a transaction is used by one goroutine at a time"
 },
 "C73": {
  "note": "The text for bytes shows an earlier string, and that for parameters does not show the number: C73_bytes_refuted, C73_stale_refuted, C73_parameter_refuted"
 }
}