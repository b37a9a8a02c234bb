{
 "claims": [
  {
   "property": "C01",
   "status": "proved",
   "theorems": [
    "C01_varint_round_trip"
   ],
   "note": ""
  },
  {
   "property": "C02",
   "status": "proved",
   "theorems": [
    "C02_zigzag_round_trip"
   ],
   "note": ""
  },
  {
   "property": "C03",
   "status": "proved",
   "theorems": [
    "C03_decode_varint_exact",
    "C03_decode_varint_overflow_refuted"
   ],
   "note": "the overflow clause is C03_decode_varint_overflow_refuted"
  },
  {
   "property": "C04",
   "status": "proved",
   "theorems": [
    "C04_uint64_big_endian",
    "C04_uint32_big_endian",
    "C04_uint64_order",
    "C04_uint32_order"
   ],
   "note": ""
  },
  {
   "property": "C05",
   "status": "proved",
   "theorems": [
    "C05_key_order",
    "C05_key_missing_column"
   ],
   "note": ""
  },
  {
   "property": "C06",
   "status": "proved",
   "theorems": [
    "C06_key_equality"
   ],
   "note": ""
  },
  {
   "property": "C07",
   "status": "proved",
   "theorems": [
    "C07_prefix_free",
    "C07_concatenation"
   ],
   "note": ""
  },
  {
   "property": "C08",
   "status": "proved",
   "theorems": [
    "C08_index_agrees_with_compare",
    "C08_descending_null_refuted"
   ],
   "note": "the exception for NULL in a descending column is C08_descending_null_refuted"
  },
  {
   "property": "C09",
   "status": "proved",
   "theorems": [
    "C09_compare_exact",
    "C09_compare_total",
    "C09_compare_antisymmetric",
    "C09_compare_reflexive",
    "C09_compare_transitive",
    "C09_compare_equal",
    "C09_compare_int_float",
    "C09_compare_mixed_refuted",
    "C09_compare_nan_refuted"
   ],
   "note": "the failures with NaN and mixed numbers are the _refuted theorems"
  },
  {
   "property": "C10",
   "status": "proved",
   "theorems": [
    "C10_convert_conforms",
    "C10_convert_accepts",
    "C10_convert_no_panic",
    "C10_text_to_bool",
    "C10_int_float_int"
   ],
   "note": "for results shorter than 4 GiB: the code compares lengths in 32 bits; float text conversion is an oracle"
  },
  {
   "property": "C11",
   "status": "proved",
   "theorems": [
    "C11_convert_row",
    "C11_convert_row_too_long",
    "C11_not_null_refuted"
   ],
   "note": "NOT NULL on omitted columns is refuted by C11_not_null_refuted"
  },
  {
   "property": "C12",
   "status": "proved",
   "theorems": [
    "C12_text_to_int",
    "C12_text_to_int_fails",
    "C12_int_text_int"
   ],
   "note": ""
  },
  {
   "property": "C13",
   "status": "proved",
   "theorems": [
    "C13_column_key_round_trip",
    "C13_column_key_injective",
    "C13_column_key_updated"
   ],
   "note": ""
  },
  {
   "property": "C14",
   "status": "proved",
   "theorems": [
    "C14_interning",
    "C14_string",
    "C14_stable",
    "C14_meaning_total",
    "C14_meaning_unique",
    "C14_call_returns",
    "C14_sequential"
   ],
   "note": ""
  },
  {
   "property": "C15",
   "status": "proved",
   "theorems": [
    "C15_case_insensitive",
    "C15_keyword_any_case",
    "C15_reserved"
   ],
   "note": ""
  },
  {
   "property": "C16",
   "status": "proved",
   "theorems": [
    "C16_gob_round_trip",
    "C16_gob_nonreserved_refuted",
    "C16_gob_long_refuted"
   ],
   "note": ""
  },
  {
   "property": "C17",
   "status": "proved",
   "theorems": [
    "C17_committed_only_by_commit",
    "C17_begin_sees_committed",
    "C17_view_private"
   ],
   "note": ""
  },
  {
   "property": "C18",
   "status": "proved",
   "theorems": [
    "C18_serialisable",
    "C18_serial"
   ],
   "note": ""
  },
  {
   "property": "C19",
   "status": "proved",
   "theorems": [
    "C19_one_active",
    "C19_begin",
    "C19_begun_is_active",
    "C19_completion_releases"
   ],
   "note": ""
  },
  {
   "property": "C20",
   "status": "proved",
   "theorems": [
    "C20_rollback_no_trace"
   ],
   "note": ""
  },
  {
   "property": "C21",
   "status": "proved",
   "theorems": [
    "C21_completed_is_dead",
    "C21_completed_stays"
   ],
   "note": ""
  },
  {
   "property": "C22",
   "status": "proved",
   "theorems": [
    "C22_table_has_key",
    "C22_rows_in_key_order",
    "C22_scan_exact",
    "C22_scan_succeeds",
    "C22_null_predicate_refuted"
   ],
   "note": "a predicate over a column with NULL panics: C22_null_predicate_refuted"
  },
  {
   "property": "C23",
   "status": "proved",
   "theorems": [
    "C23_key_unique",
    "C23_duplicate_refused",
    "C23_recreated_refuted"
   ],
   "note": "for table ids not used again after a drop; C23_recreated_refuted shows that is needed"
  },
  {
   "property": "C24",
   "status": "proved",
   "theorems": [
    "C24_insert_exact",
    "C24_insert_no_panic"
   ],
   "note": ""
  },
  {
   "property": "C25",
   "status": "proved",
   "theorems": [
    "C25_current_denotes",
    "C25_denotes_one",
    "C25_delete_exact",
    "C25_update_exact",
    "C25_update_panics"
   ],
   "note": ""
  },
  {
   "property": "C26",
   "status": "proved",
   "theorems": [
    "C26_insert_atomic_refuted",
    "C26_update_atomic_refuted",
    "C26_insert_fails"
   ],
   "note": "the claim is false of the code (the two _refuted theorems); what is left behind is characterised"
  },
  {
   "property": "C27",
   "status": "proved",
   "theorems": [
    "C27_stored_types_refuted",
    "C27_inserted_rows_typed",
    "C27_row_width"
   ],
   "note": "false for updates (C27_stored_types_refuted); proved for histories without updates"
  },
  {
   "property": "C28",
   "status": "proved",
   "theorems": [
    "C28_drop_removes_rows_refuted",
    "C28_handle_refuted",
    "C28_created_empty"
   ],
   "note": "false of the code (the _refuted theorems); proved for ids never used by a dropped table"
  },
  {
   "property": "C29",
   "status": "proved",
   "theorems": [
    "C29_rows_stable",
    "C29_rows_opened",
    "C29_completion_blocked",
    "C29_closed_panics"
   ],
   "note": ""
  },
  {
   "property": "C30",
   "status": "proved",
   "theorems": [
    "C30_create_outcome",
    "C30_create_records",
    "C30_recorded_stays",
    "C30_drop_exact",
    "C30_open_missing",
    "C30_open_sound",
    "C30_open_exact",
    "C30_open_keyword_refuted"
   ],
   "note": "names that are non-reserved keywords are excluded: C30_open_keyword_refuted"
  },
  {
   "property": "C31",
   "status": "proved",
   "theorems": [
    "C31_round_trip",
    "C31_column_types",
    "C31_row_admitted",
    "C31_long_text_panics",
    "C31_narrow_pointer_refuted"
   ],
   "note": "a nil slice in a NOT NULL column comes back empty; rounding to float32 is an oracle; the panic on narrower pointers is C31_narrow_pointer_refuted"
  },
  {
   "property": "C32",
   "status": "proved",
   "theorems": [
    "C32_select",
    "C32_lookup",
    "C32_delete",
    "C32_update",
    "C32_insert",
    "C32_busy_select",
    "C32_busy_delete",
    "C32_busy_update",
    "C32_goes_on"
   ],
   "note": "what a callback that calls the store itself does to the table is told step by step only (C32_busy_*); Go structs are modelled by field lists (reflect)"
  },
  {
   "property": "C33",
   "status": "proved",
   "theorems": [
    "C33_catalogue_start",
    "C33_catalogue_call",
    "C33_catalogue_reached",
    "C33_constants",
    "C33_names_unique",
    "C33_error_changes_nothing",
    "C33_created_opens",
    "C33_init_succeeds"
   ],
   "note": ""
  },
  {
   "property": "C34",
   "status": "proved",
   "theorems": [
    "C34_table_ids",
    "C34_storage_ids_refuted"
   ],
   "note": "the recorded numbers are unique; the 32-bit ids that storage uses are not: C34_storage_ids_refuted"
  },
  {
   "property": "C35",
   "status": "proved",
   "theorems": [
    "C35_drop_database_refuted",
    "C35_drop_schema_refuted",
    "C35_drop_table_refuted"
   ],
   "note": "the claim is false of the code (the _refuted theorems); what is left behind is characterised"
  },
  {
   "property": "C36",
   "status": "proved",
   "theorems": [
    "C36_session_states",
    "C36_statement",
    "C36_autocommit",
    "C36_unsupported",
    "C36_locked_forever"
   ],
   "note": "a statement is one step (it holds the lock or does not use the store); evaluator panics inside supported statements are covered too"
  },
  {
   "property": "C37",
   "status": "proved",
   "theorems": [
    "C37_protocol",
    "C37_transaction"
   ],
   "note": "interleavings of whole statements"
  },
  {
   "property": "C38",
   "status": "proved",
   "theorems": [
    "C38_table_name",
    "C38_schema_name",
    "C38_idempotent",
    "C38_stays",
    "C38_set",
    "C38_set_other",
    "C38_statement",
    "C38_own_tables",
    "C38_statement_tables_refuted",
    "C38_select_refuted",
    "C38_reference_refuted"
   ],
   "note": "tables in SELECT, subqueries and foreign keys are not resolved: the _refuted theorems; proved for the table or schema a statement is about"
  },
  {
   "property": "C39",
   "status": "proved",
   "theorems": [
    "C39_terminates",
    "C39_order",
    "C39_whole",
    "C39_eof",
    "C39_complete",
    "C39_sound"
   ],
   "note": "soundness and completeness against a grammar; the input is a finite list of runes, what happens with reader errors is C68 and C70"
  },
  {
   "property": "C40",
   "status": "proved",
   "theorems": [
    "C40_string_literal"
   ],
   "note": "white space behind the closing quote is read as well (quote_ends)"
  },
  {
   "property": "C41",
   "status": "proved",
   "theorems": [
    "C41_bytes_literal",
    "C41_bytes_stay_refuted"
   ],
   "note": "the second half is the _refuted theorem: a following name overwrites the bytes"
  },
  {
   "property": "C42",
   "status": "proved",
   "theorems": [
    "C42_number_literal",
    "C42_too_large"
   ],
   "note": "for numerals of ASCII digits; C39 covers what other digits do"
  },
  {
   "property": "C43",
   "status": "proved",
   "theorems": [
    "C43_nothing_ignored_refuted"
   ],
   "note": "the claim is false of the code (the _refuted theorem)"
  },
  {
   "property": "C44",
   "status": "proved",
   "theorems": [
    "C44_expr",
    "C44_exists",
    "C44_one",
    "C44_unique",
    "C44_adjust",
    "C44_left_operand_refuted",
    "C44_not_refuted"
   ],
   "note": "expressions without literals of bytes; the left operand of IN and ANY and operators behind NOT a IS NULL are the _refuted theorems"
  },
  {
   "property": "C45",
   "status": "proved",
   "theorems": [
    "C45_adjust",
    "C45_fixed"
   ],
   "note": "grouped: by precedence, to the left among binary operators"
  },
  {
   "property": "C46",
   "status": "proved",
   "theorems": [
    "C46_round_trip",
    "C46_text",
    "C46_float",
    "C46_float_refuted",
    "C46_quote",
    "C46_quote_refuted",
    "C46_bytes",
    "C46_bytes_refuted",
    "C46_least_refuted",
    "C46_name_refuted"
   ],
   "note": "also with subqueries and for text without quotes; not for the least int64, text with quotes, bytes and names that need quotes: the _refuted theorems; floats are printed by an oracle: returned if the text is digits, a dot and digits (C46_float_case), never if there is no dot (C46_float)"
  },
  {
   "property": "C47",
   "status": "proved",
   "theorems": [
    "C47_same",
    "C47_start",
    "C47_reached"
   ],
   "note": "the ring is shown to act like an unbounded tape, so no look-back panic occurs"
  },
  {
   "property": "C48",
   "status": "proved",
   "theorems": [
    "C48_terminates",
    "C48_progress",
    "C48_whole",
    "C48_fuel"
   ],
   "note": "inputs are finite lists of runes; a panic (C50) also ends the calls"
  },
  {
   "property": "C49",
   "status": "proved",
   "theorems": [
    "C49_call",
    "C49_resume",
    "C49_alone",
    "C49_all",
    "C49_text",
    "C49_lexical_refuted",
    "C49_last_refuted"
   ],
   "note": "not after a lexical error in front of a statement nor at the end of the file: the _refuted theorems; independence of what was read before leaves out the escape sequence of C50"
  },
  {
   "property": "C50",
   "status": "proved",
   "theorems": [
    "C50_no_panic_refuted",
    "C50_panics",
    "C50_panics_plain"
   ],
   "note": "the claim is false of the code (the _refuted theorem); all panics are characterised"
  },
  {
   "property": "C51",
   "status": "proved",
   "theorems": [
    "C51_table",
    "C51_names_refuted"
   ],
   "note": "key names may equal the name of a CHECK constraint written later: C51_names_refuted"
  },
  {
   "property": "C52",
   "status": "proved",
   "theorems": [
    "C52_parse",
    "C52_one"
   ],
   "note": "the grammar leaves out COPY and literals of bytes (C41); text to tokens is by the grammar of C39"
  },
  {
   "property": "C53",
   "status": "proved",
   "theorems": [
    "C53_round_trip",
    "C53_refuted",
    "C53_losses"
   ],
   "note": "for the statements of plain_stmt; not for every statement that Parse returns: C53_refuted, C53_losses"
  },
  {
   "property": "C54",
   "status": "proved",
   "theorems": [
    "C54_position",
    "C54_before",
    "C54_unique",
    "C54_sign",
    "C54_end",
    "C54_eof",
    "C54_end_refuted",
    "C54_sign_refuted"
   ],
   "note": "not for a minus, a slash, a negative number and the end of a statement or of the file: C54_sign, C54_end, C54_eof, C54_sign_refuted, C54_end_refuted"
  },
  {
   "property": "C55",
   "status": "proved",
   "theorems": [
    "C55_parse",
    "C55_expr",
    "C55_exact",
    "C55_unique",
    "C55_exact_expr",
    "C55_grammar",
    "C55_parameters",
    "C55_refuted"
   ],
   "note": "not for COPY, that is C62; what is accepted beyond the grammar of C52 is in SpecAccepts, marked (+): C55_refuted, C55_more"
  },
  {
   "property": "C56",
   "status": "proved",
   "theorems": [
    "C56_ends",
    "C56_transcript",
    "C56_echo",
    "C56_exits_refuted",
    "C56_panics"
   ],
   "note": "it panics with USE NULL and the like: C56_exits_refuted, C56_panics"
  },
  {
   "property": "C57",
   "status": "proved",
   "theorems": [
    "C57_total",
    "C57_ordered",
    "C57_unordered",
    "C57_nan_refuted",
    "C57_mixed_refuted",
    "C57_order_refuted",
    "C57_leaves",
    "C57_kept_refuted"
   ],
   "note": "not with NaN nor with integers and floats in one column: C57_nan_refuted, C57_mixed_refuted, C57_order_refuted; the rows of the caller are left sorted: C57_kept_refuted"
  },
  {
   "property": "C58",
   "status": "proved",
   "theorems": [
    "C58_value",
    "C58_row",
    "C58_rows",
    "C58_round_trip",
    "C58_never_negative",
    "C58_injective_refuted"
   ],
   "note": "not all values are writable: C58_never_negative, C58_injective_refuted"
  },
  {
   "property": "C59",
   "status": "proved",
   "theorems": [
    "C59_identifier",
    "C59_names",
    "C59_names_only",
    "C59_columns",
    "C59_columns_only",
    "C59_shape",
    "C59_size_refuted"
   ],
   "note": "lengths are cut: C59_size_refuted"
  },
  {
   "property": "C61",
   "status": "proved",
   "theorems": [
    "C61_read",
    "C61_text",
    "C61_one",
    "C61_panics",
    "C61_parsed",
    "C61_size_refuted",
    "C61_real_refuted",
    "C61_predefined",
    "C61_bool_refuted"
   ],
   "note": "not for every type that is parsed or predefined: C61_size_refuted, C61_real_refuted, C61_bool_refuted"
  },
  {
   "property": "C60",
   "status": "proved",
   "theorems": [
    "C60_driver",
    "C60_empty_refuted"
   ],
   "note": "not for a case that asks for a row without columns: C60_empty_refuted"
  },
  {
   "property": "C62",
   "status": "proved",
   "theorems": [
    "C62_copy",
    "C62_only",
    "C62_data",
    "C62_comment_refuted",
    "C62_data_refuted"
   ],
   "note": "behind a DELIMITER the line is dropped before the semicolon is looked for, so that not every text that reads as a COPY is accepted, nor the other way: C62_comment_refuted, C62_data_refuted"
  },
  {
   "property": "C63",
   "status": "proved",
   "theorems": [
    "C63_cast",
    "C63_cast_fails",
    "C63_convert",
    "C63_refused",
    "C63_row_refused",
    "C63_length_refuted",
    "C63_same_number_refuted",
    "C63_finite_refuted"
   ],
   "note": "for columns, texts of 2^32 bytes and more are left out: C63_length_refuted; casts may change numbers: C63_same_number_refuted, C63_finite_refuted"
  },
  {
   "property": "C64",
   "status": "proved",
   "theorems": [
    "C64_info",
    "C64_panics",
    "C64_exec",
    "C64_tag",
    "C64_encode",
    "C64_encode_other",
    "C64_distinct_refuted",
    "C64_size_refuted"
   ],
   "note": "the columns of a table need not differ and a size is cut to 32 bits: C64_distinct_refuted, C64_size_refuted"
  },
  {
   "property": "C65",
   "status": "proved",
   "theorems": [
    "C65_breaks",
    "C65_writable",
    "C65_parsed",
    "C65_refuted"
   ],
   "note": "INSERT with DEFAULT cannot be printed: C65_refuted"
  },
  {
   "property": "C66",
   "status": "proved",
   "theorems": [
    "C66_reads",
    "C66_panics",
    "C66_typed",
    "C66_again",
    "C66_stored",
    "C66_int8_refuted"
   ],
   "note": "An int8 column admits integers of more than 8 bits, which are cut off when read: C66_int8_refuted"
  },
  {
   "property": "C67",
   "status": "proved",
   "theorems": [
    "C67_where",
    "C67_behind",
    "C67_text",
    "C67_says",
    "C67_range",
    "C67_bare",
    "C67_first",
    "C67_end_refuted",
    "C67_copy_refuted",
    "C67_bare_refuted"
   ],
   "note": "An error at the end of a statement has the position of an older token, and some lexical errors have none: C67_end_refuted, C67_bare_refuted; behind a COPY that has no semicolon on its line positions may be wrong: C67_copy_refuted"
  },
  {
   "property": "C68",
   "status": "proved",
   "theorems": [
    "C68_total",
    "C68_same",
    "C68_failed",
    "C68_between",
    "C68_behind",
    "C68_told_refuted"
   ],
   "note": "Errors of the reader are not always reported as such: C68_told_refuted"
  },
  {
   "property": "C69",
   "status": "proved",
   "theorems": [
    "C69_engine",
    "C69_insert",
    "C69_lookup",
    "C69_select",
    "C69_update",
    "C69_delete",
    "C69_closes",
    "C69_closes_lookup",
    "C69_closes_select",
    "C69_closes_update",
    "C69_closes_delete",
    "C69_completes",
    "C69_basic",
    "C69_eof_refuted"
   ],
   "note": "Holds for storages where only Next returns io.EOF, as the basic one: C69_eof_refuted, C69_basic"
  },
  {
   "property": "C70",
   "status": "proved",
   "theorems": [
    "C70_total",
    "C70_same",
    "C70_failed",
    "C70_line",
    "C70_data",
    "C70_data_end",
    "C70_ends",
    "C70_console",
    "C70_goes",
    "C70_forever",
    "C70_told_refuted"
   ],
   "note": "A failure in the rest of the line of a COPY is not reported: C70_told_refuted"
  },
  {
   "property": "C71",
   "status": "proved",
   "theorems": [
    "C71_races",
    "C71_race_refuted",
    "C71_atomic",
    "C71_interning",
    "C71_names",
    "C71_text",
    "C71_no_deadlock",
    "C71_steps",
    "C71_step"
   ],
   "note": "There is a data race between String and ID: C71_race_refuted; C71_races shows there is no other"
  },
  {
   "property": "C72",
   "status": "proved",
   "theorems": [
    "C72_races",
    "C72_linear",
    "C72_unlock",
    "C72_held",
    "C72_alone",
    "C72_goes_on",
    "C72_ends",
    "C72_waits",
    "C72_method"
   ],
   "note": "Assumes that a transaction is used by one goroutine at a time"
  },
  {
   "property": "C73",
   "status": "proved",
   "theorems": [
    "C73_found",
    "C73_panics",
    "C73_tells",
    "C73_token",
    "C73_list",
    "C73_when",
    "C73_error",
    "C73_range",
    "C73_inside",
    "C73_tells_inside",
    "C73_bytes_refuted",
    "C73_stale_refuted",
    "C73_parameter_refuted"
   ],
   "note": "The text for bytes shows an earlier string, and that for parameters does not show the number: C73_bytes_refuted, C73_stale_refuted, C73_parameter_refuted"
  }
 ]
}