{
 "claims": [
  {
   "property": "C01",
   "status": "proved",
   "theorems": [
    "C01_C02_wildcard_search_exact",
    "C01_empty_query",
    "C01_empty_query_refuted"
   ],
   "note": "Three refinement layers down to the bytes of the file. strings.ToLower is a parameter. The empty query (outside the statement) finds nothing: recorded as refuted variant."
  },
  {
   "property": "C02",
   "status": "proved",
   "theorems": [
    "C01_C02_wildcard_search_exact"
   ],
   "note": "Same theorem as C01, for any non-empty list of filters and any permutation of it."
  },
  {
   "property": "C03",
   "status": "proved",
   "theorems": [
    "C03_reload_equivalent"
   ],
   "note": "Same roots and the same result for every lookup."
  },
  {
   "property": "C04",
   "status": "partial",
   "theorems": [
    "C04_interrupted_rejected_partial",
    "C04_rejected_or_prefix_partial",
    "C04_complete_but_unflushed_refuted"
   ],
   "note": "Rejected for every crash point (also inside a write) before the completed flag is written; refuted between that write and the last flush."
  },
  {
   "property": "C05",
   "status": "partial",
   "theorems": [
    "C05_accepted_header_matches_partial",
    "C05_other_properties_refuted"
   ],
   "note": "Everything but the property names (not stored in the file: refuted)."
  },
  {
   "property": "C06",
   "status": "proved",
   "theorems": [
    "C06_storage_is_flat_array"
   ],
   "note": "Simulation of the buffered stream by a plain byte array for every operation sequence, file and buffer limit."
  },
  {
   "property": "C07",
   "status": "proved",
   "theorems": [
    "C07_node_round_trip",
    "C07_position_round_trip",
    "C07_metadata_round_trip"
   ],
   "note": "All int64 field values."
  },
  {
   "property": "C08",
   "status": "partial",
   "theorems": [
    "C08_open_returns_partial",
    "C08_open_refuted",
    "C08_root_offset_refuted"
   ],
   "note": "False in general (negative root count); proved for counts between 0 and 2^45 and files which are not exactly 55 bytes."
  },
  {
   "property": "C09",
   "status": "proved",
   "theorems": [
    "C09_join_is_intersection",
    "C09_intersection_determined",
    "C09_join_of_nothing"
   ],
   "note": "Multiset intersection, every call."
  },
  {
   "property": "C10",
   "status": "partial",
   "theorems": [
    "C10_list_partial",
    "C10_object_partial",
    "C10_same_property_refuted"
   ],
   "note": "Equal bytes for any two orders of visiting Go maps, except with two parameters on the same property of one index (refuted)."
  },
  {
   "property": "C11",
   "status": "proved",
   "theorems": [
    "C11_map_index_exact"
   ],
   "note": "Any order of the filters; NaN and signed zeros included."
  },
  {
   "property": "C12",
   "status": "partial",
   "theorems": [
    "C12_array_values_refuted",
    "C12_map_never_indexes_arrays",
    "C12_wildcard_never_indexes_arrays"
   ],
   "note": "Refuted: the creation panics (map) or fails (wildcard) for every dataset with an array in an indexed property."
  },
  {
   "property": "C13",
   "status": "partial",
   "theorems": [
    "C13_noop_exact_partial",
    "C13_noop_without_filter",
    "C13_noop_reports_errors",
    "C13_selection_determined",
    "C13_array_filter_refuted"
   ],
   "note": "Everything except comparing an array with an array, which panics (refuted)."
  },
  {
   "property": "C14",
   "status": "proved",
   "theorems": [
    "C14_map_equals_noop"
   ],
   "note": "Literal equality of the two iterators."
  },
  {
   "property": "C15",
   "status": "partial",
   "theorems": [
    "C15_same_positions",
    "C15_same_positions_reopened",
    "C15_finds",
    "C15_creation_succeeds",
    "C15_null_refuted",
    "C15_numbers_refuted",
    "C15_list_value_refuted",
    "C15_rtirm_refuted"
   ],
   "note": "What a SQLite index finds is proved for all primitive values (numbers by value whatever their type, texts by collation, null never). The comparison with the default index is proved for every dataset and filter that do not mix booleans, integers and floats and where null is not compared with null, for every order of rows; refuted for null filters and mixed numbers. SQLite itself is a model (Sql.v)."
  },
  {
   "property": "C16",
   "status": "proved",
   "theorems": [
    "C16_accepted_is_complete",
    "C16_finished_accepted",
    "C15_creation_succeeds"
   ],
   "note": "Both kinds of indexes, any number of indexes and starts in one database, every statement boundary; index names without NUL that differ in more than ASCII case (otherwise see C17). SQLite itself is a model (Sql.v); statements are atomic."
  },
  {
   "property": "C17",
   "status": "partial",
   "theorems": [
    "C17_quoting",
    "C17_texts",
    "C17_tables_distinct",
    "C17_columns_distinct",
    "C17_other_index_kept",
    "C17_index_names_refuted",
    "C17_case_refuted",
    "C17_nul_refuted",
    "C17_property_case_refuted"
   ],
   "note": "Quoting, tables and columns proved for names without NUL that differ in more than ASCII case; refuted for the names of the column indexes, for names that differ in case only and for NUL."
  },
  {
   "property": "C18",
   "status": "partial",
   "theorems": [
    "C18_pages_partial",
    "C18_windows",
    "C18_huge_limit_refuted"
   ],
   "note": "Consecutive pages tile the filtered result for limits below 2^63; a larger configured default gives no rows (refuted)."
  },
  {
   "property": "C19",
   "status": "proved",
   "theorems": [
    "C19_limit_enforced",
    "C19_bad_limit_refused",
    "C19_bad_offset_refused"
   ],
   "note": "Whatever the indexes, inputs and parsers do."
  },
  {
   "property": "C20",
   "status": "partial",
   "theorems": [
    "C20_list_exact_partial",
    "C20_map_index_suits",
    "C20_noop_index_suits",
    "C20_wildcard_index_suits",
    "C20_sqlite_index_suits",
    "C20_fts_index_suits",
    "C20_sqlite_order_refuted",
    "C20_bad_parameter_refused"
   ],
   "note": "On exact indexes (map, noop, wildcard, SQLite and FTS5 with rows in the order of insertion; each index with its own way of searching), with distinct parameter properties and limits below 2^63."
  },
  {
   "property": "C21",
   "status": "partial",
   "theorems": [
    "C21_object_exact_partial"
   ],
   "note": "As C20; not found is the 404 error."
  },
  {
   "property": "C22",
   "status": "partial",
   "theorems": [
    "C22_one_response",
    "C22_route_groups_partial",
    "C22_map_index_returns",
    "C22_noop_index_returns",
    "C22_wildcard_index_returns",
    "C22_sqlite_index_returns",
    "C22_fts_index_returns",
    "C69_one_response_partial",
    "C22_list_parent_refuted"
   ],
   "note": "One header and at most one body whatever errors occur, as long as no list or object reaches an index as a filter and the properties asked for do not stop the readers of records; otherwise the handler panics (refuted). C69 derives these assumptions from the configuration."
  },
  {
   "property": "C23",
   "status": "partial",
   "theorems": [
    "C23_complete_partial",
    "C23_encoder_complete",
    "C63_response_partial",
    "C63_encoder",
    "C23_nan_refuted"
   ],
   "note": "Complete JSON denoting the computed value for all data without NaN and infinities (refuted with NaN)."
  },
  {
   "property": "C24",
   "status": "partial",
   "theorems": [
    "C24_relationships_partial",
    "C24_huge_limit_refuted",
    "C24_missing_parent_refuted"
   ],
   "note": "Nested relationships of any depth; parent properties exist, are primitive and are not replaced by a sibling; limits below 2^63 (refuted with larger limits, which panic, and with a missing parent property)."
  },
  {
   "property": "C25",
   "status": "partial",
   "theorems": [
    "C25_siblings_partial",
    "C25_sibling_refuted"
   ],
   "note": "Independent of the order, except when a relationship has the name of a property used by another one (refuted)."
  },
  {
   "property": "C26",
   "status": "partial",
   "theorems": [
    "C26_sort_partial",
    "C26_insertion_sort",
    "C26_every_less",
    "C26_contract",
    "C26_go_sort_partial",
    "C26_null_refuted",
    "C26_go_null_refuted",
    "C26_stable_refuted"
   ],
   "note": "For sort.Sort, modelled from memory of Go 1.16, and for any other algorithm fulfilling its contract, for properties whose values have one type; nothing is lost whatever the values are. Refuted: with a null value the records are not sorted, and equal records do not keep their order."
  },
  {
   "property": "C27",
   "status": "partial",
   "theorems": [
    "C27_compare_typed_partial",
    "C27_order_transitive",
    "C27_mixed_types_rejected",
    "C27_nan_refuted"
   ],
   "note": "All values of one type except NaN (refuted); mixed types are errors."
  },
  {
   "property": "C28",
   "status": "partial",
   "theorems": [
    "C28_json_exact",
    "C28_json_safe_partial",
    "C28_csv_exact_partial",
    "C28_csv_unknown",
    "C28_csv_safe_partial",
    "C28_xml_exact_partial",
    "C28_xml_values",
    "C28_xml_row",
    "C28_xml_unknown",
    "C28_xml_safe_partial",
    "C28_xml_all_safe",
    "C28_every_path",
    "C28_negative_index_refuted",
    "C28_unknown_column_refuted",
    "C28_dot_in_name_refuted"
   ],
   "note": "Exact for every path without negative index; a negative index panics, a name with a dot is unreachable, an unknown CSV column is an error (refuted)."
  },
  {
   "property": "C29",
   "status": "proved",
   "theorems": [
    "C29_integer_parse",
    "C29_integer_round_trip",
    "C29_ignored_characters"
   ],
   "note": "Down to the bytes: UTF-8 decoding of the ignored characters is modelled."
  },
  {
   "property": "C30",
   "status": "partial",
   "theorems": [
    "C30_boolean_exact",
    "C30_boolean_pattern_partial",
    "C30_invalid_byte_refuted"
   ],
   "note": "Parser exact for every configuration; pattern exact for every list of values in valid UTF-8 without U+FFFD, special characters included (refuted with U+FFFD)."
  },
  {
   "property": "C31",
   "status": "partial",
   "theorems": [
    "C31_split_exact",
    "C31_regexp_pieces_partial",
    "C31_regexp_nothing_lost",
    "C31_regexp_parsed",
    "C31_terminates_partial",
    "C31_cycle_refuted",
    "C31_empty_match_refuted"
   ],
   "note": "Exact for every plain delimiter; for regular expressions of the modelled syntax nothing is lost, and the pieces are those between the first matches if the expression has no anchors and does not match the empty text (refuted otherwise); termination needs acyclic references, which the validation does not enforce (refuted)."
  },
  {
   "property": "C32",
   "status": "partial",
   "theorems": [
    "C32_integer_pattern_partial",
    "C32_integer_pattern_compiles",
    "C32_no_digit_refuted",
    "C32_overflow_refuted",
    "C32_range_refuted",
    "C32_float_pattern_partial",
    "C32_float_pattern_compiles",
    "C32_float_separator_refuted",
    "C32_float_separator_unreachable_refuted",
    "C32_float_narrow_refuted",
    "C32_float_overflow_refuted"
   ],
   "note": "Holds for integers and floats when a digit remains, the number is in range, no '-' is ignored and the separator is one character; refuted in each of these cases."
  },
  {
   "property": "C33",
   "status": "partial",
   "theorems": [
    "C33_own_text_partial",
    "C33_parameters",
    "C33_every_path",
    "C33_shifted_refuted"
   ],
   "note": "For parameters without a boolean or float parameter before them and literal text without special characters; refuted after a boolean."
  },
  {
   "property": "C34",
   "status": "proved",
   "theorems": [
    "C34_path_wins",
    "C34_path_value",
    "C34_first_query_value"
   ],
   "note": "Every route and query string (as parsed by net/url)."
  },
  {
   "property": "C35",
   "status": "partial",
   "theorems": [
    "C35_first_route",
    "C35_no_route",
    "C35_either",
    "C35_not_both",
    "C35_literal_only_partial",
    "C35_route_accepted_partial",
    "C35_fitting_matches_partial",
    "C35_special_character_refuted",
    "C35_own_text_refuted",
    "C35_brackets_panic_refuted"
   ],
   "note": "Routing is exact for every list of routes; literal text only matches itself when it has no special character of regular expressions (refuted with '.' and with brackets, which even panic)."
  },
  {
   "property": "C36",
   "status": "proved",
   "theorems": [
    "C36_reread_exact",
    "C36_positions_increase",
    "C36_buffering_is_invisible",
    "C36_csv_input_suits"
   ],
   "note": "Every file (also with syntax errors), every buffer size, read size and state left by earlier reads; encoding/csv and bufio are modelled from their sources."
  },
  {
   "property": "C37",
   "status": "partial",
   "theorems": [
    "C37_reread_exact",
    "C37_positions_increase",
    "C37_documents_read",
    "C37_nothing_skipped_partial",
    "C37_json_input_suits",
    "C37_stray_bracket_refuted"
   ],
   "note": "Every file and every json.Unmarshal; encoding/json's scanner and decoder are modelled from their sources; a stray closing bracket silently ends the iteration (refuted)."
  },
  {
   "property": "C38",
   "status": "partial",
   "theorems": [
    "C38_csv_answers_exact_partial",
    "C38_csv_no_endless_execution_partial",
    "C38_csv_all_answered_partial",
    "C38_json_answers_exact_partial",
    "C38_json_no_endless_execution_partial",
    "C38_json_all_answered_partial",
    "C38_xml_answers_exact_partial",
    "C38_xml_no_endless_execution_partial",
    "C38_xml_all_answered_partial"
   ],
   "note": "Every number of goroutines and every interleaving: for CSV and JSON inputs all files and positions, for XML inputs the files of C57 and the positions of their records (elsewhere C57 is refuted)."
  },
  {
   "property": "C39",
   "status": "partial",
   "theorems": [
    "C39_stateless_partial",
    "C39_unconverted",
    "C39_one_after_the_other",
    "C39_stateful_refuted"
   ],
   "note": "Every interleaving with decoders without state; refuted with a decoder that has one (ISO-2022-JP)."
  },
  {
   "property": "C40",
   "status": "partial",
   "theorems": [
    "C40_dies_on_write_partial",
    "C40_replaced_file_refuted"
   ],
   "note": "Every write to the watched file is noticed; a file replaced by renaming is not (refuted)."
  },
  {
   "property": "C41",
   "status": "partial",
   "theorems": [
    "C41_same_positions",
    "C41_list_partial",
    "C41_object_partial",
    "C41_relationship_partial",
    "C41_memory_indexes",
    "C41_full_page_refuted",
    "C41_join_refuted",
    "C41_error_refuted"
   ],
   "note": "Exactly when the handle of a request is closed; full pages, found objects, joins and errors leave handles open (refuted).  The rows' nested relationships are counted separately."
  },
  {
   "property": "C42",
   "status": "proved",
   "theorems": [
    "C42_references_resolve",
    "C42_start",
    "C42_names_kept",
    "C42_serve_list",
    "C42_serve_object",
    "C42_parsers",
    "C42_xml_records",
    "C42_csv_records",
    "C42_json_records",
    "C42_map_index",
    "C42_default_index"
   ],
   "note": "Every reference of a validated configuration resolves; creation never reports a missing name; handlers never send or return such an error."
  },
  {
   "property": "C43",
   "status": "partial",
   "theorems": [
    "C43_no_crash_partial",
    "C43_stat_error_refuted",
    "C43_null_refuted"
   ],
   "note": "Proved for configurations without null entries when os.Stat fails only with not-exist; other errors and null entries panic (refuted)."
  },
  {
   "property": "C44",
   "status": "proved",
   "theorems": [
    "C44_offsets_exact"
   ],
   "note": "Every file, buffer size, read size and sequence of operations."
  },
  {
   "property": "C45",
   "status": "partial",
   "theorems": [
    "C45_collations_partial",
    "C45_result",
    "C45_rtrim_refuted",
    "C45_rtirm_refuted",
    "C45_dotless_i_refuted"
   ],
   "note": "Exact set accepted among ASCII strings; rtrim is refused, the misspelt rtirm and non-ASCII letters with an ASCII upper case are accepted (refuted)."
  },
  {
   "property": "C46",
   "status": "proved",
   "theorems": [
    "C46_duplicates_refused",
    "C46_distinct_accepted",
    "C46_objects"
   ],
   "note": "Entries of the configuration are not null (see C43)."
  },
  {
   "property": "C47",
   "status": "proved",
   "theorems": [
    "C47_address_exact"
   ],
   "note": "Every listening address."
  },
  {
   "property": "C48",
   "status": "proved",
   "theorems": [
    "C48_csv_row_exact",
    "C48_extra_cells_ignored",
    "C48_autodetected_columns"
   ],
   "note": "Every row and every list of columns."
  },
  {
   "property": "C49",
   "status": "partial",
   "theorems": [
    "C49_written_rows_read_partial",
    "C49_header_skipped_partial",
    "C49_crlf_cell_refuted",
    "C49_header_count_refuted"
   ],
   "note": "Every list of rows without carriage returns in the cells; CRLF in a cell is read as LF and a header of another length makes the input unusable (refuted)."
  },
  {
   "property": "C50",
   "status": "partial",
   "theorems": [
    "C50_indexes_fit",
    "C50_default_refuted"
   ],
   "note": "Proved for all parameters and matches; refuted for the index named default, asked by outputs without parameters."
  },
  {
   "property": "C51",
   "status": "partial",
   "theorems": [
    "C51_unambiguous_partial",
    "C51_limit_is_offset_refuted",
    "C51_same_property_refuted"
   ],
   "note": "Everything but two cases, which are refuted: the same parameter for limit and offset, two parameters on one property of one index."
  },
  {
   "property": "C52",
   "status": "partial",
   "theorems": [
    "C52_starts_partial",
    "C52_graphql_refuted",
    "C52_path_parameter_refuted"
   ],
   "note": "Proved without graphql outputs and when the routes only use parameters of their outputs; refuted otherwise."
  },
  {
   "property": "C53",
   "status": "proved",
   "theorems": [
    "C53_meaning"
   ],
   "note": "All kinds of objects, nested XML properties and relationships."
  },
  {
   "property": "C54",
   "status": "partial",
   "theorems": [
    "C54_kept_properties_partial",
    "C54_new_property_refuted"
   ],
   "note": "The properties kept from the creation are answered rightly; a new property is refuted: nothing, or everything, is found."
  },
  {
   "property": "C55",
   "status": "partial",
   "theorems": [
    "C55_rows_right_partial",
    "C55_failure_hidden_refuted"
   ],
   "note": "No wrong position is given; that the failure is reported is refuted (rows.Err is not called)."
  },
  {
   "property": "C56",
   "status": "partial",
   "theorems": [
    "C56_file",
    "C56_memory_partial",
    "C56_connections",
    "C56_memory_refuted"
   ],
   "note": "Proved for files, every interleaving; for :memory: proved when each iterator is read to its end before the next query, refuted otherwise. At most two connections are idle, the others are those of unread iterators. Statements of a query are not interleaved with those of another."
  },
  {
   "property": "C57",
   "status": "partial",
   "theorems": [
    "C57_iteration_partial",
    "C57_iteration_closed_partial",
    "C57_no_error",
    "C57_reread_partial",
    "C57_get_ends",
    "C57_iterate_ends",
    "C57_absolute_path_refuted",
    "C57_absolute_path_twice_refuted",
    "C57_parents_refuted",
    "C57_charset_refuted",
    "C57_memory_refuted"
   ],
   "note": "Proved for the XPath //name and files whose records are only separated by complete elements, in UTF-8; a file in which every element is closed is read without error with every XPath; refuted for absolute XPaths, records under different parents and converted files. encoding/xml and xmlquery are modelled from memory."
  },
  {
   "property": "C58",
   "status": "partial",
   "theorems": [
    "C58_exit_status",
    "C58_stops_partial",
    "C58_no_endless_execution",
    "C58_no_new_requests",
    "C58_shutdown_waits",
    "C58_close_waits",
    "C58_cut_refuted",
    "C58_hang_refuted"
   ],
   "note": "Every interleaving: the process stops with status 0 when no server fails; refuted: requests being served are cut and their inputs closed under them; a failed server makes Close give up and the process hang."
  },
  {
   "property": "C59",
   "status": "partial",
   "theorems": [
    "C59_failure_seen",
    "C59_single_partial",
    "C59_second_server_refuted",
    "C59_other_service_refuted"
   ],
   "note": "Proved when all servers have returned and for one service with one server; refuted for http with https and for several services."
  },
  {
   "property": "C60",
   "status": "partial",
   "theorems": [
    "C60_every_text",
    "C60_expanded",
    "C60_no_dollar",
    "C60_shell_refuted",
    "C60_escape_refuted",
    "C60_brace_refuted"
   ],
   "note": "The result is given exactly for every text and environment; refuted: $1, $$, $- and unclosed braces are taken away, and a dollar sign before a letter cannot be written. os.Expand is modelled from memory."
  },
  {
   "property": "C61",
   "status": "partial",
   "theorems": [
    "C61_nearest_partial",
    "C61_column_partial",
    "C61_refused",
    "C61_same_number_partial",
    "C61_order_partial",
    "C61_whole_numbers",
    "C61_long_refuted",
    "C61_other_texts_refuted",
    "C61_dot_refuted",
    "C61_large_integer_refuted"
   ],
   "note": "Every decimal number with an exponent below 100000, or in at most 9000 bytes, is read as the nearest float64; refuted: a longer text with a longer exponent is misread, nan, Infinity, hexadecimal numbers and underscores are accepted, and the dot remains a separator beside the configured one. strconv.ParseFloat is modelled from memory, its conversion by what its documentation promises."
  },
  {
   "property": "C62",
   "status": "partial",
   "theorems": [
    "C62_json_accepted",
    "C62_one_meaning",
    "C62_decoded",
    "C62_nothing_else",
    "C62_no_panic",
    "C62_out_of_range",
    "C62_numbers",
    "C62_files",
    "C62_files_no_panic",
    "C62_get_no_panic",
    "C62_served_as_read",
    "C62_record_served_as_read",
    "C62_large_integers_refuted",
    "C62_duplicate_names_refuted",
    "C62_invalid_utf8_refuted",
    "C62_null_document_refuted"
   ],
   "note": "Texts of RFC 8259 nested at most 10000 times are decoded to their data; refuted: large integers are rounded, the first of two members with one name is lost, invalid UTF-8 and half surrogate pairs are accepted, a null document is an empty record. encoding/json and strconv are modelled from memory."
  },
  {
   "property": "C63",
   "status": "partial",
   "theorems": [
    "C63_read_back",
    "C63_number",
    "C63_shortest",
    "C63_closest",
    "C63_kept_partial",
    "C63_column_partial",
    "C63_response_partial",
    "C63_encoder",
    "C63_sixteen_refuted",
    "C63_small_refuted"
   ],
   "note": "Every finite float64; kept numbers: at most 15 digits, at least 10^-307, exponents written below 100000 or in at most 9000 bytes (refuted with 16 digits, and below 2^-1022). strconv.AppendFloat is modelled from memory, by its roundShortest; the faster algorithm tried first is assumed to give the same digits."
  },
  {
   "property": "C64",
   "status": "partial",
   "theorems": [
    "C64_list_partial",
    "C64_object_partial",
    "C64_whole_list_partial",
    "C64_whole_object_partial",
    "C64_no_route",
    "C64_refused"
   ],
   "note": "CSV files with a separator of one byte, JSON files, and XML files with closed elements read by //name whose records stand beside each other and lack no object; map, wildcard, SQLite and FTS5 indexes (several in one database file; what an FTS5 expression matches is an oracle) and the built-in default index; not covered: other XML files (C57), the collation RTIRM which does not exist, databases in memory. Requests with refused values and without a route are covered for every kind of input and index."
  },
  {
   "property": "C65",
   "status": "partial",
   "theorems": [
    "C65_document",
    "C65_documented",
    "C65_published_refuted",
    "C65_items_refuted",
    "C65_published_example_refuted",
    "C65_fts5_refuted",
    "C65_undocumented_refuted",
    "C65_fraction_refuted",
    "C65_null_refuted"
   ],
   "note": "Every document without merge keys and explicit tags; yaml.v2 is modelled from memory, on parsed nodes. The schema is the published one with two corrections (the type of array outputs, nested properties and relationships); refuted for the schema as published, for undocumented attributes and types, for fractions and for Null."
  },
  {
   "property": "C66",
   "status": "partial",
   "theorems": [
    "C66_accepted",
    "C66_refused_partial",
    "C66_order",
    "C66_files",
    "C66_no_property_refuted",
    "C66_delimiter_refuted"
   ],
   "note": "Acceptance is characterised exactly, for every configuration and order of its objects; an error otherwise, except for null entries and other failures of os.Stat (C43). Refuted: the rules differ from the documented ones for indexes without properties, delimiters outside ASCII and rtrim (C45)."
  },
  {
   "property": "C67",
   "status": "partial",
   "theorems": [
    "C67_starts_partial",
    "C67_shared_file_refuted"
   ],
   "note": "From an accepted configuration and files as in C64, for all kinds of indexes; the file of a wildcard index has to be smaller than 2^48 bytes. The configuration does not forbid that two wildcard indexes use one file: refuted then, the second answers from the values of the first."
  },
  {
   "property": "C68",
   "status": "partial",
   "theorems": [
    "C68_restarts_partial",
    "C68_stopped_partial"
   ],
   "note": "Any number of complete starts on unchanged files, with the databases and the wildcard files that the start before left; wildcard files smaller than 2^48 bytes. After starts that were stopped at any statement to the databases, or at any write to a wildcard file before it is marked as complete, a start that succeeds answers as if they had not been. Missing: a stop between that mark and the last flush, see C04."
  },
  {
   "property": "C69",
   "status": "partial",
   "theorems": [
    "C69_one_response_partial",
    "C69_complete_partial",
    "C69_negative_refuted"
   ],
   "note": "From an accepted configuration which has started, for any contents of the files. The configuration has to be robust: no negative number in a path, no split parser that uses itself, relationships whose parents are primitive properties and limits below 2^63, routes without special characters, wildcard files that are those of their inputs; refuted for a negative number in a path."
  },
  {
   "property": "C70",
   "status": "partial",
   "theorems": [
    "C70_between",
    "C70_grows",
    "C70_ends",
    "C70_near",
    "C70_rate",
    "C70_positions",
    "C70_shown",
    "C70_unknown_size",
    "C70_rounded_refuted",
    "C70_early_refuted"
   ],
   "note": "For positions in the file, with correctly rounded conversions, divisions and products of float64. Refuted: the percentage is not always the number of whole percents (29 of 100 bytes are 28%, it is off by one at most), and 100% can be shown before the end of files of 2^60 bytes. The text of the message and the logger are not modelled."
  }
 ]
}