{
 "claims": [
  {
   "property": "C01",
   "status": "proved",
   "theorems": [
    "C01_copy_exact",
    "C01_copy_over_other_type",
    "C01_to_gc_is_from_gc"
   ],
   "note": "Keys with embedded NUL bytes and vectors of 2^32 or more elements are excluded (value_ok)."
  },
  {
   "property": "C02",
   "status": "partial",
   "theorems": [
    "C02_assignment_replaces_refuted",
    "C02_empty_vector_assignment_ignored",
    "C02_assignment_replaces_iff_partial",
    "C02_clear_then_assign"
   ],
   "note": "False as stated: map-over-map keeps old keys, empty vector over same-type vector is ignored. The iff theorem gives the exact condition under which the old content disappears."
  },
  {
   "property": "C03",
   "status": "proved",
   "theorems": [
    "C03_assignment_effect",
    "C03_effect_unique"
   ],
   "note": "Exact effect against an independent relational specification, which determines the result."
  },
  {
   "property": "C04",
   "status": "proved",
   "theorems": [
    "C04_merge",
    "C04_merge_errors_change_nothing",
    "C04_merge_nothing"
   ],
   "note": ""
  },
  {
   "property": "C05",
   "status": "partial",
   "theorems": [
    "C05_scalar_sets_forget",
    "C05_matrix_sets_forget",
    "C05_nonempty_vector_sets_forget_partial",
    "C05_empty_vector_set_refuted"
   ],
   "note": "False for empty vectors (set_vec_T(empty) over a vector of the same type keeps the old elements); proved for everything else."
  },
  {
   "property": "C06",
   "status": "proved",
   "theorems": [
    "C06_type_names_identify",
    "C06_type_names_nonempty"
   ],
   "note": ""
  },
  {
   "property": "C07",
   "status": "proved",
   "theorems": [
    "C07_counts"
   ],
   "note": ""
  },
  {
   "property": "C08",
   "status": "proved",
   "theorems": [
    "C08_strict_scalars",
    "C08_strict_vectors",
    "C08_strict_matrices_nested"
   ],
   "note": ""
  },
  {
   "property": "C09",
   "status": "partial",
   "theorems": [
    "C09_in_range_partial",
    "C09_out_of_range_partial",
    "C09_value_double",
    "C09_int_wrong_number_refuted",
    "C09_uint_wrong_number_refuted",
    "C09_subnormal_refuted",
    "C09_undefined_refuted"
   ],
   "note": "False as stated (long narrowing, out-of-range real cast, subnormals read as 0). The two partial theorems give the outcome in every case without subnormal doubles."
  },
  {
   "property": "C10",
   "status": "proved",
   "theorems": [
    "C10_get_number",
    "C10_get_complex_number"
   ],
   "note": ""
  },
  {
   "property": "C11",
   "status": "proved",
   "theorems": [
    "C11_is_integer"
   ],
   "note": ""
  },
  {
   "property": "C12",
   "status": "partial",
   "theorems": [
    "C12_in_range_partial",
    "C12_no_elements_partial",
    "C12_out_of_bounds_refuted"
   ],
   "note": "False as stated: indices are not checked; in-range behaviour proved."
  },
  {
   "property": "C13",
   "status": "proved",
   "theorems": [
    "C13_insert_lookup"
   ],
   "note": "Keys without embedded NUL bytes."
  },
  {
   "property": "C14",
   "status": "proved",
   "theorems": [
    "C14_erase"
   ],
   "note": ""
  },
  {
   "property": "C15",
   "status": "partial",
   "theorems": [
    "C15_const_lookup_effect",
    "C15_const_lookup_refuted",
    "C15_const_erase_refuted",
    "C15_const_push_refuted",
    "C15_const_lookup_iff_partial"
   ],
   "note": "False as stated: const operator[](key) inserts a missing key and const erase removes one. Exact condition for the lookup is proved."
  },
  {
   "property": "C16",
   "status": "proved",
   "theorems": [
    "C16_must_exists",
    "C16_reads_through",
    "C16_get_map_single",
    "C16_exists",
    "C16_map_bool_any_key"
   ],
   "note": "exists and get_map_T(key): keys without embedded NUL bytes; C16_map_bool_any_key for any key."
  },
  {
   "property": "C17",
   "status": "partial",
   "theorems": [
    "C17_bool_string",
    "C17_real_complex",
    "C17_integers_partial",
    "C17_missing",
    "C17_lossy_refuted"
   ],
   "note": "Integer versions inherit the narrowing of get_as_*: false for out-of-range numbers, proved in range."
  },
  {
   "property": "C18",
   "status": "partial",
   "theorems": [
    "C18_alternatives",
    "C18_bool_never_succeeds_refuted",
    "C18_bool_refuted"
   ],
   "note": "The bool overload has its type test inverted and never succeeds; every other overload is proved."
  },
  {
   "property": "C19",
   "status": "partial",
   "theorems": [
    "C19_index_grows",
    "C19_last_index_refuted",
    "C19_other_type_discarded"
   ],
   "note": "Index 2^32-1 wraps the new size to 0; proved below that."
  },
  {
   "property": "C20",
   "status": "proved",
   "theorems": [
    "C20_checked_index",
    "C20_checked_index_ref",
    "C20_checked_key_ref"
   ],
   "note": "Keys without embedded NUL bytes."
  },
  {
   "property": "C21",
   "status": "proved",
   "theorems": [
    "C21_write_read",
    "C21_frame",
    "C21_key_list"
   ],
   "note": "Keys without embedded NUL bytes, indices below 2^32-1."
  },
  {
   "property": "C22",
   "status": "partial",
   "theorems": [
    "C22_push_numbers",
    "C22_push_string_partial",
    "C22_push_on_empty_refuted"
   ],
   "note": "False as stated for an empty (NOTYPE) container, which ends up with an extra leading element; exact result proved for every other container with fewer than 2^32-1 elements."
  },
  {
   "property": "C23",
   "status": "proved",
   "theorems": [
    "C23_failing_push_unchanged"
   ],
   "note": "Containers with fewer than 2^32 elements."
  },
  {
   "property": "C24",
   "status": "partial",
   "theorems": [
    "C24_scalar_promotions",
    "C24_vec_promotions",
    "C24_promote_to_complex_partial",
    "C24_promote_to_complex_refuted",
    "C24_empty_becomes_zero"
   ],
   "note": "promote_to_complex of a typed vector yields VEC_COMPLEX instead of COMPLEX or an error; everything else proved for containers with fewer than 2^32 elements."
  },
  {
   "property": "C25",
   "status": "partial",
   "theorems": [
    "C25_matrix_promotions_partial",
    "C25_mat_long_partial",
    "C25_wrong_member_refuted",
    "C25_mat_long_of_bools_refuted"
   ],
   "note": "promote_to_mat_int / promote_to_mat_complex of typed vectors write through the wrong union member (undefined) and promote_to_mat_long of VEC_BOOL yields MAT_REAL; every other case proved."
  },
  {
   "property": "C26",
   "status": "partial",
   "theorems": [
    "C26_vectors_partial",
    "C26_scalars_refuted"
   ],
   "note": "For scalars the code reads the scalar after the union has been overwritten by the new vector (undefined); typed and generic vectors proved."
  },
  {
   "property": "C27",
   "status": "proved",
   "theorems": [
    "C27_failing_promotion_unchanged"
   ],
   "note": "Containers with fewer than 2^32 elements."
  },
  {
   "property": "C28",
   "status": "partial",
   "theorems": [
    "C28_integers_partial",
    "C28_wrong_numbers_refuted",
    "C28_real_partial",
    "C28_complex",
    "C28_string",
    "C28_map"
   ],
   "note": "False for longs inside generic vectors, subnormals and out-of-range reals; every other case proved."
  },
  {
   "property": "C29",
   "status": "partial",
   "theorems": [
    "C29_copies_partial",
    "C29_columns_partial",
    "C29_columns_throw",
    "C29_refuted"
   ],
   "note": "Empty typed vectors/matrices are undefined, MAT_COMPLEX to complex throws, scalars give a 1x1 matrix; otherwise proved, including generic vectors as columns."
  },
  {
   "property": "C30",
   "status": "proved",
   "theorems": [
    "C30_read",
    "C30_write",
    "C30_distinct",
    "C30_column",
    "C30_row"
   ],
   "note": "Matrices with fewer than 2^32 entries."
  },
  {
   "property": "C31",
   "status": "partial",
   "theorems": [
    "C31_other_type",
    "C31_out_of_range_refuted",
    "C31_wraps_refuted",
    "C31_throws_iff_partial",
    "C31_checked_getters_partial",
    "C31_vector_getters"
   ],
   "note": "False as stated: only the flat position is checked, so a row index past the end reads another column. Exact condition proved."
  },
  {
   "property": "C37",
   "status": "partial",
   "theorems": [
    "C37_exact_partial",
    "C37_rounding_partial",
    "C37_general_partial",
    "C37_refuted"
   ],
   "note": "False as stated: [1,[2]] becomes a 1x2 matrix, and longs next to reals are rounded. Exact preservation (even when collapse throws) proved for trees without such mixed vectors and without vectors that merge reals with longs that are not doubles; the general theorem bounds the change for every tree without subnormals. Fewer than 2^31 values."
  },
  {
   "property": "C38",
   "status": "proved",
   "theorems": [
    "C38_idempotent"
   ],
   "note": ""
  },
  {
   "property": "C39",
   "status": "partial",
   "theorems": [
    "C39_never_fails_partial",
    "C39_refuted"
   ],
   "note": "False as stated: [\"a\",[1]] and [0.5,[1]] throw, [1e300,[1]] is undefined. Proved for parsed trees without such mixed vectors; C107 says exactly which trees fail."
  },
  {
   "property": "C32",
   "status": "partial",
   "theorems": [
    "C32_huge_refuted",
    "C32_mem_size_partial",
    "C32_mem_size_value",
    "C32_refuted",
    "C32_empty_string_refuted"
   ],
   "note": "False for MAT_COMPLEX (serialize falls through into VEC_STRING) and, by the letter of the standard, for empty strings (&front()). Proved for everything else; mem_size alone is right for every value. serialize(vector) takes a vector of 2^31 bytes or more as one of negative size (C32_huge_refuted)."
  },
  {
   "property": "C33",
   "status": "partial",
   "theorems": [
    "C33_bounded_partial",
    "C33_refuted",
    "C32_refuted"
   ],
   "note": "False for MAT_COMPLEX, for a string of 2^31-1 characters and for a negative declared length. Proved for everything else."
  },
  {
   "property": "C34",
   "status": "partial",
   "theorems": [
    "C34_vectors_partial",
    "C34_round_trip_partial",
    "C34_refuted",
    "C32_refuted"
   ],
   "note": "False for pointers, MAT_COMPLEX and strings or keys with embedded zero bytes. Proved for everything else."
  },
  {
   "property": "C35",
   "status": "proved",
   "theorems": [
    "C35_injective"
   ],
   "note": "Strings shorter than 2^31-1 characters, buffers below 2^31 bytes."
  },
  {
   "property": "C36",
   "status": "partial",
   "theorems": [
    "C36_count_partial",
    "C36_refuted",
    "C34_round_trip_partial"
   ],
   "note": "False: the checks come after the reads, and hostile lengths recurse for ever. Proved: a returned count is within the declared length, and valid encodings followed by anything are read inside the buffer."
  },
  {
   "property": "C40",
   "status": "partial",
   "theorems": [
    "C40_report_partial",
    "C40_terminates_partial",
    "C40_refuted"
   ],
   "note": "False: comparing two equal non-empty typed vectors loops for ever, and -0 equals 0. Proved for values without typed vectors and negative zeros."
  },
  {
   "property": "C41",
   "status": "proved",
   "theorems": [
    "C41_round_trip",
    "C41_injective",
    "C41_one_line"
   ],
   "note": "Every byte string, whatever follows the quoted text."
  },
  {
   "property": "C42",
   "status": "partial",
   "theorems": [
    "C42_result",
    "C42_partial",
    "C42_eol_delims",
    "C42_splits_unique",
    "C42_refuted"
   ],
   "note": "False when the last token starts with a newline or carriage return: it is dropped. C42_result describes the result for every input."
  },
  {
   "property": "C43",
   "status": "partial",
   "theorems": [
    "C43_incomplete",
    "C43_round_trip_partial",
    "C43_matrix_partial",
    "C43_refuted"
   ],
   "note": "False when the precision of the stream (6 by default) cannot represent a cell. Proved for cells with at most P significant digits, and for all finite doubles when P is at least 17. Fewer than 2^32 rows."
  },
  {
   "property": "C44",
   "status": "partial",
   "theorems": [
    "C44_lines_partial",
    "C44_last_line",
    "C44_ends",
    "C44_refuted",
    "C44_header_refuted"
   ],
   "note": "False at the end of the text: one extra empty line, an unterminated last line is returned twice, and an unterminated comment can become the header. The theorems describe every text."
  },
  {
   "property": "C54",
   "status": "proved",
   "theorems": [
    "C54_reading",
    "C54_total"
   ],
   "note": "A line here is one returned by get_line_and_skip_comments, which C44 describes."
  },
  {
   "property": "C55",
   "status": "partial",
   "theorems": [
    "C55_partial",
    "C55_refuted"
   ],
   "note": "False: set_vec_real() and set_vector() keep the old content, so rows accumulate. Proved when the container has no \"data\" before."
  },
  {
   "property": "C50",
   "status": "partial",
   "theorems": [
    "C50_chain_partial",
    "C50_paths_partial",
    "C50_set_get",
    "C50_fill_refuted",
    "C50_iterator_refuted"
   ],
   "note": "False as stated: GC_fill_for_test with the cursor inside the container, and GC_get_next_key after the map was replaced, follow freed memory. Proved for every history without these two calls, and, with them, for every history where they are used while the map is intact and the cursor at the root. Also the root can be popped."
  },
  {
   "property": "C51",
   "status": "proved",
   "theorems": [
    "C51_distinct",
    "C51_independent",
    "C51_reselect"
   ],
   "note": "Names as C strings. Deleting a name and creating it again gives a new container; the old one is leaked and stays active."
  },
  {
   "property": "C52",
   "status": "partial",
   "theorems": [
    "C52_status_partial",
    "C52_popped",
    "C52_scalar_getters",
    "C52_refuted"
   ],
   "note": "False: the getters and GC_set_vector_of_* are not inside GC_TRY. Proved for all other functions; the scalar getters throw exactly on a container of another type, and all of these when every position has been popped. bad_alloc is not modelled."
  },
  {
   "property": "C53",
   "status": "proved",
   "theorems": [
    "C53_iteration",
    "C53_keys"
   ],
   "note": "Keys as C strings; an empty key looks like the end. Also with other calls in between that leave the map in place."
  },
  {
   "property": "C45",
   "status": "partial",
   "theorems": [
    "C45_literal",
    "C45_document_partial",
    "C45_general_partial",
    "C45_refuted"
   ],
   "note": "False: literals in [2^31, 2^32) wrap to negative ints and literals from 2^63 on to negative longs. Proved: C45_literal gives the stored number for every literal; exact for literals outside these ranges, alone, and at every place of a document (with collapse) where no array holds reals and integers that are not doubles."
  },
  {
   "property": "C46",
   "status": "partial",
   "theorems": [
    "C46_decode_iff",
    "C46_partial",
    "C46_flat",
    "C46_again",
    "C46_wrapper",
    "C46_wrapper_error",
    "C46_refuted"
   ],
   "note": "False: old vector elements and map entries show through. C46_decode_iff says exactly when; reading the same document again and JSON_to_GC are fine."
  },
  {
   "property": "C56",
   "status": "proved",
   "theorems": [
    "C56_sized_vectors",
    "C56_default_size",
    "C56_sized_matrices"
   ],
   "note": "Matrices with fewer than 2^32 elements."
  },
  {
   "property": "C57",
   "status": "proved",
   "theorems": [
    "C57_keys",
    "C57_keys_string"
   ],
   "note": ""
  },
  {
   "property": "C58",
   "status": "proved",
   "theorems": [
    "C58_free_pointer"
   ],
   "note": ""
  },
  {
   "property": "C59",
   "status": "partial",
   "theorems": [
    "C59_steps",
    "C59_tree_partial",
    "C59_document_partial",
    "C59_general_partial",
    "C59_nested_refuted",
    "C59_escape_refuted",
    "C59_number_refuted",
    "C59_integer_refuted"
   ],
   "note": "False: an array inside an array is flattened, the escapes \\/ and \\uXXXX are kept as written, a number at the end of the text is dropped, integers beyond 64 bits become the nearest 64-bit one. Proved for all other documents with different member names (C59_tree_partial before collapse; with collapse under the conditions of C37)."
  },
  {
   "property": "C60",
   "status": "proved",
   "theorems": [
    "C60_any_text",
    "C60_outcome"
   ],
   "note": "About the lexer, the LALR automaton with its tables and the actions; what follows is collapse (C37 to C39)."
  },
  {
   "property": "C61",
   "status": "partial",
   "theorems": [
    "C61_taken_partial",
    "C61_empty_refuted",
    "C61_rest_refuted"
   ],
   "note": "False: empty text, text after a document and loose numbers and strings are accepted. C61_taken_partial says exactly which texts are."
  },
  {
   "property": "C47",
   "status": "partial",
   "theorems": [
    "C47_valid_partial",
    "C47_data_partial",
    "C47_empty_refuted",
    "C47_name_refuted",
    "C47_number_refuted",
    "C47_string_refuted",
    "C47_data_refuted",
    "C47_hex_refuted"
   ],
   "note": "False: empty vectors, maps and matrices, names with quotes or backslashes, control characters, infinities, pointers (which also make later integers hexadecimal) and complex matrices are not written as JSON; complex numbers become strings and reals are rounded to the precision of the stream. Proved for all other containers of any depth, for any indentation and precision."
  },
  {
   "property": "C62",
   "status": "partial",
   "theorems": [
    "C62_json2_partial",
    "C62_json_partial",
    "C62_text_partial",
    "C62_matrix_refuted",
    "C62_range_refuted",
    "C62_text_refuted"
   ],
   "note": "False for what C47, C45 and C59 exclude, and for some reals because rapidjson does not read every number to the nearest double (C99): 0.41192923963093764 comes back as its neighbour. C62_text_partial is about the text itself, read by the model of rapidjson: up to 15 digits, reals zero or from 1e-7 to 1e22. C62_json_partial is about the document of the text, for up to 18 digits and all finite reals."
  },
  {
   "property": "C63",
   "status": "partial",
   "theorems": [
    "C63_setters_partial",
    "C63_kept",
    "C63_set_vector",
    "C63_set_map",
    "C63_push",
    "C63_empty_refuted"
   ],
   "note": "False: GC_set_empty_vector_of_* and GC_set_vector_of_*(a,0) over a vector of the same type report success and keep the old elements (C63_kept). Proved in all other cases. On the machine with values and paths, which C50 relates to the pointers; lengths below 2^31."
  },
  {
   "property": "C64",
   "status": "partial",
   "theorems": [
    "C64_getters_partial",
    "C64_changes_refuted"
   ],
   "note": "False on containers of another type, which reading can change. Proved for every getter on its own type with the index in range."
  },
  {
   "property": "C65",
   "status": "partial",
   "theorems": [
    "C65_reading_partial",
    "C65_no_parameters",
    "C65_total",
    "C65_last_line_refuted",
    "C65_names_refuted",
    "C65_again_refuted",
    "C65_header_refuted"
   ],
   "note": "False: a last line without newline becomes two rows, columns of the same name are mixed, columns of an older table grow, and an unterminated comment can become the header. Proved for every text with that reading of the last line, different header names and no old table."
  },
  {
   "property": "C48",
   "status": "partial",
   "theorems": [
    "C48_yaml_integer",
    "C48_yaml_array",
    "C48_yaml_document_partial",
    "C48_yaml_general_partial",
    "C48_toml_integer",
    "C48_toml_array",
    "C48_toml_document_partial",
    "C48_refuted"
   ],
   "note": "False: TOML arrays of integers are cut to 32 bits (C48_toml_array: kept exactly when all fit), and collapse rounds integers next to reals. Proved for YAML integers, alone and in arrays, for TOML integers alone, and for whole documents under the conditions of C37. From the trees of fkyaml and toml++ on; fewer than 2^31 values."
  },
  {
   "property": "C66",
   "status": "partial",
   "theorems": [
    "C66_partial",
    "C66_wrappers",
    "C66_refuted",
    "C66_appends"
   ],
   "note": "False: old vector elements and map entries show through and TOML arrays append. Proved when the container is not a VECTOR or MAP, for scalar documents, and for YAML_to_GC and TOML_to_GC, which clear first."
  },
  {
   "property": "C67",
   "status": "proved",
   "theorems": [
    "C67_non_string_key",
    "C67_string_keys",
    "C67_parse_error"
   ],
   "note": "Fewer than 2^32 elements in each sequence."
  },
  {
   "property": "C49",
   "status": "partial",
   "theorems": [
    "C49_one_value_partial",
    "C49_room_refuted",
    "C49_depth_refuted",
    "C49_describes_partial",
    "C49_data_partial",
    "C49_global_partial",
    "C49_shows_vector",
    "C49_vec_bool_refuted",
    "C49_map_vec_bool_refuted",
    "C49_nested_vec_bool_refuted",
    "C49_unsupported_refuted",
    "C49_long_refuted"
   ],
   "note": "Exactly one value is pushed, at any depth, when no VEC_BOOL occurs and the stack has room; the number of slots needed is given exactly. The value shows the data when there are also no pointers, complex numbers, matrices, zero characters and inexact longs. False otherwise: VEC_BOOL pushes two values (Lua error inside a map), unsupported kinds become nil, longs are rounded, and nothing checks the room on the Lua stack (20 slots)."
  },
  {
   "property": "C68",
   "status": "partial",
   "theorems": [
    "C68_partial",
    "C68_replaces",
    "C68_nil",
    "C68_function",
    "C68_any_order",
    "C68_bool_refuted",
    "C68_table_refuted",
    "C68_mixed_keys_refuted",
    "C68_empty_refuted",
    "C68_integer_refuted",
    "C68_infinity_refuted",
    "C68_stack_refuted"
   ],
   "note": "Proved for nonempty tables with string keys (any order) or keys 1..n in order, numbers exact as doubles and within 64 bits, and list elements in an order given exactly (a boolean only after booleans; a table first, or after a table, or after a string and something else). False otherwise: a boolean after other elements throws, a table after other elements erases them, mixed keys lose the list part, empty tables become null, integers above 2^53 are rounded, large numbers are undefined; the stack is emptied after a table."
  },
  {
   "property": "C69",
   "status": "partial",
   "theorems": [
    "C69_partial",
    "C69_refuted",
    "C69_kind_refuted"
   ],
   "note": "Proved under the conditions of C49 and C68 stated on the container: no nulls, nothing empty, no VEC_BOOL, complex, matrix or pointer, elements in an order that can be read, and room on the stack."
  },
  {
   "property": "C70",
   "status": "partial",
   "theorems": [
    "C70_store_partial",
    "C70_scalars",
    "C70_last_index_refuted"
   ],
   "note": "False for scalars of another type (undefined, see C26) and at index 2^32-1, where the size wraps to 0. Proved for every other container with fewer than 2^32 elements."
  },
  {
   "property": "C71",
   "status": "partial",
   "theorems": [
    "C71_map",
    "C71_read_partial",
    "C71_scalars",
    "C71_vectors",
    "C71_matrices_partial",
    "C71_wiped_refuted",
    "C71_past_end_refuted",
    "C71_empty_refuted",
    "C71_matrices_refuted"
   ],
   "note": "False: reading an element of a VECTOR, or of a typed vector of another type, replaces it by zero; reading past the end grows the vector; scalar getters on an empty container show uninitialised memory; get_mat_int and get_mat_complex of vectors are undefined and get_mat_long of VEC_BOOL throws after changing the container. Proved for all other cases (fewer than 2^32 elements)."
  },
  {
   "property": "C72",
   "status": "partial",
   "theorems": [
    "C72_entry_partial",
    "C72_other_types",
    "C72_empty_refuted",
    "C72_row_refuted"
   ],
   "note": "False: on an empty container every call throws and leaves an i times j matrix, only the flat position is checked, and int/complex versions are undefined on vectors. Proved for entries inside the shape."
  },
  {
   "property": "C73",
   "status": "partial",
   "theorems": [
    "C73_form_partial",
    "C73_data_partial",
    "C73_written_iff",
    "C73_table_iff",
    "C73_matrices",
    "C73_same_tree_refuted"
   ],
   "note": "False: an empty container anywhere is a null dereference, a root that is not a map or matrix gives no table, pointers and complex numbers are written as strings and pairs, real and complex matrices are labelled as matrices of longs. Proved exactly for the rest; the tree exists if and only if nothing in it is empty. The text itself is written by toml++, which is not modelled."
  },
  {
   "property": "C74",
   "status": "partial",
   "theorems": [
    "C74_round_trip_partial",
    "C74_refuted",
    "C74_matrix_refuted"
   ],
   "note": "Proved for maps without empty containers, pointers, complex numbers and matrices, with 32-bit numbers in vectors of integers, no long next to a real unless it is exactly a double, no vector that mixes scalars and one-element vectors, and total size below 2^31. False otherwise (vectors of longs are cut to 32 bits)."
  },
  {
   "property": "C75",
   "status": "partial",
   "theorems": [
    "C75_valid_partial",
    "C75_data_partial",
    "C75_alike_refuted",
    "C75_text_refuted",
    "C75_complex"
   ],
   "note": "The text is in a part of YAML 1.2 (block sequences and mappings with plain keys, JSON values on one line) and its tree describes the container, at any depth and indentation, when there are no pointers, complex numbers, infinities, NaNs and empty vectors, maps and matrices, and keys need no quotes; the data are equal when the stream precision suffices for the reals. False otherwise: empty containers are written as null or as an unopened bracket, keys are not quoted, integers after a pointer are written in hexadecimal."
  },
  {
   "property": "C76",
   "status": "partial",
   "theorems": [
    "C76_round_trip_partial",
    "C76_alike_refuted"
   ],
   "note": "Proved under the conditions of C75 with precision up to 18, longs that are exactly doubles, no vector that mixes scalars and one-element vectors, total size below 2^30, into a container that is not a VECTOR or MAP. False otherwise: for no reader whatever. fkYAML is taken to return the tree the grammar gives."
  },
  {
   "property": "C77",
   "status": "partial",
   "theorems": [
    "C77_read_partial",
    "C77_kinds",
    "C77_unsigned_refuted",
    "C77_unsigned64_refuted",
    "C77_dropped_refuted",
    "C77_shape_refuted",
    "C77_sparse_logical_refuted"
   ],
   "note": "Proved at any depth for arrays of at most two dimensions with fewer than 2^32 elements, rows of logicals, rows or columns of cells, signed numbers (and unsigned ones that fit), complex integers that are exactly doubles, text without zero characters. False otherwise: uint32 from 2^31 and uint64 from 2^63 on come back negative, arrays of numbers with three dimensions and other classes are dropped without an error, logical and cell matrices lose their shape and sparse arrays their number of rows, sparse logical arrays are read through a null pointer. From the values the MATLAB library shows on."
  },
  {
   "property": "C78",
   "status": "partial",
   "theorems": [
    "C78_written",
    "C78_class",
    "C78_data_partial",
    "C78_alike_refuted",
    "C78_empty_map_refuted"
   ],
   "note": "Proved for containers without empty maps, zero characters, pointers, containers without a type, vectors of numbers with one element and matrices with one row (fewer than 2^32 elements, 2^31 map entries). False otherwise: an empty map is undefined behaviour, the others are written like something else. Field names that are not MATLAB identifiers are taken to be accepted."
  },
  {
   "property": "C79",
   "status": "partial",
   "theorems": [
    "C79_exact",
    "C79_data_partial",
    "C79_twice",
    "C79_alike_refuted"
   ],
   "note": "What comes back is given exactly for every container without empty maps and zero characters; it has the same data under the conditions of C78, and after the first trip nothing more is lost."
  },
  {
   "property": "C80",
   "status": "partial",
   "theorems": [
    "C80_class",
    "C80_scalars",
    "C80_vectors",
    "C80_matrices",
    "C80_orientation_refuted"
   ],
   "note": "Proved for scalars (int32 comes back as a 64-bit integer), strings, vectors of strings and of booleans, and matrices with more than one row. False for vectors of numbers: they become columns and come back as matrices with one column."
  },
  {
   "property": "C81",
   "status": "partial",
   "theorems": [
    "C81_exact_partial",
    "C81_walk",
    "C81_scalars_partial",
    "C81_vectors_partial",
    "C81_pointer_refuted",
    "C81_alike_refuted",
    "C81_indent_refuted"
   ],
   "note": "The text is given exactly, and every scalar has its line, for containers without pointers whose vectors and matrices have fewer than 2^32 elements. False otherwise: after a pointer all numbers are hexadecimal, an empty vector of pointers has no line, the indentation asked for is used for the first level only, and strings are printed without escapes so that different containers can be printed alike."
  },
  {
   "property": "C82",
   "status": "partial",
   "theorems": [
    "C82_prefix_partial",
    "C82_types_partial",
    "C82_dump_refuted",
    "C82_types_refuted"
   ],
   "note": "Proved without matrices, pointers (for dump), line ends in strings and keys, and ## headers; for print_content_types without vectors at the top and vectors of strings. False otherwise: these are printed without the prefix."
  },
  {
   "property": "C83",
   "status": "proved",
   "theorems": [
    "C83_no_data",
    "C83_exact",
    "C83_every"
   ],
   "note": "For all containers. Types of matrices and of vectors of strings are on the line after the key, without the prefix (see C82)."
  },
  {
   "property": "C84",
   "status": "proved",
   "theorems": [
    "C84_unique",
    "C84_title",
    "C84_plain",
    "C84_header",
    "C84_recognised"
   ],
   "note": "For all keys. std::regex_match is taken to implement the regular expression (no limit on the length of the key)."
  },
  {
   "property": "C85",
   "status": "partial",
   "theorems": [
    "C85_vector_partial",
    "C85_matrix_partial",
    "C85_wide",
    "C85_cells",
    "C85_header_refuted",
    "C85_number_refuted",
    "C85_read_back_refuted",
    "C85_no_data_refuted",
    "C85_missing_column_refuted"
   ],
   "note": "Proved when headers have at most 20 characters and the printed numbers fit; the latter holds for all numbers when a header has at least precision+7 characters. False otherwise (lines longer than the rule); undefined without data or with fewer columns than headers. Splitting the lines at blanks gives the cells in any case."
  },
  {
   "property": "C86",
   "status": "partial",
   "theorems": [
    "C86_new",
    "C86_load_partial",
    "C86_append_refuted",
    "C86_merge_refuted",
    "C86_text_refuted",
    "C86_nil_refuted"
   ],
   "note": "Proved for values of 32-bit integers, strings without NUL and Hashes with distinct keys, into an object whose content they replace (a new object always). False otherwise: an Array over a vector of the same type is appended, a Hash over a map is merged, nil changes nothing, and an Array of a text followed by a number raises."
  },
  {
   "property": "C87",
   "status": "partial",
   "theorems": [
    "C87_read_partial",
    "C87_same_data",
    "C87_map_refuted",
    "C87_nil_refuted"
   ],
   "note": "Proved for containers without a map; the value has the data of the container for the types listed in faithful. False otherwise: with a map anywhere get_data never ends, and complex numbers, pointers, vectors of long and integer matrices are given as nil."
  },
  {
   "property": "C88",
   "status": "partial",
   "theorems": [
    "C88_round_trip_partial",
    "C88_hash_refuted",
    "C88_kind_refuted"
   ],
   "note": "Proved for values without a Hash, under the conditions of C86. With a Hash anywhere get_data never ends; booleans come back as integers and Symbols as Strings (same data, other class)."
  },
  {
   "property": "C89",
   "status": "partial",
   "theorems": [
    "C89_back_partial",
    "C89_others",
    "C89_failed_refuted"
   ],
   "note": "Other objects are untouched after any history, and a load that succeeds, of any value, leaves the cursor at the root. False after a load that raised: the next load and get_data act at the place where it stopped."
  },
  {
   "property": "C90",
   "status": "proved",
   "theorems": [
    "C90_int",
    "C90_long",
    "C90_real",
    "C90_complex",
    "C90_pointer",
    "C90_outside"
   ],
   "note": "For matrices whose number of entries is below 2^32 and not 0 (there is nothing to point at in an empty matrix: the code takes the address of its first element, which is undefined)."
  },
  {
   "property": "C91",
   "status": "proved",
   "theorems": [
    "C91_tells",
    "C91_line",
    "C91_one_line"
   ],
   "note": "For all containers. Matrices of all four types are reported alike, as matrix with their sizes; a string is shown as it is, so the text has more lines if the string has."
  },
  {
   "property": "C92",
   "status": "proved",
   "theorems": [
    "C92_json",
    "C92_yaml"
   ],
   "note": "YAML: keys are strings (other keys make the reader fail, C67) and sequences have fewer than 2^32 elements. With members of the same name the last one wins, so the order matters there."
  },
  {
   "property": "C93",
   "status": "partial",
   "theorems": [
    "C93_other_part_partial",
    "C93_self_partial",
    "C93_self_refuted",
    "C93_into_itself_refuted",
    "C93_part_value_partial",
    "C93_part_refuted",
    "C93_part_kind_refuted",
    "C93_part_map_partial",
    "C93_part_vector_refuted",
    "C93_key_refuted"
   ],
   "note": "Proved for parts outside each other, for self-assignment without complex numbers, and for a part that is empty, a boolean, a real number, a pointer, or a map in a map without the key leading to it. False otherwise: a complex number assigned to itself and a string, typed vector, matrix or complex number assigned to a container around it are read after they were freed; storing a container in a part of itself never ends; a vector in a vector is destroyed by the resize when it is longer than the vector around it or too short to keep the element it is in; a map with a NUL byte in a key gains a key. Missing: the exact outcome for a vector in a vector of the remaining lengths, and for a map that has the key leading to it."
  },
  {
   "property": "C94",
   "status": "partial",
   "theorems": [
    "C94_merge_partial",
    "C94_self_partial",
    "C94_into_itself_refuted",
    "C94_part_refuted",
    "C94_errors"
   ],
   "note": "Proved for parts outside each other, for a map in a map without the key leading to it, and with itself without complex numbers. False otherwise: a map merged into a part of itself never ends."
  },
  {
   "property": "C95",
   "status": "proved",
   "theorems": [
    "C95_pointer",
    "C95_distinct",
    "C95_json_mode",
    "C95_yaml_mode",
    "C95_dump_mode",
    "C95_integers",
    "C95_json_vector"
   ],
   "note": "For 64-bit addresses, printed the way libstdc++ does."
  },
  {
   "property": "C96",
   "status": "proved",
   "theorems": [
    "C96_nothing_selected",
    "C96_selected",
    "C96_codes"
   ],
   "note": ""
  },
  {
   "property": "C97",
   "status": "partial",
   "theorems": [
    "C97_test_data_partial",
    "C97_again_refuted"
   ],
   "note": "The scalars, the sizes and the matrix entries set are as stated after any history. False for the rest: old elements of the vectors of strings, integers and complex numbers are kept and the new ones added behind them, so calling it twice gives other data."
  },
  {
   "property": "C98",
   "status": "partial",
   "theorems": [
    "C98_wrapper",
    "C98_exact_partial",
    "C98_accepted_partial",
    "C98_only_partial",
    "C98_refused",
    "C98_zero_refuted",
    "C98_bytes_refuted",
    "C98_nul_refuted"
   ],
   "note": "False: zero with an exponent from 309 on is refused; bytes that are no UTF-8 and anything after a NUL byte are accepted. Proved: nothing else is accepted; UTF-8 texts without NUL that are no JSON text are refused; texts with numbers up to 10^308 of at most 308 digits before the point are accepted with the right document and error bounds on the numbers; exact for 64-bit integers and for m*10^p, m < 2^53, |p| <= 22."
  },
  {
   "property": "C99",
   "status": "partial",
   "theorems": [
    "C99_exact_partial",
    "C99_error_partial",
    "C99_zero_partial",
    "C99_refuted"
   ],
   "note": "False: 1e-23 is read as a neighbour of the nearest double. Proved: the nearest for m*10^p with m < 2^53 and |p| <= 22; otherwise, from 10^-307 to 10^308, a relative error of at most k/(2^52-k), k = 10 or twice the number of digits before the point."
  },
  {
   "property": "C100",
   "status": "partial",
   "theorems": [
    "C100_exact_partial",
    "C100_whole_partial",
    "C100_refuted",
    "C100_bool_refuted"
   ],
   "note": "False: all functions but erase read the memory behind the view up to the next NUL byte (key.data()), so the member is not found, or another one is used. Proved: exactly which member is used, for every view; the property for views that are followed by a NUL."
  },
  {
   "property": "C101",
   "status": "partial",
   "theorems": [
    "C101_partial",
    "C101_no_function",
    "C101_incomplete",
    "C101_stack_refuted",
    "C101_exhausted_refuted"
   ],
   "note": "False for the stack: every failing call leaves a message on it, until there is no room for the next call (undefined behaviour). Proved for the data as far as C49 and C68 hold, and for the errors. What the function computes is a parameter."
  },
  {
   "property": "C102",
   "status": "partial",
   "theorems": [
    "C102",
    "C102_sound",
    "C102_complete",
    "C102_matrix_refuted"
   ],
   "note": "Proved as an equivalence for all statements of MOps.op; references to vectors and matrices are used to assign a whole value, which covers what their own functions do. False for the std::vector functions that mat_type inherits: get_mat_int().push_back(x) breaks the shape. The readers of all interfaces are among the statements (YAML and TOML from the tree of the parser on, Lua and MATLAB from the value on)."
  },
  {
   "property": "C103",
   "status": "partial",
   "theorems": [
    "C103_partial",
    "C103_refuted"
   ],
   "note": "False; the theorem gives exactly the undefined calls (an equivalence): promote_to_vector, push_string and get_T_at on a scalar that is not promoted first; promotion of a non-empty vector to a matrix of int or complex (also by get_mat_* and get_*_at(i,j)); the index 2^32-1 in operator[] and get_T_at. collapse, the readers of formats and push_back on a matrix are not among the statements."
  },
  {
   "property": "C104",
   "status": "partial",
   "theorems": [
    "C104_part",
    "C104_other_partial",
    "C104_refuted"
   ],
   "note": "The part itself: proved for all chains. The other parts: proved where a name in brackets is used on maps (or nothing) and an index in brackets on vectors of containers (or nothing). False otherwise: operator[] on a container of another kind throws its content away. Keys without NUL bytes, indices below 2^32-1."
  },
  {
   "property": "C105",
   "status": "partial",
   "theorems": [
    "C105_partial",
    "C105_refuted"
   ],
   "note": "False; the theorem says exactly when the container is unchanged (an equivalence). The exceptions: operator[] adds or replaces the part before the failing call; get_T_at(i,j) first turns nothing or a vector (and get_complex_at a real matrix) into a matrix; get_mat_long turns a vector of bool into a real matrix. For vectors of fewer than 2^32 elements; collapse and the readers are not among the statements."
  },
  {
   "property": "C106",
   "status": "proved",
   "theorems": [
    "C106_order",
    "C106_conditions"
   ],
   "note": "Keys without NUL bytes, indices below 2^32-1. C106_conditions: the order matters when a name and an index are used on the same container, or when operator() needs a part that the other call makes."
  },
  {
   "property": "C107",
   "status": "proved",
   "theorems": [
    "C107_exact",
    "C107_json_exact",
    "C107_throws"
   ],
   "note": "Fewer than 2^31 values; for the JSON reader also the conditions in the quantifier. Numbers below the smallest normal double pass the test for integers in the code, which the statement counts as convertible (SClash.whole)."
  },
  {
   "property": "C108",
   "status": "proved",
   "theorems": [
    "C108_projection",
    "C108_last_value"
   ],
   "note": "Keys without NUL bytes, indices below 2^32-1. The calls are the statements of MOps.op. C108_last_value is for clear, the set_ functions of scalars, of non-empty vectors of fewer than 2^32 elements (the empty one: C05) and of matrices."
  },
  {
   "property": "C109",
   "status": "proved",
   "theorems": [
    "C109_map",
    "C109_vector",
    "C109_member",
    "C109_again"
   ],
   "note": "C107 says which vectors fail."
  },
  {
   "property": "C110",
   "status": "proved",
   "theorems": [
    "C110_defined"
   ],
   "note": "C39_refuted has a container with a large double whose collapse is undefined; C107 gives the exact condition for data that readers produce."
  },
  {
   "property": "C111",
   "status": "partial",
   "theorems": [
    "C111_refuted",
    "C111_agree_partial"
   ],
   "note": "False for the code: the readers differ on arrays directly inside arrays, the escapes \\/ and \\u, a number that ends the text, integers from 2^31 to 2^32-1 and reals that rapidjson does not round correctly. Proved for all texts without those (reals: at most 2^53 times a power of ten up to 22), with 64-bit integers and different names in every object."
  },
  {
   "property": "C112",
   "status": "proved",
   "theorems": [
    "C112_bytes"
   ],
   "note": "The encoding has fewer than 2^31 bytes; fuel of de_serialize is the nesting depth. An empty string is written with &front(), which is harmless in practice (hard = false); by the letter of the standard (hard = true) there must be none, see C32_empty_string_refuted."
  },
  {
   "property": "C113",
   "status": "proved",
   "theorems": [
    "C113_defined"
   ],
   "note": "The parser is modelled as a total function on the text (MRapid); the undefined behaviour at stake is that of decode_json and collapse. C113_example has a text with a large real, [1e300,[1]], where from_json is undefined."
  },
  {
   "property": "C114",
   "status": "proved",
   "theorems": [
    "C114_type"
   ],
   "note": "STyped.type_after is the table of types, including the two exceptions; push_T and get_T_at(i) keep the type of a vector that can hold the element. Calls that throw are not covered (C103)."
  },
  {
   "property": "C115",
   "status": "proved",
   "theorems": [
    "C115_yaml",
    "C115_toml"
   ],
   "note": "From the trees of fkyaml and toml++ on, which are taken to hold 64-bit integers and doubles, and in a TOML table different names. C115_example has a YAML document with a large real where from_yaml is undefined."
  },
  {
   "property": "C116",
   "status": "proved",
   "theorems": [
    "C116_bytes"
   ],
   "note": "From the trees of fkyaml and toml++ on, which are taken to hold 64-bit integers and doubles. Empty strings as in C112. With a NUL byte in a string the bytes do not give it back (C34)."
  },
  {
   "property": "C117",
   "status": "partial",
   "theorems": [
    "C117_json_partial",
    "C117_yaml_partial",
    "C117_toml_refuted"
   ],
   "note": "False for TOML: arrays of integers, reals and strings are added behind the old ones. Proved for JSON texts and YAML trees (keys are strings, fewer than 2^32 elements in each sequence) with different names in every object. Missing: documents with a name given twice."
  },
  {
   "property": "C118",
   "status": "partial",
   "theorems": [
    "C118_strings",
    "C118_numbers_partial",
    "C118_complex_refuted",
    "C118_matrix",
    "C118_uneven",
    "C118_nested",
    "C118_table"
   ],
   "note": "False for a complex number among other numbers: collapse throws and leaves the vector (copyto_vec_complex reads the elements of a generic vector with get_complex). Everything else is proved; matrices have fewer than 2^32 elements. Elements that are generic vectors count with what collapse makes of them (C118_nested); C118_table is the case of a list of lists of integers."
  },
  {
   "property": "C119",
   "status": "proved",
   "theorems": [
    "C119_json_integers",
    "C119_json_table",
    "C119_json_strings",
    "C119_yaml_integers",
    "C119_yaml_table",
    "C119_yaml_strings",
    "C119_json_longs",
    "C119_yaml_longs",
    "C119_json_reals",
    "C119_yaml_reals",
    "C119_entry"
   ],
   "note": "Fewer than 2^31 rows and columns and 2^32 entries. Strings of a JSON text have no NUL character (C45), and its reals few digits and a small exponent (C98_exact_partial, C99). YAML from the tree of fkyaml on. The inner lists are the columns, so the rows of a table become columns of the matrix."
  },
  {
   "property": "C120",
   "status": "proved",
   "theorems": [
    "C120_json",
    "C120_json_fails",
    "C120_yaml",
    "C120_yaml_fails"
   ],
   "note": "Names of one object are different and, in JSON, have no NUL character (C45); keys of YAML maps are strings. JSON reals have few digits and a small exponent (C98_exact_partial, C99). YAML from the tree of fkyaml on."
  }
 ]
}