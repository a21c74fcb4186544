c("C01", "proved", "C01_copy_exact C01_copy_over_other_type C01_to_gc_is_from_gc",
  "Keys with embedded NUL bytes and vectors of 2^32 or more elements are excluded (value_ok).")
c("C02", "partial", "C02_assignment_replaces_refuted C02_empty_vector_assignment_ignored C02_assignment_replaces_iff_partial C02_clear_then_assign",
  "False as stated: map-over-map keeps old keys, empty vector over same-type vector is ignored. The iff theorem gives the exact condition under which the old content disappears.")
c("C03", "proved", "C03_assignment_effect C03_effect_unique", "Exact effect against an independent relational specification, which determines the result.")
c("C04", "proved", "C04_merge C04_merge_errors_change_nothing C04_merge_nothing", "")
c("C05", "partial", "C05_scalar_sets_forget C05_matrix_sets_forget C05_nonempty_vector_sets_forget_partial C05_empty_vector_set_refuted",
  "False for empty vectors (set_vec_T(empty) over a vector of the same type keeps the old elements); proved for everything else.")
c("C06", "proved", "C06_type_names_identify C06_type_names_nonempty", "")
c("C07", "proved", "C07_counts", "")
c("C08", "proved", "C08_strict_scalars C08_strict_vectors C08_strict_matrices_nested", "")
c("C09", "partial", "C09_in_range_partial C09_out_of_range_partial C09_value_double C09_int_wrong_number_refuted C09_uint_wrong_number_refuted C09_subnormal_refuted C09_undefined_refuted",
  "False as stated (long narrowing, out-of-range real cast, subnormals read as 0). The two partial theorems give the outcome in every case without subnormal doubles.")
c("C10", "proved", "C10_get_number C10_get_complex_number", "")
c("C11", "proved", "C11_is_integer", "")
c("C12", "partial", "C12_in_range_partial C12_no_elements_partial C12_out_of_bounds_refuted", "False as stated: indices are not checked; in-range behaviour proved.")
c("C13", "proved", "C13_insert_lookup", "Keys without embedded NUL bytes.")
c("C14", "proved", "C14_erase", "")
c("C15", "partial", "C15_const_lookup_effect C15_const_lookup_refuted C15_const_erase_refuted C15_const_push_refuted C15_const_lookup_iff_partial",
  "False as stated: const operator[](key) inserts a missing key and const erase removes one. Exact condition for the lookup is proved.")
c("C16", "proved", "C16_must_exists C16_reads_through C16_get_map_single C16_exists C16_map_bool_any_key", "exists and get_map_T(key): keys without embedded NUL bytes; C16_map_bool_any_key for any key.")
c("C17", "partial", "C17_bool_string C17_real_complex C17_integers_partial C17_missing C17_lossy_refuted",
  "Integer versions inherit the narrowing of get_as_*: false for out-of-range numbers, proved in range.")
c("C18", "partial", "C18_alternatives C18_bool_never_succeeds_refuted C18_bool_refuted", "The bool overload has its type test inverted and never succeeds; every other overload is proved.")
c("C19", "partial", "C19_index_grows C19_last_index_refuted C19_other_type_discarded", "Index 2^32-1 wraps the new size to 0; proved below that.")
c("C20", "proved", "C20_checked_index C20_checked_index_ref C20_checked_key_ref", "Keys without embedded NUL bytes.")
c("C21", "proved", "C21_write_read C21_frame C21_key_list", "Keys without embedded NUL bytes, indices below 2^32-1.")
c("C22", "partial", "C22_push_numbers C22_push_string_partial C22_push_on_empty_refuted",
  "False as stated for an empty (NOTYPE) container, which ends up with an extra leading element; exact result proved for every other container with fewer than 2^32-1 elements.")
c("C23", "proved", "C23_failing_push_unchanged", "Containers with fewer than 2^32 elements.")
c("C24", "partial", "C24_scalar_promotions C24_vec_promotions C24_promote_to_complex_partial C24_promote_to_complex_refuted C24_empty_becomes_zero",
  "promote_to_complex of a typed vector yields VEC_COMPLEX instead of COMPLEX or an error; everything else proved for containers with fewer than 2^32 elements.")
c("C25", "partial", "C25_matrix_promotions_partial C25_mat_long_partial C25_wrong_member_refuted C25_mat_long_of_bools_refuted",
  "promote_to_mat_int / promote_to_mat_complex of typed vectors write through the wrong union member (undefined) and promote_to_mat_long of VEC_BOOL yields MAT_REAL; every other case proved.")
c("C26", "partial", "C26_vectors_partial C26_scalars_refuted", "For scalars the code reads the scalar after the union has been overwritten by the new vector (undefined); typed and generic vectors proved.")
c("C27", "proved", "C27_failing_promotion_unchanged", "Containers with fewer than 2^32 elements.")
c("C28", "partial", "C28_integers_partial C28_wrong_numbers_refuted C28_real_partial C28_complex C28_string C28_map",
  "False for longs inside generic vectors, subnormals and out-of-range reals; every other case proved.")
c("C29", "partial", "C29_copies_partial C29_columns_partial C29_columns_throw C29_refuted",
  "Empty typed vectors/matrices are undefined, MAT_COMPLEX to complex throws, scalars give a 1x1 matrix; otherwise proved, including generic vectors as columns.")
c("C30", "proved", "C30_read C30_write C30_distinct C30_column C30_row", "Matrices with fewer than 2^32 entries.")
c("C31", "partial", "C31_other_type C31_out_of_range_refuted C31_wraps_refuted C31_throws_iff_partial C31_checked_getters_partial C31_vector_getters",
  "False as stated: only the flat position is checked, so a row index past the end reads another column. Exact condition proved.")
c("C37", "partial", "C37_exact_partial C37_rounding_partial C37_general_partial C37_refuted",
  "False as stated: [1,[2]] becomes a 1x2 matrix, and longs next to reals are rounded. Exact preservation (even when collapse throws) proved for trees without such mixed vectors and without vectors that merge reals with longs that are not doubles; the general theorem bounds the change for every tree without subnormals. Fewer than 2^31 values.")
c("C38", "proved", "C38_idempotent", "")
c("C39", "partial", "C39_never_fails_partial C39_refuted",
  "False as stated: [\"a\",[1]] and [0.5,[1]] throw, [1e300,[1]] is undefined. Proved for parsed trees without such mixed vectors; C107 says exactly which trees fail.")
c("C32", "partial", "C32_huge_refuted C32_mem_size_partial C32_mem_size_value C32_refuted C32_empty_string_refuted",
  "False for MAT_COMPLEX (serialize falls through into VEC_STRING) and, by the letter of the standard, for empty strings (&front()). Proved for everything else; mem_size alone is right for every value. serialize(vector) takes a vector of 2^31 bytes or more as one of negative size (C32_huge_refuted).")
c("C33", "partial", "C33_bounded_partial C33_refuted C32_refuted",
  "False for MAT_COMPLEX, for a string of 2^31-1 characters and for a negative declared length. Proved for everything else.")
c("C34", "partial", "C34_vectors_partial C34_round_trip_partial C34_refuted C32_refuted",
  "False for pointers, MAT_COMPLEX and strings or keys with embedded zero bytes. Proved for everything else.")
c("C35", "proved", "C35_injective", "Strings shorter than 2^31-1 characters, buffers below 2^31 bytes.")
c("C36", "partial", "C36_count_partial C36_refuted C34_round_trip_partial",
  "False: the checks come after the reads, and hostile lengths recurse for ever. Proved: a returned count is within the declared length, and valid encodings followed by anything are read inside the buffer.")
c("C40","partial","C40_report_partial C40_terminates_partial C40_refuted",
  "False: comparing two equal non-empty typed vectors loops for ever, and -0 equals 0. Proved for values without typed vectors and negative zeros.")
c("C41","proved","C41_round_trip C41_injective C41_one_line","Every byte string, whatever follows the quoted text.")
c("C42","partial","C42_result C42_partial C42_eol_delims C42_splits_unique C42_refuted",
  "False when the last token starts with a newline or carriage return: it is dropped. C42_result describes the result for every input.")
c("C43","partial","C43_incomplete C43_round_trip_partial C43_matrix_partial C43_refuted",
  "False when the precision of the stream (6 by default) cannot represent a cell. Proved for cells with at most P significant digits, and for all finite doubles when P is at least 17. Fewer than 2^32 rows.")
c("C44","partial","C44_lines_partial C44_last_line C44_ends C44_refuted C44_header_refuted",
  "False at the end of the text: one extra empty line, an unterminated last line is returned twice, and an unterminated comment can become the header. The theorems describe every text.")
c("C54","proved","C54_reading C54_total","A line here is one returned by get_line_and_skip_comments, which C44 describes.")
c("C55","partial","C55_partial C55_refuted","False: set_vec_real() and set_vector() keep the old content, so rows accumulate. Proved when the container has no \"data\" before.")
c("C50","partial","C50_chain_partial C50_paths_partial C50_set_get C50_fill_refuted C50_iterator_refuted",
  "False as stated: GC_fill_for_test with the cursor inside the container, and GC_get_next_key after the map was replaced, follow freed memory. Proved for every history without these two calls, and, with them, for every history where they are used while the map is intact and the cursor at the root. Also the root can be popped.")
c("C51","proved","C51_distinct C51_independent C51_reselect","Names as C strings. Deleting a name and creating it again gives a new container; the old one is leaked and stays active.")
c("C52","partial","C52_status_partial C52_popped C52_scalar_getters C52_refuted",
  "False: the getters and GC_set_vector_of_* are not inside GC_TRY. Proved for all other functions; the scalar getters throw exactly on a container of another type, and all of these when every position has been popped. bad_alloc is not modelled.")
c("C53","proved","C53_iteration C53_keys","Keys as C strings; an empty key looks like the end. Also with other calls in between that leave the map in place.")
c("C45","partial","C45_literal C45_document_partial C45_general_partial C45_refuted",
  "False: literals in [2^31, 2^32) wrap to negative ints and literals from 2^63 on to negative longs. Proved: C45_literal gives the stored number for every literal; exact for literals outside these ranges, alone, and at every place of a document (with collapse) where no array holds reals and integers that are not doubles.")
c("C46","partial","C46_decode_iff C46_partial C46_flat C46_again C46_wrapper C46_wrapper_error C46_refuted",
  "False: old vector elements and map entries show through. C46_decode_iff says exactly when; reading the same document again and JSON_to_GC are fine.")
c("C56","proved","C56_sized_vectors C56_default_size C56_sized_matrices","Matrices with fewer than 2^32 elements.")
c("C57","proved","C57_keys C57_keys_string","")
c("C58","proved","C58_free_pointer","")
c("C59","partial","C59_steps C59_tree_partial C59_document_partial C59_general_partial C59_nested_refuted C59_escape_refuted C59_number_refuted C59_integer_refuted",
  "False: an array inside an array is flattened, the escapes \\/ and \\uXXXX are kept as written, a number at the end of the text is dropped, integers beyond 64 bits become the nearest 64-bit one. Proved for all other documents with different member names (C59_tree_partial before collapse; with collapse under the conditions of C37).")
c("C60","proved","C60_any_text C60_outcome","About the lexer, the LALR automaton with its tables and the actions; what follows is collapse (C37 to C39).")
c("C61","partial","C61_taken_partial C61_empty_refuted C61_rest_refuted","False: empty text, text after a document and loose numbers and strings are accepted. C61_taken_partial says exactly which texts are.")
c("C47","partial","C47_valid_partial C47_data_partial C47_empty_refuted C47_name_refuted C47_number_refuted C47_string_refuted C47_data_refuted C47_hex_refuted",
  "False: empty vectors, maps and matrices, names with quotes or backslashes, control characters, infinities, pointers (which also make later integers hexadecimal) and complex matrices are not written as JSON; complex numbers become strings and reals are rounded to the precision of the stream. Proved for all other containers of any depth, for any indentation and precision.")
c("C62","partial","C62_json2_partial C62_json_partial C62_text_partial C62_matrix_refuted C62_range_refuted C62_text_refuted",
  "False for what C47, C45 and C59 exclude, and for some reals because rapidjson does not read every number to the nearest double (C99): 0.41192923963093764 comes back as its neighbour. C62_text_partial is about the text itself, read by the model of rapidjson: up to 15 digits, reals zero or from 1e-7 to 1e22. C62_json_partial is about the document of the text, for up to 18 digits and all finite reals.")
c("C63","partial","C63_setters_partial C63_kept C63_set_vector C63_set_map C63_push C63_empty_refuted",
  "False: GC_set_empty_vector_of_* and GC_set_vector_of_*(a,0) over a vector of the same type report success and keep the old elements (C63_kept). Proved in all other cases. On the machine with values and paths, which C50 relates to the pointers; lengths below 2^31.")
c("C64","partial","C64_getters_partial C64_changes_refuted",
  "False on containers of another type, which reading can change. Proved for every getter on its own type with the index in range.")
c("C65","partial","C65_reading_partial C65_no_parameters C65_total C65_last_line_refuted C65_names_refuted C65_again_refuted C65_header_refuted",
  "False: a last line without newline becomes two rows, columns of the same name are mixed, columns of an older table grow, and an unterminated comment can become the header. Proved for every text with that reading of the last line, different header names and no old table.")
c("C48","partial","C48_yaml_integer C48_yaml_array C48_yaml_document_partial C48_yaml_general_partial C48_toml_integer C48_toml_array C48_toml_document_partial C48_refuted",
  "False: TOML arrays of integers are cut to 32 bits (C48_toml_array: kept exactly when all fit), and collapse rounds integers next to reals. Proved for YAML integers, alone and in arrays, for TOML integers alone, and for whole documents under the conditions of C37. From the trees of fkyaml and toml++ on; fewer than 2^31 values.")
c("C66","partial","C66_partial C66_wrappers C66_refuted C66_appends",
  "False: old vector elements and map entries show through and TOML arrays append. Proved when the container is not a VECTOR or MAP, for scalar documents, and for YAML_to_GC and TOML_to_GC, which clear first.")
c("C67","proved","C67_non_string_key C67_string_keys C67_parse_error","Fewer than 2^32 elements in each sequence.")
c("C49", "partial",
  "C49_one_value_partial C49_room_refuted C49_depth_refuted C49_describes_partial C49_data_partial C49_global_partial C49_shows_vector C49_vec_bool_refuted C49_map_vec_bool_refuted C49_nested_vec_bool_refuted C49_unsupported_refuted C49_long_refuted",
  "Exactly one value is pushed, at any depth, when no VEC_BOOL occurs and the stack has room; the number of slots needed is given exactly. The value shows the data when there are also no pointers, complex numbers, matrices, zero characters and inexact longs. False otherwise: VEC_BOOL pushes two values (Lua error inside a map), unsupported kinds become nil, longs are rounded, and nothing checks the room on the Lua stack (20 slots).")
c("C68","partial","C68_partial C68_replaces C68_nil C68_function C68_any_order C68_bool_refuted C68_table_refuted C68_mixed_keys_refuted C68_empty_refuted C68_integer_refuted C68_infinity_refuted C68_stack_refuted",
  "Proved for nonempty tables with string keys (any order) or keys 1..n in order, numbers exact as doubles and within 64 bits, and list elements in an order given exactly (a boolean only after booleans; a table first, or after a table, or after a string and something else). False otherwise: a boolean after other elements throws, a table after other elements erases them, mixed keys lose the list part, empty tables become null, integers above 2^53 are rounded, large numbers are undefined; the stack is emptied after a table.")
c("C69","partial","C69_partial C69_refuted C69_kind_refuted",
  "Proved under the conditions of C49 and C68 stated on the container: no nulls, nothing empty, no VEC_BOOL, complex, matrix or pointer, elements in an order that can be read, and room on the stack.")
c("C70","partial","C70_store_partial C70_scalars C70_last_index_refuted",
  "False for scalars of another type (undefined, see C26) and at index 2^32-1, where the size wraps to 0. Proved for every other container with fewer than 2^32 elements.")
c("C71","partial","C71_map C71_read_partial C71_scalars C71_vectors C71_matrices_partial C71_wiped_refuted C71_past_end_refuted C71_empty_refuted C71_matrices_refuted",
  "False: reading an element of a VECTOR, or of a typed vector of another type, replaces it by zero; reading past the end grows the vector; scalar getters on an empty container show uninitialised memory; get_mat_int and get_mat_complex of vectors are undefined and get_mat_long of VEC_BOOL throws after changing the container. Proved for all other cases (fewer than 2^32 elements).")
c("C72","partial","C72_entry_partial C72_other_types C72_empty_refuted C72_row_refuted",
  "False: on an empty container every call throws and leaves an i times j matrix, only the flat position is checked, and int/complex versions are undefined on vectors. Proved for entries inside the shape.")
c("C73","partial","C73_form_partial C73_data_partial C73_written_iff C73_table_iff C73_matrices C73_same_tree_refuted",
  "False: an empty container anywhere is a null dereference, a root that is not a map or matrix gives no table, pointers and complex numbers are written as strings and pairs, real and complex matrices are labelled as matrices of longs. Proved exactly for the rest; the tree exists if and only if nothing in it is empty. The text itself is written by toml++, which is not modelled.")
c("C74","partial","C74_round_trip_partial C74_refuted C74_matrix_refuted",
  "Proved for maps without empty containers, pointers, complex numbers and matrices, with 32-bit numbers in vectors of integers, no long next to a real unless it is exactly a double, no vector that mixes scalars and one-element vectors, and total size below 2^31. False otherwise (vectors of longs are cut to 32 bits).")
c("C75","partial","C75_valid_partial C75_data_partial C75_alike_refuted C75_text_refuted C75_complex",
  "The text is in a part of YAML 1.2 (block sequences and mappings with plain keys, JSON values on one line) and its tree describes the container, at any depth and indentation, when there are no pointers, complex numbers, infinities, NaNs and empty vectors, maps and matrices, and keys need no quotes; the data are equal when the stream precision suffices for the reals. False otherwise: empty containers are written as null or as an unopened bracket, keys are not quoted, integers after a pointer are written in hexadecimal.")
c("C76","partial","C76_round_trip_partial C76_alike_refuted",
  "Proved under the conditions of C75 with precision up to 18, longs that are exactly doubles, no vector that mixes scalars and one-element vectors, total size below 2^30, into a container that is not a VECTOR or MAP. False otherwise: for no reader whatever. fkYAML is taken to return the tree the grammar gives.")
c("C77","partial","C77_read_partial C77_kinds C77_unsigned_refuted C77_unsigned64_refuted C77_dropped_refuted C77_shape_refuted C77_sparse_logical_refuted",
  "Proved at any depth for arrays of at most two dimensions with fewer than 2^32 elements, rows of logicals, rows or columns of cells, signed numbers (and unsigned ones that fit), complex integers that are exactly doubles, text without zero characters. False otherwise: uint32 from 2^31 and uint64 from 2^63 on come back negative, arrays of numbers with three dimensions and other classes are dropped without an error, logical and cell matrices lose their shape and sparse arrays their number of rows, sparse logical arrays are read through a null pointer. From the values the MATLAB library shows on.")
c("C78","partial","C78_written C78_class C78_data_partial C78_alike_refuted C78_empty_map_refuted",
  "Proved for containers without empty maps, zero characters, pointers, containers without a type, vectors of numbers with one element and matrices with one row (fewer than 2^32 elements, 2^31 map entries). False otherwise: an empty map is undefined behaviour, the others are written like something else. Field names that are not MATLAB identifiers are taken to be accepted.")
c("C79","partial","C79_exact C79_data_partial C79_twice C79_alike_refuted",
  "What comes back is given exactly for every container without empty maps and zero characters; it has the same data under the conditions of C78, and after the first trip nothing more is lost.")
c("C80","partial","C80_class C80_scalars C80_vectors C80_matrices C80_orientation_refuted",
  "Proved for scalars (int32 comes back as a 64-bit integer), strings, vectors of strings and of booleans, and matrices with more than one row. False for vectors of numbers: they become columns and come back as matrices with one column.")
c("C81","partial","C81_exact_partial C81_walk C81_scalars_partial C81_vectors_partial C81_pointer_refuted C81_alike_refuted C81_indent_refuted",
  "The text is given exactly, and every scalar has its line, for containers without pointers whose vectors and matrices have fewer than 2^32 elements. False otherwise: after a pointer all numbers are hexadecimal, an empty vector of pointers has no line, the indentation asked for is used for the first level only, and strings are printed without escapes so that different containers can be printed alike.")
c("C82","partial","C82_prefix_partial C82_types_partial C82_dump_refuted C82_types_refuted",
  "Proved without matrices, pointers (for dump), line ends in strings and keys, and ## headers; for print_content_types without vectors at the top and vectors of strings. False otherwise: these are printed without the prefix.")
c("C83","proved","C83_no_data C83_exact C83_every",
  "For all containers. Types of matrices and of vectors of strings are on the line after the key, without the prefix (see C82).")
c("C84","proved","C84_unique C84_title C84_plain C84_header C84_recognised",
  "For all keys. std::regex_match is taken to implement the regular expression (no limit on the length of the key).")
c("C85","partial","C85_vector_partial C85_matrix_partial C85_wide C85_cells C85_header_refuted C85_number_refuted C85_read_back_refuted C85_no_data_refuted C85_missing_column_refuted",
  "Proved when headers have at most 20 characters and the printed numbers fit; the latter holds for all numbers when a header has at least precision+7 characters. False otherwise (lines longer than the rule); undefined without data or with fewer columns than headers. Splitting the lines at blanks gives the cells in any case.")
c("C86","partial","C86_new C86_load_partial C86_append_refuted C86_merge_refuted C86_text_refuted C86_nil_refuted",
  "Proved for values of 32-bit integers, strings without NUL and Hashes with distinct keys, into an object whose content they replace (a new object always). False otherwise: an Array over a vector of the same type is appended, a Hash over a map is merged, nil changes nothing, and an Array of a text followed by a number raises.")
c("C87","partial","C87_read_partial C87_same_data C87_map_refuted C87_nil_refuted",
  "Proved for containers without a map; the value has the data of the container for the types listed in faithful. False otherwise: with a map anywhere get_data never ends, and complex numbers, pointers, vectors of long and integer matrices are given as nil.")
c("C88","partial","C88_round_trip_partial C88_hash_refuted C88_kind_refuted",
  "Proved for values without a Hash, under the conditions of C86. With a Hash anywhere get_data never ends; booleans come back as integers and Symbols as Strings (same data, other class).")
c("C89","partial","C89_back_partial C89_others C89_failed_refuted",
  "Other objects are untouched after any history, and a load that succeeds, of any value, leaves the cursor at the root. False after a load that raised: the next load and get_data act at the place where it stopped.")
c("C90","proved","C90_int C90_long C90_real C90_complex C90_pointer C90_outside",
  "For matrices whose number of entries is below 2^32 and not 0 (there is nothing to point at in an empty matrix: the code takes the address of its first element, which is undefined).")
c("C91","proved","C91_tells C91_line C91_one_line",
  "For all containers. Matrices of all four types are reported alike, as matrix with their sizes; a string is shown as it is, so the text has more lines if the string has.")
c("C92","proved","C92_json C92_yaml",
  "YAML: keys are strings (other keys make the reader fail, C67) and sequences have fewer than 2^32 elements. With members of the same name the last one wins, so the order matters there.")
c("C93","partial","C93_other_part_partial C93_self_partial C93_self_refuted C93_into_itself_refuted C93_part_value_partial C93_part_refuted C93_part_kind_refuted C93_part_map_partial C93_part_vector_refuted C93_key_refuted",
  "Proved for parts outside each other, for self-assignment without complex numbers, and for a part that is empty, a boolean, a real number, a pointer, or a map in a map without the key leading to it. False otherwise: a complex number assigned to itself and a string, typed vector, matrix or complex number assigned to a container around it are read after they were freed; storing a container in a part of itself never ends; a vector in a vector is destroyed by the resize when it is longer than the vector around it or too short to keep the element it is in; a map with a NUL byte in a key gains a key. Missing: the exact outcome for a vector in a vector of the remaining lengths, and for a map that has the key leading to it.")
c("C94","partial","C94_merge_partial C94_self_partial C94_into_itself_refuted C94_part_refuted C94_errors",
  "Proved for parts outside each other, for a map in a map without the key leading to it, and with itself without complex numbers. False otherwise: a map merged into a part of itself never ends.")
c("C95","proved","C95_pointer C95_distinct C95_json_mode C95_yaml_mode C95_dump_mode C95_integers C95_json_vector",
  "For 64-bit addresses, printed the way libstdc++ does.")
c("C96","proved","C96_nothing_selected C96_selected C96_codes","")
c("C97","partial","C97_test_data_partial C97_again_refuted",
  "The scalars, the sizes and the matrix entries set are as stated after any history. False for the rest: old elements of the vectors of strings, integers and complex numbers are kept and the new ones added behind them, so calling it twice gives other data.")
c("C98","partial","C98_wrapper C98_exact_partial C98_accepted_partial C98_only_partial C98_refused C98_zero_refuted C98_bytes_refuted C98_nul_refuted",
  "False: zero with an exponent from 309 on is refused; bytes that are no UTF-8 and anything after a NUL byte are accepted. Proved: nothing else is accepted; UTF-8 texts without NUL that are no JSON text are refused; texts with numbers up to 10^308 of at most 308 digits before the point are accepted with the right document and error bounds on the numbers; exact for 64-bit integers and for m*10^p, m < 2^53, |p| <= 22.")
c("C99","partial","C99_exact_partial C99_error_partial C99_zero_partial C99_refuted",
  "False: 1e-23 is read as a neighbour of the nearest double. Proved: the nearest for m*10^p with m < 2^53 and |p| <= 22; otherwise, from 10^-307 to 10^308, a relative error of at most k/(2^52-k), k = 10 or twice the number of digits before the point.")
c("C100","partial","C100_exact_partial C100_whole_partial C100_refuted C100_bool_refuted",
  "False: all functions but erase read the memory behind the view up to the next NUL byte (key.data()), so the member is not found, or another one is used. Proved: exactly which member is used, for every view; the property for views that are followed by a NUL.")
c("C101","partial","C101_partial C101_no_function C101_incomplete C101_stack_refuted C101_exhausted_refuted",
  "False for the stack: every failing call leaves a message on it, until there is no room for the next call (undefined behaviour). Proved for the data as far as C49 and C68 hold, and for the errors. What the function computes is a parameter.")
c("C102","partial","C102 C102_sound C102_complete C102_matrix_refuted",
  "Proved as an equivalence for all statements of MOps.op; references to vectors and matrices are used to assign a whole value, which covers what their own functions do. False for the std::vector functions that mat_type inherits: get_mat_int().push_back(x) breaks the shape. The readers of all interfaces are among the statements (YAML and TOML from the tree of the parser on, Lua and MATLAB from the value on).")
c("C103","partial","C103_partial C103_refuted",
  "False; the theorem gives exactly the undefined calls (an equivalence): promote_to_vector, push_string and get_T_at on a scalar that is not promoted first; promotion of a non-empty vector to a matrix of int or complex (also by get_mat_* and get_*_at(i,j)); the index 2^32-1 in operator[] and get_T_at. collapse, the readers of formats and push_back on a matrix are not among the statements.")
c("C104","partial","C104_part C104_other_partial C104_refuted",
  "The part itself: proved for all chains. The other parts: proved where a name in brackets is used on maps (or nothing) and an index in brackets on vectors of containers (or nothing). False otherwise: operator[] on a container of another kind throws its content away. Keys without NUL bytes, indices below 2^32-1.")
c("C105","partial","C105_partial C105_refuted",
  "False; the theorem says exactly when the container is unchanged (an equivalence). The exceptions: operator[] adds or replaces the part before the failing call; get_T_at(i,j) first turns nothing or a vector (and get_complex_at a real matrix) into a matrix; get_mat_long turns a vector of bool into a real matrix. For vectors of fewer than 2^32 elements; collapse and the readers are not among the statements.")
c("C106","proved","C106_order C106_conditions",
  "Keys without NUL bytes, indices below 2^32-1. C106_conditions: the order matters when a name and an index are used on the same container, or when operator() needs a part that the other call makes.")
c("C107","proved","C107_exact C107_json_exact C107_throws",
  "Fewer than 2^31 values; for the JSON reader also the conditions in the quantifier. Numbers below the smallest normal double pass the test for integers in the code, which the statement counts as convertible (SClash.whole).")
c("C108","proved","C108_projection C108_last_value",
  "Keys without NUL bytes, indices below 2^32-1. The calls are the statements of MOps.op. C108_last_value is for clear, the set_ functions of scalars, of non-empty vectors of fewer than 2^32 elements (the empty one: C05) and of matrices.")
c("C109","proved","C109_map C109_vector C109_member C109_again","C107 says which vectors fail.")
c("C110","proved","C110_defined","C39_refuted has a container with a large double whose collapse is undefined; C107 gives the exact condition for data that readers produce.")
c("C111","partial","C111_refuted C111_agree_partial",
  "False for the code: the readers differ on arrays directly inside arrays, the escapes \\/ and \\u, a number that ends the text, integers from 2^31 to 2^32-1 and reals that rapidjson does not round correctly. Proved for all texts without those (reals: at most 2^53 times a power of ten up to 22), with 64-bit integers and different names in every object.")
c("C112","proved","C112_bytes",
  "The encoding has fewer than 2^31 bytes; fuel of de_serialize is the nesting depth. An empty string is written with &front(), which is harmless in practice (hard = false); by the letter of the standard (hard = true) there must be none, see C32_empty_string_refuted.")
c("C113","proved","C113_defined",
  "The parser is modelled as a total function on the text (MRapid); the undefined behaviour at stake is that of decode_json and collapse. C113_example has a text with a large real, [1e300,[1]], where from_json is undefined.")
c("C114","proved","C114_type",
  "STyped.type_after is the table of types, including the two exceptions; push_T and get_T_at(i) keep the type of a vector that can hold the element. Calls that throw are not covered (C103).")
c("C115","proved","C115_yaml C115_toml",
  "From the trees of fkyaml and toml++ on, which are taken to hold 64-bit integers and doubles, and in a TOML table different names. C115_example has a YAML document with a large real where from_yaml is undefined.")
c("C116","proved","C116_bytes",
  "From the trees of fkyaml and toml++ on, which are taken to hold 64-bit integers and doubles. Empty strings as in C112. With a NUL byte in a string the bytes do not give it back (C34).")
c("C117","partial","C117_json_partial C117_yaml_partial C117_toml_refuted",
  "False for TOML: arrays of integers, reals and strings are added behind the old ones. Proved for JSON texts and YAML trees (keys are strings, fewer than 2^32 elements in each sequence) with different names in every object. Missing: documents with a name given twice.")
c("C118","partial","C118_strings C118_numbers_partial C118_complex_refuted C118_matrix C118_uneven C118_nested C118_table",
  "False for a complex number among other numbers: collapse throws and leaves the vector (copyto_vec_complex reads the elements of a generic vector with get_complex). Everything else is proved; matrices have fewer than 2^32 elements. Elements that are generic vectors count with what collapse makes of them (C118_nested); C118_table is the case of a list of lists of integers.")
c("C119","proved","C119_json_integers C119_json_table C119_json_strings C119_yaml_integers C119_yaml_table C119_yaml_strings C119_json_longs C119_yaml_longs C119_json_reals C119_yaml_reals C119_entry",
  "Fewer than 2^31 rows and columns and 2^32 entries. Strings of a JSON text have no NUL character (C45), and its reals few digits and a small exponent (C98_exact_partial, C99). YAML from the tree of fkyaml on. The inner lists are the columns, so the rows of a table become columns of the matrix.")
c("C120","proved","C120_json C120_json_fails C120_yaml C120_yaml_fails",
  "Names of one object are different and, in JSON, have no NUL character (C45); keys of YAML maps are strings. JSON reals have few digits and a small exponent (C98_exact_partial, C99). YAML from the tree of fkyaml on.")
