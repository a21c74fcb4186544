{"id": "C01", "title": "Copying into an empty container is exact", "statement": "Copy-constructing from, or assigning into an empty (NOTYPE) container, any container value produces a container that holds exactly the same value: same type, same scalar bits, same vectors and matrices with the same shape, same nested elements and same map keys, at every depth; the source is not modified and the operation never throws.", "quantifier": "every container value (all 21 types, any nesting depth and size) whose map keys contain no NUL byte and whose vectors have fewer than 2^32 elements", "why_tests_cant": "the value space is an unbounded recursive type; tests only sample a few shapes", "anchors": ["src/GenericContainer.cc: GenericContainer::from_gc", "include/GenericContainer/GenericContainer.hh: GenericContainer(GenericContainer const&), operator=(GenericContainer const&), load"]}
{"id": "C02", "title": "Assignment replaces the previous content", "statement": "After `a = b` the container a holds exactly the value of b and nothing of what a held before, whatever a held.", "quantifier": "every pair of container values (old content of a, content of b)", "why_tests_cant": "needs all pairs of old/new values, including the empty-vector and nested-map ones that tests do not combine", "anchors": ["src/GenericContainer.cc: GenericContainer::from_gc, allocate_vec_*, allocate_map", "include/GenericContainer/GenericContainer.hh: operator=(GenericContainer const&)"]}
{"id": "C03", "title": "Exact effect of assignment over existing content", "statement": "For every destination and source, `a = b` yields: b itself if the types differ or b is a scalar, a matrix or a non-empty typed vector; the old typed vector if b is an empty vector of the same type; the element-wise assignment for generic vectors; and for maps the union of both key sets where b's keys are assigned element-wise over a's and a's other keys are kept unchanged.", "quantifier": "every pair of container values, at every depth", "why_tests_cant": "a two-argument recursive function over unbounded trees", "anchors": ["src/GenericContainer.cc: GenericContainer::from_gc"]}
{"id": "C04", "title": "merge updates only the given keys", "statement": "merging a map into a map (or an empty container) keeps every key of the destination that the source does not have with its value untouched, makes every key of the source present, never removes a key, and a source that is not a map (nor empty) or a destination that is not a map (nor empty) raises an error and changes nothing.", "quantifier": "every destination, every source, every key", "why_tests_cant": "quantifies over all keys of arbitrary maps and over all wrong-type combinations", "anchors": ["src/GenericContainer.cc: GenericContainer::merge"]}
{"id": "C05", "title": "clear and typed set operations forget the past", "statement": "clear() leaves an empty container; set_bool/int/long/real/complex/string/pointer leave a container with exactly the given value regardless of the previous content; set_vec_*(v) and set_mat_*(m) leave exactly v / m.", "quantifier": "every previous content and every value given", "why_tests_cant": "needs every (previous content, new value) pair, including new empty vectors", "anchors": ["src/GenericContainer.cc: clear, set_*, allocate_*, operator=(vec_*)"]}
{"id": "C06", "title": "Type names identify types", "statement": "Two containers report the same type name only if they have the same type; the name is never empty.", "quantifier": "every pair of type tags", "why_tests_cant": "finite but pairwise; a copy-paste slip in the name table is invisible to spot checks", "anchors": ["src/GenericContainer.cc: to_string(GC_type)", "include/GenericContainer/GenericContainer.hh: get_type_name"]}
{"id": "C07", "title": "Element counts agree with the content", "statement": "get_num_elements, num_rows and num_cols agree with the stored content for every value: scalars count 1, an empty container 0, vectors their length, maps their number of keys, and a matrix of nr x nc counts nr*nc (whenever the count fits 32 bits).", "quantifier": "every container value", "why_tests_cant": "all types and all sizes", "anchors": ["src/GenericContainer.cc: get_num_elements, num_rows, num_cols"]}
{"id": "C08", "title": "Strict getters return exactly what is stored or throw", "statement": "Each const typed getter (get_bool, get_int, get_long, get_real, get_complex, get_string, get_vec_*, get_mat_*, get_vector, get_map) returns the stored value when the container has exactly that type and throws otherwise; it never converts and never modifies the container.", "quantifier": "every container value and each getter", "why_tests_cant": "a full type x getter matrix over all values", "anchors": ["src/GenericContainer.cc: ck, get_bool, get_int, get_long, get_real, get_complex, get_string, get_vector, get_vec_*, get_mat_*"]}
{"id": "C09", "title": "Numeric conversion getters never return a wrong number", "statement": "get_as_int, get_as_uint, get_as_long and get_as_ulong return a number mathematically equal to the stored bool/integer/long/real, or throw; they never return a different number and never have undefined behaviour.", "quantifier": "every container value and each conversion getter", "why_tests_cant": "the failures live at 2^31, 2^32 and 2^63 boundaries and at huge doubles, not on typical inputs", "anchors": ["src/GenericContainer.cc: get_value<int_type>, get_value<uint_type>, get_value<long_type>, get_value<ulong_type>, get_as_int, get_as_uint, get_as_long, get_as_ulong"]}
{"id": "C10", "title": "get_number is the stored number", "statement": "get_number returns exactly the stored value for bool, integer and real, the nearest double for long, and throws for every other type; get_complex_number does the same with a zero imaginary part and returns a stored complex unchanged.", "quantifier": "every container value", "why_tests_cant": "rounding of 64-bit integers must be right for all 2^64 of them", "anchors": ["src/GenericContainer.cc: get_number, get_complex_number"]}
{"id": "C11", "title": "isInteger accepts exactly the integral doubles", "statement": "The integrality test used by all real-to-integer conversions accepts a double exactly when it is finite and its mathematical value is an integer, up to subnormal doubles, which are accepted as zero.", "quantifier": "every 64-bit pattern", "why_tests_cant": "2^64 inputs with rounding inside the test itself", "anchors": ["src/GenericContainer.cc: isZero0, isInteger"]}
{"id": "C12", "title": "Indexed number access is bounds-safe", "statement": "get_number_at(i) and get_complex_number_at(i) either return the number stored at position i or raise an error; no index causes an out-of-bounds read.", "quantifier": "every container value and every index", "why_tests_cant": "out-of-range reads do not fail deterministically in a test run", "anchors": ["src/GenericContainer.cc: get_number_at, get_complex_number_at"]}
{"id": "C13", "title": "Map lookup after insertion", "statement": "After m[k] is assigned a value, looking up k gives that value and looking up any other key gives what it gave before; the number of keys grows by one exactly if k was new; keys() stay sorted and duplicate-free.", "quantifier": "every map, every pair of keys and every value", "why_tests_cant": "all keys and all maps; the frame part (nothing else changed) is never asserted by tests", "anchors": ["src/GenericContainer.cc: operator[](string_view), get_keys, exists"]}
{"id": "C14", "title": "erase removes exactly one key", "statement": "erase(k) makes k absent, keeps every other key with its value, is a no-op if k is absent, and raises an error on a non-map without changing it.", "quantifier": "every container, every key", "why_tests_cant": "frame condition over all other keys", "anchors": ["src/GenericContainer.cc: GenericContainer::erase"]}
{"id": "C15", "title": "Reading through a const container never changes it", "statement": "No operation available on a const container (lookups, exists, getters, operator[], operator(), push_bool, erase) changes its observable content.", "quantifier": "every container value and every const operation", "why_tests_cant": "needs all const operations on all states, in particular lookups of absent keys", "anchors": ["src/GenericContainer.cc: operator[](string_view) const, push_bool const, erase const"]}
{"id": "C16", "title": "must_exists picks the first present key", "statement": "must_exists(list) returns the first key in the list that the map contains and throws iff none is present or the container is not a map; get_map_*(list of alternatives) read through that key.", "quantifier": "every map and every list of candidate keys", "why_tests_cant": "order-sensitive over arbitrary lists", "anchors": ["src/GenericContainer.cc: must_exists, exists, get_map_bool, get_map_int, get_map_number, get_map_string"]}
{"id": "C17", "title": "get_if_exists reports success exactly when a compatible value is present", "statement": "get_if_exists(key, x) returns true and stores the value in x exactly when the container is a map that contains the key with a value convertible to x's type without loss; otherwise it returns false and leaves x untouched.", "quantifier": "every container, key and previous content of x, for bool/int/uint/long/ulong/real/complex/string", "why_tests_cant": "type x boundary-value matrix; a sign or range test in one branch is enough to break it", "anchors": ["src/GenericContainer.cc: get_if_exists(string_view,*)"]}
{"id": "C18", "title": "get_if_exists over alternative keys", "statement": "The multi-key form returns true exactly when one of the keys is present with a compatible value, and reads the first such key.", "quantifier": "every container and every list of keys", "why_tests_cant": "arbitrary lists; the bool variant has its own code", "anchors": ["src/GenericContainer.cc: get_if_exists(vec_string_type,bool&)", "include/GenericContainer/GenericContainer.hh: get_if_exists(vec_string_type,T&)"]}
{"id": "C19", "title": "Indexing a generic vector grows it without disturbing other elements", "statement": "For a generic vector (or an empty container), gc[i] afterwards has size max(old size, i+1), every element other than i that existed is unchanged, new elements are empty, and writing through the returned reference changes only element i.", "quantifier": "every vector, every index, every value written", "why_tests_cant": "unbounded indices and frame conditions", "anchors": ["src/GenericContainer.cc: operator[](unsigned), operator()(unsigned), get_gc_at"]}
{"id": "C20", "title": "Checked indexing throws out of range", "statement": "operator()(i) and const operator[](i) return element i when the container is a generic vector and i is in range and throw in all other cases, without changing the container.", "quantifier": "every container value and every index", "why_tests_cant": "all container types x all indices", "anchors": ["src/GenericContainer.cc: operator()(unsigned), operator[](unsigned) const"]}
{"id": "C21", "title": "Nested writes are read back", "statement": "Writing a value through a chain of operator[] with any mix of keys and indices, starting from any container in which the chain is type-compatible, and reading back through the const accessors along the same chain yields that value; any other chain that diverges from it reads what it read before.", "quantifier": "every path (arbitrary length), every container, every value", "why_tests_cant": "paths of unbounded length; interference between two paths", "anchors": ["src/GenericContainer.cc: operator[](unsigned), operator[](string_view), operator()"]}
{"id": "C22", "title": "push appends exactly one element", "statement": "A successful push_bool/int/long/real/complex/string increases the number of elements by exactly one, the new last element has the pushed value, and all previous elements keep their numeric value and position.", "quantifier": "every container value and every pushed value", "why_tests_cant": "each push has a type-dependent promotion path; all (type, push) pairs and lengths", "anchors": ["src/GenericContainer.cc: push_bool, push_int, push_long, push_real, push_complex, push_string", "src/GenericContainerPromote.cc: promote_to_vec_*"]}
{"id": "C23", "title": "A failing push leaves the container unchanged", "statement": "If a push throws, the container holds exactly what it held before.", "quantifier": "every container value and every pushed value", "why_tests_cant": "exception paths are rarely exercised", "anchors": ["src/GenericContainer.cc: push_*", "src/GenericContainerPromote.cc: promote_to_vec_*"]}
{"id": "C24", "title": "Promotion preserves every number", "statement": "promote_to_int/long/real/complex and promote_to_vec_int/long/real/complex leave the number of elements (1 for scalars) and every element's numeric value unchanged (up to rounding to the nearest double when a 64-bit integer becomes a double), and the resulting container has exactly the requested type.", "quantifier": "every container value accepted by each promotion", "why_tests_cant": "8 promotions x up to 10 source types x all values", "anchors": ["src/GenericContainerPromote.cc: promote_to_int, promote_to_long, promote_to_real, promote_to_complex, promote_to_vec_int, promote_to_vec_long, promote_to_vec_real, promote_to_vec_complex"]}
{"id": "C25", "title": "Promotion to a matrix is a single column with the same numbers", "statement": "promote_to_mat_int/long/real/complex turn a vector of n numbers into an n x 1 matrix holding the same numbers in order, keep matrices' shape and numbers, and the result has exactly the requested type.", "quantifier": "every container value and each of the four matrix promotions", "why_tests_cant": "type-confused writes only misbehave for some source types", "anchors": ["src/GenericContainerPromote.cc: promote_to_mat_int, promote_to_mat_long, promote_to_mat_real, promote_to_mat_complex"]}
{"id": "C26", "title": "promote_to_vector keeps every element", "statement": "promote_to_vector turns a scalar into a one-element generic vector with that scalar, a typed vector into the generic vector of its elements, and leaves a generic vector unchanged.", "quantifier": "every container value", "why_tests_cant": "scalar/vector case split over all types and values", "anchors": ["src/GenericContainerPromote.cc: promote_to_vector"]}
{"id": "C27", "title": "A failing promotion leaves the container unchanged", "statement": "If any promote_to_* throws, the container holds exactly what it held before.", "quantifier": "every container value and every promotion", "why_tests_cant": "exception paths", "anchors": ["src/GenericContainerPromote.cc: promote_to_*"]}
{"id": "C28", "title": "copyto_vec_* returns the stored numbers or throws", "statement": "copyto_vec_int/uint/long/ulong/real/complex/string fill the output with exactly the stored elements, each equal to the stored number (nearest double for long to real), in order and with nothing else; if some element is not representable they throw.", "quantifier": "every container value and every previous content of the output", "why_tests_cant": "all source types, all values, all lengths", "anchors": ["src/GenericContainerPromote.cc: copyto_vec_int, copyto_vec_uint, copyto_vec_long, copyto_vec_ulong, copyto_vec_real, copyto_vec_complex, copyto_vec_string"]}
{"id": "C29", "title": "copyto_mat_* returns the stored matrix or throws", "statement": "copyto_mat_* of a matrix yields a matrix of the same shape with the same numbers; of a vector of n numbers an n x 1 matrix; of anything else it throws.", "quantifier": "every container value", "why_tests_cant": "type/shape matrix and empty matrices", "anchors": ["src/GenericContainerPromote.cc: copyto_mat_int, copyto_mat_long, copyto_mat_real, copyto_mat_complex"]}
{"id": "C30", "title": "Matrix rows and columns are the stored entries", "statement": "For an nr x nc matrix, the element access (i,j) reads and writes entry i + j*nr; distinct in-range index pairs denote distinct entries; get_column(j) and get_row(i) return exactly the entries of that column/row and throw when the index is out of range.", "quantifier": "every matrix (any shape), every index pair", "why_tests_cant": "index arithmetic for all shapes", "anchors": ["src/GenericContainer.cc: mat_type::operator(), get_column, get_row"]}
{"id": "C31", "title": "Matrix access out of range throws", "statement": "Accessing entry (i,j) with i >= nr or j >= nc raises an error.", "quantifier": "every matrix and every index pair", "why_tests_cant": "only certain (i,j) outside the matrix still hit the flattened storage", "anchors": ["src/GenericContainer.cc: mat_type::operator(), get_int_at(i,j), get_real_at(i,j), get_complex_at(i,j)"]}
{"id": "C32", "title": "mem_size is exactly the number of bytes serialize writes", "statement": "For every value, if the buffer has at least mem_size() bytes then serialize succeeds, returns mem_size() and has written exactly that many bytes.", "quantifier": "every container value (whose encoding fits 2^31-1 bytes)", "why_tests_cant": "unbounded recursive values", "anchors": ["src/GenericContainerSerialize.cc: mem_size, serialize"]}
{"id": "C33", "title": "serialize never writes outside the buffer", "statement": "serialize into a buffer of any length either throws or returns a byte count not larger than that length; in both cases no byte outside the buffer is written.", "quantifier": "every container value and every buffer length", "why_tests_cant": "needs every possible truncation point of every encoding", "anchors": ["src/GenericContainerSerialize.cc: serialize, *_to_buffer"]}
{"id": "C34", "title": "serialize / de_serialize round trip", "statement": "de_serialize applied to the bytes produced by serialize, followed by arbitrary other bytes, reconstructs exactly the original value and reports exactly the number of bytes serialize wrote, whatever the receiving container held before.", "quantifier": "every container value, every trailing bytes, every previous content of the receiver", "why_tests_cant": "unbounded recursive values; self-delimiting property cannot be tested exhaustively", "anchors": ["src/GenericContainerSerialize.cc: serialize, de_serialize"]}
{"id": "C35", "title": "Serialization is injective", "statement": "Two different values never serialize to byte strings one of which is a prefix of the other.", "quantifier": "every pair of container values", "why_tests_cant": "pairs of unbounded values", "anchors": ["src/GenericContainerSerialize.cc: serialize"]}
{"id": "C36", "title": "de_serialize never reads outside the buffer", "statement": "On any byte buffer of any length, de_serialize either throws or succeeds, reading only bytes inside the buffer.", "quantifier": "every byte string (including truncated and hostile ones) and every declared length", "why_tests_cant": "out-of-bounds reads are silent; the input space is all byte strings", "anchors": ["src/GenericContainerSerialize.cc: de_serialize, buffer_to_*"]}
{"id": "C37", "title": "collapse preserves the data", "statement": "When collapse succeeds, the container still denotes the same nested data: same keys, same lengths, same strings, and numerically equal numbers at each position, where a matrix denotes the list of its columns.", "quantifier": "every container value at every depth", "why_tests_cant": "recursive shape-dependent rewriting over unbounded trees", "anchors": ["src/GenericContainerCollapse.cc: collapse"]}
{"id": "C38", "title": "collapse is idempotent", "statement": "Collapsing an already collapsed container changes nothing.", "quantifier": "every container value", "why_tests_cant": "recursion over unbounded trees; needs two-step reasoning", "anchors": ["src/GenericContainerCollapse.cc: collapse"]}
{"id": "C39", "title": "collapse never fails on parsed data", "statement": "collapse never throws on a container made only of values that a JSON/YAML/TOML reader can produce (null, bool, integer, long, real, string, vectors and maps of those).", "quantifier": "every such tree", "why_tests_cant": "mixed arrays such as [\"a\",[1]] are combinatorially many", "anchors": ["src/GenericContainerCollapse.cc: collapse", "src/GenericContainerPromote.cc: copyto_vec_int, copyto_vec_long, copyto_vec_real, copyto_vec_complex"]}
{"id": "C40", "title": "compare_content is a faithful equality test", "statement": "compare_content terminates on every pair of values and returns an empty report exactly when the two containers hold equal content.", "quantifier": "every pair of container values", "why_tests_cant": "a missing iterator increment only shows on equal non-empty vectors; pairs of unbounded trees", "anchors": ["src/GenericContainer.cc: compare_content, compare_vector, compare_matrix"]}
{"id": "C41", "title": "string_escape is unambiguous", "statement": "The quoted, escaped form of a string determines the string: un-escaping it gives back the original for every byte string, and the quoted text contains no unescaped quote inside.", "quantifier": "every byte string", "why_tests_cant": "all byte strings, including backslashes before quotes", "anchors": ["src/GenericContainer.cc: string_escape"]}
{"id": "C42", "title": "Tokenizer splits exactly on delimiters", "statement": "tokenizeString returns exactly the maximal non-empty runs of non-delimiter characters, in order.", "quantifier": "every string and every delimiter set", "why_tests_cant": "all strings", "anchors": ["src/GenericContainerSupport.cc: tokenizeString"]}
{"id": "C43", "title": "Table written by write_formatted_data is read back", "statement": "Writing a data table and reading it with read_formatted_data gives back the same headers, the same number of columns and rows and the same cells.", "quantifier": "every table of numeric columns with header names free of delimiters and comment characters", "why_tests_cant": "all table shapes and contents", "anchors": ["src/GenericContainerSupport.cc: write_formatted_data, read_formatted_data, get_line_and_skip_comments", "src/GenericContainerTables.cc: write_table"]}
{"id": "C44", "title": "Comment lines are skipped, data lines are kept", "statement": "While reading formatted data, a line is skipped if and only if it contains a comment character; all other lines are returned unchanged and in order.", "quantifier": "every sequence of lines and every comment character set", "why_tests_cant": "all inputs", "anchors": ["src/GenericContainerSupport.cc: get_line_and_skip_comments"]}
{"id": "C45", "title": "JSON numbers keep their value when read", "statement": "Reading a JSON document stores every integer literal that fits 64 bits (signed or unsigned) as a number equal to the literal.", "quantifier": "every integer literal in [-2^63, 2^64-1], at every place in a document", "why_tests_cant": "wrap-around only at [2^31,2^32) and [2^63,2^64)", "anchors": ["src_json_interface/from_json.cc: decode_json", "include/GenericContainer/GenericContainer.hh: operator=(uint_type), operator=(ulong_type)"]}
{"id": "C46", "title": "Reading a JSON document replaces the container", "statement": "from_json of a document into a container that already holds data gives the same result as reading it into an empty container.", "quantifier": "every document tree and every previous content", "why_tests_cant": "pairs of unbounded trees", "anchors": ["src_json_interface/from_json.cc: decode_json, from_json", "src/GenericContainer.cc: set_vector, set_map"]}
{"id": "C47", "title": "to_json produces valid JSON", "statement": "The text written by to_json is a syntactically valid JSON document describing the container's data.", "quantifier": "every container value", "why_tests_cant": "all values: empty vectors, empty maps, keys with quotes and control characters", "anchors": ["src_json_interface/to_json.cc: to_json", "src/GenericContainer.cc: string_escape"]}
{"id": "C48", "title": "TOML and YAML readers keep integers", "statement": "Reading a TOML/YAML integer that fits 64 bits stores a number equal to it, alone or inside an array.", "quantifier": "every 64-bit integer and every array of them", "why_tests_cant": "narrowing only shows above 2^31 inside homogeneous arrays", "anchors": ["src_toml_interface/from_toml.cc: TOML_to_GC", "src_yaml_interface/from_yaml.cc: YAML_to_GC"]}
{"id": "C49", "title": "Lua tables survive conversion", "statement": "Converting a container to a Lua value leaves exactly one value on the Lua stack, and that value describes the container's data.", "quantifier": "every container value at every nesting depth", "why_tests_cant": "the stack discipline must hold for all nestings", "anchors": ["src_lua_interface/GenericContainerInterface_lua.cc: GC_to_lua"]}
{"id": "C50", "title": "C interface cursor stays valid", "statement": "After any sequence of C API calls on a container, the cursor stack denotes a chain of nested positions inside the container (each one a direct element of the previous one), so no call follows a dangling pointer.", "quantifier": "every finite history of C API calls", "why_tests_cant": "histories of unbounded length; dangling pointers do not fail deterministically", "anchors": ["src/GenericContainerInterface_C.cc: GenericContainerExplorer, GC_push_vector_position, GC_push_map_position, GC_pop_head, GC_reset_head, GC_set_*"]}
{"id": "C51", "title": "C interface containers are independent", "statement": "Operations performed while one named container is selected never change the content or cursor of any other named container, and selecting a name again gives back the same container.", "quantifier": "every history of C API calls and every pair of names", "why_tests_cant": "interleavings of histories", "anchors": ["src/GenericContainerInterface_C.cc: GC_new, GC_select, GC_delete"]}
{"id": "C52", "title": "C interface errors do not escape", "statement": "Every C API function returns a status or value; no C++ exception propagates into the C caller.", "quantifier": "every C API state and every call", "why_tests_cant": "all states x all calls", "anchors": ["src/GenericContainerInterface_C.cc: GC_TRY, GC_get_*, GC_set_vector_of_*"]}
{"id": "C53", "title": "C interface key iteration visits every key once", "statement": "After GC_init_map_key on a map, successive GC_get_next_key calls (with no modification in between) return each key exactly once in sorted order and then the empty string forever.", "quantifier": "every map and every number of calls", "why_tests_cant": "all maps", "anchors": ["src/GenericContainerInterface_C.cc: init_map_key, next_map_key"]}
{"id": "C54", "title": "What read_formatted_data reads from any text", "statement": "For every text: the headers are the tokens of the first line without comment character, each column holds the numbers of the following such lines up to the first blank one, and the call throws exactly when one of these lines has another number of tokens than the header line; the rows before it are then stored.", "quantifier": "every text, comment set and delimiter set", "why_tests_cant": "all texts", "anchors": ["src/GenericContainerSupport.cc: read_formatted_data, get_line_and_skip_comments, tokenizeString"]}
{"id": "C55", "title": "Reading a table replaces the previous table", "statement": "read_formatted_data into a container that already holds a table gives the same headers and columns as reading into an empty container; other keys are kept.", "quantifier": "every text and every previous container value", "why_tests_cant": "all previous contents", "anchors": ["src/GenericContainerSupport.cc: read_formatted_data", "src/GenericContainer.cc: set_vector, set_vec_real"]}
{"id": "C56", "title": "Sized setters", "statement": "set_vec_T(n) and set_vector(n) with n > 0 leave a vector of exactly n elements: the elements already stored (if the container held a vector of this type) as far as they go, then value-initialised ones; with n = 0 the old vector is kept. set_mat_T(nr,nc) does the same with the storage of the matrix and sets its dimensions.", "quantifier": "every container value and every size", "why_tests_cant": "all sizes x all previous contents", "anchors": ["src/GenericContainer.cc: allocate_vec_*, allocate_mat_*, set_vec_*, set_mat_*, set_vector, set_map"]}
{"id": "C57", "title": "get_keys lists the keys", "statement": "get_keys gives each key of a map exactly once in increasing order (nothing for other containers), and get_keys() is these keys separated by a comma and a blank.", "quantifier": "every container value", "why_tests_cant": "all maps", "anchors": ["src/GenericContainer.cc: get_keys"]}
{"id": "C58", "title": "free_pointer", "statement": "free_pointer empties a container that holds a pointer or nothing, and on any other container throws without changing it.", "quantifier": "every container value", "why_tests_cant": "all container values", "anchors": ["src/GenericContainer.cc: free_pointer"]}
{"id": "C59", "title": "from_json2 stores the data of the document", "statement": "For every text that is a JSON document (RFC 8259), from_json2 into an empty container returns true and the container holds the data of the document: members by name, array elements in order, numbers, strings, booleans and nulls.", "quantifier": "every JSON text, of any length and nesting depth", "why_tests_cant": "all texts", "anchors": ["src_json_interface/from_json2.cc: from_json2", "src_json_interface/jsonParser.tab.cc: Parser::parse", "src_json_interface/jsonLexer.cc: Lexer", "src_json_interface/jsonParser.tab.hh: ParserWrapper"]}
{"id": "C60", "title": "from_json2 on any text returns or throws", "statement": "For every text and every previous container value, the parser of from_json2 terminates, returns or throws, has no undefined behaviour and leaves a well-formed container.", "quantifier": "every text, valid or not, and every container value", "why_tests_cant": "all texts: tests cannot settle termination or the absence of undefined behaviour on arbitrary input", "anchors": ["src_json_interface/from_json2.cc: from_json2", "src_json_interface/jsonParser.tab.cc: Parser::parse", "src_json_interface/jsonLexer.cc: Lexer", "src_json_interface/jsonParser.tab.hh: ParserWrapper"]}
{"id": "C61", "title": "from_json2 rejects what is not JSON", "statement": "For every text that is not a JSON document, from_json2 throws.", "quantifier": "every text", "why_tests_cant": "all texts", "anchors": ["src_json_interface/from_json2.cc: from_json2", "src_json_interface/jsonParser.tab.cc: Parser::parse", "src_json_interface/jsonLexer.cc: Lexer", "src_json_interface/jsonParser.tab.hh: ParserWrapper"]}
{"id": "C62", "title": "What to_json writes can be read back", "statement": "For every container, the text written by to_json, read by from_json2 or by from_json into an empty container, gives a container with the same data.", "quantifier": "every container value, every depth, every indentation and every precision of the stream", "why_tests_cant": "all containers, nested to any depth", "anchors": ["src_json_interface/to_json.cc: to_json", "src_json_interface/from_json2.cc: from_json2", "src_json_interface/jsonParser.tab.cc: Parser::parse", "src_json_interface/jsonLexer.cc: Lexer", "src_json_interface/jsonParser.tab.hh: ParserWrapper", "src_json_interface/from_json.cc: from_json"]}
{"id": "C63", "title": "C interface setters store exactly the given value", "statement": "GC_set_bool/int/real/complex/string, GC_set_vector_of_*, GC_set_empty_vector_of_* and GC_set_empty_vector report success and leave at the current position exactly the given value; GC_push_* on a vector of its type appends the value; nothing outside the current position changes and the cursor stays.", "quantifier": "every container, every position of the cursor, every value and vector length", "why_tests_cant": "all nested containers and positions", "anchors": ["src/GenericContainerInterface_C.cc: GC_set_*", "src/GenericContainerInterface_C.cc: GC_push_*", "src/GenericContainer.cc: allocate_*"]}
{"id": "C64", "title": "C interface getters return what is stored and change nothing", "statement": "GC_get_* return the value stored at the current position (or at the given index or row and column of it) and leave the container and the cursor unchanged.", "quantifier": "every container, every position of the cursor, every index", "why_tests_cant": "all nested containers and positions", "anchors": ["src/GenericContainerInterface_C.cc: GC_get_*"]}
{"id": "C65", "title": "read_formatted_data2 stores the table by column name and the parameters", "statement": "read_formatted_data2 on any text: the first line that is neither empty nor commented gives the headers, each following one a row; afterwards data[header] holds the numbers of its column in order, one per row, and every parameter line (?!name = value) up to the end of the table has set its parameter, the last one winning. It throws exactly when a row has another number of cells than the header.", "quantifier": "every text, every set of comment and delimiter characters, every previous container and parameters", "why_tests_cant": "all texts", "anchors": ["src/GenericContainerSupport.cc: read_formatted_data2", "src/GenericContainerSupport.cc: get_line_and_skip_comments2"]}
{"id": "C66", "title": "Reading a TOML or YAML document replaces the container", "statement": "from_toml or from_yaml of a document into a container that already holds data gives the same result as reading it into an empty container.", "quantifier": "every document tree and every previous content", "why_tests_cant": "pairs of unbounded trees", "anchors": ["src_toml_interface/from_toml.cc: TOML_to_GC, from_toml", "src_yaml_interface/from_yaml.cc: YAML_to_GC, from_yaml"]}
{"id": "C67", "title": "A YAML key that is not a string is reported", "statement": "from_yaml returns false for every document in which some mapping, at any depth, has a key that is not a string; otherwise every node is stored before the final collapse.", "quantifier": "every YAML tree, every previous content of the container", "why_tests_cant": "all trees, any depth", "anchors": ["src_yaml_interface/from_yaml.cc: YAML_to_GC, from_yaml"]}
{"id": "C68", "title": "Reading a Lua value stores its data", "statement": "Lua_global_to_GC (and lua_to_GC) on a global whose value is made of booleans, numbers, strings and tables succeeds and afterwards the container holds exactly the data of the value: maps for tables with string keys, lists for tables with the keys 1..n, whatever the container held before and in whatever order Lua goes through the entries; the Lua stack is as before.", "quantifier": "every Lua value at every depth, every previous content, every stack", "why_tests_cant": "all nested tables and all orders of traversal", "anchors": ["src_lua_interface/GenericContainerInterface_lua.cc: lua_table_to_GC, push_vec_element, push_hash_element, lua_to_GC, Lua_global_to_GC"]}
{"id": "C69", "title": "A container handed to Lua and read back has the same data", "statement": "Lua_GC_to_global followed by Lua_global_to_GC of the same global gives a container with the same data.", "quantifier": "every container, every nesting, every previous content of the receiving container", "why_tests_cant": "two recursive conversions over unbounded trees", "anchors": ["src_lua_interface/GenericContainerInterface_lua.cc: Lua_GC_to_global, Lua_global_to_GC"]}
{"id": "C70", "title": "Storing through an indexed reference replaces exactly that element", "statement": "c.get_T_at(i) = x (T int, long, real, complex, string) on an empty container, a vector or a scalar leaves a vector that has x at position i, every other element with its old number, zeros or empty elements between the old end and i, and no more elements; a typed vector stays typed when its type can hold x. On matrices and maps it throws and changes nothing. c.get_T() = x stores x in an empty container or one of type T and throws otherwise.", "quantifier": "every container, every index, every value", "why_tests_cant": "all container types times all indices and lengths", "anchors": ["src/GenericContainer.cc: get_int_at, get_long_at, get_real_at, get_complex_at, get_string_at (non-const)", "src/GenericContainer.cc: get_bool, get_int, get_long, get_real, get_complex, get_string (non-const)"]}
{"id": "C71", "title": "Reading through a non-const getter returns what is stored and keeps it", "statement": "Reading the i-th element with the non-const get_T_at(i) shows the number stored there, and the container holds the same numbers afterwards (perhaps promoted to another type); the same for get_vec_T, get_mat_T and the scalar getters. When the type does not fit they throw and leave the container as it was.", "quantifier": "every container and every index", "why_tests_cant": "all container types times all indices and lengths", "anchors": ["src/GenericContainer.cc: get_*_at, get_vec_*, get_mat_* (non-const)"]}
{"id": "C72", "title": "Entry (i,j) through a non-const reference", "statement": "c.get_T_at(i,j) refers to the entry in row i and column j: reading shows it, storing changes exactly this entry and keeps the shape; a vector is taken as one column; an empty container gets a matrix that has this entry; an index outside of the matrix throws and changes nothing.", "quantifier": "every matrix, vector and empty container, all indices", "why_tests_cant": "all shapes and indices", "anchors": ["src/GenericContainer.cc: get_int_at, get_long_at, get_real_at, get_complex_at with two indices (non-const)"]}
{"id": "C73", "title": "The TOML written for a container has its structure and data", "statement": "to_toml gives the formatter a TOML table that has the data of the container: tables for maps with the same keys, arrays for vectors, integers, floats, booleans and strings for scalars; matrices are written with their dimensions and all entries.", "quantifier": "every container, every nesting", "why_tests_cant": "unbounded trees of all container types", "anchors": ["src_toml_interface/to_toml.cc: GC_to_TOML, to_toml"]}
{"id": "C74", "title": "A container written as TOML and read back has the same data", "statement": "For every container that is a map, from_toml of the tree written by to_toml succeeds and gives a container with the same data, whatever non-map the receiving container held.", "quantifier": "every map container, every nesting, every previous content", "why_tests_cant": "two recursive conversions and collapse over unbounded trees", "anchors": ["src_toml_interface/to_toml.cc: GC_to_TOML, to_toml", "src_toml_interface/from_toml.cc: TOML_to_GC, from_toml"]}
{"id": "C75", "title": "The YAML written for a container is YAML and has its structure and data", "statement": "to_yaml writes a YAML document whose tree has the data of the container: block mappings for maps with the same keys, sequences for vectors, a sequence of columns for matrices, and scalars that are read as the same values.", "quantifier": "every container, every nesting, every indentation, every stream precision", "why_tests_cant": "unbounded trees, all strings and all doubles", "anchors": ["src_yaml_interface/to_yaml.cc: GenericContainer::to_yaml", "src/GenericContainerSupport.cc: string_escape"]}
{"id": "C76", "title": "A container written as YAML and read back has the same data", "statement": "from_yaml of the tree of the text written by to_yaml succeeds and gives a container with the same data.", "quantifier": "every container, every nesting", "why_tests_cant": "a writer, a reader and collapse over unbounded trees", "anchors": ["src_yaml_interface/to_yaml.cc: GenericContainer::to_yaml", "src_yaml_interface/from_yaml.cc: YAML_to_GC, from_yaml"]}
{"id": "C77", "title": "A MATLAB value is read without loss", "statement": "mxArray_to_GenericContainer clears the container and stores the array in it: a scalar for one element, a vector for a row, a matrix for a matrix, a string for text, a sequence for a row or column of cells, a map for a struct (a map of sequences for a struct array), and the compressed columns for a sparse array, with the same numbers and the same text.", "quantifier": "every MATLAB array of every class, shape and nesting, every previous content", "why_tests_cant": "all classes, shapes and nestings", "anchors": ["src_matlab_interface/GenericContainerInterface_matlab.cc: mxArray_to_GenericContainer, mxSparse_to_GenericContainer, mx_to_vec_bool, mx_to_vec_int, mx_to_vec_long, mx_to_vec_real, mx_to_vec_complex, mx_to_vector, mx_to_map"]}
{"id": "C78", "title": "A container is handed to MATLAB without loss", "statement": "GenericContainer_to_mxArray builds a proper MATLAB array with the data of the container: arrays of numbers of the same shape, char arrays for strings, cell rows for vectors and structs for maps with the same field names.", "quantifier": "every container, every nesting", "why_tests_cant": "unbounded trees of all container types", "anchors": ["src_matlab_interface/GenericContainerInterface_matlab.cc: GenericContainer_to_mxArray"]}
{"id": "C79", "title": "A container handed to MATLAB and read back has the same data", "statement": "mxArray_to_GenericContainer of the array made by GenericContainer_to_mxArray gives a container with the same data, whatever the receiving container held; doing it again changes nothing more.", "quantifier": "every container, every nesting, every previous content", "why_tests_cant": "two recursive conversions over unbounded trees", "anchors": ["src_matlab_interface/GenericContainerInterface_matlab.cc: GenericContainer_to_mxArray, mxArray_to_GenericContainer"]}
{"id": "C80", "title": "Values handed to MATLAB one by one are read back as they were", "statement": "The array made by to_mxArray for a boolean, integer, real, complex number, string, vector or matrix is read by mxArray_to_GenericContainer as the same value.", "quantifier": "every value of each of these types", "why_tests_cant": "all values, lengths and shapes", "anchors": ["src_matlab_interface/GenericContainerInterface_matlab.cc: to_mxArray, mxArray_to_GenericContainer"]}
{"id": "C81", "title": "dump shows every value of the container", "statement": "For every value inside a container, at any depth, dump prints the key or index of the value and the value, in the order of the container, indented by its depth, and nothing else; matrices are printed row after row.", "quantifier": "every container, every nesting, every prefix and indentation, every stream precision", "why_tests_cant": "unbounded trees; all paths into them", "anchors": ["src/GenericContainer.cc: GenericContainer::dump, operator << of vectors and matrices", "include/GenericContainer/GenericContainer.hh: GenericContainer::print"]}
{"id": "C82", "title": "The prefix is prepended to every line", "statement": "Every line printed by dump and by print_content_types starts with the prefix that was given.", "quantifier": "every container, every nesting, every prefix", "why_tests_cant": "unbounded trees; every line of an unbounded text", "anchors": ["src/GenericContainer.cc: GenericContainer::dump, GenericContainer::print_content_types", "include/GenericContainer/GenericContainer.hh: doc of dump (prefix)"]}
{"id": "C83", "title": "print_content_types names every type and shows no data", "statement": "print_content_types prints the type and the sizes of every value inside the container with its key or index, and the text depends only on types, sizes and keys: containers that differ in their data only are printed alike.", "quantifier": "all pairs of containers that differ in their data only, every nesting", "why_tests_cant": "a statement about pairs of unbounded trees", "anchors": ["src/GenericContainer.cc: GenericContainer::print_content_types"]}
{"id": "C84", "title": "Keys with formatting are printed as their title", "statement": "dump and print_content_types print a key of the form number, # or ##, perhaps one of - = ~ _, title as its title, for maps and vectors as a header (an empty line above for ##, underlined with the character given, otherwise followed by a colon); all other keys are printed as they are.", "quantifier": "all strings as keys", "why_tests_cant": "a regular expression applied to all strings", "anchors": ["src/GenericContainer.cc: Pcre_for_GC::exec, GenericContainer::dump, GenericContainer::print_content_types"]}
{"id": "C85", "title": "write_table_formatted aligns the columns", "statement": "write_table_formatted writes a line of headers, a rule, one line per row and the rule again; headers and numbers are right aligned in columns of the width of the longest header (8 to 20 characters) and all lines are as long as the rule.", "quantifier": "every list of headers, every list of columns or matrix, every stream precision", "why_tests_cant": "tables of any size; the width of a printed number depends on its value in all of double", "anchors": ["src/GenericContainerTables.cc: write_table_formatted (both)"]}
{"id": "C86", "title": "Ruby: load stores the value that is given", "statement": "After GenericContainer#load in Ruby the container holds the data of the Ruby value (Arrays, Hashes, numbers, Strings, Symbols, booleans, nil, nested in any way), whatever it held before.", "quantifier": "every Ruby value, every nesting, every previous content, every state of the other objects", "why_tests_cant": "unbounded nested values; all previous contents", "anchors": ["src_ruby_interface/GenericContainer_ffi.rb: GC_from_hash, addToVector, fromVector, fromMixedHash, GenericContainer#load"]}
{"id": "C87", "title": "Ruby: get_data gives the content of the container", "statement": "GenericContainer#get_data in Ruby ends and gives a Ruby value with the data of the container; the container is unchanged.", "quantifier": "every container, every nesting", "why_tests_cant": "termination for all containers; unbounded nesting", "anchors": ["src_ruby_interface/GenericContainer_ffi.rb: GC_to_hash, toVector, toMatrix, GenericContainer#get_data", "src/GenericContainerInterface_C.cc: GC_get_next_key"]}
{"id": "C88", "title": "Ruby: what was loaded comes back", "statement": "load followed by get_data gives a Ruby value with the data of the value loaded.", "quantifier": "every Ruby value, every nesting", "why_tests_cant": "unbounded nested values; two conversions composed", "anchors": ["src_ruby_interface/GenericContainer_ffi.rb: GenericContainer#load, GenericContainer#get_data"]}
{"id": "C89", "title": "Ruby: calls on one object do not disturb later calls or other objects", "statement": "load and get_data, whether they succeed or raise, leave all other objects as they are, and the next call on the same object starts at its root.", "quantifier": "every history of calls, every Ruby value, every pair of objects", "why_tests_cant": "all call histories, shared hidden state (the cursor)", "anchors": ["src_ruby_interface/GenericContainer_ffi.rb: class GenericContainer", "src/GenericContainerInterface_C.cc: GC_select"]}
{"id": "C90", "title": "Raw data pointers give the stored elements", "statement": "get_int_pointer, get_long_pointer, get_real_pointer and get_complex_pointer give the stored elements of a scalar, a vector or a matrix (column by column); writing through the pointer changes exactly that element of the container; for containers of any other type they throw.  get_ppvoid does the same for a pointer.", "quantifier": "every scalar, vector and non-empty matrix, every index, every value written, every other container", "why_tests_cant": "vectors and matrices of every size; all other elements must be unchanged", "anchors": ["src/GenericContainer.cc: GenericContainer::get_int_pointer, get_long_pointer, get_real_pointer, get_complex_pointer, get_ppvoid"]}
{"id": "C91", "title": "info tells type and size", "statement": "info writes one line that tells the type of data and the size (of vectors and matrices) or the value (of booleans and integers): containers with the same info have the same kind of data, the same sizes and the same integers.", "quantifier": "all pairs of containers", "why_tests_cant": "a statement about all pairs of containers", "anchors": ["src/GenericContainer.cc: GenericContainer::info"]}
{"id": "C92", "title": "The order of members does not matter", "statement": "from_json and from_yaml give the same result and leave the same content for two documents that differ only in the order of the members of their objects, at any depth, whatever the container held before.", "quantifier": "every pair of documents of any nesting that differ in the order of members with distinct names, every previous content", "why_tests_cant": "all permutations at all depths, all previous contents", "anchors": ["src_json_interface/from_json.cc: decode_json, from_json", "src_yaml_interface/from_yaml.cc: YAML_to_GC, from_yaml"]}
{"id": "C93", "title": "Assignment between parts of one container", "statement": "Assigning one part of a container to another (a[k] = a[j], a = a, a = a[k], a[k] = a) gives the same as assigning an independent copy of the source, and leaves all other parts as they are.", "quantifier": "every container, every pair of positions in it", "why_tests_cant": "aliasing: all pairs of positions in all containers; failures are reads of freed memory and endless recursion", "anchors": ["src/GenericContainer.cc: GenericContainer::from_gc, set_complex, allocate_vector, allocate_map", "include/GenericContainer/GenericContainer.hh: operator=(GenericContainer const &)"]}
{"id": "C94", "title": "merge between parts of one container", "statement": "Merging one part of a container into another gives the same as merging an independent copy of it, and leaves all other parts as they are.", "quantifier": "every container, every pair of positions in it", "why_tests_cant": "aliasing: all pairs of positions in all containers", "anchors": ["src/GenericContainer.cc: GenericContainer::merge, from_gc"]}
{"id": "C95", "title": "Addresses are written exactly, and integers after them as their bits", "statement": "A pointer is written as a hexadecimal number that is its address, in JSON, YAML, TOML, dump and info, so different addresses have different texts.  In JSON, YAML and dump integers are written in decimal until the first pointer was written, and as the hexadecimal number of their bits afterwards; other streams are not affected.", "quantifier": "every address, every integer, every container with pointers at any place, any state of the stream", "why_tests_cant": "a statement about all addresses; the mode of the stream depends on everything written before, at any depth", "anchors": ["src_json_interface/to_json.cc: to_json", "src_yaml_interface/to_yaml.cc: to_yaml", "src_toml_interface/to_toml.cc: GC_to_TOML", "src/GenericContainer.cc: GenericContainer::dump, info"]}
{"id": "C96", "title": "C interface: calls before a container is selected, and the numbers of the status codes", "statement": "Until GC_new, GC_select, GC_mem_ptr or GC_fill_for_test has been called, every other function leaves everything as it is and returns its documented neutral value: status 4 (BAD_HEAD), 0, -1 as type, a null pointer, the empty text as type name.  After that there is always a current container, also if it is deleted.  Status codes are 0 for success, 1 for a wrong type, 2 for an exception or an empty stack, 4 for no current position.", "quantifier": "every history of calls, every name, key, position and value", "why_tests_cant": "all histories of calls", "anchors": ["src/GenericContainerInterface_C.cc: all functions", "include/GenericContainer/GenericContainerInterface_C.h: GC_ErrorCodes"]}
{"id": "C97", "title": "C interface: GC_fill_for_test gives known content", "statement": "After GC_fill_for_test(name) the container of that name is current and holds the same test data, whatever was there before.", "quantifier": "every history of calls, every name, every previous content", "why_tests_cant": "all histories of calls and all previous contents", "anchors": ["src/GenericContainerInterface_C.cc: GC_fill_for_test"]}
{"id": "C98", "title": "from_json accepts exactly the JSON texts and finds their document", "statement": "from_json returns true for a text if and only if it is a JSON text (RFC 8259, in UTF-8), and then reads the document of that text: the same structure, names, strings and constants, integers of 64 bits exactly, other numbers as doubles close to them.  It returns false for all other texts and leaves the container as it was.", "quantifier": "every sequence of bytes (shorter than 2^31), documents of any nesting, every previous content", "why_tests_cant": "all texts and all documents; what a parser wrongly refuses or accepts is not in the test data", "anchors": ["src_json_interface/from_json.cc: from_json", "src_json_interface/rapidjson/reader.h: GenericReader::Parse, ParseValue, ParseString, ParseNumber, ParseArray, ParseObject", "src_json_interface/rapidjson/internal/strtod.h: StrtodNormalPrecision"]}
{"id": "C99", "title": "from_json reads a real as the double nearest to it", "statement": "A real number in a JSON text is read as the double nearest to it.", "quantifier": "every number text within the range of doubles, of any length", "why_tests_cant": "all number texts: whether the roundings in between matter depends on all digits and on the exponent", "anchors": ["src_json_interface/rapidjson/reader.h: GenericReader::ParseNumber", "src_json_interface/rapidjson/internal/strtod.h: FastPath, StrtodNormalPrecision", "src_json_interface/rapidjson/internal/pow10.h: Pow10"]}
{"id": "C100", "title": "A key given as part of a longer text names the member with exactly these characters", "statement": "Every function that takes a key as a string_view (exists, operator(), operator[], get_map_*, get_if_exists, erase) acts on the member whose name is the characters of the view, also if the view is only a part of a longer text in memory.", "quantifier": "every view of every text, every container", "why_tests_cant": "all texts and all containers; the tests use string literals, which end where the view ends", "anchors": ["src/GenericContainer.cc: GenericContainer::exists, operator (), operator [], get_map_bool, get_map_int, get_if_exists, erase"]}
{"id": "C101", "title": "Calling a Lua function", "statement": "LuaInterpreter::call(io, res), where io has a string under 'function' and anything under 'args', runs the global function of that name on a value with the data of the arguments and stores the data it returns in res.  If the function fails or there is none, or 'function' or 'args' is missing, an exception is thrown and res is as before.  The stack of the interpreter is as before in every case, so any number of calls can be made.", "quantifier": "every container of arguments, every function (also one that fails), every previous content of res, any number of calls", "why_tests_cant": "all functions, all arguments, and sequences of calls of any length", "anchors": ["src_lua_interface/GenericContainerInterface_lua.cc: LuaInterpreter::call"]}
{"id": "C102", "title": "Programs build exactly the valid containers", "statement": "Whatever calls of the container's functions a program makes, on containers, on parts of them reached by operator[] or operator(), and through the references to scalars, vectors, matrices, maps and elements that the functions return, and whatever texts and values it reads into them, also when exceptions are caught on the way, every container is valid: numbers are in the range of their types, a matrix has as many entries as rows times columns, the keys of a map are different and in order.  Every valid container can be built by such a program.", "quantifier": "every finite program of such calls, with arguments of the C++ types; every valid container", "why_tests_cant": "all sequences of calls, nested arguments of any depth, and all containers", "anchors": ["src/GenericContainer.cc: all functions that change a container", "src/GenericContainerPromote.cc: promote_to_*", "include/GenericContainer/GenericContainer.hh: GenericContainer, mat_type", "src_json_interface/from_json.cc", "src_yaml_interface/from_yaml.cc", "src_toml_interface/from_toml.cc", "src_lua_interface/GenericContainerInterface_lua.cc", "src_matlab_interface/GenericContainerInterface_matlab.cc"]}
{"id": "C103", "title": "No call on a valid container is undefined behaviour", "statement": "A call of a function that sets, grows, promotes, copies or merges a container, or assigns through a reference it returns, on a valid container or on a part of it, either does its work or throws; it has no undefined behaviour (except back() and pop_back() of an empty vector).", "quantifier": "every such call, every valid container with vectors of fewer than 2^32 elements, arguments of any size below that, parts at any depth", "why_tests_cant": "undefined behaviour need not show in a test, and the containers, indices and call chains are unlimited", "anchors": ["src/GenericContainer.cc: set_*, push_*, get_*_at, operator [], operator (), from_gc, to_gc, merge", "src/GenericContainerPromote.cc: promote_to_mat_int, promote_to_mat_complex, promote_to_vector"]}
{"id": "C104", "title": "Work on a part of a container leaves the other parts alone", "statement": "Any call made on a part of a container, reached by operator[], operator() or get_map()[] with names and indices, has the outcome it has on that part alone, the part becomes what the call makes of it, and every other part of the container stays as it is; parts that appear are empty.", "quantifier": "every call, every chain of accesses of any length, every container and every other part of it", "why_tests_cant": "all containers, chains and pairs of parts; the effect on parts that are not looked at", "anchors": ["src/GenericContainer.cc: operator [], operator (), get_map"]}
{"id": "C105", "title": "A call that throws leaves the container unchanged", "statement": "If a call of a function that sets, grows, promotes, copies or merges a container, or assigns through a reference it returns, throws an exception, the container is as it was before the call.", "quantifier": "every such call that throws, every valid container, parts at any depth", "why_tests_cant": "all containers and all ways a call can fail; tests seldom look at the container after an exception", "anchors": ["src/GenericContainer.cc: get_mat_long, get_int_at, get_long_at, get_real_at, get_complex_at, operator [], push_*, merge, erase", "src/GenericContainerPromote.cc: promote_to_*"]}
{"id": "C106", "title": "Calls on different parts can be made in any order", "statement": "Two calls on different parts of a container (under different names of the same map or at different indices of the same vector, at any level, reached by operator[], operator() or get_map()[]), each of whose parts can be reached without the other call, have the same outcomes and give the same container in either order.", "quantifier": "every two calls, every two chains of accesses of any length that part at some level, every valid container", "why_tests_cant": "all containers and pairs of calls; the order only shows where parts are made or vectors grow", "anchors": ["src/GenericContainer.cc: operator [], operator (), get_map"]}
{"id": "C107", "title": "Collapsing read data, and reading JSON, fail exactly on a clash of types", "statement": "collapse of a container made only of values that a reader can produce fails exactly when some generic vector in it has a clash: its elements are booleans, numbers, strings and sequences of one boolean or number, one of these sequences holds an int, long or real and none a wider type, and some boolean, number or string outside them cannot be converted exactly to that type. Reading a JSON document fails exactly when one of its arrays has such a clash. The failure is an exception unless the value that does not convert is a double with an integer value too large for the type.", "quantifier": "every such container with fewer than 2^31 values, of any shape and depth; every JSON document with integers that fit the signed types, different member names and no zero characters", "why_tests_cant": "the failing documents are scattered among infinitely many that are read", "anchors": ["src/GenericContainerCollapse.cc: collapse", "src/GenericContainerPromote.cc: copyto_vec_int, copyto_vec_long, copyto_vec_real", "src_json_interface/from_json.cc: from_json"]}
{"id": "C108", "title": "A program on separate parts treats each part as if it were alone", "statement": "A sequence of calls, any two of which are made on the same part of a container or on different parts of it (other names of a map or other indices of a vector, at any level), has on each part the outcomes and the final value that the calls on that part alone have; when the last of them sets a value, that value is found there in the end, whatever was there and whatever happens elsewhere.", "quantifier": "every sequence of calls of any length, failing ones included, on any number of parts at any depth, every container in which the parts that are not made by operator[] exist", "why_tests_cant": "all programs, interleavings and containers", "anchors": ["src/GenericContainer.cc: operator [], operator (), get_map, set_*, clear"]}
{"id": "C109", "title": "Collapse works on each part alone and stops at the first that fails", "statement": "collapse of a map succeeds exactly when it does on every member; after a success each member, at any depth of nested maps, is what collapse makes of it alone, and no member comes or goes. When it throws, the members (in the order of their names) or elements before the failing one are collapsed, the following ones are as before, a vector that cannot be collapsed itself stays a vector of its collapsed elements, and repeating the call throws again without any further change.", "quantifier": "every container, maps of any size, nesting of any depth", "why_tests_cant": "all containers and all places where a collapse can fail; tests seldom look at a container after an exception", "anchors": ["src/GenericContainerCollapse.cc: collapse"]}
{"id": "C110", "title": "Collapse is never undefined behaviour on containers without large doubles", "statement": "collapse of any valid container, with pointers, complex numbers, strings, typed vectors and matrices anywhere in it, either succeeds or throws an exception, provided no double that is an element of a generic vector (or is the real part of a complex number there) has an integer value outside the range of int.", "quantifier": "every valid container of any shape and depth, vectors of fewer than 2^31 elements", "why_tests_cant": "undefined behaviour need not show in a test, and the combinations of element types and lengths are unlimited", "anchors": ["src/GenericContainerCollapse.cc: collapse", "src/GenericContainerPromote.cc: copyto_vec_int, copyto_vec_long, copyto_vec_real, copyto_vec_complex"]}
{"id": "C111", "title": "The two JSON readers agree", "statement": "from_json (rapidjson) and from_json2 (the project's own lexer and parser) return the same result and leave the same container, of the same type at every place, for the same JSON text.", "quantifier": "every JSON text of any size and depth, and every container that holds neither a vector nor a map before", "why_tests_cant": "the texts are unlimited, and two independent parsers agree on the texts of a test suite long before they agree on all", "anchors": ["src_json_interface/from_json.cc: from_json", "src_json_interface/from_json2.cc: from_json2", "src_json_interface/jsonParser.tab.hh: ParserWrapper"]}
{"id": "C112", "title": "What was read from JSON can be stored as bytes and restored", "statement": "After from_json was called on a new container with any texts one after the other, whatever the texts are and whatever the calls reported, serialize with a buffer of mem_size() bytes or more succeeds, writes mem_size() bytes, and de_serialize of these bytes into any container gives exactly the container again.", "quantifier": "every list of texts (well-formed or not, any nesting, duplicate names, \\u0000 in strings), every buffer with room, every container to restore into; fewer than 2^31 bytes", "why_tests_cant": "serialization fails for some values (C32, C34), and only an invariant of the reader and of collapse shows that no text leads to one of them", "anchors": ["src_json_interface/from_json.cc: from_json", "src/GenericContainerCollapse.cc: collapse", "src/GenericContainerSerialize.cc: serialize, de_serialize, mem_size"]}
{"id": "C113", "title": "from_json is defined on every text without large reals in arrays", "statement": "from_json on any text, well-formed or not, into any valid container, returns true or false or throws an exception and never has undefined behaviour or runs for ever, provided no real that is an element of an array of the text (or of a generic vector in the container) has an integer value outside the range of int.", "quantifier": "every text of fewer than 2^30 - 1 bytes, any nesting, duplicate names; every valid container", "why_tests_cant": "undefined behaviour need not show in a test, and the texts are unlimited; duplicate names decode over old content", "anchors": ["src_json_interface/from_json.cc: from_json, decode_json", "src/GenericContainerCollapse.cc: collapse", "src_json_interface/rapidjson/reader.h: GenericReader::Parse"]}
{"id": "C114", "title": "The type of a container after a successful call", "statement": "A call that succeeds leaves the container with the type named by the call: set_T, get_T through whose reference is written, promote_to_T, push_T, operator[], operator(), merge, assignment. Two calls give another type than their name says: promote_to_complex of a vector of bools, integers or reals gives a complex vector, and promote_to_mat_long of a vector of bools gives a real matrix.", "quantifier": "every modelled call with every argument on every container; nothing is said about collapse, de_serialize and the readers of documents", "why_tests_cant": "the type before the call, the call and its arguments combine without bound, and a test of one combination says nothing of the next", "anchors": ["src/GenericContainer.cc: set_*, get_*, push_*, operator []", "src/GenericContainerPromote.cc: promote_to_*"]}
{"id": "C115", "title": "from_yaml and from_toml always return true or false", "statement": "from_yaml on any document (accepted by the parser or not, with keys of any kind, with names given twice) into any valid container, and from_toml on any document into any container that is not a MAP, return true or false: no exception escapes and nothing is undefined, provided no real in a YAML sequence, and none in a TOML array that also holds other things, has an integer value outside the range of int.", "quantifier": "every node tree of any depth with fewer than 2^31 elements in each sequence", "why_tests_cant": "undefined behaviour need not show in a test, and the documents are unlimited", "anchors": ["src_yaml_interface/from_yaml.cc: from_yaml, YAML_to_GC", "src_toml_interface/from_toml.cc: from_toml, TOML_to_GC", "src/GenericContainerCollapse.cc: collapse"]}
{"id": "C116", "title": "What was read from YAML, TOML and JSON can be stored as bytes and restored", "statement": "After any documents were read one after the other into a new container with from_yaml, from_toml and from_json in any order, whatever the readers reported, serialize with a buffer of mem_size() bytes or more succeeds, writes mem_size() bytes, and de_serialize of these bytes into any container gives exactly the container again, when no string or name of the YAML and TOML documents has a NUL byte.", "quantifier": "every list of documents of any nesting, rejected ones and ones that fail in the middle included; every buffer with room, every container to restore into; fewer than 2^31 bytes", "why_tests_cant": "serialization fails for some values (C32, C34), and only an invariant of the readers and of collapse shows that no document leads to one of them", "anchors": ["src_yaml_interface/from_yaml.cc: from_yaml", "src_toml_interface/from_toml.cc: from_toml", "src_json_interface/from_json.cc: from_json", "src/GenericContainerSerialize.cc: serialize, de_serialize, mem_size"]}
{"id": "C117", "title": "Reading the same document again changes nothing", "statement": "When a document was read with from_json, from_yaml or from_toml, whatever the reader reported, reading the same document into the same container again gives the same report and leaves exactly the same container.", "quantifier": "every document of any nesting, including rejected texts and documents whose collapse fails; every container that holds neither a vector nor a map before", "why_tests_cant": "old vector elements and map entries take part in the second reading, in the shape collapse gave them; the documents are unlimited", "anchors": ["src_json_interface/from_json.cc: from_json, decode_json", "src_yaml_interface/from_yaml.cc: from_yaml", "src_toml_interface/from_toml.cc: from_toml", "src/GenericContainerCollapse.cc: collapse"]}
{"id": "C118", "title": "collapse gives the type of the widest element", "statement": "collapse of a non-empty vector of booleans and numbers gives the typed vector of the widest type among them (bool, int, long, real, complex) with the same values; of strings a vector of strings; of typed vectors of one length the matrix of the widest type whose columns are these vectors; vectors of booleans alone, and vectors of different lengths, stay a generic vector.", "quantifier": "every vector of fewer than 2^31 elements, in every mixture and order of types, all values", "why_tests_cant": "the mixtures of types and lengths are unlimited; C37 only fixes the data, not the type that holds it", "anchors": ["src/GenericContainerCollapse.cc: collapse", "src/GenericContainerPromote.cc: copyto_vec_int, copyto_vec_long, copyto_vec_real, copyto_vec_complex"]}
{"id": "C119", "title": "Lists of numbers and strings and tables of integers are read into typed containers", "statement": "from_json of a text and from_yaml of a document return true and leave exactly: for a list of integers of 32 bits the vector of integers; for a list of integers of 64 bits with a larger one (in JSON none from 2^31 to 2^32-1, see C45) the vector of longs; for a list of such integers and of reals with at least one real the vector of reals nearest to them; for a list of strings the vector of strings; for a list of lists of one length of integers of 32 bits the matrix of integers whose columns are the inner lists, so that get_int_at(i,j) is the i-th number of the j-th list.", "quantifier": "every non-empty list, every number of rows and columns, all values, any spacing and escapes in the text, every container to read into that holds neither a vector nor a map", "why_tests_cant": "lengths and values are unlimited, and the result passes through parser, decoder and collapse", "anchors": ["src_json_interface/from_json.cc: from_json, decode_json", "src_yaml_interface/from_yaml.cc: from_yaml, YAML_to_GC", "src/GenericContainerCollapse.cc: collapse"]}
{"id": "C120", "title": "The members of an object are read independently of each other", "statement": "When every member of a JSON object or YAML map is read without an error when it is the whole document, from_json of the text and from_yaml return true and leave a map that has exactly the names of the object, and under each name exactly what reading that member alone into a new container leaves. If some member alone is not read, the whole object is not.", "quantifier": "every object of any number of members and any nesting, any spacing and escapes in the text, every container to read into that holds neither a vector nor a map", "why_tests_cant": "objects and their members are unlimited; one member could change the type or value of another through collapse", "anchors": ["src_json_interface/from_json.cc: from_json, decode_json", "src_yaml_interface/from_yaml.cc: from_yaml, YAML_to_GC", "src/GenericContainerCollapse.cc: collapse"]}
