#!/usr/bin/env python3
"""Regenerates /verif/properties.jsonl from the table below."""
import json
P=[]
def p(title, statement, quantifier, why, anchors):
    P.append(dict(id="C%02d"%(len(P)+1), title=title, statement=statement,
                  quantifier=quantifier, why_tests_cant=why, anchors=anchors))
GC="src/GenericContainer.cc"; PR="src/GenericContainerPromote.cc"; SE="src/GenericContainerSerialize.cc"
CO="src/GenericContainerCollapse.cc"; SU="src/GenericContainerSupport.cc"; HH="include/GenericContainer/GenericContainer.hh"
CI="src/GenericContainerInterface_C.cc"

# --- copy / assignment / merge
p("Copying into an empty container is exact",
  "Copy-constructing from, or assigning into an empty (NOTYPE) container, any container value produces a container that holds exactly the same value: same type, same scalar bits, same vectors and matrices with the same shape, same nested elements and same map keys, at every depth; the source is not modified and the operation never throws.",
  "every container value (all 21 types, any nesting depth and size) whose map keys contain no NUL byte and whose vectors have fewer than 2^32 elements",
  "the value space is an unbounded recursive type; tests only sample a few shapes",
  [f"{GC}: GenericContainer::from_gc", f"{HH}: GenericContainer(GenericContainer const&), operator=(GenericContainer const&), load"])
p("Assignment replaces the previous content",
  "After `a = b` the container a holds exactly the value of b and nothing of what a held before, whatever a held.",
  "every pair of container values (old content of a, content of b)",
  "needs all pairs of old/new values, including the empty-vector and nested-map ones that tests do not combine",
  [f"{GC}: GenericContainer::from_gc, allocate_vec_*, allocate_map", f"{HH}: operator=(GenericContainer const&)"])
p("Exact effect of assignment over existing content",
  "For every destination and source, `a = b` yields: b itself if the types differ or b is a scalar, a matrix or a non-empty typed vector; the old typed vector if b is an empty vector of the same type; the element-wise assignment for generic vectors; and for maps the union of both key sets where b's keys are assigned element-wise over a's and a's other keys are kept unchanged.",
  "every pair of container values, at every depth",
  "a two-argument recursive function over unbounded trees",
  [f"{GC}: GenericContainer::from_gc"])
p("merge updates only the given keys",
  "merging a map into a map (or an empty container) keeps every key of the destination that the source does not have with its value untouched, makes every key of the source present, never removes a key, and a source that is not a map (nor empty) or a destination that is not a map (nor empty) raises an error and changes nothing.",
  "every destination, every source, every key",
  "quantifies over all keys of arbitrary maps and over all wrong-type combinations",
  [f"{GC}: GenericContainer::merge"])
p("clear and typed set operations forget the past",
  "clear() leaves an empty container; set_bool/int/long/real/complex/string/pointer leave a container with exactly the given value regardless of the previous content; set_vec_*(v) and set_mat_*(m) leave exactly v / m.",
  "every previous content and every value given",
  "needs every (previous content, new value) pair, including new empty vectors",
  [f"{GC}: clear, set_*, allocate_*, operator=(vec_*)"])
# --- types / sizes
p("Type names identify types",
  "Two containers report the same type name only if they have the same type; the name is never empty.",
  "every pair of type tags",
  "finite but pairwise; a copy-paste slip in the name table is invisible to spot checks",
  [f"{GC}: to_string(GC_type)", f"{HH}: get_type_name"])
p("Element counts agree with the content",
  "get_num_elements, num_rows and num_cols agree with the stored content for every value: scalars count 1, an empty container 0, vectors their length, maps their number of keys, and a matrix of nr x nc counts nr*nc (whenever the count fits 32 bits).",
  "every container value",
  "all types and all sizes",
  [f"{GC}: get_num_elements, num_rows, num_cols"])
# --- strict getters
p("Strict getters return exactly what is stored or throw",
  "Each const typed getter (get_bool, get_int, get_long, get_real, get_complex, get_string, get_vec_*, get_mat_*, get_vector, get_map) returns the stored value when the container has exactly that type and throws otherwise; it never converts and never modifies the container.",
  "every container value and each getter",
  "a full type x getter matrix over all values",
  [f"{GC}: ck, get_bool, get_int, get_long, get_real, get_complex, get_string, get_vector, get_vec_*, get_mat_*"])
p("Numeric conversion getters never return a wrong number",
  "get_as_int, get_as_uint, get_as_long and get_as_ulong return a number mathematically equal to the stored bool/integer/long/real, or throw; they never return a different number and never have undefined behaviour.",
  "every container value and each conversion getter",
  "the failures live at 2^31, 2^32 and 2^63 boundaries and at huge doubles, not on typical inputs",
  [f"{GC}: get_value<int_type>, get_value<uint_type>, get_value<long_type>, get_value<ulong_type>, get_as_int, get_as_uint, get_as_long, get_as_ulong"])
p("get_number is the stored number",
  "get_number returns exactly the stored value for bool, integer and real, the nearest double for long, and throws for every other type; get_complex_number does the same with a zero imaginary part and returns a stored complex unchanged.",
  "every container value",
  "rounding of 64-bit integers must be right for all 2^64 of them",
  [f"{GC}: get_number, get_complex_number"])
p("isInteger accepts exactly the integral doubles",
  "The integrality test used by all real-to-integer conversions accepts a double exactly when it is finite and its mathematical value is an integer, up to subnormal doubles, which are accepted as zero.",
  "every 64-bit pattern",
  "2^64 inputs with rounding inside the test itself",
  [f"{GC}: isZero0, isInteger"])
p("Indexed number access is bounds-safe",
  "get_number_at(i) and get_complex_number_at(i) either return the number stored at position i or raise an error; no index causes an out-of-bounds read.",
  "every container value and every index",
  "out-of-range reads do not fail deterministically in a test run",
  [f"{GC}: get_number_at, get_complex_number_at"])
# --- maps
p("Map lookup after insertion",
  "After m[k] is assigned a value, looking up k gives that value and looking up any other key gives what it gave before; the number of keys grows by one exactly if k was new; keys() stay sorted and duplicate-free.",
  "every map, every pair of keys and every value",
  "all keys and all maps; the frame part (nothing else changed) is never asserted by tests",
  [f"{GC}: operator[](string_view), get_keys, exists"])
p("erase removes exactly one key",
  "erase(k) makes k absent, keeps every other key with its value, is a no-op if k is absent, and raises an error on a non-map without changing it.",
  "every container, every key",
  "frame condition over all other keys",
  [f"{GC}: GenericContainer::erase"])
p("Reading through a const container never changes it",
  "No operation available on a const container (lookups, exists, getters, operator[], operator(), push_bool, erase) changes its observable content.",
  "every container value and every const operation",
  "needs all const operations on all states, in particular lookups of absent keys",
  [f"{GC}: operator[](string_view) const, push_bool const, erase const"])
p("must_exists picks the first present key",
  "must_exists(list) returns the first key in the list that the map contains and throws iff none is present or the container is not a map; get_map_*(list of alternatives) read through that key.",
  "every map and every list of candidate keys",
  "order-sensitive over arbitrary lists",
  [f"{GC}: must_exists, exists, get_map_bool, get_map_int, get_map_number, get_map_string"])
p("get_if_exists reports success exactly when a compatible value is present",
  "get_if_exists(key, x) returns true and stores the value in x exactly when the container is a map that contains the key with a value convertible to x's type without loss; otherwise it returns false and leaves x untouched.",
  "every container, key and previous content of x, for bool/int/uint/long/ulong/real/complex/string",
  "type x boundary-value matrix; a sign or range test in one branch is enough to break it",
  [f"{GC}: get_if_exists(string_view,*)"])
p("get_if_exists over alternative keys",
  "The multi-key form returns true exactly when one of the keys is present with a compatible value, and reads the first such key.",
  "every container and every list of keys",
  "arbitrary lists; the bool variant has its own code",
  [f"{GC}: get_if_exists(vec_string_type,bool&)", f"{HH}: get_if_exists(vec_string_type,T&)"])
# --- indexed generic vector
p("Indexing a generic vector grows it without disturbing other elements",
  "For a generic vector (or an empty container), gc[i] afterwards has size max(old size, i+1), every element other than i that existed is unchanged, new elements are empty, and writing through the returned reference changes only element i.",
  "every vector, every index, every value written",
  "unbounded indices and frame conditions",
  [f"{GC}: operator[](unsigned), operator()(unsigned), get_gc_at"])
p("Checked indexing throws out of range",
  "operator()(i) and const operator[](i) return element i when the container is a generic vector and i is in range and throw in all other cases, without changing the container.",
  "every container value and every index",
  "all container types x all indices",
  [f"{GC}: operator()(unsigned), operator[](unsigned) const"])
p("Nested writes are read back",
  "Writing a value through a chain of operator[] with any mix of keys and indices, starting from any container in which the chain is type-compatible, and reading back through the const accessors along the same chain yields that value; any other chain that diverges from it reads what it read before.",
  "every path (arbitrary length), every container, every value",
  "paths of unbounded length; interference between two paths",
  [f"{GC}: operator[](unsigned), operator[](string_view), operator()"])
# --- push
p("push appends exactly one element",
  "A successful push_bool/int/long/real/complex/string increases the number of elements by exactly one, the new last element has the pushed value, and all previous elements keep their numeric value and position.",
  "every container value and every pushed value",
  "each push has a type-dependent promotion path; all (type, push) pairs and lengths",
  [f"{GC}: push_bool, push_int, push_long, push_real, push_complex, push_string", f"{PR}: promote_to_vec_*"])
p("A failing push leaves the container unchanged",
  "If a push throws, the container holds exactly what it held before.",
  "every container value and every pushed value",
  "exception paths are rarely exercised",
  [f"{GC}: push_*", f"{PR}: promote_to_vec_*"])
# --- promotions
p("Promotion preserves every number",
  "promote_to_int/long/real/complex and promote_to_vec_int/long/real/complex leave the number of elements (1 for scalars) and every element's numeric value unchanged (up to rounding to the nearest double when a 64-bit integer becomes a double), and the resulting container has exactly the requested type.",
  "every container value accepted by each promotion",
  "8 promotions x up to 10 source types x all values",
  [f"{PR}: promote_to_int, promote_to_long, promote_to_real, promote_to_complex, promote_to_vec_int, promote_to_vec_long, promote_to_vec_real, promote_to_vec_complex"])
p("Promotion to a matrix is a single column with the same numbers",
  "promote_to_mat_int/long/real/complex turn a vector of n numbers into an n x 1 matrix holding the same numbers in order, keep matrices' shape and numbers, and the result has exactly the requested type.",
  "every container value and each of the four matrix promotions",
  "type-confused writes only misbehave for some source types",
  [f"{PR}: promote_to_mat_int, promote_to_mat_long, promote_to_mat_real, promote_to_mat_complex"])
p("promote_to_vector keeps every element",
  "promote_to_vector turns a scalar into a one-element generic vector with that scalar, a typed vector into the generic vector of its elements, and leaves a generic vector unchanged.",
  "every container value",
  "scalar/vector case split over all types and values",
  [f"{PR}: promote_to_vector"])
p("A failing promotion leaves the container unchanged",
  "If any promote_to_* throws, the container holds exactly what it held before.",
  "every container value and every promotion",
  "exception paths",
  [f"{PR}: promote_to_*"])
p("copyto_vec_* returns the stored numbers or throws",
  "copyto_vec_int/uint/long/ulong/real/complex/string fill the output with exactly the stored elements, each equal to the stored number (nearest double for long to real), in order and with nothing else; if some element is not representable they throw.",
  "every container value and every previous content of the output",
  "all source types, all values, all lengths",
  [f"{PR}: copyto_vec_int, copyto_vec_uint, copyto_vec_long, copyto_vec_ulong, copyto_vec_real, copyto_vec_complex, copyto_vec_string"])
p("copyto_mat_* returns the stored matrix or throws",
  "copyto_mat_* of a matrix yields a matrix of the same shape with the same numbers; of a vector of n numbers an n x 1 matrix; of anything else it throws.",
  "every container value",
  "type/shape matrix and empty matrices",
  [f"{PR}: copyto_mat_int, copyto_mat_long, copyto_mat_real, copyto_mat_complex"])
# --- matrices
p("Matrix rows and columns are the stored entries",
  "For an nr x nc matrix, the element access (i,j) reads and writes entry i + j*nr; distinct in-range index pairs denote distinct entries; get_column(j) and get_row(i) return exactly the entries of that column/row and throw when the index is out of range.",
  "every matrix (any shape), every index pair",
  "index arithmetic for all shapes",
  [f"{GC}: mat_type::operator(), get_column, get_row"])
p("Matrix access out of range throws",
  "Accessing entry (i,j) with i >= nr or j >= nc raises an error.",
  "every matrix and every index pair",
  "only certain (i,j) outside the matrix still hit the flattened storage",
  [f"{GC}: mat_type::operator(), get_int_at(i,j), get_real_at(i,j), get_complex_at(i,j)"])
# --- serialization
p("mem_size is exactly the number of bytes serialize writes",
  "For every value, if the buffer has at least mem_size() bytes then serialize succeeds, returns mem_size() and has written exactly that many bytes.",
  "every container value (whose encoding fits 2^31-1 bytes)",
  "unbounded recursive values",
  [f"{SE}: mem_size, serialize"])
p("serialize never writes outside the buffer",
  "serialize into a buffer of any length either throws or returns a byte count not larger than that length; in both cases no byte outside the buffer is written.",
  "every container value and every buffer length",
  "needs every possible truncation point of every encoding",
  [f"{SE}: serialize, *_to_buffer"])
p("serialize / de_serialize round trip",
  "de_serialize applied to the bytes produced by serialize, followed by arbitrary other bytes, reconstructs exactly the original value and reports exactly the number of bytes serialize wrote, whatever the receiving container held before.",
  "every container value, every trailing bytes, every previous content of the receiver",
  "unbounded recursive values; self-delimiting property cannot be tested exhaustively",
  [f"{SE}: serialize, de_serialize"])
p("Serialization is injective",
  "Two different values never serialize to byte strings one of which is a prefix of the other.",
  "every pair of container values",
  "pairs of unbounded values",
  [f"{SE}: serialize"])
p("de_serialize never reads outside the buffer",
  "On any byte buffer of any length, de_serialize either throws or succeeds, reading only bytes inside the buffer.",
  "every byte string (including truncated and hostile ones) and every declared length",
  "out-of-bounds reads are silent; the input space is all byte strings",
  [f"{SE}: de_serialize, buffer_to_*"])
# --- collapse
p("collapse preserves the data",
  "When collapse succeeds, the container still denotes the same nested data: same keys, same lengths, same strings, and numerically equal numbers at each position, where a matrix denotes the list of its columns.",
  "every container value at every depth",
  "recursive shape-dependent rewriting over unbounded trees",
  [f"{CO}: collapse"])
p("collapse is idempotent",
  "Collapsing an already collapsed container changes nothing.",
  "every container value",
  "recursion over unbounded trees; needs two-step reasoning",
  [f"{CO}: collapse"])
p("collapse never fails on parsed data",
  "collapse never throws on a container made only of values that a JSON/YAML/TOML reader can produce (null, bool, integer, long, real, string, vectors and maps of those).",
  "every such tree",
  "mixed arrays such as [\"a\",[1]] are combinatorially many",
  [f"{CO}: collapse", f"{PR}: copyto_vec_int, copyto_vec_long, copyto_vec_real, copyto_vec_complex"])
# --- compare
p("compare_content is a faithful equality test",
  "compare_content terminates on every pair of values and returns an empty report exactly when the two containers hold equal content.",
  "every pair of container values",
  "a missing iterator increment only shows on equal non-empty vectors; pairs of unbounded trees",
  [f"{GC}: compare_content, compare_vector, compare_matrix"])
# --- text
p("string_escape is unambiguous",
  "The quoted, escaped form of a string determines the string: un-escaping it gives back the original for every byte string, and the quoted text contains no unescaped quote inside.",
  "every byte string",
  "all byte strings, including backslashes before quotes",
  [f"{GC}: string_escape"])
p("Tokenizer splits exactly on delimiters",
  "tokenizeString returns exactly the maximal non-empty runs of non-delimiter characters, in order.",
  "every string and every delimiter set",
  "all strings",
  [f"{SU}: tokenizeString"])
p("Table written by write_formatted_data is read back",
  "Writing a data table and reading it with read_formatted_data gives back the same headers, the same number of columns and rows and the same cells.",
  "every table of numeric columns with header names free of delimiters and comment characters",
  "all table shapes and contents",
  [f"{SU}: write_formatted_data, read_formatted_data, get_line_and_skip_comments", "src/GenericContainerTables.cc: write_table"])
p("Comment lines are skipped, data lines are kept",
  "While reading formatted data, a line is skipped if and only if it contains a comment character; all other lines are returned unchanged and in order.",
  "every sequence of lines and every comment character set",
  "all inputs",
  [f"{SU}: get_line_and_skip_comments"])
# --- JSON/TOML/YAML/Lua
p("JSON numbers keep their value when read",
  "Reading a JSON document stores every integer literal that fits 64 bits (signed or unsigned) as a number equal to the literal.",
  "every integer literal in [-2^63, 2^64-1], at every place in a document",
  "wrap-around only at [2^31,2^32) and [2^63,2^64)",
  ["src_json_interface/from_json.cc: decode_json", f"{HH}: operator=(uint_type), operator=(ulong_type)"])
p("Reading a JSON document replaces the container",
  "from_json of a document into a container that already holds data gives the same result as reading it into an empty container.",
  "every document tree and every previous content",
  "pairs of unbounded trees",
  ["src_json_interface/from_json.cc: decode_json, from_json", f"{GC}: set_vector, set_map"])
p("to_json produces valid JSON",
  "The text written by to_json is a syntactically valid JSON document describing the container's data.",
  "every container value",
  "all values: empty vectors, empty maps, keys with quotes and control characters",
  ["src_json_interface/to_json.cc: to_json", f"{GC}: string_escape"])
p("TOML and YAML readers keep integers",
  "Reading a TOML/YAML integer that fits 64 bits stores a number equal to it, alone or inside an array.",
  "every 64-bit integer and every array of them",
  "narrowing only shows above 2^31 inside homogeneous arrays",
  ["src_toml_interface/from_toml.cc: TOML_to_GC", "src_yaml_interface/from_yaml.cc: YAML_to_GC"])
p("Lua tables survive conversion",
  "Converting a container to a Lua value leaves exactly one value on the Lua stack, and that value describes the container's data.",
  "every container value at every nesting depth",
  "the stack discipline must hold for all nestings",
  ["src_lua_interface/GenericContainerInterface_lua.cc: GC_to_lua"])
# --- C interface
p("C interface cursor stays valid",
  "After any sequence of C API calls on a container, the cursor stack denotes a chain of nested positions inside the container (each one a direct element of the previous one), so no call follows a dangling pointer.",
  "every finite history of C API calls",
  "histories of unbounded length; dangling pointers do not fail deterministically",
  [f"{CI}: GenericContainerExplorer, GC_push_vector_position, GC_push_map_position, GC_pop_head, GC_reset_head, GC_set_*"])
p("C interface containers are independent",
  "Operations performed while one named container is selected never change the content or cursor of any other named container, and selecting a name again gives back the same container.",
  "every history of C API calls and every pair of names",
  "interleavings of histories",
  [f"{CI}: GC_new, GC_select, GC_delete"])
p("C interface errors do not escape",
  "Every C API function returns a status or value; no C++ exception propagates into the C caller.",
  "every C API state and every call",
  "all states x all calls",
  [f"{CI}: GC_TRY, GC_get_*, GC_set_vector_of_*"])
p("C interface key iteration visits every key once",
  "After GC_init_map_key on a map, successive GC_get_next_key calls (with no modification in between) return each key exactly once in sorted order and then the empty string forever.",
  "every map and every number of calls",
  "all maps",
  [f"{CI}: init_map_key, next_map_key"])
p("What read_formatted_data reads from any text",
  "For every text: the headers are the tokens of the first line without comment character, each column holds the numbers of the following such lines up to the first blank one, and the call throws exactly when one of these lines has another number of tokens than the header line; the rows before it are then stored.",
  "every text, comment set and delimiter set",
  "all texts",
  ["src/GenericContainerSupport.cc: read_formatted_data, get_line_and_skip_comments, tokenizeString"])
p("Reading a table replaces the previous table",
  "read_formatted_data into a container that already holds a table gives the same headers and columns as reading into an empty container; other keys are kept.",
  "every text and every previous container value",
  "all previous contents",
  ["src/GenericContainerSupport.cc: read_formatted_data", "src/GenericContainer.cc: set_vector, set_vec_real"])
p("Sized setters",
  "set_vec_T(n) and set_vector(n) with n > 0 leave a vector of exactly n elements: the elements already stored (if the container held a vector of this type) as far as they go, then value-initialised ones; with n = 0 the old vector is kept. set_mat_T(nr,nc) does the same with the storage of the matrix and sets its dimensions.",
  "every container value and every size",
  "all sizes x all previous contents",
  ["src/GenericContainer.cc: allocate_vec_*, allocate_mat_*, set_vec_*, set_mat_*, set_vector, set_map"])
p("get_keys lists the keys",
  "get_keys gives each key of a map exactly once in increasing order (nothing for other containers), and get_keys() is these keys separated by a comma and a blank.",
  "every container value",
  "all maps",
  ["src/GenericContainer.cc: get_keys"])
p("free_pointer",
  "free_pointer empties a container that holds a pointer or nothing, and on any other container throws without changing it.",
  "every container value",
  "all container values",
  ["src/GenericContainer.cc: free_pointer"])
J2=["src_json_interface/from_json2.cc: from_json2", "src_json_interface/jsonParser.tab.cc: Parser::parse", "src_json_interface/jsonLexer.cc: Lexer", "src_json_interface/jsonParser.tab.hh: ParserWrapper"]
p("from_json2 stores the data of the document",
  "For every text that is a JSON document (RFC 8259), from_json2 into an empty container returns true and the container holds the data of the document: members by name, array elements in order, numbers, strings, booleans and nulls.",
  "every JSON text, of any length and nesting depth",
  "all texts",
  J2)
p("from_json2 on any text returns or throws",
  "For every text and every previous container value, the parser of from_json2 terminates, returns or throws, has no undefined behaviour and leaves a well-formed container.",
  "every text, valid or not, and every container value",
  "all texts: tests cannot settle termination or the absence of undefined behaviour on arbitrary input",
  J2)
p("from_json2 rejects what is not JSON",
  "For every text that is not a JSON document, from_json2 throws.",
  "every text",
  "all texts",
  J2)
p("What to_json writes can be read back",
  "For every container, the text written by to_json, read by from_json2 or by from_json into an empty container, gives a container with the same data.",
  "every container value, every depth, every indentation and every precision of the stream",
  "all containers, nested to any depth",
  ["src_json_interface/to_json.cc: to_json"]+J2+["src_json_interface/from_json.cc: from_json"])
CA=["src/GenericContainerInterface_C.cc: GC_set_*", "src/GenericContainerInterface_C.cc: GC_push_*", "src/GenericContainer.cc: allocate_*"]
p("C interface setters store exactly the given value",
  "GC_set_bool/int/real/complex/string, GC_set_vector_of_*, GC_set_empty_vector_of_* and GC_set_empty_vector report success and leave at the current position exactly the given value; GC_push_* on a vector of its type appends the value; nothing outside the current position changes and the cursor stays.",
  "every container, every position of the cursor, every value and vector length",
  "all nested containers and positions",
  CA)
p("C interface getters return what is stored and change nothing",
  "GC_get_* return the value stored at the current position (or at the given index or row and column of it) and leave the container and the cursor unchanged.",
  "every container, every position of the cursor, every index",
  "all nested containers and positions",
  ["src/GenericContainerInterface_C.cc: GC_get_*"])
p("read_formatted_data2 stores the table by column name and the parameters",
  "read_formatted_data2 on any text: the first line that is neither empty nor commented gives the headers, each following one a row; afterwards data[header] holds the numbers of its column in order, one per row, and every parameter line (?!name = value) up to the end of the table has set its parameter, the last one winning. It throws exactly when a row has another number of cells than the header.",
  "every text, every set of comment and delimiter characters, every previous container and parameters",
  "all texts",
  ["src/GenericContainerSupport.cc: read_formatted_data2", "src/GenericContainerSupport.cc: get_line_and_skip_comments2"])
p("Reading a TOML or YAML document replaces the container",
  "from_toml or from_yaml of a document into a container that already holds data gives the same result as reading it into an empty container.",
  "every document tree and every previous content",
  "pairs of unbounded trees",
  ["src_toml_interface/from_toml.cc: TOML_to_GC, from_toml", "src_yaml_interface/from_yaml.cc: YAML_to_GC, from_yaml"])
p("A YAML key that is not a string is reported",
  "from_yaml returns false for every document in which some mapping, at any depth, has a key that is not a string; otherwise every node is stored before the final collapse.",
  "every YAML tree, every previous content of the container",
  "all trees, any depth",
  ["src_yaml_interface/from_yaml.cc: YAML_to_GC, from_yaml"])
p("Reading a Lua value stores its data",
  "Lua_global_to_GC (and lua_to_GC) on a global whose value is made of booleans, numbers, strings and tables succeeds and afterwards the container holds exactly the data of the value: maps for tables with string keys, lists for tables with the keys 1..n, whatever the container held before and in whatever order Lua goes through the entries; the Lua stack is as before.",
  "every Lua value at every depth, every previous content, every stack",
  "all nested tables and all orders of traversal",
  ["src_lua_interface/GenericContainerInterface_lua.cc: lua_table_to_GC, push_vec_element, push_hash_element, lua_to_GC, Lua_global_to_GC"])
p("A container handed to Lua and read back has the same data",
  "Lua_GC_to_global followed by Lua_global_to_GC of the same global gives a container with the same data.",
  "every container, every nesting, every previous content of the receiving container",
  "two recursive conversions over unbounded trees",
  ["src_lua_interface/GenericContainerInterface_lua.cc: Lua_GC_to_global, Lua_global_to_GC"])
p("Storing through an indexed reference replaces exactly that element",
  "c.get_T_at(i) = x (T int, long, real, complex, string) on an empty container, a vector or a scalar leaves a vector that has x at position i, every other element with its old number, zeros or empty elements between the old end and i, and no more elements; a typed vector stays typed when its type can hold x. On matrices and maps it throws and changes nothing. c.get_T() = x stores x in an empty container or one of type T and throws otherwise.",
  "every container, every index, every value",
  "all container types times all indices and lengths",
  ["src/GenericContainer.cc: get_int_at, get_long_at, get_real_at, get_complex_at, get_string_at (non-const)", "src/GenericContainer.cc: get_bool, get_int, get_long, get_real, get_complex, get_string (non-const)"])
p("Reading through a non-const getter returns what is stored and keeps it",
  "Reading the i-th element with the non-const get_T_at(i) shows the number stored there, and the container holds the same numbers afterwards (perhaps promoted to another type); the same for get_vec_T, get_mat_T and the scalar getters. When the type does not fit they throw and leave the container as it was.",
  "every container and every index",
  "all container types times all indices and lengths",
  ["src/GenericContainer.cc: get_*_at, get_vec_*, get_mat_* (non-const)"])
p("Entry (i,j) through a non-const reference",
  "c.get_T_at(i,j) refers to the entry in row i and column j: reading shows it, storing changes exactly this entry and keeps the shape; a vector is taken as one column; an empty container gets a matrix that has this entry; an index outside of the matrix throws and changes nothing.",
  "every matrix, vector and empty container, all indices",
  "all shapes and indices",
  ["src/GenericContainer.cc: get_int_at, get_long_at, get_real_at, get_complex_at with two indices (non-const)"])
p("The TOML written for a container has its structure and data",
  "to_toml gives the formatter a TOML table that has the data of the container: tables for maps with the same keys, arrays for vectors, integers, floats, booleans and strings for scalars; matrices are written with their dimensions and all entries.",
  "every container, every nesting",
  "unbounded trees of all container types",
  ["src_toml_interface/to_toml.cc: GC_to_TOML, to_toml"])
p("A container written as TOML and read back has the same data",
  "For every container that is a map, from_toml of the tree written by to_toml succeeds and gives a container with the same data, whatever non-map the receiving container held.",
  "every map container, every nesting, every previous content",
  "two recursive conversions and collapse over unbounded trees",
  ["src_toml_interface/to_toml.cc: GC_to_TOML, to_toml", "src_toml_interface/from_toml.cc: TOML_to_GC, from_toml"])
p("The YAML written for a container is YAML and has its structure and data",
  "to_yaml writes a YAML document whose tree has the data of the container: block mappings for maps with the same keys, sequences for vectors, a sequence of columns for matrices, and scalars that are read as the same values.",
  "every container, every nesting, every indentation, every stream precision",
  "unbounded trees, all strings and all doubles",
  ["src_yaml_interface/to_yaml.cc: GenericContainer::to_yaml", "src/GenericContainerSupport.cc: string_escape"])
p("A container written as YAML and read back has the same data",
  "from_yaml of the tree of the text written by to_yaml succeeds and gives a container with the same data.",
  "every container, every nesting",
  "a writer, a reader and collapse over unbounded trees",
  ["src_yaml_interface/to_yaml.cc: GenericContainer::to_yaml", "src_yaml_interface/from_yaml.cc: YAML_to_GC, from_yaml"])
p("A MATLAB value is read without loss",
  "mxArray_to_GenericContainer clears the container and stores the array in it: a scalar for one element, a vector for a row, a matrix for a matrix, a string for text, a sequence for a row or column of cells, a map for a struct (a map of sequences for a struct array), and the compressed columns for a sparse array, with the same numbers and the same text.",
  "every MATLAB array of every class, shape and nesting, every previous content",
  "all classes, shapes and nestings",
  ["src_matlab_interface/GenericContainerInterface_matlab.cc: mxArray_to_GenericContainer, mxSparse_to_GenericContainer, mx_to_vec_bool, mx_to_vec_int, mx_to_vec_long, mx_to_vec_real, mx_to_vec_complex, mx_to_vector, mx_to_map"])
p("A container is handed to MATLAB without loss",
  "GenericContainer_to_mxArray builds a proper MATLAB array with the data of the container: arrays of numbers of the same shape, char arrays for strings, cell rows for vectors and structs for maps with the same field names.",
  "every container, every nesting",
  "unbounded trees of all container types",
  ["src_matlab_interface/GenericContainerInterface_matlab.cc: GenericContainer_to_mxArray"])
p("A container handed to MATLAB and read back has the same data",
  "mxArray_to_GenericContainer of the array made by GenericContainer_to_mxArray gives a container with the same data, whatever the receiving container held; doing it again changes nothing more.",
  "every container, every nesting, every previous content",
  "two recursive conversions over unbounded trees",
  ["src_matlab_interface/GenericContainerInterface_matlab.cc: GenericContainer_to_mxArray, mxArray_to_GenericContainer"])
p("Values handed to MATLAB one by one are read back as they were",
  "The array made by to_mxArray for a boolean, integer, real, complex number, string, vector or matrix is read by mxArray_to_GenericContainer as the same value.",
  "every value of each of these types",
  "all values, lengths and shapes",
  ["src_matlab_interface/GenericContainerInterface_matlab.cc: to_mxArray, mxArray_to_GenericContainer"])
p("dump shows every value of the container",
  "For every value inside a container, at any depth, dump prints the key or index of the value and the value, in the order of the container, indented by its depth, and nothing else; matrices are printed row after row.",
  "every container, every nesting, every prefix and indentation, every stream precision",
  "unbounded trees; all paths into them",
  ["src/GenericContainer.cc: GenericContainer::dump, operator << of vectors and matrices", "include/GenericContainer/GenericContainer.hh: GenericContainer::print"])
p("The prefix is prepended to every line",
  "Every line printed by dump and by print_content_types starts with the prefix that was given.",
  "every container, every nesting, every prefix",
  "unbounded trees; every line of an unbounded text",
  ["src/GenericContainer.cc: GenericContainer::dump, GenericContainer::print_content_types", "include/GenericContainer/GenericContainer.hh: doc of dump (prefix)"])
p("print_content_types names every type and shows no data",
  "print_content_types prints the type and the sizes of every value inside the container with its key or index, and the text depends only on types, sizes and keys: containers that differ in their data only are printed alike.",
  "all pairs of containers that differ in their data only, every nesting",
  "a statement about pairs of unbounded trees",
  ["src/GenericContainer.cc: GenericContainer::print_content_types"])
p("Keys with formatting are printed as their title",
  "dump and print_content_types print a key of the form number, # or ##, perhaps one of - = ~ _, title as its title, for maps and vectors as a header (an empty line above for ##, underlined with the character given, otherwise followed by a colon); all other keys are printed as they are.",
  "all strings as keys",
  "a regular expression applied to all strings",
  ["src/GenericContainer.cc: Pcre_for_GC::exec, GenericContainer::dump, GenericContainer::print_content_types"])
p("write_table_formatted aligns the columns",
  "write_table_formatted writes a line of headers, a rule, one line per row and the rule again; headers and numbers are right aligned in columns of the width of the longest header (8 to 20 characters) and all lines are as long as the rule.",
  "every list of headers, every list of columns or matrix, every stream precision",
  "tables of any size; the width of a printed number depends on its value in all of double",
  ["src/GenericContainerTables.cc: write_table_formatted (both)"])
p("Ruby: load stores the value that is given",
  "After GenericContainer#load in Ruby the container holds the data of the Ruby value (Arrays, Hashes, numbers, Strings, Symbols, booleans, nil, nested in any way), whatever it held before.",
  "every Ruby value, every nesting, every previous content, every state of the other objects",
  "unbounded nested values; all previous contents",
  ["src_ruby_interface/GenericContainer_ffi.rb: GC_from_hash, addToVector, fromVector, fromMixedHash, GenericContainer#load"])
p("Ruby: get_data gives the content of the container",
  "GenericContainer#get_data in Ruby ends and gives a Ruby value with the data of the container; the container is unchanged.",
  "every container, every nesting",
  "termination for all containers; unbounded nesting",
  ["src_ruby_interface/GenericContainer_ffi.rb: GC_to_hash, toVector, toMatrix, GenericContainer#get_data", "src/GenericContainerInterface_C.cc: GC_get_next_key"])
p("Ruby: what was loaded comes back",
  "load followed by get_data gives a Ruby value with the data of the value loaded.",
  "every Ruby value, every nesting",
  "unbounded nested values; two conversions composed",
  ["src_ruby_interface/GenericContainer_ffi.rb: GenericContainer#load, GenericContainer#get_data"])
p("Ruby: calls on one object do not disturb later calls or other objects",
  "load and get_data, whether they succeed or raise, leave all other objects as they are, and the next call on the same object starts at its root.",
  "every history of calls, every Ruby value, every pair of objects",
  "all call histories, shared hidden state (the cursor)",
  ["src_ruby_interface/GenericContainer_ffi.rb: class GenericContainer", "src/GenericContainerInterface_C.cc: GC_select"])
p("Raw data pointers give the stored elements",
  "get_int_pointer, get_long_pointer, get_real_pointer and get_complex_pointer give the stored elements of a scalar, a vector or a matrix (column by column); writing through the pointer changes exactly that element of the container; for containers of any other type they throw.  get_ppvoid does the same for a pointer.",
  "every scalar, vector and non-empty matrix, every index, every value written, every other container",
  "vectors and matrices of every size; all other elements must be unchanged",
  ["src/GenericContainer.cc: GenericContainer::get_int_pointer, get_long_pointer, get_real_pointer, get_complex_pointer, get_ppvoid"])
p("info tells type and size",
  "info writes one line that tells the type of data and the size (of vectors and matrices) or the value (of booleans and integers): containers with the same info have the same kind of data, the same sizes and the same integers.",
  "all pairs of containers",
  "a statement about all pairs of containers",
  ["src/GenericContainer.cc: GenericContainer::info"])
p("The order of members does not matter",
  "from_json and from_yaml give the same result and leave the same content for two documents that differ only in the order of the members of their objects, at any depth, whatever the container held before.",
  "every pair of documents of any nesting that differ in the order of members with distinct names, every previous content",
  "all permutations at all depths, all previous contents",
  ["src_json_interface/from_json.cc: decode_json, from_json", "src_yaml_interface/from_yaml.cc: YAML_to_GC, from_yaml"])
p("Assignment between parts of one container",
  "Assigning one part of a container to another (a[k] = a[j], a = a, a = a[k], a[k] = a) gives the same as assigning an independent copy of the source, and leaves all other parts as they are.",
  "every container, every pair of positions in it",
  "aliasing: all pairs of positions in all containers; failures are reads of freed memory and endless recursion",
  [f"{GC}: GenericContainer::from_gc, set_complex, allocate_vector, allocate_map", f"{HH}: operator=(GenericContainer const &)"])
p("merge between parts of one container",
  "Merging one part of a container into another gives the same as merging an independent copy of it, and leaves all other parts as they are.",
  "every container, every pair of positions in it",
  "aliasing: all pairs of positions in all containers",
  [f"{GC}: GenericContainer::merge, from_gc"])
p("Addresses are written exactly, and integers after them as their bits",
  "A pointer is written as a hexadecimal number that is its address, in JSON, YAML, TOML, dump and info, so different addresses have different texts.  In JSON, YAML and dump integers are written in decimal until the first pointer was written, and as the hexadecimal number of their bits afterwards; other streams are not affected.",
  "every address, every integer, every container with pointers at any place, any state of the stream",
  "a statement about all addresses; the mode of the stream depends on everything written before, at any depth",
  ["src_json_interface/to_json.cc: to_json", "src_yaml_interface/to_yaml.cc: to_yaml", "src_toml_interface/to_toml.cc: GC_to_TOML", f"{GC}: GenericContainer::dump, info"])
p("C interface: calls before a container is selected, and the numbers of the status codes",
  "Until GC_new, GC_select, GC_mem_ptr or GC_fill_for_test has been called, every other function leaves everything as it is and returns its documented neutral value: status 4 (BAD_HEAD), 0, -1 as type, a null pointer, the empty text as type name.  After that there is always a current container, also if it is deleted.  Status codes are 0 for success, 1 for a wrong type, 2 for an exception or an empty stack, 4 for no current position.",
  "every history of calls, every name, key, position and value",
  "all histories of calls",
  ["src/GenericContainerInterface_C.cc: all functions", "include/GenericContainer/GenericContainerInterface_C.h: GC_ErrorCodes"])
p("C interface: GC_fill_for_test gives known content",
  "After GC_fill_for_test(name) the container of that name is current and holds the same test data, whatever was there before.",
  "every history of calls, every name, every previous content",
  "all histories of calls and all previous contents",
  ["src/GenericContainerInterface_C.cc: GC_fill_for_test"])
p("from_json accepts exactly the JSON texts and finds their document",
  "from_json returns true for a text if and only if it is a JSON text (RFC 8259, in UTF-8), and then reads the document of that text: the same structure, names, strings and constants, integers of 64 bits exactly, other numbers as doubles close to them.  It returns false for all other texts and leaves the container as it was.",
  "every sequence of bytes (shorter than 2^31), documents of any nesting, every previous content",
  "all texts and all documents; what a parser wrongly refuses or accepts is not in the test data",
  ["src_json_interface/from_json.cc: from_json", "src_json_interface/rapidjson/reader.h: GenericReader::Parse, ParseValue, ParseString, ParseNumber, ParseArray, ParseObject", "src_json_interface/rapidjson/internal/strtod.h: StrtodNormalPrecision"])
p("from_json reads a real as the double nearest to it",
  "A real number in a JSON text is read as the double nearest to it.",
  "every number text within the range of doubles, of any length",
  "all number texts: whether the roundings in between matter depends on all digits and on the exponent",
  ["src_json_interface/rapidjson/reader.h: GenericReader::ParseNumber", "src_json_interface/rapidjson/internal/strtod.h: FastPath, StrtodNormalPrecision", "src_json_interface/rapidjson/internal/pow10.h: Pow10"])
p("A key given as part of a longer text names the member with exactly these characters",
  "Every function that takes a key as a string_view (exists, operator(), operator[], get_map_*, get_if_exists, erase) acts on the member whose name is the characters of the view, also if the view is only a part of a longer text in memory.",
  "every view of every text, every container",
  "all texts and all containers; the tests use string literals, which end where the view ends",
  [f"{GC}: GenericContainer::exists, operator (), operator [], get_map_bool, get_map_int, get_if_exists, erase"])
p("Calling a Lua function",
  "LuaInterpreter::call(io, res), where io has a string under 'function' and anything under 'args', runs the global function of that name on a value with the data of the arguments and stores the data it returns in res.  If the function fails or there is none, or 'function' or 'args' is missing, an exception is thrown and res is as before.  The stack of the interpreter is as before in every case, so any number of calls can be made.",
  "every container of arguments, every function (also one that fails), every previous content of res, any number of calls",
  "all functions, all arguments, and sequences of calls of any length",
  ["src_lua_interface/GenericContainerInterface_lua.cc: LuaInterpreter::call"])
p("Programs build exactly the valid containers",
  "Whatever calls of the container's functions a program makes, on containers, on parts of them reached by operator[] or operator(), and through the references to scalars, vectors, matrices, maps and elements that the functions return, and whatever texts and values it reads into them, also when exceptions are caught on the way, every container is valid: numbers are in the range of their types, a matrix has as many entries as rows times columns, the keys of a map are different and in order.  Every valid container can be built by such a program.",
  "every finite program of such calls, with arguments of the C++ types; every valid container",
  "all sequences of calls, nested arguments of any depth, and all containers",
  [f"{GC}: all functions that change a container", "src/GenericContainerPromote.cc: promote_to_*", "include/GenericContainer/GenericContainer.hh: GenericContainer, mat_type", "src_json_interface/from_json.cc", "src_yaml_interface/from_yaml.cc", "src_toml_interface/from_toml.cc", "src_lua_interface/GenericContainerInterface_lua.cc", "src_matlab_interface/GenericContainerInterface_matlab.cc"])
p("No call on a valid container is undefined behaviour",
  "A call of a function that sets, grows, promotes, copies or merges a container, or assigns through a reference it returns, on a valid container or on a part of it, either does its work or throws; it has no undefined behaviour (except back() and pop_back() of an empty vector).",
  "every such call, every valid container with vectors of fewer than 2^32 elements, arguments of any size below that, parts at any depth",
  "undefined behaviour need not show in a test, and the containers, indices and call chains are unlimited",
  [f"{GC}: set_*, push_*, get_*_at, operator [], operator (), from_gc, to_gc, merge", "src/GenericContainerPromote.cc: promote_to_mat_int, promote_to_mat_complex, promote_to_vector"])
p("Work on a part of a container leaves the other parts alone",
  "Any call made on a part of a container, reached by operator[], operator() or get_map()[] with names and indices, has the outcome it has on that part alone, the part becomes what the call makes of it, and every other part of the container stays as it is; parts that appear are empty.",
  "every call, every chain of accesses of any length, every container and every other part of it",
  "all containers, chains and pairs of parts; the effect on parts that are not looked at",
  [f"{GC}: operator [], operator (), get_map"])
p("A call that throws leaves the container unchanged",
  "If a call of a function that sets, grows, promotes, copies or merges a container, or assigns through a reference it returns, throws an exception, the container is as it was before the call.",
  "every such call that throws, every valid container, parts at any depth",
  "all containers and all ways a call can fail; tests seldom look at the container after an exception",
  [f"{GC}: get_mat_long, get_int_at, get_long_at, get_real_at, get_complex_at, operator [], push_*, merge, erase", "src/GenericContainerPromote.cc: promote_to_*"])
p("Calls on different parts can be made in any order",
  "Two calls on different parts of a container (under different names of the same map or at different indices of the same vector, at any level, reached by operator[], operator() or get_map()[]), each of whose parts can be reached without the other call, have the same outcomes and give the same container in either order.",
  "every two calls, every two chains of accesses of any length that part at some level, every valid container",
  "all containers and pairs of calls; the order only shows where parts are made or vectors grow",
  [f"{GC}: operator [], operator (), get_map"])
p("Collapsing read data, and reading JSON, fail exactly on a clash of types",
  "collapse of a container made only of values that a reader can produce fails exactly when some generic vector in it has a clash: its elements are booleans, numbers, strings and sequences of one boolean or number, one of these sequences holds an int, long or real and none a wider type, and some boolean, number or string outside them cannot be converted exactly to that type. Reading a JSON document fails exactly when one of its arrays has such a clash. The failure is an exception unless the value that does not convert is a double with an integer value too large for the type.",
  "every such container with fewer than 2^31 values, of any shape and depth; every JSON document with integers that fit the signed types, different member names and no zero characters",
  "the failing documents are scattered among infinitely many that are read",
  [CO+": collapse", PR+": copyto_vec_int, copyto_vec_long, copyto_vec_real", "src_json_interface/from_json.cc: from_json"])
p("A program on separate parts treats each part as if it were alone",
  "A sequence of calls, any two of which are made on the same part of a container or on different parts of it (other names of a map or other indices of a vector, at any level), has on each part the outcomes and the final value that the calls on that part alone have; when the last of them sets a value, that value is found there in the end, whatever was there and whatever happens elsewhere.",
  "every sequence of calls of any length, failing ones included, on any number of parts at any depth, every container in which the parts that are not made by operator[] exist",
  "all programs, interleavings and containers",
  [f"{GC}: operator [], operator (), get_map, set_*, clear"])
p("Collapse works on each part alone and stops at the first that fails",
  "collapse of a map succeeds exactly when it does on every member; after a success each member, at any depth of nested maps, is what collapse makes of it alone, and no member comes or goes. When it throws, the members (in the order of their names) or elements before the failing one are collapsed, the following ones are as before, a vector that cannot be collapsed itself stays a vector of its collapsed elements, and repeating the call throws again without any further change.",
  "every container, maps of any size, nesting of any depth",
  "all containers and all places where a collapse can fail; tests seldom look at a container after an exception",
  [CO+": collapse"])
p("Collapse is never undefined behaviour on containers without large doubles",
  "collapse of any valid container, with pointers, complex numbers, strings, typed vectors and matrices anywhere in it, either succeeds or throws an exception, provided no double that is an element of a generic vector (or is the real part of a complex number there) has an integer value outside the range of int.",
  "every valid container of any shape and depth, vectors of fewer than 2^31 elements",
  "undefined behaviour need not show in a test, and the combinations of element types and lengths are unlimited",
  [CO+": collapse", PR+": copyto_vec_int, copyto_vec_long, copyto_vec_real, copyto_vec_complex"])

p("The two JSON readers agree",
  "from_json (rapidjson) and from_json2 (the project's own lexer and parser) return the same result and leave the same container, of the same type at every place, for the same JSON text.",
  "every JSON text of any size and depth, and every container that holds neither a vector nor a map before",
  "the texts are unlimited, and two independent parsers agree on the texts of a test suite long before they agree on all",
  ["src_json_interface/from_json.cc: from_json", "src_json_interface/from_json2.cc: from_json2", "src_json_interface/jsonParser.tab.hh: ParserWrapper"])

p("What was read from JSON can be stored as bytes and restored",
  "After from_json was called on a new container with any texts one after the other, whatever the texts are and whatever the calls reported, serialize with a buffer of mem_size() bytes or more succeeds, writes mem_size() bytes, and de_serialize of these bytes into any container gives exactly the container again.",
  "every list of texts (well-formed or not, any nesting, duplicate names, \\u0000 in strings), every buffer with room, every container to restore into; fewer than 2^31 bytes",
  "serialization fails for some values (C32, C34), and only an invariant of the reader and of collapse shows that no text leads to one of them",
  ["src_json_interface/from_json.cc: from_json", CO+": collapse", "src/GenericContainerSerialize.cc: serialize, de_serialize, mem_size"])

p("from_json is defined on every text without large reals in arrays",
  "from_json on any text, well-formed or not, into any valid container, returns true or false or throws an exception and never has undefined behaviour or runs for ever, provided no real that is an element of an array of the text (or of a generic vector in the container) has an integer value outside the range of int.",
  "every text of fewer than 2^30 - 1 bytes, any nesting, duplicate names; every valid container",
  "undefined behaviour need not show in a test, and the texts are unlimited; duplicate names decode over old content",
  ["src_json_interface/from_json.cc: from_json, decode_json", CO+": collapse", "src_json_interface/rapidjson/reader.h: GenericReader::Parse"])

p("The type of a container after a successful call",
  "A call that succeeds leaves the container with the type named by the call: set_T, get_T through whose reference is written, promote_to_T, push_T, operator[], operator(), merge, assignment. Two calls give another type than their name says: promote_to_complex of a vector of bools, integers or reals gives a complex vector, and promote_to_mat_long of a vector of bools gives a real matrix.",
  "every modelled call with every argument on every container; nothing is said about collapse, de_serialize and the readers of documents",
  "the type before the call, the call and its arguments combine without bound, and a test of one combination says nothing of the next",
  [GC+": set_*, get_*, push_*, operator []", PR+": promote_to_*"])

p("from_yaml and from_toml always return true or false",
  "from_yaml on any document (accepted by the parser or not, with keys of any kind, with names given twice) into any valid container, and from_toml on any document into any container that is not a MAP, return true or false: no exception escapes and nothing is undefined, provided no real in a YAML sequence, and none in a TOML array that also holds other things, has an integer value outside the range of int.",
  "every node tree of any depth with fewer than 2^31 elements in each sequence",
  "undefined behaviour need not show in a test, and the documents are unlimited",
  ["src_yaml_interface/from_yaml.cc: from_yaml, YAML_to_GC", "src_toml_interface/from_toml.cc: from_toml, TOML_to_GC", CO+": collapse"])

p("What was read from YAML, TOML and JSON can be stored as bytes and restored",
  "After any documents were read one after the other into a new container with from_yaml, from_toml and from_json in any order, whatever the readers reported, serialize with a buffer of mem_size() bytes or more succeeds, writes mem_size() bytes, and de_serialize of these bytes into any container gives exactly the container again, when no string or name of the YAML and TOML documents has a NUL byte.",
  "every list of documents of any nesting, rejected ones and ones that fail in the middle included; every buffer with room, every container to restore into; fewer than 2^31 bytes",
  "serialization fails for some values (C32, C34), and only an invariant of the readers and of collapse shows that no document leads to one of them",
  ["src_yaml_interface/from_yaml.cc: from_yaml", "src_toml_interface/from_toml.cc: from_toml", "src_json_interface/from_json.cc: from_json", SE+": serialize, de_serialize, mem_size"])

p("Reading the same document again changes nothing",
  "When a document was read with from_json, from_yaml or from_toml, whatever the reader reported, reading the same document into the same container again gives the same report and leaves exactly the same container.",
  "every document of any nesting, including rejected texts and documents whose collapse fails; every container that holds neither a vector nor a map before",
  "old vector elements and map entries take part in the second reading, in the shape collapse gave them; the documents are unlimited",
  ["src_json_interface/from_json.cc: from_json, decode_json", "src_yaml_interface/from_yaml.cc: from_yaml", "src_toml_interface/from_toml.cc: from_toml", CO+": collapse"])

p("collapse gives the type of the widest element",
  "collapse of a non-empty vector of booleans and numbers gives the typed vector of the widest type among them (bool, int, long, real, complex) with the same values; of strings a vector of strings; of typed vectors of one length the matrix of the widest type whose columns are these vectors; vectors of booleans alone, and vectors of different lengths, stay a generic vector.",
  "every vector of fewer than 2^31 elements, in every mixture and order of types, all values",
  "the mixtures of types and lengths are unlimited; C37 only fixes the data, not the type that holds it",
  [CO+": collapse", PR+": copyto_vec_int, copyto_vec_long, copyto_vec_real, copyto_vec_complex"])

p("Lists of numbers and strings and tables of integers are read into typed containers",
  "from_json of a text and from_yaml of a document return true and leave exactly: for a list of integers of 32 bits the vector of integers; for a list of integers of 64 bits with a larger one (in JSON none from 2^31 to 2^32-1, see C45) the vector of longs; for a list of such integers and of reals with at least one real the vector of reals nearest to them; for a list of strings the vector of strings; for a list of lists of one length of integers of 32 bits the matrix of integers whose columns are the inner lists, so that get_int_at(i,j) is the i-th number of the j-th list.",
  "every non-empty list, every number of rows and columns, all values, any spacing and escapes in the text, every container to read into that holds neither a vector nor a map",
  "lengths and values are unlimited, and the result passes through parser, decoder and collapse",
  ["src_json_interface/from_json.cc: from_json, decode_json", "src_yaml_interface/from_yaml.cc: from_yaml, YAML_to_GC", CO+": collapse"])

p("The members of an object are read independently of each other",
  "When every member of a JSON object or YAML map is read without an error when it is the whole document, from_json of the text and from_yaml return true and leave a map that has exactly the names of the object, and under each name exactly what reading that member alone into a new container leaves. If some member alone is not read, the whole object is not.",
  "every object of any number of members and any nesting, any spacing and escapes in the text, every container to read into that holds neither a vector nor a map",
  "objects and their members are unlimited; one member could change the type or value of another through collapse",
  ["src_json_interface/from_json.cc: from_json, decode_json", "src_yaml_interface/from_yaml.cc: from_yaml, YAML_to_GC", CO+": collapse"])

if __name__=="__main__":
    with open("/verif/properties.jsonl","w") as f:
        for x in P: f.write(json.dumps(x)+"\n")
    print(len(P))
