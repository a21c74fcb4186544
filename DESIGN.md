# Formal model of GenericContainer: design

Source under verification: `/repo` (ebertolazzi/GenericContainer), read as text only.
Prover: Coq (Rocq) 8.16.1, standard library only (no axioms of our own, no other library).

## 1. Approach

The C++ class is modelled as total, executable Gallina functions over an inductive type
`gc` with one constructor per `GC_type` tag (21 of them).  Each function cites the file and
lines it models.  Four outcomes are distinguished for every operation:

* `Ok a`   : normal return,
* `Throw`  : a C++ exception (`GC_ASSERT` / `GC_DO_ERROR` / `std::out_of_range`), or a Lua
             error outside of a protected call (which aborts the program),
* `Undef`  : undefined behaviour (read of an inactive union member, out-of-range
             `operator[]` of `std::vector`, double-to-integer cast out of range, overflow of the
             Lua stack, ...),
* `Diverge`: an infinite loop.

Mutating operations return the outcome *and* the container afterwards, so what a throwing
operation leaves behind can be stated.

Layers (all in `rocq/theories`):

| files | content |
|---|---|
| `Base.v`, `F64.v` | outcomes, 32/64-bit wrap-around, IEEE-754 binary64 as 64-bit patterns in exact integer arithmetic (unit 2^-1074) |
| `StrMap.v`, `Value.v`, `WfDec.v` | `std::map` as sorted association list; the `gc` type, its induction principle and well-formedness `wf` (what C++ types guarantee); a decision procedure for `wf` on concrete values |
| `M*.v`  | the model, one file per source area |
| `S*.v`  | small independent specifications used to state the properties |
| `L*.v`  | lemmas and proofs |
| `Props_*.v` | the property theorems, `Example`s showing that their hypotheses can be met, and `Print Assumptions` |

If the code violates a property the theorem is named `..._refuted` (a concrete witness computed in
the model, or a whole family of them), next to the strongest positive theorem that does hold
(named `..._partial`, with the extra hypotheses saying exactly where the code deviates; the full
statement is given in the comment above it).  `MANIFEST.json` lists for each property the theorems and
what is missing.

## 2. Modelling decisions (simplifications are repeated at each definition)

* LP64: `int` 32 bits, `long`/pointers/`size_t` 64 bits.  Integers and pointers are `Z`; `wf` bounds
  them.  All casts that can change a value are written as explicit wrap functions.  `wf` has no size
  limits; where the code narrows a size to 32 bits, the narrowing is in the model.
* `double` is a `Z` in `[0,2^64)` (its bit pattern), so copies and serialization are bit exact.  The
  numeric value is obtained by decoding (`fscaled x / 2^1074`); conversion from integers is
  round-to-nearest-even, proved to be a nearest double (`f_of_Z_nearest`).
* `std::string` is Coq `string` (256-valued characters, embedded NUL allowed); text that is read or
  written is `list ascii`.  `char const *` arguments are cut at the first NUL (`cstr`).
* `std::map<string,GC>` is a list of pairs sorted strictly by unsigned byte order.
* `std::vector` is `list`; memory exhaustion (`bad_alloc`, `length_error`) is not modelled.
* A reference returned by the API (`MRef.v`) is the value it shows together with the container that
  results from storing through it.
* Heap addresses are not part of the value model (aliasing between containers cannot arise from the
  modelled API, since each container exclusively owns its payload), except in the C interface
  (`MCapi.v`), whose cursor consists of raw pointers into the tree: there every node carries an
  address, reallocation gives new addresses, and dereferencing a stale one is `Undef`.
* Numbers as text (`MNum.v`): `ostream <<` with a precision, `atof`, `strtod`, `strtoll` belong to the C++
  standard library; they are modelled as correctly rounded conversions on exact rationals.
* Of rapidjson (a copy is part of this repository) the reader with its default flags is modelled
  (`MRapid.v`), as it is used by `from_json`: bytes in, document tree out.  Not modelled: its allocators,
  its limits (texts of 2^31 bytes or more, recursion depth), writers and other flags.
* Third-party parsers and libraries (toml++, fkYAML, the Lua VM) are not modelled; the code
  of this repository that consumes or feeds them is, over a plain type of their trees.  For Lua the
  value stack, its capacity and the table operations used are modelled after the reference manual.
* The bison-generated JSON parser of `from_json2` *is* modelled: lexer, LR tables and semantic actions.
* Locale, stream state other than precision and base, and stream failure are not modelled.

## 3. What is modelled

| source | model | not modelled |
|---|---|---|
| `src/GenericContainer.cc` 43-98, 134-204, 280-1138 | `MBasic`, `MMat`, `MCompare`, `MText`, `MRaw` (raw pointers, `info`) | |
| `src/GenericContainer.cc` 1147-2317 | `MGet`, `MRef` | |
| `src/GenericContainer.cc` 2322-3412 | `MMap`, `MView` (keys as parts of a longer text), `MMat`, `MRef` | |
| `src/GenericContainer.cc` 100-122, 213-278, 3423-3707 (`dump`, `print_content_types`, `operator <<` of vectors and matrices, the regular expression for keys) | `MDump.v` | text written before an exception of a matrix access is not modelled; `std::regex` is taken to match without limits |
| `src/GenericContainer.cc` 3718-3876 | `MCopy`; `MAlias` (source and destination in one container) | spare capacity of vectors |
| `src/GenericContainerPromote.cc` | `MPromote` | |
| `src/GenericContainerCollapse.cc` | `MCollapse` | |
| `src/GenericContainerSerialize.cc` | `MSerialize` | |
| `src/GenericContainerSupport.cc`, `GenericContainerTables.cc` | `MText`, `MTabFmt` (write_table_formatted) | stream flags other than the precision |
| `src/GenericContainerInterface_C.cc` | `MCapi` | |
| `src_json_interface` | `MRapid` (rapidjson reader), `MJson` (from its tree on), `MJson2` (lexer, parser tables, actions), `MToJson` | the rest of rapidjson |
| `src_yaml_interface/from_yaml.cc` | `MYaml` | fkYAML |
| `src_yaml_interface/to_yaml.cc` | `MToYaml` | |
| `src_toml_interface/from_toml.cc` | `MToml` | toml++ |
| `src_toml_interface/to_toml.cc` | `MToToml` (up to the node tree) | toml++ formatter |
| `src_lua_interface/GenericContainerInterface_lua.cc` | `MLua` | execution of Lua code |
| `src_matlab_interface` | `MMatlab` | the MATLAB library: an mxArray is what its functions show |
| `src_ruby_interface/GenericContainer_ffi.rb` | `MRuby`, as programs of calls run by `MCapi` | Ruby objects with `to_hash` or `[]`; `Fixnum` read as Integer |
| `GenericContainerLuaPmain.cc`, tests and build files | | not modelled |

## 4. Properties and proof methods

| id | model | proof idea |
|---|---|---|
| C01-C04 | `from_gc`, `merge` | nested induction on the source against a relational spec; refuted: map over map, empty vector |
| C05 | `clear`, `set_*`, `allocate_*` | case analysis; refuted for empty vectors |
| C06, C07 | type names, element counts | exhaustive case analysis |
| C08-C12 | const getters | integer arithmetic, exactness of int32 to double, nearest for int64; refuted (truncation, huge doubles, no bounds check) |
| C13-C18 | map operations, `get_if_exists` family | sorted association list theory; case analysis |
| C19-C21 | `operator[]`, `operator()` and paths | list update lemmas, induction on paths |
| C22, C23 | `push_*` | case analysis over promotions |
| C24-C27 | promotions | case analysis and float lemmas; several refutations |
| C28, C29 | `copyto_*` | induction on lists |
| C30, C31 | `mat_type` | index arithmetic; C31 refuted |
| C32-C36 | `mem_size`, `serialize`, `de_serialize` on byte lists | mutual nested induction |
| C37-C39 | `collapse` | nested induction against the data a container denotes (`data_of`) |
| C40 | `compare_content` with a divergence outcome | refuted, partial for vector-free values |
| C41-C44, C65 | `string_escape`, tokenizer, line skipping, table reader/writer | induction on character lists, all texts |
| C45-C47, C62 | `decode_json`, `to_json` | induction over trees; the text written is parsed back by the models of `from_json2` and of rapidjson |
| C48, C66, C67 | `YAML_to_GC`, `TOML_to_GC` over document trees | induction over trees |
| C49, C68, C69 | `GC_to_lua`, `lua_table_to_GC` as stack machines | exact number of stack slots by induction; state invariant of the list under construction |
| C70, C71, C72 | `MRef`: references as value plus the container after a store | case analysis on type, list lemmas |
| C73, C74 | `GC_to_TOML`, then the reader of C48 | induction on the container; the tree meets the conditions of C48 |
| C75, C76 | `to_yaml` against a grammar of a part of YAML, then the reader of C48 | induction on the container; scalars and vectors are JSON values as in C47 |
| C77-C80 | reading and writing MATLAB arrays against a data semantics of mxArray | induction on the array, on the container; the entries of a matrix are visited in storage order |
| C81-C84 | `dump` and `print_content_types` against a walk over all paths, and a grammar of formatted keys | induction on the container; the lines of a value depend only on the last step and the depth of its path |
| C85 | `write_table_formatted` against fields of fixed width (character positions in each line) | induction on the cells; length of `%g` output bounded by precision + 7 |
| C86-C89 | Ruby's `load` and `get_data` as interaction trees over the C interface | runs are computed on the specification state of C63/C64 (content and path) and transferred; induction on the value |
| C90, C91 | raw data pointers as windows on the stored elements; `info` | list update and matrix position lemmas; injectivity of printed numbers |
| C92 | `from_json`, `from_yaml` | decoding an object is a list of keyed updates; updates of different keys commute (maps are equal when lookups are) |
| C93, C94 | `copy_at`, `merge_part`: the copy as a program on one tree with two positions, sources that are destroyed may not be read again | induction on the source for separate parts and for self-assignment; induction on fuel with rotating paths for a container stored in itself |
| C95 | the hexadecimal mode of the stream in `to_json`, `to_yaml`, `dump` | a reader of hexadecimal numbers inverts the printer; induction on the container for the mode |
| C96, C97 | the state of the C interface with nothing selected; `fill_value` | induction on the history; `test_data` lists paths and values |
| C98, C99 | `rapidjson`: the recursive reader on bytes, numbers with the roundings of each step | the reader accepts exactly a grammar with its own strings and numbers (induction on the text and on the derivation); errors are tracked as powers of (1 + 2^-52) through every multiplication, addition and division |
| C100 | `MView` | case analysis; what data() shows is the text up to the next NUL |
| C101 | `interpreter_call` | C49 and C68 for the values, induction on the number of calls for the stack |
| C102 | `MOps.perform`, `SOps.reachable` | each function keeps `wf`; mutual induction over programs and their arguments; building: induction over containers |
| C103 | `MOps.perform`, `SSafe.hazard` | induction over the statement; per function the outcome for each kind of container; copies of valid containers are total |
| C104 | `MOps.perform`, `SLocal.part`, `apart` | induction over the chain of accesses; maps: find after set, vectors: nth after resize and set |
| C105 | `MOps.perform`, `SThrow.calm` | induction over the statement; setting a member to what it was gives the same map |
| C106 | `MOps.perform`, `SLocal.beside` | every access is a get and a put of a place; puts at different places commute (maps: same look-ups; vectors: same elements) |
| C107 | `MCollapse.collapse`, `SClash.clash`, `SClashJson.json_clash` | a collapsed child is basic or a typed row exactly when the child was (`seen`), so clashes are the same before and after; then the scan picks the matrix type of the clash |
| C108 | `MOps.perform`, `SProject.run` | induction on the program: a statement changes its own part as on that part alone (C104) and keeps the value and the availability of all parts beside it |
| C109 | `MCollapse.collapse`, `SCollapseFail` | induction on the loops over members and elements; collapse of a collapsed value is the identity (C38), so a second run stops at the same place |
| C110 | `MCollapse.collapse`, `SDefined.harmless` | per vector: the scan makes all children equally long, so each column of the matrix has enough entries, and the casts see only doubles in range; scalars survive collapse unchanged |
| C111 | `MRapid.from_json_text`, `MJson2.from_json2`, `SRapid.gtext` | both readers build the container `LBuild.build` of the document before collapse (C59_steps and C98_exact_partial); texts without the escapes have no NUL in strings |
| C112 | `MRapid.from_json_text`, `MSerialize.serialize`, `MSerialize.de_serialize` | invariant kept by the reader and by collapse: no pointers, no complex numbers, no NUL bytes; then C32 and C34 |
| C113 | `MRapid.from_json_text`, `SDefined.harmless` | decoding keeps containers harmless, arrays are not longer than the text; then C110 |
| C114 | `MOps.perform`, `STyped.type_after` | case by case; references keep the type of what they point into |
| C115 | `MYaml.from_yaml`, `MToml.from_toml`, `SDefined.harmless` | both decoders keep containers harmless; then C110, and the handlers turn exceptions into false |
| C116 | C112 with `MYaml.from_yaml`, `MToml.from_toml` | both decoders keep the invariant `textual` of C112 |
| C117 | `MRapid.from_json_text`, `MYaml.from_yaml`, `MToml.from_toml` | collapse keeps the shape of a generic vector or map or replaces it (`remains`); decoding over what remains of its own result gives that result |
| C118 | `MCollapse.collapse` | the scan finds the widest type (`STight.widest`), the copy converts element by element |
| C119 | `MRapid.from_json_text`, `MYaml.from_yaml` | C98 for the text, decoding into an empty container, C118 for collapse |
| C120 | `MRapid.from_json_text`, `MYaml.from_yaml` | lookup in the decoded members, collapse entry by entry |
| C50-C53, C63, C64 | C interface as a state machine | invariant over call histories; cursor always points into the tree |
| C54-C58 | reading any text, re-reading, sized setters, keys, `free_pointer` | induction, case analysis |
| C59-C61 | `from_json2` | the LR automaton is run on the tokens of every document of an independent grammar; step bound for termination on all inputs; for C61 the stack of the automaton spells the tokens read, so the texts accepted are exactly those of `SJsonToks` |

## 5. Checking the theorems

`seeded/LOG.jsonl` records edits of the model in the manner of plausible bugs, which theorems failed, and
which statements were tightened because they did not.

## 6. Trusted base

* Coq's kernel and the standard library files loaded.
* What `Print Assumptions` prints under each theorem in `Props_*.v`: `Closed under the global context`
  for all of them, i.e. no axioms.
* The reading of the C++ source recorded in the comments of the `M*.v` files, including the semantics of
  the C++ standard library and of the third-party trees listed above.
* That the statements in `Props_*.v` say what `properties.jsonl` says in English.
