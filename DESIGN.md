# Formal model of urban-wombat/gotables in Rocq (Coq 8.16.1)

Source: `/repo` at the pinned commit (read as text only). Model and proofs: `/verif/rocq/theories`.

## 1. Approach

* The Go code is transcribed, function by function, into total Gallina functions in `Model_*.v`.
  Every definition cites the file and lines it models and says where it simplifies.
* A Go call has three outcomes: `Ok v`, `Err` (a non-nil `error`), `Panic` (run-time panic or an
  explicit `panic`). Error texts are not modelled. A mutating method returns the new state *and* the
  outcome, so a partial mutation before an error is visible.
* A cell is a `value` tagged with its Go dynamic type; `VNil` is the nil interface, `VOther` a value
  of a type the library does not support. A column type is the type string, as in the code.
* Row and column indexes at the API are `Z` (Go `int`, may be negative). `int` and `uint` have 64 bits.
* Strings are byte strings. Floats are IEEE binary32/binary64 (`SpecFloat`), with conversion to and
  from decimal text modelled exactly. A time is (seconds since year 1, nanoseconds, zone offset).
* Layer A: methods of one table, a state monad over a table plus the NilTables it allocates.
* Layer B: a heap of tables (`heap = list table`, a pointer is a position), for nested tables, Copy,
  Equals, Walk, Merge, table sets, JSON, YAML and gob.
* Theorems about "every history" quantify over all lists of API calls (`op`, `hop`, `sop`) with any
  arguments a Go program can pass, in any order, successful or not.
* Theorems live in `Props_*.v`, stated with API functions of the model and the small specification
  files `Spec*.v`; lemmas live in `Proofs_*.v`. Beside each group there is an `Example
  …_nonvacuous` with a concrete case that meets the hypotheses.
* If the code violates a property as first stated, a `…_refuted` theorem with a concrete reachable
  witness is kept, the strongest true version is proved, and the statement in `properties.jsonl` says
  "as first stated … false". Section 5 lists these.

## 2. Trusted base

* The Coq 8.16.1 kernel (including `vm_compute`, used for concrete witnesses and finite tables).
* **Axioms: none.** Every `Props_*.v` ends with a tuple of all its theorems and `Print Assumptions`
  of it; each prints "Closed under the global context". (`vcheck` lists seven constants of
  `Coq.ssr.ssrunder` as "library axioms": they are fields of a module type in the standard library
  which `lia`/ssreflect loads; no theorem depends on them.)
* No functors, module types, plugins, `Admitted`, or disabled kernel checks. Only the Coq standard
  library is imported.
* That the Gallina transcription says what the Go code does (checked by reading; the citations are
  there to make re-checking possible), and that the Spec files say what the English says.
* Contracts of code outside the repository. They are hypotheses or parameters visible in the theorem
  statements, each with a proved instance, never axioms:

| outside code | how it appears |
|---|---|
| `sort.Sort` | `env.go_sort`, `env_ok`: the result is a permutation ordered by `less` when `less` is a strict weak order |
| `strings.ToLower` | `env.to_lower`, any function (only used inside string comparison) |
| `strconv.IsPrint` for runes >= 128 | parameter `ip : Z -> bool`, any table |
| the Go compiler and runtime, for generated code | Spec_Generate: a reader, scope rules and an interpreter for the fragment of Go the generated functions use; method calls on tables are the modelled methods |
| `math/rand.Shuffle` | any list of swaps |
| `encoding/gob` | record `gob`, contract `gob_ok`: decoding what was encoded gives it back (nil slices become empty) |
| `math.Pow(10, k)` | `pow10`, contract `pow10_ok`: exact for 0 <= k <= 22 |
| `encoding/json` | the encoder is modelled bytewise; the decoder is modelled as a parser of JSON text; the parameter `wild` stands for what Go does when a float out of range is converted to an integer |
| yaml library | record `yaml`, contract `yaml_ok`: what is read back from a written document |
| `strconv.ParseFloat/FormatFloat`, `ParseInt`, `Quote`, `UnquoteChar`, `time.Parse/Format`, package regexp (the fixed patterns of parser.go), `strings.*` | modelled concretely (`Model_Lex`, `Model_Float`, `Model_Time`, `Model_Parser`); for decimals ParseFloat is proved to give the closest float, ties to even (C61); hexadecimal floats are simplified |

* Go version assumptions: `UnquoteChar` and `time.Parse` as in Go 1.20 (offset limits), JSON nesting
  limit 10000 (Go >= 1.15).

## 3. What is modelled

| source | modelled | file |
|---|---|---|
| gotables.go | Table: all constructors, row, column and cell methods, names, shapes, Copy*, Equals, IsValid*, Append*FromTable, text output, CSV | Model_Names, Model_Table, Model_Copy, Model_Heap, Model_Print, Model_Csv |
| gotables.go | TableSet methods | Model_TableSet, Model_Print |
| gotables.go | StringNested | Model_Nest |
| helpers.go | the typed getters and setters, as one function per family with the type name as argument; zero and NaN setters | Model_Table |
| sort.go | sort keys, comparators, Sort*, Search*, SwapCols, OrderCols* | Model_Sort |
| merge.go | Merge, SortUnique | Model_Merge |
| tree.go, nest.go | Walk, nesting checks, CopyDeep, NewTreeTable, Nest | Model_Heap, Model_Nest |
| errors.go, tree.go | CircRefError, the errors of IsValidTableNesting and HasCircularReference | Model_CircRef |
| parser.go | the whole text parser including its regular expressions | Model_Lex, Model_Float, Model_Time, Model_Parser |
| gob.go, json.go, yaml.go | both directions, indented JSON | Model_Gob, Model_Json, Model_Indent, Model_Yaml |
| util.go | UtilRound | Model_Round |
| gotables.go, parser.go | WriteFile, the readers of files, parseFile, MustMake | Model_File |
| generate.go | GenerateTypeStruct, GenerateTypeStructSliceFromTable, GenerateTypeStructSliceToTable; the clock is a parameter (its text has no slash: the layout has none) | Model_Generate |
| parser.go | concurrent calls and the shared line counter | Model_Race |

Simplifications, all repeated at the definitions: error texts (except those of CircRefError) and log output are dropped; memory is
unbounded; a panic inside `sort.Sort` leaves the rows unchanged in the model (in Go: in some order);
backing arrays of `[]byte` cells are values, so aliasing of byte slices between a table and its copy
is not represented; recursion into nested tables has an explicit depth bound (`fuel`), theorems are
stated for every sufficient bound and running out is `Panic` (Go: stack overflow).

**Not modelled**: the unexported and unused generateTypeStructSet, generateTypeStructSliceFromTableSet and indentText of generate.go, fake.go, pipe IO, flag parsing, `os.Exit` paths of debugging helpers, the error texts, the
remaining `Util*` helpers, goroutine schedules other than those of concurrent parser
calls (the library starts no goroutine), the Go memory model (in Model_Race.v reads and
writes of the shared counter happen in one order).

## 4. Per property

| id | what is modelled | how it is proved | file |
|----|------------------|------------------|------|
| C01 | all mutators of tables as calls on a heap | invariant `wf_heap`, induction over histories | Props_Heap |
| C02, C03, C05 | SetVal*, GetVal*, typed getters/setters | list-update lemmas under `wf_table` | Props_Cells, Props_Heap |
| C04 | typed getters with type-assertion panics | from `wf_table` | Props_Cells, Props_Heap |
| C06–C10 | row/column structural operations | exact characterisation of the result | Props_Struct |
| C11 | abstract table = list of columns | simulation, induction on histories | Props_Abstract |
| C12, C13 | ReorderCols*, Reverse, Shuffle | permutation lemmas | Props_Struct, Props_Copy, Props_Equals |
| C14, C36–C38 | Copy, Append*FromTable, GetColInfo* | loop invariants | Props_Copy, Props_Equals |
| C15 | Equals | exact characterisation, then equivalence laws | Props_Equals |
| C16, C49 | table sets | invariant over histories; exact characterisation of Copy, Equals, IsValidTableSet | Props_TableSet, Props_Sets |
| C17 | isValidName & co. bytewise | against a separate grammar | Props_Cells |
| C18–C20, C39, C44, C45 | sort keys, comparators, Sort, Search | total preorder lemmas; any sorting routine meeting its contract | Props_Sort, Props_IsKey |
| C40, C47 | sort keys over histories, IsValidTable | invariants over histories | Props_Valid |
| C43 | binary search loops | loop invariant, unbounded | Props_Sort |
| C21, C22 | Merge, SortUnique | composition of the above against an independent specification | Props_Merge |
| C23, C24 | printer and parser of tables and sets | round trip, line by line and cell by cell | Props_Text |
| C25, C26 | parser | totality and invariant for every byte string | Props_Parser |
| C27, C28 | integer, string and rune literals | scanning lemmas | Props_Lex |
| C29 | JSON text of tables and sets, and its reader | round trip through the JSON text | Props_Json |
| C30 | YAML document tree and its reader | round trip, relative to `yaml_ok` | Props_Yaml |
| C31 | CSV text | decoding by RFC 4180 rules gives headings and cells | Props_Csv |
| C32 | gob export records | round trip, relative to `gob_ok` | Props_Gob |
| C33, C34 | heap, Walk, IsValidTableNesting | measure on unvisited tables, refutations | Props_Walk |
| C35 | CopyDeep, a walk whose visitor replaces nested tables | induction over the depth, the rows and the cells still to be visited; what is seen of a table does not change with tables outside its nesting (frame lemmas); new tables are allocated in the order of the tour | Props_Deep, Props_Walk |
| C41, C42 | zero/NaN setters, index checks | direct; refutations where the code panics | Props_Cells |
| C46 | SwapCols | exact characterisation; refutation of the first wording | Props_Struct, Props_Swap |
| C50 | the JSON and YAML readers on arbitrary documents | invariant of the heap through the readers; grammar of numbers, strings and documents, sound and complete; each cell of a table against a mutually inductive description of the document, by induction on the depth, kept by all later changes | Props_Foreign, Props_JsonGrammar, Props_Indent, Props_Members, Props_JsonCells, Props_YamlCells |
| C51 | questions about cells, MustGet/MustSet, strings of columns, nested tables | case analysis on well-formed tables; frame of the heap | Props_Query, Props_Ask |
| C52 | accepted texts as documents (relation `document` in Spec_Document) | inversion of every scanner; invariant of the line loop by induction over the lines | Props_Document |
| C53 | Nest (nest.go), on the heap, with the sorting, searching, copying and printing models | loop invariant by induction over the rows; composition of the theorems of C18, C19, C23, C36, C39 | Props_Nest |
| C54 | String, StringPadded, StringUnpadded, StringNested, NewTreeTable on the heap | induction over rows and cells (printing), over the depth and the cells with a renaming relation between heaps (StringNested), pigeonhole for the depth of a nesting without cycles, loop invariant (NewTreeTable) | Props_Tree |
| C55 | A map from places to files, ioutil.WriteFile with the number of bytes that reach the file as a parameter, parseFile and the readers | round trip C24, frame lemmas and induction over the history of writes; the lines of a beginning of a text are the first lines and a beginning of the next; the parser is followed through the last line of each kind | Props_File |
| C56 | A small-step model of parseString's loop: reset, line, read and write of the shared counter, failure are separate steps; a schedule is any list of goroutine numbers | what a goroutine will return does not change with a step of any goroutine (induction over the schedule); a measure bounds its own steps; the line is followed by a sequential count that every step keeps | Props_Race |
| C57 | printMatrix item by item against a grid specification (Spec_Layout) | runes of a text followed by a space are counted separately (induction over decoding); the width of a column covers every text (fold over the rows); the text of a float with P decimals is never longer than the shortest text allows (monotone rounding, Proofs_Width) | Props_Layout |
| C58 | printStruct, the struct-shape part of parseString | each raw quoted literal is scanned and unquoted to itself (induction over code points); one parser step per line keeps an invariant on the table being read | Props_StructText |
| C59 | generate.go | a reader and interpreter of the generated Go fragment (Spec_Generate.v); the text is read back to a list of statements (induction over columns), the statements are run with invariants on the loop over rows and over columns | Props_Generate |
| C60 | parser.go 256-1442, gotables.go 167-244 | an independent inductive grammar (Spec_Grammar.v) of characters, literals, cells, rows, bodies and sets; every scanner is shown to accept every literal of the grammar (induction over the text), every line is a successful step of the parser (forward simulation), induction over the set | Props_Grammar |
| C61 | parser.go 862-1280 (floats), strconv.ParseFloat | the number of a text is an integer fraction; the model's rounding is characterised as the closest float with ties to even for all fractions (Proofs_Closest), capped exponents are shown to change nothing (Proofs_Decimal); the table via C60 and C62 | Props_Decimal |
| C62 | parser.go 256-1442, gotables.go 167-244 | an inductive list of mistakes (Spec_Refuse.v) on top of the grammar of C60; forward simulation up to the mistake, then each mistake is shown to be an error of its step | Props_Refuse |
| C63 | parser.go 154, 862-1280 (times), gotables.go 3002-3007, time.Parse, time.Format | dates by successor (Spec_Time.v); the model's day arithmetic is a bijection that agrees with it (Proofs_Time); a text of fields is the concatenation of its figures, both ways; the table via C60 and C62 | Props_Time |
| C64 | json.go 244-258, 502-519, 677-689, json.Indent | grammar as relations by depth (Spec_Indent.v); the decoder accepts exactly it (soundness and completeness by induction on depth); the transducer composes over concatenation, so each production gives its layout; the layout is in the grammar again | Props_Indent |
| C65 | errors.go 22-70, tree.go 298-374 | the walk with the error in the state of the visitor; simulation with the walk of C33; invariant over the walk; for nestings of one level, induction over the cells with the set of tables seen so far | Props_CircRef |
| C66 | the writers and readers of C23, C24, C29, C30, C32 | the conditions of every format are invariant under same_data; induction over the list of formats; writers are functions of the data | Props_Convert |
| C67 | the readers of C29, C30, C50 | heap discipline: each read leaves its result as the only table of its region that no cell holds; forest argument; the JSON writer is a function of the deep copy; being writable is kept by deep copies, which compose (Proofs_CopyReady), so trips of any number and order follow by induction | Props_Forest, Props_YamlText |
| C48 | UtilRound | correct rounding of IEEE operations over rationals | Props_Round |

C35: CopyDeep does not do what its name says (C35_*_refuted); the property in properties.jsonl states what it
does instead, completely (success or error, heap afterwards, returned table).

## 5. Findings: where the code does not do what a user expects

Each is a theorem (name in brackets) with a concrete witness reachable by API calls.

* SwapCols exchanges names and types but not cells; a typed getter then panics [C46_refuted].
* The typed setters by column index and SetCellToZeroValueByColIndex panic for an index out of range
  instead of returning an error [C42_refuted].
* SearchLast panics when every row is greater than the searched values [C19_SearchLast_panics_refuted].
* Deleting or renaming a column that is a sort key leaves a stale key; Sort then panics [C40_refuted,
  C40_rename_refuted].
* CompareRows ignores reversed keys [C45_refuted]; OrderColsBySortKeys panics with duplicate keys
  [C44_*]; mixed key directions are lost in one transfer [C39_*]; NaN compares equal to everything
  [C20_*].
* IsValidTableNesting, and so Copy, IsValidTable and HasCircularReference, reject every tree deeper than
  one level [C33_accepts_every_tree_refuted, C47_deep_nesting_refuted].
* CopyDeep returns the receiver (or the table of the last cell visited), and replaces the receiver's
  nested tables; it fails on trees of depth three [C35_*_refuted].
* Equals compares nested tables by position, not by name, and overflows the stack on circular tables
  [C15_*_refuted]; TableSet.Equals ignores the names of the sets [C49_*_refuted].
* AppendTable(nil) panics the second time; renaming a table behind a set's back makes names collide
  [C16_*_refuted].
* IsValidTable rejects NilTables, misses a lookup without the first column, wrong cell types, and can
  answer (false, nil) [C47_*_refuted].
* The JSON and YAML readers panic on malformed documents [C50_never_panics_refuted].
* The JSON reader ignores the names of the cells in the data, so cells in another order than the
  metadata go to the wrong columns; it accepts fractions and integers out of range in integer
  columns, and short rows [C50_JSON_cell_names_refuted, C50_JSON_exact_refuted]; the YAML reader keeps
  the low bits of integers out of range [C50_YAML_exact_refuted].
* IsValidCellValue rejects proper values of byte, rune, slice, time and table columns; SearchFirst and SearchLast use it [C51_IsValidCellValue_refuted].
* GetColValsAsStrings accepts an unknown column when the table has no rows [C51_unknown_column_refuted].
* IsNumericColType denies that rune is numeric although int32, the same Go type, is; it says that "complex" is, which is no column type [C51_IsNumericColType_refuted].
* GetCellInfoByColIndex panics for a column index out of range [C51_GetCellInfo_refuted].
* SetTable changes the parent of the nested table although it rejects it [C51_SetTable_rejected_refuted].
* Text: anything before a rune, a time or NaN in a row is ignored [C52_ignored_text_refuted]; cells need no separator, so `1.5` in an int and a float64 column is two cells [C52_separator_refuted].
* Text, struct shape: values after a first line without value are dropped silently [C52_dropped_value_refuted]; text between the type and the equals sign of a later line is ignored [C52_text_before_equals_refuted].
* Text: a text that ends right after the column names is accepted without its columns [C52_lost_columns_refuted].
* Nest: sort keys that only the nestable table has are not used although the comment says so [C53_whichever_refuted]; a row without matching rows is an error although the comment says "if any", and leaves a partly filled column [C53_if_any_refuted].
* StringNested renames the tables it prints and gives NilTables names, so it prints another text the next time [C54_nested_text_is_pure_refuted]; NewTreeTable fills the NilTables of a copy that it then drops, so nothing is filled, contrary to its comment [C54_new_tree_table_fills_nil_tables_refuted].
* WriteFile truncates the file and then writes, so a crash loses the old tables; the empty file that can remain is read without error as a set without tables [C55_atomic_refuted]; the text has no end mark, so a torn file can be accepted with a shortened number or type [C55_torn_value_refuted, C55_torn_type_refuted].
* globalLineNum is a package variable without a lock: two goroutines that parse at the same time can report a wrong line (and it is a data race for Go) [C56_line_number_concurrent_refuted]; the tables they return are not affected [C56_any_schedule].
* StringPadded computes widths from the exact text of an integer but prints it through a float64, so a large integer can stick out of its column [C57_large_int_refuted]; widths are counted in bytes but padding in runes, so a column with non-ASCII text is wider than needed (still aligned) [C57_layout].
* printStruct writes strings and runes between quotes without escaping them, so a backslash is taken for an escape, a newline makes the text unreadable and a single-quote rune is lost [C58_backslash_refuted, C58_newline_refuted, C58_rune_quote_refuted]; a struct without columns comes back as a table [C58_no_columns_refuted].
* Generated Go code: *Table and time.Time columns call methods that do not exist (Get*Table, GetTime.Time) [C59_table_column_refuted, C59_time_column_refuted]; columns called err, table, nil or _, a column called like the table, a table called table and all keywords make the code fail to compile [C59_err_column_refuted and its neighbours, C59_keyword_refuted]; an int column called rowIndex compiles and then stores rows in the wrong places or panics [C59_rowIndex_column_refuted, C59_rowIndex_panic_refuted]; structs with a nil []byte field cannot be made into a table [C59_nil_slice_refuted]; a NilTable's struct type is not Go text [C59_NilTable_refuted].
* HasCircularReference, Copy and CopyCols reformat the error of IsValidTableNesting with %s, so HasCircRefError is always false for them; Walk does the same. For nestings deeper than one level IsValidTableNesting looks up cells of nested tables in the root table, so its error may name a table that occurs only once or be no CircRefError (C65).
* A table in struct shape with two or more rows loses its shape in both text formats, so its JSON differs afterwards (C66_struct_shape_refuted).
* Text: integers beyond 2^53 and some small powers of two are changed by padding, times with
  nanoseconds ending in 0 cannot be read back, byte and time cells cannot be read from unpadded text,
  infinities and surrogate runes are lost [C23_*, C24_*, C28_*_refuted].
* Merge fails when no key occurs twice, drops or refuses columns of other types, returns an alias of a
  receiver with an empty partner [C21_*_refuted].
* CSV of a table without columns or with one blank cell is a blank line [C31_*_refuted].
* GobEncode panics for every table with sort keys; decoding foreign bytes can give ill-typed cells or
  (nil, nil) [C32_*_refuted].
* UtilRound rounds negative numbers down, and rounds the rounded product [C48_*_refuted].
* JSON: shared nested tables are refused, invalid UTF-8 and some control characters are changed,
  uint64/int64 and float limits apply [C29_*_refuted].
* YAML: float64 integers come back as int and are refused, -0 loses its sign, a set without tables
  panics, circular tables overflow the stack [C30_*_refuted]. Also (read, not a theorem):
  GetTableSetAsYAML drops the errors of GetTableSetAsMap and Marshal and returns "" with no error.

## 6. Tests of the theorems

`seeded/LOG.jsonl` records edits of the model that imitate bugs (a wrong boundary, a missed case, a
swapped argument, a dropped update), made in a scratch copy, with the theorems that then fail and the
theorems that were tightened because they did not.
