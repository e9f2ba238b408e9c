{"id": "C01", "title": "Tables stay well formed under every history", "statement": "Starting from a table made by NewTable, NewNilTable or NewTableFromMetadata, after any sequence of mutating calls (successful or returning an error, excluding SwapCols, see C46) the table still has: a valid name (or is an unnamed NilTable with no columns and no rows), pairwise distinct valid column names, one supported type per column, a column-name lookup that agrees with column order, and in every row exactly one cell per column, each holding a non-nil value of the column's declared type.", "quantifier": "all constructors, all finite sequences of API calls with all arguments, including failing calls", "why_tests_cant": "Holds of every history, and the set of histories is infinite; tests replay a handful.", "anchors": ["gotables.go: IsValidTable, AppendCol, AppendRow, DeleteRows, DeleteColByColIndex, RenameCol, ReorderColsByColIndex, Reverse, SetVal, SetValByColIndex", "helpers.go: Set*", "sort.go: Sort, SetSortKeys"]}
{"id": "C02", "title": "Read your write, and nothing else changes", "statement": "If SetVal (or SetValByColIndex, or a typed setter by name or by index) succeeds, the matching getter for that cell returns exactly the value written, every other cell reads as before, and the table name, columns, row count and sort keys are unchanged.", "quantifier": "all tables, columns, rows, values and all other cells", "why_tests_cant": "Ranges over all tables, names, indices and values; tests only sample.", "anchors": ["gotables.go: SetVal, SetValByColIndex, GetVal, GetValByColIndex", "helpers.go: SetX, SetXByColIndex, GetX, GetXByColIndex"]}
{"id": "C03", "title": "Rejected cell writes change nothing", "statement": "If SetVal, SetValByColIndex or any typed setter returns an error, the table is exactly as before; and a write is rejected precisely when the column does not exist, the row does not exist, the value is nil, or the value's type is neither the column type nor its alias.", "quantifier": "all tables, columns, rows and values", "why_tests_cant": "Ranges over all tables, names, indices and values; tests only sample.", "anchors": ["gotables.go: SetVal, SetValByColIndex, HasRow, ColIndex, isAlias", "helpers.go: SetX"]}
{"id": "C04", "title": "Typed getters never panic on reachable tables", "statement": "On every table reachable by any history of mutating calls (excluding SwapCols), every typed getter, by name or index, with any arguments, either returns a value of the requested type or returns an error; it never panics. It succeeds exactly when the column exists with that type or an alias and the row exists.", "quantifier": "all reachable tables, all getter types, all names and (possibly negative) indices", "why_tests_cant": "Holds of every history, and the set of histories is infinite; tests replay a handful.", "anchors": ["helpers.go: GetX, GetXByColIndex", "gotables.go: HasRow, ColType, ColTypeByColIndex"]}
{"id": "C05", "title": "Access by name and by index agree", "statement": "For every reachable table and every column position i whose name is n: ColIndex(n)=i, ColName(i)=n, ColType(n)=ColTypeByColIndex(i), GetVal(n,r)=GetValByColIndex(i,r), and SetVal(n,r,v) has the same effect as SetValByColIndex(i,r,v) for any non-nil v.", "quantifier": "all reachable tables, columns, rows, values", "why_tests_cant": "Ranges over all tables, names, indices and values; tests only sample.", "anchors": ["gotables.go: ColIndex, ColName, ColType, ColTypeByColIndex, GetVal, GetValByColIndex, SetVal, SetValByColIndex"]}
{"id": "C06", "title": "AppendRow and AppendRows add exactly zero-valued rows", "statement": "AppendRows(n) with n>=0 adds exactly n rows at the end, each cell holding the zero value of its column type, and leaves all existing rows and the columns unchanged; n<0 or a NilTable is rejected without any change. AppendRow is AppendRows(1).", "quantifier": "all tables and all n", "why_tests_cant": "Ranges over all tables, names, indices and values; tests only sample.", "anchors": ["gotables.go: AppendRows, AppendRow", "helpers.go: SetRowCellsToZeroValue, SetCellToZeroValueByColIndex"]}
{"id": "C07", "title": "AppendCol adds one zero-filled column", "statement": "AppendCol(name,type) succeeds exactly when the table is not a NilTable, the name is valid and not already a column, and the type is one of the supported types. On success the new column is last, every row has its zero value there, and all existing cells are unchanged. On failure nothing changes.", "quantifier": "all tables, names, types", "why_tests_cant": "Ranges over all tables, names, indices and values; tests only sample.", "anchors": ["gotables.go: AppendCol, SetColCellsToZeroValue"]}
{"id": "C08", "title": "DeleteRows removes exactly the inclusive range", "statement": "DeleteRows(first,last) succeeds exactly when 0<=first<=last<RowCount; then the rows are the old rows before first followed by the old rows after last, in order, and columns are unchanged. Otherwise it returns an error and changes nothing. DeleteRow(i) is DeleteRows(i,i); DeleteRowsAll empties the table.", "quantifier": "all tables and all integer pairs", "why_tests_cant": "Ranges over all tables, names, indices and values; tests only sample.", "anchors": ["gotables.go: DeleteRows, DeleteRow, DeleteRowsAll"]}
{"id": "C09", "title": "DeleteCol removes exactly one column", "statement": "DeleteCol(name)/DeleteColByColIndex(i) succeeds exactly when the column exists; then every other column keeps its name, type, relative order and all its cells, and the deleted name is free again. Otherwise an error and no change.", "quantifier": "all tables, names, indices", "why_tests_cant": "Ranges over all tables, names, indices and values; tests only sample.", "anchors": ["gotables.go: DeleteCol, DeleteColByColIndex"]}
{"id": "C10", "title": "RenameCol changes only a name", "statement": "RenameCol(old,new) succeeds exactly when old exists, new does not, and new is a valid name; then reads under new equal the former reads under old, old is no longer a column, and all other reads and the positions of all columns are unchanged. Otherwise an error and no change.", "quantifier": "all tables and name pairs", "why_tests_cant": "Ranges over all tables, names, indices and values; tests only sample.", "anchors": ["gotables.go: RenameCol, RenameColByColIndex"]}
{"id": "C11", "title": "The table refines an abstract relation of named columns", "statement": "Every history of table-making calls and of calls to the methods that read or change one table, on any number of tables, produces the same observable answers (names, types, counts, cell reads, and success, error or panic of each call) as a simple abstract table that is just a list of (name,type,values) columns with a list of sort keys. Only the order of a shuffle, the order of rows with equal keys, and the addresses of newly made nested tables are left open by the abstract table. (Calls that take a second table, such as AppendRowsFromTable, Copy and Merge, have their own properties.)", "quantifier": "all histories of mutating calls and all reads after them", "why_tests_cant": "Holds of every history, and the set of histories is infinite; tests replay a handful.", "anchors": ["gotables.go: Table", "helpers.go"]}
{"id": "C12", "title": "ReorderCols is a pure permutation of columns", "statement": "ReorderColsByColIndex(order) succeeds exactly when order is a permutation of 0..ColCount-1; afterwards position i holds former column order[i] with all its cells, and every read by column name is unchanged. Otherwise an error and no change. NewTableReorderCols* returns a new table with the requested column order and the same name, types and cells by column name, equal (Equals) to the receiver if no cell is NaN or a nested table, and leaves the receiver unchanged.", "quantifier": "all tables, all index/name lists", "why_tests_cant": "Ranges over all tables, names, indices and values; tests only sample.", "anchors": ["gotables.go: ReorderColsByColIndex, ReorderCols, NewTableReorderCols, NewTableReorderColsByColIndex"]}
{"id": "C13", "title": "Reverse and Shuffle only permute rows", "statement": "Reverse puts row i at position n-1-i, so doing it twice restores the table; Shuffle (either kind) produces a permutation of the rows for every possible random source. Columns, name and sort keys are untouched.", "quantifier": "all tables, all random swap sequences", "why_tests_cant": "Random source and table size are unbounded.", "anchors": ["gotables.go: Reverse, ShufflePseudorandom, ShuffleRandom"]}
{"id": "C14", "title": "Copy is equal and independent", "statement": "If Copy() succeeds the copy has the same name, columns, types and cell values as the receiver, Equals says so when no cell is NaN, and no later mutation of one table's rows, columns or (non-reference) cells is visible in the other. CopyCols() has the columns and no rows.", "quantifier": "all tables, all later histories on either table", "why_tests_cant": "Holds of every history, and the set of histories is infinite; tests replay a handful.", "anchors": ["gotables.go: Copy, CopyCols, AppendColsFromTable, AppendRowsFromTable"]}
{"id": "C15", "title": "Equals is an equivalence on tables without NaN and nested tables", "statement": "On well-formed tables without NaN cells and nested-table cells, Equals is reflexive, symmetric and transitive, is true exactly when names, row counts, column name/type sets and cells by (column name,row) agree, and ignores column order, shape and sort keys. It never panics.", "quantifier": "all pairs/triples of tables", "why_tests_cant": "Ranges over all tables, names, indices and values; tests only sample.", "anchors": ["gotables.go: Equals, Uint8SliceEquals"]}
{"id": "C16", "title": "Table names in a TableSet stay unique and lookups are consistent", "statement": "Under any history of AppendTable, DeleteTable, DeleteTableByTableIndex and TableSet.RenameTable on named tables, table names in the set are pairwise distinct, TableCount tracks the number of tables, and GetTable(name), GetTableByTableIndex(TableIndex(name)) and HasTable agree. A rejected call changes nothing.", "quantifier": "all histories on a table set", "why_tests_cant": "Holds of every history, and the set of histories is infinite; tests replay a handful.", "anchors": ["gotables.go: AppendTable, DeleteTable, DeleteTableByTableIndex, RenameTable, GetTable, HasTable, TableIndex"]}
{"id": "C17", "title": "Accepted names are exactly the documented grammar", "statement": "IsValidColName/IsValidTableName accept a string exactly when it is non-empty, starts with a letter or underscore, continues with letters, digits or underscores, and is not a supported type name. For ASCII strings letter means a-zA-Z and digit 0-9.", "quantifier": "all byte strings", "why_tests_cant": "Infinite set of strings.", "anchors": ["parser.go: isValidName, IsValidColName, IsValidTableName, IsValidColType"]}
{"id": "C18", "title": "Sort permutes rows into key order", "statement": "If Sort() succeeds, the rows afterwards are a permutation of the rows before, and are ordered lexicographically by the sort keys in key order with each key reversed when marked reverse; columns, name and sort keys are unchanged. Without sort keys it returns an error and changes nothing.", "quantifier": "all tables, all sort-key lists over existing sortable columns, all key values except NaN, any correct sorting routine", "why_tests_cant": "Ranges over all tables, names, indices and values; tests only sample.", "anchors": ["sort.go: Sort, sortByKeys, SortSimple, SetSortKeys"]}
{"id": "C19", "title": "Search on a sorted table finds exactly the matching block", "statement": "On a table sorted by its keys, SearchFirst(values) returns the least matching row index, SearchLast(values) the greatest (when some row is not greater than the search values), and SearchRange both; every row between them matches and no row outside does. When no row matches, SearchFirst and SearchRange return an error.", "quantifier": "all sorted tables, all key lists with reverse flags, all search values of the right types, no NaN", "why_tests_cant": "Unbounded sizes and duplicate patterns.", "anchors": ["sort.go: SearchFirst, SearchLast, SearchRange, searchByKeysFirst, searchByKeysLast, checkSearchArguments"]}
{"id": "C20", "title": "Per-type comparison is a consistent total order", "statement": "For each sortable type the comparison used by Sort and Search is antisymmetric, transitive and total, and returns 0 only for equal values (string: alphabetic then by bytes; bool: false before true; numbers numeric), provided no operand is NaN.", "quantifier": "all pairs and triples of values of each type", "why_tests_cant": "Ranges over all tables, names, indices and values; tests only sample.", "anchors": ["sort.go: compare_*"]}
{"id": "C21", "title": "Merge keeps one row per key and fills missing values", "statement": "Merge of two tables that both have rows, share at least one non-NaN key column, agree on the types of common columns, hold only string, bool, integer and float columns and have no column named _TABLE_ or _DELETE_: the call succeeds exactly when some key value occurs in two rows (of one table or across both), and then the result is a new table named Merged with exactly one row per distinct key occurring in either table, whose columns are the union of both tables' columns with the keys first, whose rows are sorted by the keys, and whose every cell is the documented choice among the cells of the rows with that key: data (neither zero nor NaN) of table1 before data of table2, else a zero, else NaN. No input cell, column or row is changed; only the sort keys of the inputs are. If one table has no rows, the result is the other table itself, sorted. As first stated, for all pairs of tables with compatible keys and with inputs left alone, the property is false: Merge fails when no key is repeated and on byte, rune, slice, time and table columns, it sets the inputs' sort keys, and with an empty table it sorts and returns an input.", "quantifier": "all heaps, all pairs of tables (also the same table twice) and all key lists meeting the stated conditions", "why_tests_cant": "Ranges over all tables, names, indices and values; tests only sample.", "anchors": ["merge.go: Merge"]}
{"id": "C22", "title": "SortUnique yields one row per key", "statement": "SortUnique on a table with rows, by its own keys or by given sortable columns (scalar columns, no NaN key): it succeeds, and the result is a new table with the receiver's name and columns, sorted by the keys, with no two rows with equal keys, with exactly the receiver's keys, and whose cells hold data of a row with that key whenever one has any. The receiver gets the keys and is otherwise unchanged.", "quantifier": "all heaps, tables and key lists meeting the stated conditions", "why_tests_cant": "Ranges over all tables, names, indices and values; tests only sample.", "anchors": ["sort.go: SortUnique"]}
{"id": "C23", "title": "Unpadded text round-trips", "statement": "For every well-formed table in table shape (or with at least two rows) whose name is ASCII, that has columns or no rows, with no byte, []byte, []uint8, time.Time or *Table columns and no infinite float or non-Unicode rune, NewTableFromString(StringUnpadded()) returns a new table with the same name, columns, types and cells and changes no other table. The unpadded text of a set of such tables with distinct names gives back all tables in order. Each exception is needed: without it the text is empty, refused or read as something else (the C23_*_refuted theorems); the name of a set is not in its unpadded text.", "quantifier": "all such tables, all strings and numbers in cells", "why_tests_cant": "Every string content must survive quoting, splitting and scanning.", "anchors": ["gotables.go: StringUnpadded, _String, NewTableFromString", "parser.go: parseString, getRowSlice"]}
{"id": "C24", "title": "Padded text round-trips", "statement": "As C23 for String()/StringPadded(), which also supports byte, []byte, []uint8 and time.Time columns (a nil slice comes back empty), provided integers are within +/-2^53, no float is a power of two below 2^-23 (float64) or 2^-11 (float32), and times are in years 0 to 9999 with zone offsets in whole minutes and nanoseconds that are 0 or do not end in the digit 0. The padded text of a table set gives back the set's name (if it is ASCII) and all tables in order. As first stated (only the bound on integers) it is false: see the C24_*_refuted theorems.", "quantifier": "all such tables", "why_tests_cant": "Ranges over all tables, names, indices and values; tests only sample.", "anchors": ["gotables.go: String, StringPadded, printMatrix, padTrailingZeros"]}
{"id": "C25", "title": "The parser never panics", "statement": "NewTableSetFromString and NewTableFromString return a value or an error for every input string; no input makes them panic.", "quantifier": "all byte strings", "why_tests_cant": "Infinite input space; fuzzing only samples.", "anchors": ["parser.go: parseString, getRowSlice, getTableShape, parseRune, parseInt, parseUint"]}
{"id": "C26", "title": "Everything the parser accepts is well formed", "statement": "Every table returned by a successful parse satisfies the well-formedness of C01, and the tables in the returned set have pairwise distinct names.", "quantifier": "all accepted byte strings", "why_tests_cant": "Ranges over all tables, names, indices and values; tests only sample.", "anchors": ["parser.go: parseString"]}
{"id": "C27", "title": "Integer literals are parsed exactly and range-checked", "statement": "Printing any integer value of an integer column type and parsing it back gives the same value; parsing accepts a decimal, 0b, 0o or 0x literal exactly when its mathematical value fits the column type, and never wraps.", "quantifier": "all integer types, all values, all digit strings", "why_tests_cant": "Ranges over all tables, names, indices and values; tests only sample.", "anchors": ["parser.go: parseInt, parseUint, intRegexp, uintRegexp, getRowSlice"]}
{"id": "C28", "title": "Quoted strings and runes round-trip", "statement": "For every byte string s, scanning and unquoting the quoted form of s followed by anything yields s and the remaining text; likewise for every valid rune.", "quantifier": "all byte strings, all Unicode scalar values, any printable-character table", "why_tests_cant": "Ranges over all tables, names, indices and values; tests only sample.", "anchors": ["parser.go: stringRegexp, runeRegexp, parseRune, getRowSlice", "gotables.go: _String"]}
{"id": "C29", "title": "JSON writes exactly the trees, and what it writes is read back", "statement": "GetTableAsJSON and GetTableSetAsJSON never panic, and give text exactly when every table is a tree: no nested table (other than a NilTable) is met twice, in a cycle or shared. NewTableSetFromJSON(GetTableSetAsJSON()), NewTableFromJSON and NewTableFromJSONByTableName then give back a table set of the same name with the same tables in the same order: names, columns, types, struct shape, every cell, and nested tables as new tables of the same contents at every depth; the caller's tables stay as they were and a table without nested tables Equals the one read. Exceptions, all of them proved: text must be UTF-8 whose control characters are among \\b \\t \\n \\f \\r and whose runes above U+FFFF are printable; integers must be float64 values; floats must be finite, and a float32 must survive rounding by way of float64; times must have years 0 to 9999 and whole-minute zones under a day; table names must not repeat; nesting must stay under the decoder's depth limit. As first stated, without these exceptions, the claim is false: 2^53+1 comes back as 2^53, a certain float32 comes back as its neighbour, NaN, \\a and the NilTable are written but cannot be read, and some JSON that is no table set makes the reader panic. File names and sort keys are not written.", "quantifier": "all reachable heaps, all tables and table sets in them, all printable-character tables", "why_tests_cant": "Ranges over all tables, names, indices and values; tests only sample.", "anchors": ["json.go: GetTableAsJSON, NewTableFromJSON, newTableFromJSON_recursive"]}
{"id": "C30", "title": "YAML/map round-trips", "statement": "Encoding a table set as the nested map used for YAML works for every set whose tables are not nested in themselves. For every YAML library that reads back what it writes (integers as integers, floats that are short integers as integers, byte slices as lists of integers), writing a table set as YAML and reading the text, in any program state, gives a set of the same name with new tables that are deep copies of the tables in order (names, columns, types, cells, shapes, nested tables), and changes no other table; flat tables without NaN are Equal to the originals. This holds for sets of named tables with different names, whose strings the library reads back, whose times have four-digit years and whole-minute zones, in which no float64 is an integer below a million, no float32 is a negative zero, and other float32 survive the rounding to float64. As first stated (every supported table set comes back equal) the claim is false: a float64 cell that holds a small integer, such as the zero of a new row, is written and cannot be read; a float32 negative zero loses its sign; a circular table makes the writer recurse without end; a document without tables makes the reader panic.", "quantifier": "all table sets reachable by any history, all YAML libraries keeping the stated contract, all program states in which the text is read", "why_tests_cant": "Ranges over all tables, names, indices and values; tests only sample.", "anchors": ["yaml.go: GetTableSetAsMap, NewTableSetFromYAML"]}
{"id": "C31", "title": "CSV has one record per row and loses no field", "statement": "For a table with at least one column, and either no substitute headings or one per column, GetTableAsCSV returns RowCount+1 records of ColCount fields: decoding the text by the standard quoting rules gives back exactly the headings (a substitute where it is not empty, the column name otherwise) and the string forms of the cells (NaN as empty). Strings appear verbatim, integers as decimal digits, finite floats as numbers that read back as the same float, nested tables by name. A nil-named table, and a wrong number of headings, is an error. As first stated, for all tables and readers, it is false: a table without columns is a blank line, and a blank cell in a one-column table is a blank line, which readers that skip blank lines drop.", "quantifier": "all reachable tables and heading substitutions", "why_tests_cant": "Ranges over all tables, names, indices and values; tests only sample.", "anchors": ["gotables.go: GetTableAsCSV, GetValAsStringByColIndex"]}
{"id": "C32", "title": "Gob round-trips", "statement": "For every reachable named table without sort keys and without time or table cells, GobEncode succeeds and decoding the bytes, in any program, makes one new table with the same name, columns, shape and cells (a nil []byte comes back empty), which Equals the first one when no cell is NaN; a table set of such tables with different names comes back with its name, file name and tables in order. Nil tables, unnamed tables and tables with time or table cells are errors. A decoded table passes IsValidTable whatever the bytes. As first stated it needs the exception that GobEncode panics for every table with sort keys; foreign bytes can also give a table with ill-typed cells, or neither a table nor an error.", "quantifier": "all reachable tables and table sets, all implementations of encoding/gob that meet its contract", "why_tests_cant": "Ranges over all tables, names, indices and values; tests only sample.", "anchors": ["gob.go: exportTable, importTable, Table.GobEncode, GobDecodeTable, TableSet.GobEncode, GobDecodeTableSet"]}
{"id": "C33", "title": "Circular nesting is detected", "statement": "IsValidTableNesting and HasCircularReference always terminate, reject every nesting that reaches a table again or in which a table occurs twice, and accept every nesting of distinct tables that nest no further tables. (As first stated they accept every finite tree of distinct tables; the code rejects trees deeper than one level, see the refuted theorem.)", "quantifier": "all finite heaps of tables", "why_tests_cant": "Needs all graph shapes and depths.", "anchors": ["tree.go: Walk, IsValidTableNesting, HasCircularReference"]}
{"id": "C34", "title": "Walk visits every table, row and cell exactly once in order", "statement": "On a tree of nested tables Walk calls visitTable, visitRow and visitCell exactly once per table, row and cell, parents before children, rows and columns in index order; it stops at the first error and returns it.", "quantifier": "all tree-shaped nestings and all visitor functions", "why_tests_cant": "Ranges over all tables, names, indices and values; tests only sample.", "anchors": ["tree.go: TableSet.Walk, Table.Walk"]}
{"id": "C35", "title": "CopyDeep makes the receiver independent of its nested tables without changing what it holds", "statement": "CopyDeep succeeds exactly when every table nested in the receiver is a NilTable or nests only tables without nested tables (otherwise it returns an error). When it succeeds, no table but the receiver changes; the receiver changes only in that every nested table, at every depth, is replaced by a new one, so that its nesting is a tree that shares no table with what was nested before; what the receiver holds (names, columns, cells, nested contents, at every depth) is the same as before, and so is what the tables nested before hold. It returns the table of the last cell of the tour of the receiver. The stronger claim that it returns an independent copy equal to the receiver and leaves the receiver unchanged is false (C35_*_refuted).", "quantifier": "all well-formed heaps and all receivers, nestings of any shape and size", "why_tests_cant": "It ranges over all nestings; which tables are shared after the call cannot be seen by comparing contents on examples.", "anchors": ["tree.go: CopyDeep"]}
{"id": "C36", "title": "Appending rows from another table copies them in order", "statement": "If AppendRowsFromTable(from,first,last) succeeds, exactly last-first+1 rows are added, row k holding for each column shared with the source the source cell of row first+k and zero values elsewhere; existing rows and the source are unchanged.", "quantifier": "all table pairs and ranges", "why_tests_cant": "Ranges over all tables, names, indices and values; tests only sample.", "anchors": ["gotables.go: AppendRowsFromTable, NewTableFromRows, NewTableFromRowsBySearchRange"]}
{"id": "C37", "title": "Appending columns from another table is a schema union", "statement": "If AppendColsFromTable succeeds, the receiver's columns are its old columns followed by the source's columns not already present (same name requires the same type), existing cells are unchanged and new cells are zero.", "quantifier": "all table pairs", "why_tests_cant": "Ranges over all tables, names, indices and values; tests only sample.", "anchors": ["gotables.go: AppendColsFromTable"]}
{"id": "C38", "title": "Column info tables describe the columns exactly", "statement": "GetColInfoAsTable returns a well-formed table with one row per column giving its index, name and type in order; GetColInfoAsSlices gives the same lists.", "quantifier": "all reachable tables", "why_tests_cant": "Ranges over all tables, names, indices and values; tests only sample.", "anchors": ["gotables.go: GetColInfoAsTable, GetColInfoAsSlices, NewTableFromMetadata"]}
{"id": "C39", "title": "Sort keys stay meaningful and transfer between tables", "statement": "GetSortKeysAsTable lists the sort keys in order with type and reverse flag, and SetSortKeysFromTable makes the receiver's keys the same list (columns in order, directions, and the types that the receiver's columns have), provided that there is a key, that the receiver has these columns with types that can be sorted, and that no column is a key in both directions; without keys, or with a column that is missing or cannot be sorted, it returns an error and changes nothing but keys. DeleteSortKey removes the first key of that column and no other.", "quantifier": "all tables and key lists", "why_tests_cant": "Ranges over all tables, names, indices and values; tests only sample.", "anchors": ["sort.go: GetSortKeysAsTable, SetSortKeysFromTable, SetSortKeys, SetSortKeysReverse, AppendSortKey, DeleteSortKey"]}
{"id": "C40", "title": "Sort keys always refer to existing columns", "statement": "After any history in which no call deletes or renames a column while it is a sort key of that table, every sort key names an existing column of the type the key was created for, so Sort never panics. (As first stated, for all histories; false: DeleteCol and RenameCol leave stale keys and Sort then panics, see the refuted theorems.)", "quantifier": "all histories including DeleteCol and RenameCol", "why_tests_cant": "Holds of every history, and the set of histories is infinite; tests replay a handful.", "anchors": ["sort.go: Sort, SetSortKeys", "gotables.go: DeleteCol, RenameCol"]}
{"id": "C41", "title": "Zero and NaN setters touch exactly their target", "statement": "SetCellToZeroValue*, SetRowCellsToZeroValue, SetColCellsToZeroValue set exactly the addressed cells to the zero value of their types; SetXFloatCellsToNaN sets exactly the float cells in range to NaN and leaves all others.", "quantifier": "all tables and addresses", "why_tests_cant": "Ranges over all tables, names, indices and values; tests only sample.", "anchors": ["helpers.go: SetCellToZeroValueByColIndex, SetRowCellsToZeroValue", "gotables.go: SetColCellsToZeroValue, SetAllFloatCellsToNaN, SetRowFloatCellsToNaN, SetColFloatCellsToNaN"]}
{"id": "C42", "title": "Out-of-range column indexes are reported as errors", "statement": "Every ByColIndex getter, SetValByColIndex, DeleteColByColIndex and SetFloatCellToNaNByColIndex called with a column index outside 0..ColCount-1 returns an error and changes nothing. (As first stated, for every ByColIndex method; false: the typed setters and SetCellToZeroValueByColIndex panic for every such index, which is proved.)", "quantifier": "all tables and all integers", "why_tests_cant": "Ranges over all tables, names, indices and values; tests only sample.", "anchors": ["helpers.go: SetXByColIndex, SetCellToZeroValueByColIndex", "gotables.go: SetValByColIndex"]}
{"id": "C43", "title": "Binary search primitives meet their contracts", "statement": "SearchFirst(n,f) returns the least i in [0,n] with f(i) (n if none) for f that is false then true; SearchLast(n,f) returns the greatest i in [-1,n) with f(i) (-1 if none) for f true then false; both call f only with indices in [0,n) and at most about log2(n) times.", "quantifier": "all n and all monotone predicates", "why_tests_cant": "All n and all predicates.", "anchors": ["sort.go: SearchFirst, SearchLast"]}
{"id": "C44", "title": "OrderColsBySortKeys moves key columns to the front", "statement": "OrderColsBySortKeys places the sort-key columns first in key order followed by the others in their former order, changing no cell read by name, when sort keys are distinct. IsSortKey reports true for exactly the columns that are sort keys, which after SetSortKeys are the columns it was called with, and an error for a column that the table has not.", "quantifier": "all tables and key lists", "why_tests_cant": "Ranges over all tables, names, indices and values; tests only sample.", "anchors": ["sort.go: OrderColsBySortKeys", "sort.go: IsSortKey"]}
{"id": "C45", "title": "CompareRows agrees with Sort order", "statement": "When no sort key is reversed and no key cell is NaN, CompareRows(i,j) returns a negative, zero or positive number according to the order Sort would give the two rows; in general it follows that order with all keys taken as ascending. (As first stated, also for reversed keys; false, see the refuted theorem.)", "quantifier": "all tables, rows, key lists", "why_tests_cant": "Ranges over all tables, names, indices and values; tests only sample.", "anchors": ["sort.go: CompareRows"]}
{"id": "C46", "title": "SwapCols exchanges headings", "statement": "SwapCols / SwapColsByColIndex succeeds exactly for two different existing columns, and otherwise returns an error and changes nothing. On success the names and types of the two columns change places, looking up any name finds its new position, and name, sort keys, shape and all cells stay as they were. So the table stays well formed exactly when it has no rows or the two columns have the same Go type; then reading either name gives what the other gave before. As first stated (the cells move with their names, so reads by name are unchanged and the table stays well formed) it is false: see the C46_*refuted theorems.", "quantifier": "all tables and column pairs", "why_tests_cant": "Ranges over all tables, names, indices and values; tests only sample.", "anchors": ["sort.go: SwapCols, SwapColsByColIndex"]}
{"id": "C47", "title": "IsValidTable accepts exactly well-formed tables", "statement": "On the tables of any history IsValidTable never panics and returns true with no error exactly for the tables that are no NilTable and whose nesting, if any, is flat (distinct nested tables that nest no tables); for the others it returns an error. A table of any contents that it accepts has valid and distinct column names, valid types, one type per column, one cell per column in each row, and a lookup that is right for every column after the first. (As first stated: accepts every reachable table and returns an error for every inconsistent one; false in four ways, see the refuted theorems.)", "quantifier": "all table values", "why_tests_cant": "Ranges over all tables, names, indices and values; tests only sample.", "anchors": ["gotables.go: IsValidTable, IsValidRow, isValidColNamesMap"]}
{"id": "C48", "title": "UtilRound returns the nearest multiple", "statement": "For 0 to 22 places and a product that does not overflow, UtilRound(val, places) takes the float64 x closest to 10^places * val, rounds x to an integer N (half up if x is not negative, down if it is), and returns the float64 closest to N / 10^places. So a non-negative val whose product is exact goes to the float64 closest to the nearest multiple of 10^-places, half up; UtilRound(val, 0) is exactly the nearest integer, half up, for every non-negative val and exactly the integer below for a negative val; NaN and infinities are kept. As first stated (the nearest multiple for every float) it is false: UtilRound(-1.2, 0) = -2, and UtilRound(2.675, 2) = 2.68 although the float64 2.675 is below 2.675.", "quantifier": "all float64 values, 0 to 22 places", "why_tests_cant": "Ranges over all tables, names, indices and values; tests only sample.", "anchors": ["util.go: UtilRound"]}
{"id": "C49", "title": "Copying and comparing table sets", "statement": "TableSet.Copy succeeds exactly when every entry of the set is a table that Table.Copy accepts (not nil, not a NilTable, nesting at most one level of distinct tables); the copy has the set's name and file name and new tables with the names, columns, types and cells of the originals in the same order, no existing table changes, and otherwise it returns an error. TableSet.Equals, on sets whose tables nest no tables, is true exactly when the sets hold the same tables in the same order, and is reflexive (without NaN), symmetric and transitive; a copy is equal to its original. IsValidTableSet accepts exactly the sets whose tables are all accepted by IsValidTable. As one might first expect, 'equal sets have equal names' is false: Equals ignores the names of the sets and of their files.", "quantifier": "every program that builds tables and table sets, every pair of sets", "why_tests_cant": "The laws quantify over all sets of tables of any size; a test compares a few literals.", "anchors": ["gotables.go: TableSet.Copy, TableSet.Equals, TableSet.IsValidTableSet, TableSet.SetName"]}
{"id": "C50", "title": "Documents of unknown origin are read safely", "statement": "Whatever text is given to NewTableSetFromJSON, NewTableFromJSON, NewTableFromJSONByTableName or NewTableSetFromYAML, no existing table changes and every table stays well formed. If a table set is read, all its tables and all tables nested in them are new, none is nested in itself, their names differ, and nothing is dropped silently: the set has the name that the document gives and one table per element of its list of tables, each with the name, the columns and the number of rows of its element. In every table, nested tables included, each cell holds the value that the document has at its place: the same string, time, truth value or bytes, the first rune, the closest float, the integer, a table for an object, a nil table for null; the zero value if the row has no such cell; and no value of the document is left out. Stronger claims are false: the JSON reader ignores the names of the cells in the data and accepts fractions in integer columns (the integer part is kept), and both readers accept integers out of range (the YAML reader keeps the low bits). NewTableFromJSON returns a table exactly for documents with one table. A text is read as a JSON value exactly when it starts with one by the JSON grammar (RFC 8259), and the value is the one that the grammar gives; of several members of an object with the same key the last one counts. As first stated (every document gives a table set or an error) it is false: malformed documents make the readers panic.", "quantifier": "all texts, all well-formed programs states in which they are read, every behaviour of out-of-range float conversions, every YAML library that returns Go values", "why_tests_cant": "The documents are arbitrary; a test reads a few of them.", "anchors": ["json.go: NewTableSetFromJSON, NewTableFromJSON, NewTableFromJSONByTableName, newTableFromJSON_recursive", "yaml.go: NewTableSetFromYAML, newTableFromYAML_recursive"]}
{"id": "C51", "title": "Questions about cells and the variants of the accessors agree", "statement": "HasCell and HasCellByColIndex answer true exactly when the cell can be read and return an error otherwise; IsColType and IsTableCol tell the type of the column. Every MustGet and MustSet accessor returns or stores what its plain counterpart does and panics exactly when that fails, leaving the table as it was. The strings of a column are the strings of its cells in row order and JoinColVals joins them; methods by name and by index have the same effect. IsValidCellValue accepts exactly the values whose type has the very name of the column type. A nested table stored with SetTable is read back, has the storing table as its parent, and nothing else changes. NewTableFromRowsBySearchRange returns the matching rows. Stronger claims are false: IsValidCellValue rejects proper values of byte, rune, slice, time and table columns; the strings of an unknown column of an empty table are no error; GetCellInfoByColIndex panics for columns out of range and does not look at the row; a rejected SetTable changes the parent of the rejected table. A type name is a valid column type exactly when some cell value has that type; slice and table types are the types of slices and tables, and the column types called numeric are those of numbers except rune. (That rune, too, is called numeric, and that only column types are, is false.) A cell can be read exactly when its row and its column are said to exist. NewTable makes an empty table of a valid name and refuses any other name; SetStructShape changes nothing but the shape.", "quantifier": "all well-formed tables and program states, all names, indexes, types and values", "why_tests_cant": "There are about a hundred accessors, each with every table, index and value.", "anchors": ["gotables.go: HasCell, HasCellByColIndex, IsColType, IsColTypeByColIndex, IsTableCol, IsTableColByColIndex, GetValAsString, GetColValsAsStrings, JoinColVals, JoinColValsByColIndex, IsValidCellValue, IsValidColValue, RenameColByColIndex, SetFloatCellToNaN, NewTableFromRowsBySearchRange", "helpers.go: Get*MustGet, Set*MustSet, SetTable, SetTableByColIndex", "tree.go: GetCellInfo, GetCellInfoByColIndex", "parser.go: IsValidColType, IsNumericColType, IsSliceColType, IsTableColType", "gotables.go: HasRow, HasColByColIndex, NewTable, SetStructShape"]}
{"id": "C52", "title": "An accepted text says what the tables contain, line by line", "statement": "If NewTableSetFromString accepts a text, then its lines, without the white space around them and without comment lines, are: optionally the name of the table set in double brackets, and for every returned table, in order, a line with its name in brackets followed by lines for that table alone, up to a blank line or the end. Those lines are the column names, the column types and one line for every row whose pieces denote the cells of the row; or, in struct shape, one line for every column with its name and type and, if the first line has one, its value. No table, row or cell comes from anywhere else and none is left out. Stronger claims are false: text before a rune, a time or NaN is ignored; cells need no separator, so 1.5 is two cells; in struct shape a value is dropped when the first line has none, and text before the equals sign of a later line is ignored; a text that ends after the column names is accepted without them.", "quantifier": "all texts (byte strings) and all program states in which they are read", "why_tests_cant": "There are infinitely many texts, and only few of the accepted ones are printed by the library.", "anchors": ["parser.go: parseString, getTableShape, getTableSetName, getTableName, getColNames, getColTypes, getRowSlice, splitSliceString, parseRune", "gotables.go: NewTableSetFromString, NewTableFromString"]}
{"id": "C53", "title": "Nest gives every row the text of exactly the rows with its keys", "statement": "table.Nest(nestable, name), for a table with sort keys whose columns exist with the same types in nestable (no key NaN, cells that have a text form, a new column name): if every row of the table has a row of nestable with equal keys, it succeeds; both tables are then sorted by the keys and otherwise keep their rows, the table has one more string column, and the string in each row, read with NewTableFromString, is the table of exactly those rows of nestable that have the row's keys, in order, with nestable's columns. Other tables do not change. Without sort keys on the table, with a nil table, or with a key column missing in nestable it fails and no cell changes. What the comments promise beyond this is false: keys that only nestable has are not used, and a row without match is an error, after which the new column stays in the table, filled down to that row.", "quantifier": "all pairs of tables, sort keys, column names and program states", "why_tests_cant": "Any number of rows, keys and key types; the text of every group must read back as that group and nothing else.", "anchors": ["nest.go: Nest", "sort.go: SetSortKeysFromTable, Sort, SearchRange, GetSortKeysAsTable", "gotables.go: NewTableFromRows, StringUnpadded, AppendCol"]}
{"id": "C54", "title": "Printing tables never fails; printing a nest prints every nested table and changes only names; NewTreeTable returns its receiver", "statement": "String, StringPadded and StringUnpadded of any table or table set return (no panic), whatever its cells and nested tables. StringNested returns a text exactly when the nesting below the table has no cycle (otherwise the stack overflows); it makes no tables and changes nothing except names of tables nested below the receiver; without nested tables its text is that of String and a line end; for a flat nesting (each nested table in one cell, one level down) it is the text of String, then column by column, row by row, the text of each nested table under the name OLD__FROM_TABLE_T_COL_C_row_R, which is its name from then on. NewTreeTable(depth) succeeds exactly for a named table with a flat nesting and depth >= 0; it returns the receiver itself and changes no existing table. Stronger claims are false: printing a nest renames the nested tables and turns NilTables into named tables, so that printing twice gives different texts; NewTreeTable does not fill NilTables as its comment says.", "quantifier": "all tables, nestings (including shared and circular ones), depths and program states", "why_tests_cant": "Nestings of any depth and shape, shared tables and cycles; the absence of panics and of other changes concerns every table of the program.", "anchors": ["gotables.go: String, StringPadded, StringUnpadded, StringNested, stringNested_recursive, printMatrix, printStruct", "tree.go: NewTreeTable, newTreeTable_recursive"]}
{"id": "C55", "title": "Files: what WriteFile wrote is what reading gives; at every crash point a reader gets an error or a torn copy of the set", "statement": "After WriteFile of a table set (or table) whose tables the text keeps (see C24) returned without error, NewTableSetFromFile, NewTableFromFile and NewTableFromFileByTableName on the same name give the set (table) back: its name, its tables in order, all columns, types and cells; the file name of the set is the name looked up. After any sequence of successful writes a name reads as the last set written to that file. A write changes no other file; with a nil receiver, a directory or a file that cannot be opened it changes none. Reading a missing file, a directory or an unreadable file is an error and changes nothing; reading a file never panics and never changes existing tables. If a write stops after any number of bytes (crash, full disk), a reader of that file gets an error or a torn copy: the first tables complete, then at most one more table that has its name and either no rows or its columns and its first rows, followed by at most one other row; nothing else. NewTableFromStringMustMake returns what NewTableFromString returns and panics where that is an error. Stronger claims are false: a write is not atomic (a crash leaves an empty file, which reads as a set without tables, and the old tables are lost), and a torn file can be accepted with a value (200 read as 20) or a column type (int64 read as int) that was never written.", "quantifier": "all table sets of any size, all file systems and file names, all histories of writes, and every crash point (number of bytes that reached the file)", "why_tests_cant": "Every byte of every file is a crash point, and files, tables and histories of writes are unbounded.", "anchors": ["gotables.go: WriteFile, NewTableSetFromFile, NewTableFromFile, NewTableFromFileByTableName, NewTableFromStringMustMake", "parser.go: parseFile, parseString"]}
{"id": "C56", "title": "Parsing in several goroutines: every schedule gives each call what it gives alone; the reported line is right when a call runs alone", "statement": "When any number of goroutines parse texts at the same time (NewTableSetFromString), then under every schedule each call that returns gives exactly the table set, or an error exactly when, it gives alone; no call panics, and each call returns after a number of its own steps that is at most three per line plus four. A call that runs alone gives one outcome, whatever ran before it; the line k in the position of its error message is a line of the text (or one past the last, which happens after a final comment), every text with the same first k lines is refused at the same line, and every text that ends before line k, other than with a comment, is accepted. The stronger claim that the reported line is right in concurrent calls is false: the line counter is a package variable, and another goroutine can change it.", "quantifier": "all numbers of goroutines, all texts, all interleavings of their steps (the reads and writes of the shared counter are separate steps), all initial values of the counter", "why_tests_cant": "The number of interleavings is exponential in the number of lines and a test sees one of them; texts are unbounded.", "anchors": ["parser.go: globalLineNum, parseString, gotFilePos", "gotables.go: NewTableSetFromString"]}
{"id": "C57", "title": "The padded text is a grid: columns are aligned in every line", "statement": "For every well-formed table with at least one column (in table shape, or with at least two rows) whose integers are within +/-2^53, String()/StringPadded() is the line of the name followed by a grid of 2 + RowCount() lines (names, types, rows), each with one item per column and one space between items. All items of a column except the last have the same number of runes, so every column begins at the same place in all lines, also when texts contain non-ASCII characters or invalid UTF-8. Text, rune, bool, time, slice and table items are at the left with spaces after them (none in the last column); integers and the headings of numeric columns are at the right with spaces before them. A float is its text with as many decimals as the longest decimal part of its column, with spaces in place of final zeros, and the decimal points of a column are one below the other (NaN and infinities included in the width). A column that is not of floats or runes is exactly as wide as its longest text in bytes. The bound on integers is needed: 9999999999999999 is printed as 10000000000000000 and sticks out of its column.", "quantifier": "all well-formed tables with any number of columns and rows, all cell values (all strings, all floats), all nested tables", "why_tests_cant": "The widths depend on the contents of all rows at once, on rounding in float printing and on how runes are counted; a test fixes one table.", "anchors": ["gotables.go: StringPadded, String, printMatrix, setWidths, preNumberOf, pointsOf, precisionOf, padTrailingZeros"]}
{"id": "C58", "title": "The text of a struct-shape table is read back as the same struct", "statement": "For every well-formed table in struct shape with an ASCII name, at least one column, no *Table column and at most one row, String()/StringPadded() and StringUnpadded() return the same text: the line of the name and one line per column, 'name type' without a row, 'name type = value' with one. NewTableFromString of that text gives a new table with the same name, column names, types and cells, again in struct shape; no other table changes. All integers (also beyond 2^53) and all finite floats and NaN come back exactly; a nil slice comes back empty. Strings must be UTF-8 without double quote, backslash and newline, runes must be Unicode code points other than single quote, backslash and newline, floats not infinite, times plain (years 0 to 9999, whole-minute offset, nanoseconds zero or not ending in a zero digit). Table sets that mix struct-shape and table-shape tables come back in order, each table in its shape (a struct of two or more rows is printed as, and becomes, a table). The bounds on strings, runes and columns are needed.", "quantifier": "all such tables, with any number of columns, all cell values, all table sets of such tables, all heaps", "why_tests_cant": "It ranges over all values of all types and all numbers of columns; escapes are missing only for a few characters.", "anchors": ["gotables.go: printStruct, StringPadded, StringUnpadded, GetValAsStringByColIndex, TableSet.StringPadded, TableSet.StringUnpadded", "parser.go: parseString (struct shape), getTableShape, getRowSlice, parseRune"]}
{"id": "C59", "title": "The generated Go conversions between a table and a slice of structs do what they say", "statement": "For every well-formed table whose name and column names are Go identifiers other than keywords, the blank and the few names the generated functions use themselves, and whose columns are not *Table or time.Time: (a) GenerateTypeStruct returns the text of a Go struct type with the table's name and one field per column, in order, of the column's name and type; (b) GenerateTypeStructSliceFromTable returns the text of a Go function that compiles and that, called with any table, returns one struct per row in order whose fields are the cells of the columns of these names, an error for nil and an error when the table has rows and lacks one of the columns; (c) GenerateTypeStructSliceToTable returns the text of a Go function that compiles and that, called with any slice of structs without nil []byte fields, returns a table with the original's name, column names and types whose rows are the structs in order, and an error for a nil slice or a nil []byte field; (d) the two functions undo each other. The bounds on names and types are needed.", "quantifier": "all such tables (any number of columns), all argument tables and all slices of structs of any length", "why_tests_cant": "The generated text is a program: what it does must hold for every table it is generated from and for every argument it is then called with.", "anchors": ["generate.go: GenerateTypeStruct, GenerateTypeStructSliceFromTable, GenerateTypeStructSliceToTable, typeProper, accessorName, getterName, setterName, stringSliceToLiteral"]}
{"id": "C60", "title": "Every text written by the rules is accepted and gives exactly the tables it says, however it is laid out", "statement": "For every text whose lines, trimmed and without comment lines, are written by the rules (an optional table set name, tables in table shape, in struct shape with or without values, or with no columns, separated by any number of blank lines; any blanks between words and cells; any integer literal of Go in range, any Go string or rune literal, true and false, decimal floats in range and NaN, byte slices, RFC 3339 times, nested table names and nil tables; distinct plain names): NewTableSetFromString succeeds, the set has that name and those tables in that order, each with its name, shape, column names, types and cells exactly as written, and no table that existed before is touched. NewTableFromString (one table), NewTableFromStringByTableName and ...ByTableIndex give that table. Two texts that say the same give the same tables, and no text says two things.", "quantifier": "all texts of the grammar: any number of tables, columns, rows, any layout, any literals; all prior tables", "why_tests_cant": "The set of layouts and literals is infinite; a parser that rejects or misreads one spelling, or one combination of sections, passes any finite list of examples.", "anchors": ["parser.go: parseString, getTableShape, getTableSetName, getTableName, getColNames, getColTypes, getRowSlice", "gotables.go: NewTableSetFromString, NewTableFromString, NewTableFromStringByTableName, NewTableFromStringByTableIndex"]}
{"id": "C61", "title": "A decimal in a float column is read as the closest float, ties to even, and one that is too big is an error", "statement": "For every decimal text (sign, digits with or without a point, with or without a power of ten; any length if the power of ten is below 100000, any power if the text has at most 9000 bytes) in a float32 or float64 column: if the number it stands for is below the middle between the greatest float and the next power of two, the cell is the one float of that format closest to the number, the even one of two that are equally close, with the sign of the text (also for zero); otherwise the text is refused. This holds for every table with a column of such numbers.", "quantifier": "all decimal texts, both float formats, any number of rows, any prior tables", "why_tests_cant": "The numbers are infinite in number; wrong rounding shows only at the ties between two floats, at subnormals or at the edge of the range.", "anchors": ["parser.go: getRowSlice (float32, float64 cases)", "gotables.go: NewTableFromString"]}
{"id": "C62", "title": "A text that breaks the rules is refused", "statement": "For every text whose lines, trimmed and without comment lines, follow the rules up to one mistake, whatever comes after it: a line outside a table that does not start with [, a second name of the set, a table name that is already used, a column name that is not valid, names without types, an unknown type, more or fewer types than names, a column name used twice, a row with too few or too many cells, or a cell with a number out of the range of its type, with a date or time of day that does not exist, or that does not start as a value of its type starts (or a word other than true and false in a bool column): NewTableSetFromString, NewTableFromString, NewTableFromStringByTableName and ...ByTableIndex return an error, and no such text is also written by the rules of C60.", "quantifier": "all texts with any number of correct tables, rows and cells before the mistake and anything after it; all prior tables", "why_tests_cant": "The mistake may come after any correct beginning and before any continuation; a parser that lets one kind of mistake pass in one state is not found by a finite list of bad texts.", "anchors": ["parser.go: parseString, getTableSetName, getTableName, getColNames, getColTypes, getRowSlice", "gotables.go: NewTableSetFromString, NewTableFromString"]}
{"id": "C63", "title": "A time is read and written as the instant that the calendar says", "statement": "Days are counted by the Gregorian calendar (leap years, month lengths, the day after): every number of days is exactly one date and every date is exactly one number of days. For every text in RFC 3339 format with no decimals or nine decimals of a second whose date is in the calendar, whose hour, minute and second are below 24, 60 and 60 and whose zone is at most 24:60 ahead or behind: the cell of a time.Time column with that text is the instant and zone offset it says, and no text says two times. A text of that shape that says no time (29 February 1900, hour 24) is refused, after any rows. The string of a time cell, for years 0 to 9999 of its zone and a zone of whole minutes less than a day from UTC, says exactly that time, with as few decimals of a second as possible.", "quantifier": "all days, all RFC 3339 texts, all times, any number of rows, any prior tables", "why_tests_cant": "Errors of calendars show only at single days (century years, year 0, the last day of a month) and with zones that change the date; there are more than 10^20 instants.", "anchors": ["parser.go: getRowSlice (time.Time case), rfc3339TimePattern", "gotables.go: NewTableFromString, GetValAsString, GetValAsStringByColIndex"]}
{"id": "C64", "title": "Indented JSON is the same document, laid out by depth", "statement": "GetTableAsJSONIndent and GetTableSetAsJSONIndent give the text of GetTableAsJSON and GetTableSetAsJSON with other white space: every element and every member is on its own line, indented by as many tabs as there are brackets around it, with one space after each colon, empty arrays and objects closed at once, and strings and numbers unchanged byte for byte. NewTableSetFromJSON, NewTableFromJSON and NewTableFromJSONByTableName give on the indented text exactly what they give on the other, in every program state; so tables that JSON can hold (C29) are read back from it. Indenting succeeds for exactly the texts that are one JSON value (RFC 8259, at most 10000 levels), and indenting twice changes nothing. For other texts (such as that of a table with a NaN) the result is an error, never a panic.", "quantifier": "all texts, all tables and table sets of all reachable program states, all nesting depths", "why_tests_cant": "Brackets, commas, colons and escaped quotes inside strings, empty containers and deep nesting combine without bound; a layout that is wrong in one combination changes data in another.", "anchors": ["json.go: GetTableAsJSONIndent, GetTableSetAsJSONIndent, indentJSON, NewTableSetFromJSON, NewTableFromJSON, NewTableFromJSONByTableName"]}
{"id": "C65", "title": "The error of a refused nesting says which table is nested where it must not be", "statement": "IsValidTableNesting returns an error exactly when it refuses the nesting. HasCircRefError and GetCircRefError find a CircRefError in an error through any number of wrappings. If the error of IsValidTableNesting has one, its RootTable() is the receiver, its CircTable() is nested in the receiver, and the text names both. If the tables nested in the receiver nest no further tables, then a refused nesting always gives a CircRefError, and CircTable() is the first table, row by row and cell by cell, that is the receiver itself or was in an earlier cell. Stronger claims are false: for deeper nestings the error may have no CircRefError, or name a table that occurs only once; and the errors of HasCircularReference, Copy and CopyCols never have one, because they are formatted with %s.", "quantifier": "all well-formed program states, all nestings (shared, circular, of any depth), all chains of wrapped errors", "why_tests_cant": "The table named depends on the order of cells and on the whole graph of nested tables; tests use one or two small graphs.", "anchors": ["errors.go: NewCircRefError, HasCircRefError, GetCircRefError, RootTable, CircTable, Error", "tree.go: IsValidTableNesting, HasCircularReference, Walk", "gotables.go: Copy, CopyCols"]}
{"id": "C66", "title": "A table goes through any chain of formats unchanged", "statement": "A named table without nested tables is written in a format (unpadded text, padded text, JSON, YAML or gob), read back as a new table, written in the next format, and so on, any number of times and in any order. If each of the formats alone keeps the table (C23, C24, C29, C30, C32), then no conversion is an error; the last table has the name, columns and cells of the first (a nil slice may be an empty one), Equals it if no cell is NaN, and is a new table; no other table of the program changes. Two programs that take different routes end with the same data. The unpadded text, the padded text and the JSON of the last table are byte for byte those of the first, except that a table of struct shape with two or more rows is in table shape, and its JSON differs, after it went through a text format.", "quantifier": "all tables without nested tables, all finite sequences of formats, all program states, all YAML and gob libraries that keep their contracts", "why_tests_cant": "Sequences of conversions are unbounded, and that formats compose does not follow from each of them working on the tables that tests build by hand.", "anchors": ["gotables.go: StringUnpadded, StringPadded", "gotables.go: NewTableFromString", "json.go: GetTableAsJSON, NewTableFromJSON", "yaml.go: GetTableSetAsYAML, NewTableSetFromYAML", "gob.go: GobEncode, GobDecodeTable"]}
{"id": "C67", "title": "What is read from JSON or YAML is a forest and can be written again, as the same JSON text", "statement": "Whatever a JSON or YAML document says, the tables made by reading it are each nested in at most one cell, none contains itself, and every table of the set read is a tree. So the set can always be written as JSON, and converted to the map that YAML writes, without an error or an endless recursion. If the document was written from a set that JSON keeps (C29), nested tables included, then the set read from it is written as the same JSON text, byte for byte; and however often it is written and read, no trip fails and the last set has the tables and the text of the first. If it went through YAML (C30), its JSON text is that of the set that was written. Any sequence of trips through JSON and YAML gives the tables and the JSON text of the first set, and changes no other table. If moreover no slice is nil and every nested table has been given a name (none is a nil table), the YAML text is the same text, too.", "quantifier": "all texts that the JSON reader or the YAML library accepts, all program states, all sets whose tables JSON or YAML keeps, any depth and number of nested tables", "why_tests_cant": "That no document, however nested and malformed, makes the readers share a table between two cells ranges over all documents; equality of texts ranges over all trees of tables.", "anchors": ["json.go: NewTableSetFromJSON, newTableFromJSON_recursive, GetTableSetAsJSON", "yaml.go: NewTableSetFromYAML, newTableFromYAML_recursive, GetTableSetAsYAML"]}
