{
 "claims": [
  {
   "property": "C01",
   "status": "proved",
   "theorems": [
    "C01_every_reachable_table_is_well_formed",
    "C01_nested_tables_exist",
    "C01_each_call_keeps_tables_well_formed"
   ],
   "note": ""
  },
  {
   "property": "C02",
   "status": "proved",
   "theorems": [
    "C02_SetValByColIndex",
    "C02_SetVal",
    "C02_typed_by_name",
    "C02_typed_by_index"
   ],
   "note": ""
  },
  {
   "property": "C03",
   "status": "proved",
   "theorems": [
    "C03_SetValByColIndex",
    "C03_SetVal",
    "C03_typed_by_name",
    "C03_typed_by_index"
   ],
   "note": ""
  },
  {
   "property": "C04",
   "status": "proved",
   "theorems": [
    "C04_typed_getter_by_name",
    "C04_typed_getter_by_index",
    "C04_GetValByColIndex",
    "C04_reachable_by_name",
    "C04_reachable_by_index",
    "C04_reachable_never_panic"
   ],
   "note": ""
  },
  {
   "property": "C05",
   "status": "proved",
   "theorems": [
    "C05_queries",
    "C05_SetVal",
    "C05_typed_setters",
    "C05_no_such_column",
    "C05_reachable"
   ],
   "note": ""
  },
  {
   "property": "C06",
   "status": "proved",
   "theorems": [
    "C06_AppendRows",
    "C06_AppendRows_reads",
    "C06_AppendRows_rejected",
    "C06_AppendRow_is_AppendRows_1"
   ],
   "note": ""
  },
  {
   "property": "C07",
   "status": "proved",
   "theorems": [
    "C07_AppendCol",
    "C07_AppendCol_rejected",
    "C07_NewTableFromMetadata"
   ],
   "note": ""
  },
  {
   "property": "C08",
   "status": "proved",
   "theorems": [
    "C08_DeleteRows",
    "C08_DeleteRows_rejected",
    "C08_DeleteRow",
    "C08_DeleteRowsAll"
   ],
   "note": ""
  },
  {
   "property": "C09",
   "status": "proved",
   "theorems": [
    "C09_DeleteColByColIndex",
    "C09_DeleteCol",
    "C09_rejected"
   ],
   "note": ""
  },
  {
   "property": "C10",
   "status": "proved",
   "theorems": [
    "C10_RenameCol",
    "C10_rejected"
   ],
   "note": ""
  },
  {
   "property": "C11",
   "status": "proved",
   "theorems": [
    "C11_observations",
    "C11_step",
    "C11_history"
   ],
   "note": ""
  },
  {
   "property": "C12",
   "status": "proved",
   "theorems": [
    "C12_NewTableReorderColsByColIndex",
    "C12_NewTableReorderCols",
    "C12_reordered_table_is_equal",
    "C12_ReorderColsByColIndex",
    "C12_rejected",
    "C12_ReorderCols"
   ],
   "note": ""
  },
  {
   "property": "C13",
   "status": "proved",
   "theorems": [
    "C13_Reverse",
    "C13_Shuffle"
   ],
   "note": ""
  },
  {
   "property": "C14",
   "status": "proved",
   "theorems": [
    "C14_Copy",
    "C14_CopyCols",
    "C14_copy_is_equal",
    "C14_copy_is_independent",
    "C14_nested_tables_are_shared"
   ],
   "note": ""
  },
  {
   "property": "C15",
   "status": "proved",
   "theorems": [
    "C15_Equals_exactly_the_same_tables",
    "C15_reflexive",
    "C15_symmetric",
    "C15_transitive",
    "C15_nil_table",
    "C15_ignores_keys_shape_and_parent",
    "C15_ignores_column_order",
    "C15_nested_column_order_refuted",
    "C15_circular_refuted"
   ],
   "note": ""
  },
  {
   "property": "C16",
   "status": "proved",
   "theorems": [
    "C16_names_are_distinct",
    "C16_lookups_agree",
    "C16_GetTableByTableIndex",
    "C16_AppendTable",
    "C16_AppendTable_nil_refuted",
    "C16_DeleteTableByTableIndex",
    "C16_DeleteTable",
    "C16_RenameTable",
    "C16_RenameTable_unknown",
    "C16_rejected_call_changes_nothing",
    "C16_direct_rename_refuted",
    "C16_rename_through_another_set_refuted"
   ],
   "note": ""
  },
  {
   "property": "C17",
   "status": "proved",
   "theorems": [
    "C17_column_names",
    "C17_table_names",
    "C17_ascii"
   ],
   "note": ""
  },
  {
   "property": "C18",
   "status": "proved",
   "theorems": [
    "C18_Sort",
    "C18_no_keys",
    "C18_Sort_cols",
    "C18_SortSimple",
    "C18_SetSortKeys",
    "C18_SetSortKeysReverse"
   ],
   "note": ""
  },
  {
   "property": "C19",
   "status": "proved",
   "theorems": [
    "C19_SearchFirst",
    "C19_SearchLast",
    "C19_SearchLast_panics_refuted",
    "C19_SearchRange",
    "C19_bad_arguments"
   ],
   "note": "SearchLast panics exactly when every row is greater than the search values (C19_SearchLast_panics_refuted); the property excludes that case."
  },
  {
   "property": "C20",
   "status": "proved",
   "theorems": [
    "C20_compare_meaning",
    "C20_total_order",
    "C20_zero_means_equal",
    "C20_NaN_refuted"
   ],
   "note": ""
  },
  {
   "property": "C21",
   "status": "proved",
   "theorems": [
    "C21_Merge",
    "C21_Merge_empty",
    "C21_Merge_no_keys",
    "C21_disjoint_keys_refuted",
    "C21_other_columns_refuted",
    "C21_empty_table_aliases_refuted"
   ],
   "note": "C21_Merge is the full statement; C21_Merge_empty and C21_Merge_no_keys cover the other inputs. The first, unrestricted wording is refuted by C21_disjoint_keys_refuted, C21_other_columns_refuted and C21_empty_table_aliases_refuted."
  },
  {
   "property": "C22",
   "status": "proved",
   "theorems": [
    "C22_SortUnique",
    "C22_SortUnique_no_keys"
   ],
   "note": "For receivers with rows; with no keys at all SortUnique is rejected (C22_SortUnique_no_keys)."
  },
  {
   "property": "C23",
   "status": "proved",
   "theorems": [
    "C23_StringUnpadded",
    "C23_TableSet_StringUnpadded",
    "C23_byte_column_refuted",
    "C23_struct_shape_refuted",
    "C23_infinity_refuted",
    "C23_no_columns_refuted",
    "C23_latin1_name_refuted",
    "C23_set_name_refuted",
    "C23_nested_refuted"
   ],
   "note": "For every table and every table set within the stated limits, any strconv.IsPrint table for runes >= 128. The C23_*_refuted theorems show that each limit is needed."
  },
  {
   "property": "C24",
   "status": "proved",
   "theorems": [
    "C24_StringPadded",
    "C24_TableSet_StringPadded",
    "C24_large_int_refuted",
    "C24_large_uint_refuted",
    "C24_power_of_two_refuted",
    "C24_nanoseconds_refuted"
   ],
   "note": "For every table and every table set within the stated limits. The C24_*_refuted theorems: integers beyond 2^53 and some powers of two are changed by printMatrix, times with nanoseconds ending in 0 cannot be read."
  },
  {
   "property": "C25",
   "status": "proved",
   "theorems": [
    "C25_NewTableSetFromString",
    "C25_NewTableFromString",
    "C25_ByTableName",
    "C25_ByTableIndex"
   ],
   "note": "All four NewTable...FromString functions, every byte string, any heap of well-formed tables."
  },
  {
   "property": "C26",
   "status": "proved",
   "theorems": [
    "C26_NewTableSetFromString",
    "C26_NewTableFromString",
    "C26_ByTableName"
   ],
   "note": "Also: the new tables are not NilTables, nested tables are well formed, tables that existed before are untouched."
  },
  {
   "property": "C27",
   "status": "proved",
   "theorems": [
    "C27_column",
    "C27_literal_exact",
    "C27_accepts_only_literals",
    "C27_print_parse"
   ],
   "note": "For every integer column type: literals are read exactly and range-checked, only literals are accepted, and printed values are read back."
  },
  {
   "property": "C28",
   "status": "proved",
   "theorems": [
    "C28_string_round_trip",
    "C28_rune_round_trip",
    "C28_one_line",
    "C28_invalid_rune_refuted"
   ],
   "note": "For every byte string and every valid rune (Unicode scalar value). C28_invalid_rune_refuted: a surrogate or out-of-range rune prints as U+FFFD."
  },
  {
   "property": "C29",
   "status": "proved",
   "theorems": [
    "C29_written_exactly_trees",
    "C29_set_written_exactly_trees",
    "C29_round_trip",
    "C29_round_trip_table",
    "C29_read_is_equal",
    "C29_large_integer_refuted",
    "C29_float32_refuted",
    "C29_unreadable_refuted",
    "C29_reader_panics_refuted"
   ],
   "note": ""
  },
  {
   "property": "C30",
   "status": "proved",
   "theorems": [
    "C30_map_built",
    "C30_circular_refuted",
    "C30_round_trip",
    "C30_read_is_equal",
    "C30_float64_integer_refuted",
    "C30_negative_zero_refuted",
    "C30_no_tables_panic_refuted"
   ],
   "note": ""
  },
  {
   "property": "C31",
   "status": "proved",
   "theorems": [
    "C31_csv",
    "C31_errors",
    "C31_string_forms",
    "C31_blank_lines_refuted",
    "C31_no_columns_refuted"
   ],
   "note": "For every reachable table with at least one column: the text read by the RFC 4180 rules of Spec_Csv gives headings and cell texts. C31_no_columns_refuted and C31_blank_lines_refuted record the exceptions named in the statement."
  },
  {
   "property": "C32",
   "status": "proved",
   "theorems": [
    "C32_round_trip",
    "C32_decoded_is_equal",
    "C32_errors",
    "C32_sort_keys_panic",
    "C32_decoded_is_valid",
    "C32_table_set",
    "C32_table_set_bytes",
    "C32_sort_keys_refuted",
    "C32_foreign_bytes_refuted"
   ],
   "note": "Relative to the stated contract of encoding/gob (Spec_Gob.gob_ok, a hypothesis of the theorems, with an instance). C32_sort_keys_refuted: GobEncode panics for every table with sort keys. C32_foreign_bytes_refuted: decoding does not check cell types and can return (nil, nil)."
  },
  {
   "property": "C33",
   "status": "proved",
   "theorems": [
    "C33_accepts_exactly_flat_nestings",
    "C33_always_terminates",
    "C33_accepted_is_a_tree",
    "C33_circular_nesting_is_rejected",
    "C33_accepts_every_tree_refuted"
   ],
   "note": "C33_accepts_every_tree_refuted: a nested table that nests a table is rejected, because the cell visitor looks nested cells up in the root table."
  },
  {
   "property": "C34",
   "status": "proved",
   "theorems": [
    "C34_walk_follows_the_tour",
    "C34_tour_exists_iff_no_cycle",
    "C34_every_table_row_and_cell_exactly_once",
    "C34_stops_at_the_first_error",
    "C34_walk_without_nested_tables",
    "C34_walk_terminates",
    "C34_walk_of_a_cycle_fails",
    "C34_walk_of_a_table_set",
    "C34_walk_of_a_nil_table"
   ],
   "note": ""
  },
  {
   "property": "C35",
   "status": "proved",
   "theorems": [
    "C35_what_CopyDeep_does",
    "C35_when_CopyDeep_fails",
    "C35_old_tables_keep_their_contents",
    "C35_deeper_trees_refuted",
    "C35_receiver_unchanged_refuted",
    "C35_result_is_equal_refuted",
    "C35_copies_refuted",
    "C35_no_nested_tables"
   ],
   "note": "C35_what_CopyDeep_does, C35_when_CopyDeep_fails and C35_old_tables_keep_their_contents say all that it does (Spec_Deep.v: what is seen of nested tables). The first wording (it returns an independent equal copy and leaves the receiver unchanged) is refuted by C35_receiver_unchanged_refuted, C35_result_is_equal_refuted, C35_copies_refuted and C35_deeper_trees_refuted."
  },
  {
   "property": "C36",
   "status": "proved",
   "theorems": [
    "C36_AppendRowsFromTable",
    "C36_AppendRowsFromTable_itself",
    "C36_NilTable_rejected",
    "C36_NewTableFromRows"
   ],
   "note": ""
  },
  {
   "property": "C37",
   "status": "proved",
   "theorems": [
    "C37_AppendColsFromTable",
    "C37_NilTable_rejected",
    "C37_itself"
   ],
   "note": ""
  },
  {
   "property": "C38",
   "status": "proved",
   "theorems": [
    "C38_GetColInfoAsTable",
    "C38_NilTable_rejected",
    "C38_GetColInfoAsSlices"
   ],
   "note": ""
  },
  {
   "property": "C39",
   "status": "proved",
   "theorems": [
    "C39_GetSortKeysAsTable",
    "C39_SetSortKeysFromTable",
    "C39_same_keys",
    "C39_rejected",
    "C39_DeleteSortKey",
    "C39_mixed_directions_refuted"
   ],
   "note": ""
  },
  {
   "property": "C40",
   "status": "proved",
   "theorems": [
    "C40_refuted",
    "C40_rename_refuted",
    "C40_keys_name_columns",
    "C40_Sort_never_panics",
    "C40_keys_valid"
   ],
   "note": "The claim for all histories is refuted by C40_refuted and C40_rename_refuted."
  },
  {
   "property": "C41",
   "status": "proved",
   "theorems": [
    "C41_cell_zero",
    "C41_cell_zero_by_name",
    "C41_row_zero",
    "C41_col_zero",
    "C41_col_zero_by_name",
    "C41_cell_NaN",
    "C41_row_NaN",
    "C41_col_NaN",
    "C41_all_NaN"
   ],
   "note": "The NaN setters by column name: C51_by_name."
  },
  {
   "property": "C42",
   "status": "proved",
   "theorems": [
    "C42_errors",
    "C42_typed_setters_panic",
    "C42_zero_setters_panic",
    "C42_refuted"
   ],
   "note": "The claim for every ByColIndex method is refuted by C42_refuted; the _panic theorems say exactly when the typed and zero-value setters panic."
  },
  {
   "property": "C43",
   "status": "proved",
   "theorems": [
    "C43_SearchFirst",
    "C43_SearchLast",
    "C43_SearchFirst_boundary",
    "C43_SearchFirst_calls",
    "C43_SearchLast_calls"
   ],
   "note": ""
  },
  {
   "property": "C44",
   "status": "proved",
   "theorems": [
    "C44_IsSortKey",
    "C44_IsSortKey_after_SetSortKeys",
    "C44_OrderColsBySortKeys",
    "C44_repeated_key_refuted"
   ],
   "note": ""
  },
  {
   "property": "C45",
   "status": "proved",
   "theorems": [
    "C45_CompareRows_ascending",
    "C45_CompareRows_no_reverse",
    "C45_refuted",
    "C45_rejected"
   ],
   "note": "The claim for reversed keys is refuted by C45_refuted; C45_CompareRows_ascending says exactly what CompareRows computes."
  },
  {
   "property": "C46",
   "status": "proved",
   "theorems": [
    "C46_swap_leaves_cells",
    "C46_refuted",
    "C46_SwapCols_refuted",
    "C46_SwapColsByColIndex",
    "C46_SwapCols",
    "C46_reads_after_swap"
   ],
   "note": "The first wording (cells move with their names, the table stays well formed) is refuted by C46_refuted and C46_SwapCols_refuted; C46_SwapColsByColIndex and C46_SwapCols say exactly what the code does."
  },
  {
   "property": "C47",
   "status": "proved",
   "theorems": [
    "C47_reachable_tables",
    "C47_accepted_is_consistent",
    "C47_IsValidRow",
    "C47_deep_nesting_refuted",
    "C47_NilTable_refuted",
    "C47_wrong_lookup_no_error_refuted",
    "C47_missing_first_column_refuted",
    "C47_wrong_cell_type_refuted"
   ],
   "note": "The five C47_*_refuted theorems show where IsValidTable differs from the property as first stated."
  },
  {
   "property": "C48",
   "status": "proved",
   "theorems": [
    "C48_UtilRound",
    "C48_exact_product",
    "C48_integers",
    "C48_special",
    "C48_negative_refuted",
    "C48_product_refuted"
   ],
   "note": "For 0 to 22 places, with math.Pow(10, k) exact there (hypothesis pow10_ok, with an instance). The property as first stated is false: C48_negative_refuted (-1.2 goes to -2), C48_product_refuted (2.675 to 2 places gives 2.68)."
  },
  {
   "property": "C49",
   "status": "proved",
   "theorems": [
    "C49_Equals_exactly_the_same_sets",
    "C49_Equals_reflexive",
    "C49_Equals_symmetric",
    "C49_Equals_transitive",
    "C49_Equals_ignores_set_names_refuted",
    "C49_Copy",
    "C49_copy_is_equal",
    "C49_IsValidTableSet",
    "C49_hypotheses_hold"
   ],
   "note": "C49_hypotheses_hold: every program meets the hypotheses. C49_Equals_ignores_set_names_refuted: the names of sets are not compared."
  },
  {
   "property": "C50",
   "status": "proved",
   "theorems": [
    "C50_JSON",
    "C50_JSON_table",
    "C50_YAML",
    "C50_JSON_document",
    "C50_YAML_document",
    "C50_JSON_single",
    "C50_never_panics_refuted",
    "C50_JSON_strings_exact",
    "C50_JSON_documents_sound",
    "C50_JSON_documents_complete",
    "C50_JSON_cells",
    "C50_number_one",
    "C50_JSON_cell_names_refuted",
    "C50_JSON_exact_refuted",
    "C50_JSON_numbers_sound",
    "C50_JSON_numbers_complete",
    "C50_JSON_strings",
    "C50_JSON_members",
    "C50_JSON_no_member_lost",
    "C50_YAML_cells",
    "C50_wraps_one",
    "C50_wraps_same",
    "C50_YAML_exact_refuted"
   ],
   "note": "The first wording (every document gives a table set or an error) is refuted by C50_never_panics_refuted. The decoder accepts exactly the JSON of RFC 8259 (Spec_Indent.v), with exactly the values that the grammar says. What a cell must hold is in Spec_JsonCells.v and Spec_YamlCells.v; of a JSON cell object with several members one counts."
  },
  {
   "property": "C51",
   "status": "proved",
   "theorems": [
    "C51_IsValidColType",
    "C51_IsSliceColType",
    "C51_IsTableColType",
    "C51_IsNumericColType",
    "C51_IsNumericColType_refuted",
    "C51_existing_cells",
    "C51_NewTable",
    "C51_SetStructShape",
    "C51_HasCell",
    "C51_HasCellByColIndex",
    "C51_IsColType",
    "C51_IsTableCol",
    "C51_MustGet",
    "C51_MustSet",
    "C51_column_strings",
    "C51_unknown_column_refuted",
    "C51_IsValidCellValue",
    "C51_IsValidCellValue_refuted",
    "C51_by_name",
    "C51_no_such_column",
    "C51_NewTableFromRowsBySearchRange",
    "C51_GetCellInfo",
    "C51_GetCellInfo_refuted",
    "C51_SetTable",
    "C51_SetTable_accepts",
    "C51_SetTable_rejected_refuted"
   ],
   "note": "C51_*_refuted are the false stronger claims named in the statement; IsNumericColType denies rune and accepts \"complex\" (C51_IsNumericColType_refuted)."
  },
  {
   "property": "C52",
   "status": "proved",
   "theorems": [
    "C52_lines",
    "C52_trimmed",
    "C52_document",
    "C52_one_table",
    "C52_ignored_text_refuted",
    "C52_separator_refuted",
    "C52_dropped_value_refuted",
    "C52_text_before_equals_refuted",
    "C52_lost_columns_refuted",
    "C52_white_bytes"
   ],
   "note": "C52_*_refuted are the false stronger claims named in the statement. The relation `document` is in Spec_Document.v."
  },
  {
   "property": "C53",
   "status": "proved",
   "theorems": [
    "C53_Nest",
    "C53_no_partner",
    "C53_no_keys",
    "C53_missing_key",
    "C53_nil",
    "C53_whichever_refuted",
    "C53_if_any_refuted"
   ],
   "note": "C53_whichever_refuted and C53_if_any_refuted are the comments in nest.go that do not hold; C53_no_partner says exactly what is left behind after the error."
  },
  {
   "property": "C54",
   "status": "proved",
   "theorems": [
    "C54_printing_never_fails",
    "C54_printing_a_table_set_never_fails",
    "C54_nested_text_exists_iff_no_cycle",
    "C54_nested_text_changes_names_only",
    "C54_nested_text_of_a_plain_table",
    "C54_nested_text_of_a_flat_nesting",
    "C54_nested_cells",
    "C54_new_tree_table",
    "C54_new_tree_table_fills_nil_tables_refuted",
    "C54_nested_text_is_pure_refuted"
   ],
   "note": "C54_new_tree_table_fills_nil_tables_refuted and C54_nested_text_is_pure_refuted are the stronger claims that do not hold."
  },
  {
   "property": "C55",
   "status": "proved",
   "theorems": [
    "C55_WriteFile_frame",
    "C55_Table_WriteFile_frame",
    "C55_WriteFile_refused",
    "C55_WriteFile_nil",
    "C55_read_refused",
    "C55_read_text",
    "C55_TableSet_WriteFile",
    "C55_TableSet_WriteFile_succeeds",
    "C55_Table_WriteFile",
    "C55_ByTableName",
    "C55_last_write",
    "C55_torn_text",
    "C55_torn_no_panic",
    "C55_crash_TableSet",
    "C55_crash_Table",
    "C55_MustMake",
    "C55_atomic_refuted",
    "C55_torn_value_refuted",
    "C55_torn_type_refuted"
   ],
   "note": "C55_atomic_refuted, C55_torn_value_refuted and C55_torn_type_refuted are the stronger claims that do not hold."
  },
  {
   "property": "C56",
   "status": "proved",
   "theorems": [
    "C56_any_schedule",
    "C56_every_call_returns",
    "C56_line_number",
    "C56_alone",
    "C56_line_number_concurrent_refuted"
   ],
   "note": "C56_line_number_concurrent_refuted is the stronger claim that does not hold."
  },
  {
   "property": "C57",
   "status": "proved",
   "theorems": [
    "C57_layout",
    "C57_columns_begin",
    "C57_large_int_refuted"
   ],
   "note": "C57_large_int_refuted shows that the bound on integers is needed."
  },
  {
   "property": "C58",
   "status": "proved",
   "theorems": [
    "C58_struct_text",
    "C58_lines",
    "C58_TableSet_StringPadded",
    "C58_TableSet_StringUnpadded",
    "C58_backslash_refuted",
    "C58_newline_refuted",
    "C58_rune_quote_refuted",
    "C58_no_columns_refuted"
   ],
   "note": "C58_backslash_refuted, C58_newline_refuted, C58_rune_quote_refuted and C58_no_columns_refuted (with C23_struct_shape_refuted) show that the bounds are needed."
  },
  {
   "property": "C59",
   "status": "proved",
   "theorems": [
    "C59_type_struct",
    "C59_accessors",
    "C59_slice_from_table",
    "C59_rows_of_table",
    "C59_table_from_slice",
    "C59_roundtrip",
    "C59_table_column_refuted",
    "C59_time_column_refuted",
    "C59_rowIndex_column_refuted",
    "C59_rowIndex_panic_refuted",
    "C59_err_column_refuted",
    "C59_table_named_column_refuted",
    "C59_nil_column_refuted",
    "C59_same_name_refuted",
    "C59_blank_column_refuted",
    "C59_table_name_refuted",
    "C59_keyword_refuted",
    "C59_NilTable_refuted",
    "C59_nil_slice_refuted"
   ],
   "note": "The meaning of the generated text is given by a reader and an interpreter for the fragment of Go that it uses (Spec_Generate.v): unreadable text, unknown names, unknown methods and ill-typed assignments have no meaning. The clock is a parameter whose text has no slash. The C59_*_refuted theorems show that the bounds are needed."
  },
  {
   "property": "C60",
   "status": "proved",
   "theorems": [
    "C60_accepted",
    "C60_one_table",
    "C60_by_name",
    "C60_by_index",
    "C60_layout",
    "C60_one_meaning"
   ],
   "note": "The converse of C52. The grammar is Spec_Grammar.v; a float literal means the closest float, defined independently in Spec_Decimal.v (C61); a time literal means the instant of the calendar, defined independently in Spec_Time.v (C63). The grammar is stricter than the parser: what the parser also accepts is in C52, what it refuses in C62."
  },
  {
   "property": "C61",
   "status": "proved",
   "theorems": [
    "C61_one_float",
    "C61_number",
    "C61_read",
    "C61_too_big"
   ],
   "note": "Rounding is defined in Spec_Decimal.v by exact integer arithmetic, not by the model; the model of strconv.ParseFloat is shown to agree with it (nearest_rounds). Hexadecimal floats are not modelled."
  },
  {
   "property": "C62",
   "status": "proved",
   "theorems": [
    "C62_refused",
    "C62_one_table",
    "C62_by_name",
    "C62_by_index",
    "C62_apart"
   ],
   "note": "The mistakes are listed in Spec_Refuse.v, for tables in table shape. What the parser accepts although it looks like a mistake is in C52."
  },
  {
   "property": "C63",
   "status": "proved",
   "theorems": [
    "C63_one_date",
    "C63_one_number",
    "C63_one_time",
    "C63_read",
    "C63_refused",
    "C63_written"
   ],
   "note": "The calendar and the format are defined in Spec_Time.v by the successor of a date, not by the model's arithmetic. Fractions of 1 to 8 decimals are written but not read (C24)."
  },
  {
   "property": "C64",
   "status": "proved",
   "theorems": [
    "C64_indented",
    "C64_refused",
    "C64_again",
    "C64_read_the_same",
    "C64_tables",
    "C64_sets",
    "C64_no_panic",
    "C64_round_trip",
    "C64_round_trip_table"
   ],
   "note": "The grammar of JSON with white space and the layout are defined in Spec_Indent.v as relations and a document tree; the model of json.Indent is a byte-by-byte transducer that keeps no tree. That the scanner of json.Indent and the decoder accept the same texts is a simplification of the model."
  },
  {
   "property": "C65",
   "status": "proved",
   "theorems": [
    "C65_found_in_wrappings",
    "C65_new",
    "C65_error_iff_refused",
    "C65_what_it_says",
    "C65_first_repeat",
    "C65_one_first_repeat",
    "C65_HasCircularReference_refuted",
    "C65_deeper_refuted"
   ],
   "note": "Errors are values with their chain of wrapped errors; only the text of CircRefErrors is modelled. The model with errors is proved to refuse exactly what the model without them refuses."
  },
  {
   "property": "C66",
   "status": "proved",
   "theorems": [
    "C66_chain",
    "C66_equal",
    "C66_routes",
    "C66_same_text",
    "C66_struct_shape_refuted"
   ],
   "note": "Tables with nested tables are left out: the text formats lose them and gob refuses them. The chain goes through texts in memory, not files."
  },
  {
   "property": "C67",
   "status": "proved",
   "theorems": [
    "C67_JSON",
    "C67_YAML",
    "C67_JSON_written_again",
    "C67_YAML_written_again",
    "C67_JSON_table",
    "C67_JSON_same_text",
    "C67_YAML_same_text",
    "C67_JSON_any_number",
    "C67_YAML_any_number",
    "C67_mixed_trips",
    "C67_YAML_same_yaml"
   ],
   "note": "The map is converted; whether the YAML library then accepts it is its contract (C30). The tables in memory before the read are not part of the claim."
  }
 ]
}