{
 "claims": [
  {
   "property": "C01",
   "status": "proved",
   "theorems": [
    "C01_pandas_round_trip",
    "C01_any_partitioning"
   ],
   "note": "cells, row labels and headers; category storage not modelled"
  },
  {
   "property": "C02",
   "status": "proved",
   "theorems": [
    "C02_partition_shapes_exact"
   ],
   "note": ""
  },
  {
   "property": "C03",
   "status": "proved",
   "theorems": [
    "C03_split_lossless",
    "C03_split_given_lengths",
    "C03_length_list_sums"
   ],
   "note": ""
  },
  {
   "property": "C04",
   "status": "proved",
   "theorems": [
    "C04_map_partitions_cellwise",
    "C04_map_frame"
   ],
   "note": "Every cell function, grid and mode of map_partitions; empty grids excluded (empty frames default to pandas)."
  },
  {
   "property": "C05",
   "status": "proved",
   "theorems": [
    "C05_full_axis_columns",
    "C05_full_axis_rows"
   ],
   "note": "num_splits only with keep_partitioning=False, as all callers do."
  },
  {
   "property": "C06",
   "status": "proved",
   "theorems": [
    "C06_tree_reduce",
    "C06_reduce",
    "C06_standard_laws"
   ],
   "note": "Both axes, all modes; integer cells with missing values for the standard laws."
  },
  {
   "property": "C07",
   "status": "partial",
   "theorems": [
    "C07_iloc_partial",
    "C07_iloc_rows_direct",
    "C07_take2d_meaning",
    "C07_only_lists_repeat",
    "C07_repeated_positions_refuted",
    "C07_backward_slice_refuted",
    "C07_negative_range_refuted"
   ],
   "note": "proved for all partitionings, cache states and argsorts when positions do not repeat (and for unsorted row lists with repeats); the full statement is false of the code: three refutations"
  },
  {
   "property": "C08",
   "status": "proved",
   "theorems": [
    "C08_block_index",
    "C08_locate"
   ],
   "note": "unit-step ranges must not run backwards (see C07_backward_slice_refuted)"
  },
  {
   "property": "C09",
   "status": "proved",
   "theorems": [
    "C09_caches_after_selection",
    "C09_block_caches"
   ],
   "note": ""
  },
  {
   "property": "C10",
   "status": "partial",
   "theorems": [
    "C10_cells_partial",
    "C10_column_scalar_partial",
    "C10_column_values_partial",
    "C10_row_scalar_partial",
    "C10_row_values_partial",
    "C10_assigned_unique",
    "C10_uneven_blocks_refuted",
    "C10_row_order_refuted",
    "C10_cells_of_one_row_refuted",
    "C10_column_order_refuted",
    "C10_whole_column_order_refuted",
    "C10_whole_row_order_refuted",
    "C10_repeated_rows_refuted",
    "C10_same_header_refuted",
    "C10_same_label_refuted",
    "C10_backward_slice_refuted",
    "C10_nothing_selected_refuted",
    "C10_one_value_refuted",
    "C10_one_row_array_refuted"
   ],
   "note": "iloc assignment through _setitem_positional, write_items, setitem and insert_item, any partitioning and cache state. Proved: exactly the addressed cells change for scalars, arrays of the selection's shape in any order with repetitions, orderly flat sequences, whole rows and whole columns. The full statement is false of the code in the twelve refuted cases (uneven blocks, flat sequences with unordered selections, repeated or equal labels, backward slices, and others). Frames and series as values, and appending new labels, are not modelled."
  },
  {
   "property": "C11",
   "status": "proved",
   "theorems": [
    "C11_rebalance",
    "C11_same_data"
   ],
   "note": "Rebalancing keeps the data for every grid, every NPartitions and every cached-length state."
  },
  {
   "property": "C12",
   "status": "partial",
   "theorems": [
    "C12_concat_rows",
    "C12_concat_rows_same_columns",
    "C12_concat_cols_partial",
    "C12_empty_frame_refuted"
   ],
   "note": "Row concatenation proved in full for frames with blocks; column concatenation proved for frames with rows; with a zero-row frame the claim is false of the code (C12_empty_frame_refuted)."
  },
  {
   "property": "C13",
   "status": "partial",
   "theorems": [
    "C13_equal_blocks",
    "C13_by_label",
    "C13_unique_labels_join",
    "C13_binary_op_partial",
    "C13_empty_block_refuted",
    "C13_unknown_widths_refuted"
   ],
   "note": "Alignment proved in full; the binary operation proved under conditions on known widths and empty row blocks, and shown false of the code outside them."
  },
  {
   "property": "C14",
   "status": "proved",
   "theorems": [
    "C14_labels_read",
    "C14_labels_equal",
    "C14_aligned_only_if_equal",
    "C14_aligned_iff_partial",
    "C14_lengths_true_partial",
    "C14_repartition_refuted",
    "C14_stale_lengths_refuted"
   ],
   "note": "Label claim proved for every history. Block-length ids, which are more than the property asks, proved for histories without two-axis _repartition and shown false with it."
  },
  {
   "property": "C15",
   "status": "partial",
   "theorems": [
    "C15_chunks",
    "C15_chunks_around_gap",
    "C15_boundary_outside_fields_partial",
    "C15_stray_quote_refuted"
   ],
   "note": "Chunks consecutive, covering and at record starts for every file, size and quote byte. Outside pandas' quoted fields when quotes only open and close fields; refuted for a quote inside an unquoted field."
  },
  {
   "property": "C16",
   "status": "partial",
   "theorems": [
    "C16_rows_partial",
    "C16_blank_first_line_refuted",
    "C16_header_newline_refuted",
    "C16_single_line_encoding_refuted"
   ],
   "note": "Rows equal the whole-file parse for every file whose header is on single non-blank lines; refuted for a blank first line, a newline in a column name, and a single unterminated line with an encoding."
  },
  {
   "property": "C17",
   "status": "partial",
   "theorems": [
    "C17_nrows_partial",
    "C17_newline_iterator_partial",
    "C17_zero_rows_refuted",
    "C17_blank_lines_refuted",
    "C17_skip_below_refuted",
    "C17_unterminated_never_ends_refuted"
   ],
   "note": "Exactly min(n, available) rows for n > 0 when the first n lines are rows; refuted for n = 0, blank lines, a skip list below row n, and BOM encodings without a final newline (never ends)."
  },
  {
   "property": "C18",
   "status": "partial",
   "theorems": [
    "C18_skip_first_partial",
    "C18_skip_consecutive_partial",
    "C18_skip_scattered_partial",
    "C18_skip_predicate_partial",
    "C18_after_header_refuted",
    "C18_past_end_refuted",
    "C18_blank_lines_refuted"
   ],
   "note": "All four forms of skiprows equal pandas under the stated conditions; refuted for a scattered list starting right after the header, entries past the end, and blank lines."
  },
  {
   "property": "C19",
   "status": "proved",
   "theorems": [
    "C19_widths"
   ],
   "note": "Every number of columns, partitions and minimum block size."
  },
  {
   "property": "C20",
   "status": "partial",
   "theorems": [
    "C20_rows_partial",
    "C20_skiprows_no_header_partial",
    "C20_one_file",
    "C20_skiprows_header_refuted"
   ],
   "note": "Any number of files without skiprows, any nrows > 0 when all lines are rows; skiprows without header, or with one file; refuted for skiprows with headers and several files."
  },
  {
   "property": "C21",
   "status": "partial",
   "theorems": [
    "C21_sort_values_sorts",
    "C21_stable_sort_exact",
    "C21_one_partition_refuted"
   ],
   "note": "sort_values of every partitioned frame with any random pivots returns a sorted permutation (any per-frame sort) and exactly pandas' result for stable sorts; needs NPartitions >= 2 (refuted at 1) and a key function that maps missing to missing only. Sampling itself is the pivot parameter; ignore_index and axis=1 not modelled."
  },
  {
   "property": "C22",
   "status": "partial",
   "theorems": [
    "C22_missing_at_end",
    "C22_key_function_refuted"
   ],
   "note": "Missing keys all at the requested end for every pivots, direction and partitioning; refuted for key functions that turn present values into missing ones; NPartitions >= 2."
  },
  {
   "property": "C23",
   "status": "partial",
   "theorems": [
    "C23_equal_keys_meet_partial",
    "C23_one_key_meets",
    "C23_groups_of_pieces",
    "C23_sorted_groups_exact",
    "C23_one_partition_refuted",
    "C23_single_row_refuted"
   ],
   "note": "One key column: always succeeds, every key's rows meet in one piece in order, pieces follow key order, groups/first rows are exactly the whole table's. Several key columns: if it returns, it is right; it fails when a partition has exactly one non-missing row (refuted). NPartitions=1 refuted. The two-frame broadcast variant used by merge is in C70."
  },
  {
   "property": "C24",
   "status": "partial",
   "theorems": [
    "C24_keys_that_occur",
    "C24_own_columns_partial",
    "C24_size_partial",
    "C24_other_series_partial",
    "C24_index_level_partial",
    "C24_min_count_refuted",
    "C24_other_lengths_refuted",
    "C24_other_number_refuted"
   ],
   "note": "Proved for keys taken from the frame's own columns, from a Series partitioned like the frame, and from an index level, for sum, count, size, min, max, prod, any, all with min_count at most 1. Refuted: min_count of 2 or more is applied to partials; a Series of another frame whose row partitions differ loses rows or raises AssertionError."
  },
  {
   "property": "C25",
   "status": "partial",
   "theorems": [
    "C25_mean_partial",
    "C25_skew_partial",
    "C25_no_key_refuted"
   ],
   "note": "Proved over exact rationals (roots are parameters), when at least one key is present. Refuted: with every key missing the result has duplicated columns. The column order of skew is covered only for sorted headers."
  },
  {
   "property": "C26",
   "status": "partial",
   "theorems": [
    "C26_merge_partial",
    "C26_sorted_partial",
    "C26_empty_right_partial",
    "C26_empty_left_refuted",
    "C26_swapped_keys_refuted",
    "C26_common_keys_sort_refuted",
    "C26_right_sort_refuted",
    "C26_indicator_refuted"
   ],
   "note": "Row-axis merge (how left, inner, right; on, left_on/right_on, common columns; any key equality relation, any partitioning) equals the merge of the whole frames, order included; with sort=True a sorted permutation. Missing: index-level keys, how outer/cross. Range-partitioning merge is in C70. False for a left frame without blocks, crosswise key headers, sort=True without key names, sort=True right merge on differently named keys, indicator=True."
  },
  {
   "property": "C27",
   "status": "partial",
   "theorems": [
    "C27_read_last_write_partial",
    "C27_source",
    "C27_rejected",
    "C27_malformed_environment",
    "C27_npartitions_refuted"
   ],
   "note": "Every history, every variable whose own get check accepts whatever its put accepts. NPartitions and CpuCount do not: put(0) raises but stays stored, and every later call raises (C27_npartitions_refuted)."
  },
  {
   "property": "C28",
   "status": "proved",
   "theorems": [
    "C28_subscriber",
    "C28_once"
   ],
   "note": "Every history, any other subscribers; callbacks that themselves change the configuration are not modelled."
  },
  {
   "property": "C29",
   "status": "partial",
   "theorems": [
    "C29_context_partial",
    "C29_failed_entry",
    "C29_failed_entry_refuted",
    "C29_none_default_refuted"
   ],
   "note": "Any body, with or without exception. Not true and refuted: a context whose entry fails half-way leaves earlier variables changed; a variable whose default is None cannot be restored."
  },
  {
   "property": "C30",
   "status": "partial",
   "theorems": [
    "C30_future_engines",
    "C30_future_failed_read_repeats",
    "C30_python_until_failure_partial",
    "C30_python_successful_data",
    "C30_axis_partition",
    "C30_failed_drain_refuted"
   ],
   "note": "Full for Dask, Unidist and full-axis partitions. Python block partitions: equal up to and including the first failure, and for every partition whose operations succeed; after a failed drain the queue is lost and later reads return stale data (refuted)."
  },
  {
   "property": "C31",
   "status": "partial",
   "theorems": [
    "C31_values_partial",
    "C31_direct_partial",
    "C31_shared_once",
    "C31_failed_sibling_refuted",
    "C31_failed_metadata_refuted",
    "C31_nested_tuple_refuted"
   ],
   "note": "For every history of creating partitions, lazy and immediate calls (with nested list arguments, keywords and sharing), draining, copying, deleting and looking: the driver never fails, values and shapes seen without an error are those of calling the functions one by one, all are equal when no call fails, and no function is called more often than asked. Missing: nested tuples become lists, and a failing operation makes an unrelated shared one of the same task (or its shape) an error: both refuted. Not modelled: num_returns > 1 and list data (unused by the code base), functions that change their arguments."
  },
  {
   "property": "C32",
   "status": "partial",
   "theorems": [
    "C32_columns_follow_pandas",
    "C32_known_names_partial",
    "C32_dtypes_right_partial",
    "C32_late_names_refuted",
    "C32_remaining_first_refuted",
    "C32_asked_set_refuted",
    "C32_spare_dtype_refuted",
    "C32_reorder_fails_refuted",
    "C32_copy_fails_refuted",
    "C32_inner_join_refuted",
    "C32_sorted_join_refuted"
   ],
   "note": "Full statement (every history) is refuted in five ways. Proved for every history of making, selecting, renaming, gluing, stacking, assigning, ordering and materialising frames whose column names are known and where no dtype is announced for remaining columns (C32_known_names_partial), and, with names not yet known, remaining dtypes and the set of dtypes, when frames are glued in order (C32_dtypes_right_partial). Missing: that df.dtypes never raises; categorical and lazy-proxy dtypes."
  },
  {
   "property": "C33",
   "status": "proved",
   "theorems": [
    "C33_row_groups",
    "C33_all_groups"
   ],
   "note": "all counts and NPartitions"
  },
  {
   "property": "C34",
   "status": "proved",
   "theorems": [
    "C34_sql_windows",
    "C34_bounded"
   ],
   "note": "windows tile the result; bounded integer ranges tile [lower, upper]"
  },
  {
   "property": "C35",
   "status": "proved",
   "theorems": [
    "C35_cheapest",
    "C35_candidates",
    "C35_ties",
    "C35_auto_switch"
   ],
   "note": "Choice among operands' (and switchable) backends and the single-operand switch, for arbitrary cost tables."
  },
  {
   "property": "C36",
   "status": "partial",
   "theorems": [
    "C36_chunks",
    "C36_refused",
    "C36_column_chunks_partial",
    "C36_column_chunks_refuted"
   ],
   "note": "Frame chunks proved in full; get_chunks() of a single protocol column always raises AttributeError (finding F13), proved as refuted; other chunk counts of a column proved."
  },
  {
   "property": "C37",
   "status": "proved",
   "theorems": [
    "C37_column_round_trip",
    "C37_string_window",
    "C37_frame_round_trip",
    "C37_object_values_refuted"
   ],
   "note": "String, number, bool and timestamp columns, windows of string columns, and whole frames in any number of chunks. Object columns with values that are not exact str are outside the claim; the refuted theorem shows what happens to them."
  },
  {
   "property": "C38",
   "status": "proved",
   "theorems": [
    "C38_filter_empties"
   ],
   "note": ""
  },
  {
   "property": "C39",
   "status": "proved",
   "theorems": [
    "C39_propagate_labels"
   ],
   "note": ""
  },
  {
   "property": "C40",
   "status": "partial",
   "theorems": [
    "C40_each_key_once",
    "C40_same_rows_partial",
    "C40_in_place_partial",
    "C40_one_key_partial",
    "C40_category_order_refuted",
    "C40_second_key_refuted",
    "C40_fill_value_refuted"
   ],
   "note": "Each possible key exactly once: proved for every split, sort flag and number of keys (C40_each_key_once). In place and with neutral values: proved when categories are in the order of their values, rows are spread by the first key, and all result columns have the same aggregate of an empty group; the three missing cases are refuted. User-defined aggregations, dropna=False and as_index=False are not modelled."
  },
  {
   "property": "C41",
   "status": "proved",
   "theorems": [
    "C41_transpose",
    "C41_transposed_table"
   ],
   "note": ""
  },
  {
   "property": "C42",
   "status": "partial",
   "theorems": [
    "C42_outputs_partial",
    "C42_later_queries_partial",
    "C42_repartition_keeps_rows",
    "C42_other_reducer_refuted",
    "C42_no_reducer_refuted"
   ],
   "note": "For every history of add_query calls each output is the composition of all accepted queries before it, and the batch raises exactly when that composition does. Missing: queries that fan out and are not outputs, for which the statement is false (late-bound loop variable in the reducer); column blocks inside a row partition."
  },
  {
   "property": "C43",
   "status": "partial",
   "theorems": [
    "C43_text_partial",
    "C43_bool_text_refuted"
   ],
   "note": "String, exact string and integer variables. False for booleans: put('false') gives True."
  },
  {
   "property": "C44",
   "status": "proved",
   "theorems": [
    "C44_backend_agrees",
    "C44_set_execution_refuted"
   ],
   "note": "All histories of the three variables' own methods. A direct modin.set_execution call that fails leaves them inconsistent (refuted)."
  },
  {
   "property": "C45",
   "status": "partial",
   "theorems": [
    "C45_read_parquet_partial",
    "C45_no_row_groups_refuted"
   ],
   "note": "full for datasets with at least one row group or no columns; a dataset with columns and no row group raises ZeroDivisionError (refuted)"
  },
  {
   "property": "C46",
   "status": "partial",
   "theorems": [
    "C46_read_store_partial",
    "C46_store_labels_refuted"
   ],
   "note": "full when the stored labels are 0..n-1; refuted for other labels (HDF)"
  },
  {
   "property": "C47",
   "status": "partial",
   "theorems": [
    "C47_operands_partial",
    "C47_caller_objects",
    "C47_pins",
    "C47_choice",
    "C47_updates_in_place",
    "C47_updates_copied",
    "C47_nested_tuple_refuted",
    "C47_caller_list_refuted"
   ],
   "note": "Missing: with in-place casting off, operands nested in tuples are not cast (refuted) and the caller's lists change (refuted); update propagation assumes distinct operands; the post-operation switch is not modelled."
  },
  {
   "property": "C48",
   "status": "partial",
   "theorems": [
    "C48_categorical_round_trip_partial",
    "C48_missing_category_refuted",
    "C48_minus_one_refuted"
   ],
   "note": "Missing: missing entries come back as the last category, the category -1 comes back as missing (code is wrong)."
  },
  {
   "property": "C49",
   "status": "partial",
   "theorems": [
    "C49_bit_mask_partial",
    "C49_foreign_column_partial",
    "C49_padded_mask_refuted",
    "C49_window_refuted",
    "C37_string_window"
   ],
   "note": "Missing: padded masks and windows of larger buffers (code is wrong there)."
  },
  {
   "property": "C50",
   "status": "partial",
   "theorems": [
    "C50_validate_partial",
    "C50_left_keys_refuted"
   ],
   "note": "validate= of the broadcast side is decided exactly as on whole frames; validation of the partitioned side is false: duplicates in different row partitions go unnoticed."
  },
  {
   "property": "C51",
   "status": "partial",
   "theorems": [
    "C51_to_csv_partial",
    "C51_exclusive_mode_refuted",
    "C51_no_rows_refuted",
    "C51_column_format_refuted"
   ],
   "note": "Proved for frames with blocks, row-wise text and modes without x, over all interleavings and crash points; the full statement is false for mode x, for frames without rows and for column-wide formats (refuted by computation)."
  },
  {
   "property": "C52",
   "status": "partial",
   "theorems": [
    "C52_to_sql_partial",
    "C52_retry_refuted",
    "C52_row_order_refuted",
    "C52_not_atomic_refuted",
    "C52_no_rows_refuted"
   ],
   "note": "Rows exactly once (in any order), progress and termination over all interleavings and all crashes before commit, for frames with rows; the full statement fails for crashes after commit (duplicates), row order, atomicity of refused writes and frames without rows (refuted)."
  },
  {
   "property": "C53",
   "status": "partial",
   "theorems": [
    "C53_to_parquet_partial",
    "C53_files_partial",
    "C53_range_labels_partial",
    "C53_range_labels_refuted",
    "C53_stale_files_refuted",
    "C53_threads_refuted",
    "C53_many_files_refuted"
   ],
   "note": "Round trip for frames with rows, a new directory, at most 10000 partitions and one task per process at a time, over all interleavings, placements and crashes with retries; false beyond each of these restrictions and for range labels not 0..n-1 (refuted)."
  },
  {
   "property": "C54",
   "status": "partial",
   "theorems": [
    "C54_glob_partial",
    "C54_eleven_files_refuted",
    "C54_stale_files_refuted"
   ],
   "note": "Round trip for at most ten row partitions and no matching file before; false beyond (refuted). Interrupted writes of a single file are not modelled here."
  },
  {
   "property": "C55",
   "status": "partial",
   "theorems": [
    "C55_session_partial",
    "C55_rename_then_map_refuted",
    "C55_reset_index_name_refuted"
   ],
   "note": "Proved for all sessions whose label-reading element-wise functions run on settled labels and whose index names are no column names; both exceptions are refuted by the code. Reductions of empty tables and selections by position on stale labels are not covered."
  },
  {
   "property": "C56",
   "status": "partial",
   "theorems": [
    "C56_train_partial",
    "C56_even",
    "C56_more_nodes_refuted",
    "C56_cut_unalike_refuted",
    "C56_order_refuted",
    "C56_two_names_refuted"
   ],
   "note": "Proved when the cluster has at most as many nodes as every data set has partitions, features and labels are cut alike, and the training set is at most the last evaluation set. Outside these the property is false (four refutations)."
  },
  {
   "property": "C57",
   "status": "partial",
   "theorems": [
    "C57_unwrap_partial",
    "C57_from",
    "C57_round_trip_partial",
    "C57_predict_partial",
    "C57_empty_refuted"
   ],
   "note": "Proved for every frame with at least one block, in any state of deferred labels. Missing: frames without blocks (built without rows or columns), where it is false (refuted)."
  },
  {
   "property": "C58",
   "status": "partial",
   "theorems": [
    "C58_corr_partial",
    "C58_parts_partial",
    "C58_cov_partial"
   ],
   "note": "corr: proved when no cell is missing, or the columns are in sorted order, or every row partition has a missing cell; refuted otherwise. The caller's table is unchanged when partitions are copies or nothing is missing; refuted otherwise. cov: proved for at least one row, min_periods up to the number of rows, and ddof = 1 or complete data with ddof below the number of rows; refuted otherwise."
  },
  {
   "property": "C59",
   "status": "partial",
   "theorems": [
    "C59_loc_partial",
    "C59_loc_rows",
    "C59_missing",
    "C59_list_meaning",
    "C59_slice_meaning"
   ],
   "note": "Keys that are not plain (slices with a step and an integer end, ranges on other than default labels, lists converted by dtype, wrong-length masks, backward slices) and repeated selections are refuted; MultiIndex, boolean Series and squeezing are not modelled."
  },
  {
   "property": "C60",
   "status": "partial",
   "theorems": [
    "C60_reindex_rows",
    "C60_reindex_columns",
    "C60_reindex_both_partial",
    "C60_duplicates",
    "C60_duplicate_columns"
   ],
   "note": "Rows and columns fully; both at once unless the index is a pandas.Index and the columns are not (refuted); copy=False refuted."
  },
  {
   "property": "C61",
   "status": "partial",
   "theorems": [
    "C61_existing_partial",
    "C61_new_row_partial",
    "C61_new_columns_partial",
    "C61_new_column_values"
   ],
   "note": "Scalars for present labels and new columns; a new row from a scalar or a value per column; a new column from a list. Ten departures from pandas are refuted by computation."
  },
  {
   "property": "C62",
   "status": "partial",
   "theorems": [
    "C62_drop_partial",
    "C62_absent",
    "C62_removed_meaning",
    "C62_tuple_refuted"
   ],
   "note": "Missing: a tuple as one label (refuted), MultiIndex labels, level=."
  },
  {
   "property": "C63",
   "status": "partial",
   "theorems": [
    "C63_dropna_rows",
    "C63_dropna_columns_partial",
    "C63_absent",
    "C63_repeated_columns_refuted",
    "C63_missing_kept_refuted"
   ],
   "note": "Rows: proved for all rules and subsets. Columns: missing repeated column labels on the path with masks (refuted)."
  },
  {
   "property": "C64",
   "status": "partial",
   "theorems": [
    "C64_series_mask_partial",
    "C64_same_rows",
    "C64_unalignable",
    "C64_wrong_length",
    "C64_list",
    "C64_series_getitem_partial",
    "C64_aligned_meaning",
    "C64_order_refuted",
    "C64_longer_mask_refuted",
    "C64_series_labels_refuted"
   ],
   "note": "proved for lists of booleans, for masks with the labels of the frame, and for masks with other distinct labels if the frame's labels ascend; the same rows in another order in general; refuted for other orders, longer masks and series[mask] with other labels"
  },
  {
   "property": "C65",
   "status": "partial",
   "theorems": [
    "C65_reset_partial",
    "C65_drop",
    "C65_conflict_partial",
    "C65_labels_kept_partial",
    "C65_named_like_column_refuted",
    "C65_named_index_refuted"
   ],
   "note": "One-level index, named or not, both implementations. Two cases refuted. Missing: several levels, level=, names=, allow_duplicates=."
  },
  {
   "property": "C66",
   "status": "partial",
   "theorems": [
    "C66_duplicated_partial",
    "C66_drop_duplicates_partial",
    "C66_unknown_label",
    "C66_zeros_refuted",
    "C66_rows_lost_refuted",
    "C66_last_refuted"
   ],
   "note": "Proved where digests tell rows apart as pandas does or the frame is one block wide; three cases refuted. Missing: frames without rows, empty subset, subset with repeated column labels or labels not known, range partitioning."
  },
  {
   "property": "C67",
   "status": "partial",
   "theorems": [
    "C67_scalar_partial",
    "C67_list",
    "C67_object_partial",
    "C67_rejected",
    "C67_value_renamed_refuted",
    "C67_into_itself_refuted",
    "C67_allow_duplicates_refuted"
   ],
   "note": "Lists and rejected calls in full. Missing: scalar under an existing label with allow_duplicates=True (refuted), the inserted object keeping its name (refuted), inserting a frame into itself (refuted), frames without rows or columns, repeated labels that differ."
  },
  {
   "property": "C68",
   "status": "partial",
   "theorems": [
    "C68_sort_rows",
    "C68_sort_columns",
    "C68_sorted",
    "C68_best_rows_partial",
    "C68_unknown_column",
    "C68_wide_refuted"
   ],
   "note": "sort_index for labels of one level is proved for every partitioning; nlargest/nsmallest hold for frames one block column wide only, and wider frames are refuted (KeyError). MultiIndex and level are not modelled."
  },
  {
   "property": "C69",
   "status": "partial",
   "theorems": [
    "C69_columns_partial",
    "C69_unknown_column",
    "C69_not_unique",
    "C69_values_partial",
    "C69_wrong_length",
    "C69_not_in_place",
    "C69_kept_column_refuted",
    "C69_half_done_refuted",
    "C69_repeated_with_values_refuted",
    "C69_tuple_label_refuted",
    "C69_repeated_column_refuted"
   ],
   "note": "proved for distinct key columns and frames with rows; with arrays among the keys only for drop=True and labels that are not tuples. Refuted: drop=False with an array, in-place failure leaves the frame half done, repeated keys, tuple labels with arrays."
  },
  {
   "property": "C70",
   "status": "partial",
   "theorems": [
    "C70_merge_partial",
    "C70_sorted_merge",
    "C70_validate_partial",
    "C70_other_merges_partial",
    "C70_order_refuted",
    "C70_small_left_refuted",
    "C70_empty_right_refuted",
    "C70_empty_left_refuted"
   ],
   "note": "The matches, their multiplicity, sort=True's exact order and validate= are proved for all tables, pivots and partitionings. Missing: sort=False keeps the left order (refuted), small or empty left frames and an empty right frame (refuted), sort=True of the fallback calls (see C26)."
  },
  {
   "property": "C71",
   "status": "partial",
   "theorems": [
    "C71_values_partial",
    "C71_wrong_length",
    "C71_series_partial",
    "C71_frame_partial",
    "C71_new_column_partial",
    "C71_columns_partial",
    "C71_new_columns_partial",
    "C71_series_renamed_refuted",
    "C71_frame_refuted",
    "C71_columns_add_rows_refuted",
    "C71_columns_renamed_refuted",
    "C71_long_array_refuted",
    "C71_same_name_refuted",
    "C71_no_columns_refuted"
   ],
   "note": "Missing: the assigned object keeps its names, frames with other labels or several columns for one column, row labels that differ for several columns, arrays that are too long, repeated names, frames without columns (each refuted); frames without rows"
  },
  {
   "property": "C72",
   "status": "partial",
   "theorems": [
    "C72_values_partial",
    "C72_rest_partial",
    "C72_unknown_id",
    "C72_absent_column_refuted",
    "C72_column_twice_refuted",
    "C72_id_as_value_refuted",
    "C72_empty_block_refuted",
    "C72_value_name_refuted",
    "C72_keep_index_refuted",
    "C72_no_columns_refuted"
   ],
   "note": "Proved for every partitioning: one row per row and value column, with its own identifiers, in row order per column. Missing (refuted): empty rows of blocks when there are identifiers; value columns that are absent, repeated or identifiers; value_name that is a column; ignore_index=False; an empty value_vars. Repeated column labels are not modelled."
  },
  {
   "property": "C73",
   "status": "partial",
   "theorems": [
    "C73_reads",
    "C73_getitem_partial",
    "C73_split_partial",
    "C73_split_even",
    "C73_split_uneven",
    "C73_split_whole",
    "C73_two_lists_refuted",
    "C73_too_many_indices_refuted",
    "C73_short_mask_refuted",
    "C73_no_columns_refuted",
    "C73_split_far_back_refuted",
    "C73_split_zero_refuted",
    "C73_split_beyond_refuted"
   ],
   "note": "Indexing with at most one list, without repeated or empty selections, and split at ordered positions equal NumPy for every partitioning; the full statement is false in seven ways (C73_*_refuted)."
  },
  {
   "property": "C74",
   "status": "partial",
   "theorems": [
    "C74_binary_partial",
    "C74_operands_kept",
    "C74_scalar",
    "C74_one_row_refuted",
    "C74_column_first_refuted",
    "C74_outer_refuted",
    "C74_column_vector_refuted",
    "C74_one_element_refuted",
    "C74_floor_divide_refuted",
    "C74_operand_changed_refuted"
   ],
   "note": "Proved for equal shapes, matrix with vector in both orders, matrix with column, and scalars, for every partitioning (equal shapes: no empty row blocks). Refuted: other shapes NumPy broadcasts, // ** % of a vector and a matrix, operands of different dtypes are changed. out= and where= are not modelled."
  },
  {
   "property": "C75",
   "status": "partial",
   "theorems": [
    "C75_sum_prod_partial",
    "C75_bad_axis",
    "C75_max_min_partial",
    "C75_any_all_partial",
    "C75_mean_partial",
    "C75_norm_partial",
    "C75_argmax_partial",
    "C75_arg_best",
    "C75_reductions",
    "C75_argmax_instance",
    "C75_mean_instance",
    "C75_max_nan_refuted",
    "C75_initial_keepdims_refuted",
    "C75_any_keepdims_refuted",
    "C75_any_nan_refuted",
    "C75_sum_keepdims_refuted",
    "C75_axis_refuted",
    "C75_norm_axis_refuted",
    "C75_norm_nan_refuted",
    "C75_argmax_keepdims_refuted",
    "C75_mean_keepdims_refuted",
    "C75_mean_bool_refuted",
    "C75_mean_nan_keepdims_refuted"
   ],
   "note": "Proved for all non-empty arrays, axes and partitionings, except the twelve refuted combinations (NaN in max/min/any/norm, keepdims with axis=None, initial with keepdims, axes of vectors, norms along an axis). Not modelled: out, where, dtype, empty arrays, NaN in argmax/argmin, var."
  },
  {
   "property": "C76",
   "status": "partial",
   "theorems": [
    "C76_careful_partial",
    "C76_isolated",
    "C76_creation_harmless",
    "C76_copies_see",
    "C76_write_through_partial",
    "C76_new_column_refuted",
    "C76_column_overwritten_refuted",
    "C76_shallow_labels_refuted",
    "C76_constructor_drop_refuted",
    "C76_constructor_labels_refuted",
    "C76_lost_write_refuted",
    "C76_write_undone_refuted",
    "C76_column_stale_refuted",
    "C76_relabelled_column_refuted",
    "C76_renamed_column_refuted",
    "C76_iloc_column_refuted",
    "C76_slice_refuted",
    "C76_array_labels_refuted",
    "C76_copied_column_refuted"
   ],
   "note": "The full statement is false (fourteen counterexamples). Proved for every history: a call changes no object that shares nothing with its target; making objects changes none; a cell written through one shallow copy is seen through all. Equality with pandas for every history of new objects, copies, DataFrame(df) and cell writes, with structural changes on unshared objects only; write-through for a selected column that is written with nothing in between."
  },
  {
   "property": "C77",
   "status": "partial",
   "theorems": [
    "C77_lookup_partial",
    "C77_empty_partial",
    "C77_isolated_partial",
    "C77_reserved",
    "C77_assign_frame_partial",
    "C77_assign_series_partial",
    "C77_module_functions_partial",
    "C77_module_values_partial",
    "C77_class_refuted",
    "C77_over_property_refuted",
    "C77_class_method_refuted",
    "C77_base_wins_refuted",
    "C77_shadow_refuted",
    "C77_base_first_refuted",
    "C77_order_refuted",
    "C77_hides_column_refuted",
    "C77_empty_refuted",
    "C77_never_looked_up_refuted",
    "C77_assign_function_refuted",
    "C77_assign_entry_refuted",
    "C77_assign_column_refuted",
    "C77_module_class_lost_refuted",
    "C77_module_value_hidden_refuted",
    "C77_module_default_refuted"
   ],
   "note": "Lookup proved for every history and every name that is used tidily (no classes, functions only over functions or free names, base properties not over the class's own attributes, new functions for one of the two classes); isolation between backends except for functions under new names; reserved names; assignment to names that are only properties; the module for names that are functions throughout or never. Refuted beyond that in sixteen cases."
  },
  {
   "property": "C78",
   "status": "partial",
   "theorems": [
    "C78_fillna",
    "C78_fillna_arguments",
    "C78_cumulative",
    "C78_isin",
    "C78_clip_partial",
    "C78_clip_nan_refuted",
    "C78_valid_index_partial",
    "C78_missing_column_refuted",
    "C78_all_missing_refuted",
    "C78_mode_partial",
    "C78_mode_missing_refuted"
   ],
   "note": "fillna, ffill, bfill, cumulative functions and isin in full; clip without NaN in a list of bounds, first/last_valid_index where every column has a valid cell, mode where no mode is missing: the rest is false of the code (refuted cases). isin here is that of a query compiler without shape hint; C83 covers the hint."
  },
  {
   "property": "C79",
   "status": "partial",
   "theorems": [
    "C79_dot_values",
    "C79_dot_partial",
    "C79_series_dot_partial",
    "C79_series_dot_values",
    "C79_one_column_label_refuted",
    "C79_one_cell_label_refuted",
    "C79_one_column_name_refuted",
    "C79_series_label_refuted",
    "C79_series_array_refuted"
   ],
   "note": "The numbers of df.dot and series.dot are pandas' for every operand and partitioning, and errors agree; the labels and the name are proved except in the five families of cases refuted (operands with one column)."
  },
  {
   "property": "C80",
   "status": "proved",
   "theorems": [
    "C80_explode",
    "C80_series_explode"
   ],
   "note": "Frames and Series, all partitionings, columns, lists; errors included."
  },
  {
   "property": "C81",
   "status": "partial",
   "theorems": [
    "C81_get_dummies_partial",
    "C81_prefixes_refuted",
    "C81_order_refuted",
    "C81_prefix_order_refuted",
    "C81_unknown_refuted",
    "C81_dates_refuted"
   ],
   "note": "Proved for every table with different column labels, every partitioning, every list of existing columns (all columns: in the frame's order) and no prefix or one text. The full statement is false of the code for lists of prefixes, all columns in another order, unknown labels and non-numeric columns that are not text or categories (refuted cases)."
  },
  {
   "property": "C82",
   "status": "partial",
   "theorems": [
    "C82_query_partial",
    "C82_check",
    "C82_row_by_row",
    "C82_in_column_refuted",
    "C82_array_refuted",
    "C82_quoted_refuted"
   ],
   "note": "Proved for every table, every partitioning and every expression of names, constants and operators that searches in no column and uses the caller's arrays only to search in. The full statement is false of the code for 'in' with a column on the right, arrays of the caller and names in backticks (refuted cases). Expressions with calls take another way, which is not modelled."
  },
  {
   "property": "C83",
   "status": "partial",
   "theorems": [
    "C83_isin_partial",
    "C83_isin_plain",
    "C83_selected_refuted",
    "C83_series_refuted",
    "C83_squeeze_refuted",
    "C83_to_frame_refuted",
    "C83_scalar_refuted",
    "C83_repeated_refuted"
   ],
   "note": "Every Series, every frame of no or several columns, and every list argument, after any history; one-column frames too when no call of the history marks them. One-column frames that were selected, squeezed, converted or combined with a scalar: false of the code (refuted cases). Missing: unnamed Series, operations on two objects."
  },
  {
   "property": "C84",
   "status": "partial",
   "theorems": [
    "C84_quantile_partial",
    "C84_rank",
    "C84_mixed_refuted",
    "C84_repeated_refuted",
    "C84_repeated_rows_refuted"
   ],
   "note": "Quantiles for a list proved for all partitionings with distinct column labels, and with one dtype when taken over rows without numeric_only; outside that the code differs from pandas (refuted cases). Ranks proved in full for numeric_only=False."
  },
  {
   "property": "C85",
   "status": "partial",
   "theorems": [
    "C85_case_when_partial",
    "C85_choose_meaning",
    "C85_function_refuted",
    "C85_long_list_refuted",
    "C85_float_labels_refuted"
   ],
   "note": "Proved for all divisions into blocks and all mixtures of arguments, including the ValueErrors; functions of several rows, lists that are too long and float labels differ from pandas (refuted cases)."
  },
  {
   "property": "C86",
   "status": "partial",
   "theorems": [
    "C86_inner_meaning",
    "C86_join_partial"
   ],
   "note": "left, inner and right joins on one column, for all divisions of both frames into blocks, with pandas' errors. Missing: sort=True, outer and cross joins, several keys, a key column that is also a header of right, frames without any block."
  },
  {
   "property": "C87",
   "status": "partial",
   "theorems": [
    "C87_inner_meaning",
    "C87_label_join_partial",
    "C87_repeated_refuted"
   ],
   "note": "left, inner and right joins by unique row labels, for all divisions of both frames into blocks. False for equal labels that repeat (refuted). Missing: outer joins, sort=True, several frames at once, repeated labels that differ between the frames."
  },
  {
   "property": "C88",
   "status": "partial",
   "theorems": [
    "C88_iterrows_partial",
    "C88_drop_refuted",
    "C88_sort_refuted"
   ],
   "note": "For all bodies that leave the rows still to come as they are, over all divisions into blocks. False for bodies that drop or reorder rows (refuted)."
  },
  {
   "property": "C89",
   "status": "partial",
   "theorems": [
    "C89_items_partial",
    "C89_rename_refuted"
   ],
   "note": "For bodies that do not change the headers still to come. Missing: other bodies (renaming is refuted), column types."
  },
  {
   "property": "C90",
   "status": "partial",
   "theorems": [
    "C90_equals_partial",
    "C90_right_widths_refuted",
    "C90_left_widths_refuted"
   ],
   "note": "For frames whose left operand has no empty row block or whose column widths are both known. Missing: other divisions (refuted), dtypes."
  },
  {
   "property": "C91",
   "status": "partial",
   "theorems": [
    "C91_series_equals_partial"
   ],
   "note": "For Series without empty row blocks that do not already have the name used inside. Missing: those Series, dtypes."
  },
  {
   "property": "C92",
   "status": "partial",
   "theorems": [
    "C92_filter_partial",
    "C92_items_partial",
    "C92_order_refuted",
    "C92_repeated_refuted"
   ],
   "note": "For distinct headers, frames with rows, axis=1, and items in the order of the columns. Missing: other orders and repeated headers (refuted), axis=0."
  },
  {
   "property": "C93",
   "status": "partial",
   "theorems": [
    "C93_truncate_partial",
    "C93_columns_partial",
    "C93_errors",
    "C93_columns_errors",
    "C93_decreasing_refuted"
   ],
   "note": "Both axes, increasing labels (repeats allowed), every division into blocks, either or both bounds. Missing: Series; decreasing labels are refuted."
  },
  {
   "property": "C94",
   "status": "proved",
   "theorems": [
    "C94_head",
    "C94_tail"
   ],
   "note": "Every integer n, every division into blocks."
  },
  {
   "property": "C95",
   "status": "partial",
   "theorems": [
    "C95_take_partial",
    "C95_outside_partial",
    "C95_tuple_refuted",
    "C95_booleans_refuted"
   ],
   "note": "Both axes, lists of distinct positions (tuples too along the columns), every division into blocks; IndexError for positions outside when one is negative. Missing: repeated positions (finding F1 of C07), the IndexError among non-negative positions; tuples along the rows and booleans are refuted."
  },
  {
   "property": "C96",
   "status": "partial",
   "theorems": [
    "C96_assign_partial"
   ],
   "note": "Any number of columns, lists, scalars and arbitrary callables giving lists, every division into blocks; also the ValueError and that no other object changes. Missing: arrays and Series as values; empty frames; repeated headers."
  }
 ]
}