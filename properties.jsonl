{"id": "C01", "title": "pandas round trip", "statement": "Building a Modin DataFrame from a pandas table and converting it back with to_pandas/_to_pandas yields the same cells in the same rows and columns, whatever NPartitions and the minimum block sizes are.", "quantifier": "every rectangular table (any number of rows and columns, including zero), every NPartitions >= 1, every MinRowPartitionSize/MinColumnPartitionSize >= 1", "why_tests_cant": "Chunk boundaries depend on three integers and the shape; a test suite exercises a handful of shapes, off-by-one losses appear only at particular residues.", "anchors": ["modin/core/dataframe/pandas/partitioning/partition_manager.py:from_pandas", "modin/core/dataframe/pandas/partitioning/partition_manager.py:split_pandas_df_into_partitions", "modin/core/dataframe/pandas/partitioning/partition_manager.py:to_pandas", "modin/core/storage_formats/pandas/utils.py:compute_chunksize", "modin/core/dataframe/pandas/utils.py:create_pandas_df_from_partitions"]}
{"id": "C02", "title": "partition shape report is exact", "statement": "The row lengths and column widths a freshly built DataFrame reports for its partitions are exactly the shapes of the partitions it holds: they sum to the axis lengths and agree block by block.", "quantifier": "every table, NPartitions and minimum block size", "why_tests_cant": "The lengths are computed by a closed formula that is separate from the slicing loop; agreement is an arithmetic identity over all shapes.", "anchors": ["modin/core/dataframe/pandas/partitioning/partition_manager.py:from_pandas", "modin/core/storage_formats/pandas/utils.py:get_length_list", "modin/core/dataframe/pandas/dataframe/dataframe.py:row_lengths"]}
{"id": "C03", "title": "splitting a full-axis result is lossless", "statement": "When a function applied to a whole column (or row) returns a table of any length, splitting that result into blocks produces exactly the requested number of blocks, whose concatenation is the result and whose sizes are the ones the frame's metadata formula predicts.", "quantifier": "every result length, every requested number of splits >= 1, every minimum block size >= 1, every explicit length list", "why_tests_cant": "The split and the prediction are two independent pieces of integer arithmetic; equality must hold for all integers.", "anchors": ["modin/core/storage_formats/pandas/utils.py:generate_result_of_axis_func_pandas", "modin/core/storage_formats/pandas/utils.py:get_length_list", "modin/core/storage_formats/pandas/utils.py:compute_chunksize", "modin/core/dataframe/pandas/partitioning/axis_partition.py:deploy_axis_func"]}
{"id": "C04", "title": "element-wise maps ignore partitioning", "statement": "df.map / arithmetic-with-scalar style element-wise operations give the same table as applying the function cell by cell to the unpartitioned table, for every partitioning and for every dynamic-partitioning strategy chosen at run time.", "quantifier": "every cell function, every block grid (any row/column split), every NPartitions and column-joining choice", "why_tests_cant": "The strategy depends on partition counts versus NPartitions; tests run with one or two CPU counts.", "anchors": ["modin/core/dataframe/pandas/partitioning/partition_manager.py:map_partitions", "modin/core/dataframe/pandas/partitioning/partition_manager.py:base_map_partitions", "modin/core/dataframe/pandas/partitioning/partition_manager.py:map_partitions_joined_by_column", "modin/core/dataframe/pandas/partitioning/partition_manager.py:lazy_map_partitions"]}
{"id": "C05", "title": "full-axis functions ignore partitioning", "statement": "A function that is applied per whole column (or whole row) sees every value of that column exactly once and in order, so the assembled result equals applying it to the unpartitioned table, whatever the partition grid was, and the result's reported block sizes are true.", "quantifier": "every column-wise (row-wise) function, every block grid, keep_partitioning on or off, every number of splits", "why_tests_cant": "Result length may differ from the input length, in which case another branch re-splits; the case split is on run-time lengths.", "anchors": ["modin/core/dataframe/pandas/partitioning/partition_manager.py:map_axis_partitions", "modin/core/dataframe/pandas/partitioning/partition_manager.py:broadcast_axis_partitions", "modin/core/dataframe/pandas/partitioning/axis_partition.py:deploy_axis_func", "modin/core/dataframe/pandas/dataframe/dataframe.py:apply_full_axis"]}
{"id": "C06", "title": "tree reductions equal whole-column reductions", "statement": "sum, count, min, max, prod, any, all computed as per-block map followed by one reduce over the partial results equal the reduction over the whole unpartitioned column.", "quantifier": "every column of every length, every way of cutting it into row blocks (including empty blocks), every associative aggregation with a neutral element", "why_tests_cant": "Equality must hold for all cut points; it is an induction on the partition list.", "anchors": ["modin/core/dataframe/pandas/dataframe/dataframe.py:tree_reduce", "modin/core/dataframe/pandas/dataframe/dataframe.py:_compute_tree_reduce_metadata", "modin/core/dataframe/algebra/tree_reduce.py:TreeReduce.register"]}
{"id": "C07", "title": "iloc selection returns the requested rows", "statement": "df.iloc[positions] returns exactly the rows at those positions, in the requested order and with the requested multiplicity, and the row labels correspond to those rows.", "quantifier": "every frame, every row partitioning, every list/range of in-bounds positions (negative, repeated, unsorted)", "why_tests_cant": "Positions are sorted, split into blocks by cumulative lengths, masked block by block and un-sorted; each shortcut is guarded by run-time lengths.", "anchors": ["modin/core/dataframe/pandas/dataframe/dataframe.py:_take_2d_positional", "modin/core/dataframe/pandas/dataframe/dataframe.py:_get_dict_of_block_index", "modin/core/dataframe/pandas/dataframe/dataframe.py:_maybe_reorder_labels", "modin/core/dataframe/pandas/partitioning/partition.py:mask", "modin/pandas/indexing.py:_iLocIndexer"]}
{"id": "C08", "title": "position lookup is exact", "statement": "Translating a set of global positions (list, range or slice) to per-partition internal positions and reading those internal positions out of the blocks yields the values at the global positions, and no block outside the selection is touched.", "quantifier": "every list of block lengths (zeros allowed), every sorted position list and every slice/range the indexers can produce", "why_tests_cant": "Boundary positions (first/last row of a block, empty blocks, stop = length) select different code paths.", "anchors": ["modin/core/dataframe/pandas/dataframe/dataframe.py:_get_dict_of_block_index", "modin/core/dataframe/pandas/dataframe/dataframe.py:_get_new_lengths", "modin/pandas/indexing.py:compute_sliced_len", "modin/pandas/utils.py:is_full_grab_slice"]}
{"id": "C09", "title": "row-length caches stay true after selection", "statement": "After any positional selection, the row lengths (column widths) the resulting frame reports equal the true sizes of its blocks and sum to the number of selected rows.", "quantifier": "every frame, partitioning, selection", "why_tests_cant": "Cache recomputation has separate formulas for slices and lists and a third one after re-ordering.", "anchors": ["modin/core/dataframe/pandas/dataframe/dataframe.py:_get_new_lengths", "modin/core/dataframe/pandas/dataframe/dataframe.py:_reorder_labels", "modin/core/dataframe/pandas/partitioning/partition.py:mask"]}
{"id": "C10", "title": "iloc assignment writes exactly the addressed cells", "statement": "df.iloc[rows, cols] = value changes exactly the addressed cells to the corresponding values (broadcast like pandas) and leaves every other cell unchanged.", "quantifier": "every frame, every block grid with known or unknown cached lengths, every row/column selection (sorted or not, repeated), every value array", "why_tests_cant": "The value array is cut up by running counters that must stay in step with block lookups for all grids and selections.", "anchors": ["modin/core/dataframe/pandas/partitioning/partition_manager.py:apply_func_to_indices_both_axis", "modin/pandas/utils.py:broadcast_item", "modin/core/storage_formats/pandas/query_compiler.py:write_items", "modin/pandas/indexing.py:_setitem_positional", "modin/pandas/indexing.py:_determine_setitem_axis"]}
{"id": "C11", "title": "rebalancing never changes data", "statement": "Rebalancing row partitions preserves every row, their order, and reports true lengths, while the number of row partitions never exceeds the allowed maximum when it acts.", "quantifier": "every list of row partitions (known or unknown lengths, zero-length ones included), every NPartitions", "why_tests_cant": "The greedy loop carries remainders across partitions; correctness is a loop invariant over any list.", "anchors": ["modin/core/dataframe/pandas/partitioning/partition_manager.py:rebalance_partitions"]}
{"id": "C12", "title": "row concatenation", "statement": "pd.concat of frames along rows yields the rows of the first, then the second, and so on; the reported row lengths are the true ones.", "quantifier": "any number of frames, any partitionings", "why_tests_cant": "Frames with different partition counts are padded/re-split before stacking; must hold for all grids.", "anchors": ["modin/core/dataframe/pandas/partitioning/partition_manager.py:concat", "modin/core/dataframe/pandas/dataframe/dataframe.py:concat", "modin/core/dataframe/pandas/dataframe/dataframe.py:_copartition"]}
{"id": "C13", "title": "operands are aligned before binary operations", "statement": "When two frames are combined, rows are paired by label after alignment even if the two frames are partitioned differently; both operands end up with equal block lengths.", "quantifier": "every pair of frames, labels, join kinds and partitionings", "why_tests_cant": "Shortcuts skip alignment when identities/lengths suggest equality; soundness of the shortcut is over all histories.", "anchors": ["modin/core/dataframe/pandas/dataframe/dataframe.py:_copartition", "modin/core/dataframe/pandas/dataframe/dataframe.py:_check_if_axes_identical", "modin/core/dataframe/pandas/dataframe/dataframe.py:n_ary_op"]}
{"id": "C14", "title": "cached axis labels are never confused", "statement": "Two frames are treated as having equal labels without comparing them only if their labels are in fact equal, for any history of copying, label replacement and lazy evaluation.", "quantifier": "every sequence of index operations (create, copy, copy with lengths, re-parent, materialise, compare)", "why_tests_cant": "The shortcut compares unique ids threaded through copies; unsoundness would need a particular history.", "anchors": ["modin/core/dataframe/pandas/metadata/index.py:ModinIndex"]}
{"id": "C15", "title": "read_csv chunk boundaries fall between records", "statement": "When read_csv splits a file for parallel parsing, the chunks are consecutive, disjoint, cover the data section of the file exactly, and every boundary is at the end of a line that is outside any quoted field.", "quantifier": "every byte sequence (with or without a trailing newline, with quoted newlines), every chunk size, every quote character", "why_tests_cant": "Depends on where chunk sizes land relative to quotes and newlines; the space of files is unbounded.", "anchors": ["modin/core/io/text/text_file_dispatcher.py:partitioned_file", "modin/core/io/text/text_file_dispatcher.py:offset", "modin/core/io/text/text_file_dispatcher.py:_read_rows"]}
{"id": "C16", "title": "read_csv chunked parse equals whole-file parse", "statement": "Parsing the chunks independently and concatenating the rows gives the rows of the whole file, in file order.", "quantifier": "every file and chunk size, every parser whose record boundary is an unquoted newline", "why_tests_cant": "Follows from the previous property only through an argument about quote state at boundaries, not by sampling.", "anchors": ["modin/core/io/text/text_file_dispatcher.py:partitioned_file", "modin/core/io/text/text_file_dispatcher.py:_launch_tasks", "modin/core/io/text/text_file_dispatcher.py:_get_new_qc"]}
{"id": "C17", "title": "read_csv nrows returns that many rows", "statement": "read_csv(..., nrows=n) returns exactly the first min(n, available) data rows, also when combined with skiprows.", "quantifier": "every file, n, number of partitions and skiprows", "why_tests_cant": "nrows is enforced inside the splitting loop in two branches.", "anchors": ["modin/core/io/text/text_file_dispatcher.py:partitioned_file", "modin/core/io/text/text_file_dispatcher.py:_read_rows", "modin/core/io/text/text_file_dispatcher.py:_manage_skiprows_parameter"]}
{"id": "C18", "title": "read_csv skiprows drops exactly the requested lines", "statement": "read_csv(..., skiprows=k or list) drops exactly the requested 0-based file lines, as pandas does, for any header setting.", "quantifier": "every header size, every integer or list of line numbers", "why_tests_cant": "Three code paths (contiguous prefix, pre-read, post-filter) with shifts by the header size.", "anchors": ["modin/core/io/text/text_file_dispatcher.py:_manage_skiprows_parameter", "modin/core/io/text/text_file_dispatcher.py:_get_skip_mask", "modin/core/io/text/text_file_dispatcher.py:_define_header_size"]}
{"id": "C19", "title": "reader column widths are exact", "statement": "The column widths read_csv computes up front are the widths of the blocks the parser returns: as many as the number of splits, non-negative, summing to the number of columns.", "quantifier": "every number of columns, NPartitions, minimum column block size", "why_tests_cant": "Two independent formulas, as for the frame constructor.", "anchors": ["modin/core/io/text/text_file_dispatcher.py:_define_metadata", "modin/core/storage_formats/pandas/parsers.py:_split_result_for_readers"]}
{"id": "C20", "title": "read_csv_glob reads each file's data once", "statement": "read_csv_glob over several files returns the data rows of all the files in order, each exactly once, with no header line among them.", "quantifier": "every list of files, every skiprows/header/nrows combination and partition count", "why_tests_cant": "The skip counter is carried from file to file; a wrong carry appears only with particular counts.", "anchors": ["modin/experimental/core/io/text/csv_glob_dispatcher.py:partitioned_file"]}
{"id": "C21", "title": "sort_values produces a globally sorted permutation", "statement": "df.sort_values(by, ascending) returns a permutation of the rows that is globally sorted by the key, whatever samples the pivots were drawn from and however rows were partitioned.", "quantifier": "every frame, every partitioning, every pivot list (sampled at random), ascending or descending", "why_tests_cant": "Pivots are random samples; a test sees a few draws.", "anchors": ["modin/core/dataframe/pandas/dataframe/dataframe.py:sort_by", "modin/core/dataframe/pandas/dataframe/dataframe.py:_apply_func_to_range_partitioning", "modin/core/dataframe/pandas/dataframe/utils.py:ShuffleSortFunctions", "modin/core/dataframe/pandas/partitioning/partition_manager.py:shuffle_partitions"]}
{"id": "C22", "title": "missing keys sort to the requested end", "statement": "Rows with a missing sort key end up all at the end (na_position='last') or all at the start ('first'), regardless of direction and pivots.", "quantifier": "every frame, pivots, direction, na_position", "why_tests_cant": "NaN rows are routed by a separate branch per partition; interplay with empty bins must hold for all.", "anchors": ["modin/core/dataframe/pandas/dataframe/utils.py:split_partitions_using_pivots_for_sort"]}
{"id": "C23", "title": "equal keys meet in one partition", "statement": "After a range-partitioning shuffle all rows with the same key are in the same partition, so per-partition groupby/merge/unique results concatenate to the global result.", "quantifier": "every frame, partitioning, pivot list, key", "why_tests_cant": "Holds because bin choice is a function of the key alone, over all pivots.", "anchors": ["modin/core/dataframe/pandas/dataframe/utils.py:ShuffleSortFunctions.split_partitions_using_pivots_for_sort", "modin/core/dataframe/pandas/dataframe/dataframe.py:groupby", "modin/core/dataframe/pandas/dataframe/dataframe.py:_apply_func_to_range_partitioning_broadcast"]}
{"id": "C24", "title": "groupby map-reduce equals whole-frame groupby", "statement": "groupby aggregations computed as per-partition partial aggregation plus a second groupby over the partials give, for every key, the aggregate over all rows with that key, and exactly the keys that occur.", "quantifier": "every frame, every row partitioning, every key assignment, every supported aggregation (sum, count, size, min, max, prod, any, all)", "why_tests_cant": "Partial groups may be missing from some partitions; induction over partitions.", "anchors": ["modin/core/storage_formats/pandas/groupby.py:GroupbyReduceImpl", "modin/core/dataframe/algebra/groupby.py:GroupByReduce", "modin/core/dataframe/pandas/partitioning/partition_manager.py:groupby_reduce"]}
{"id": "C25", "title": "groupby mean and skew from partial sums", "statement": "groupby mean (skew) computed from per-partition sums, counts (and power sums) equal the definition of mean (central moments) over all rows of the group.", "quantifier": "every group of rational values, every partitioning", "why_tests_cant": "An algebraic identity over all inputs.", "anchors": ["modin/core/storage_formats/pandas/groupby.py:GroupbyReduceImpl._build_mean_impl", "modin/core/storage_formats/pandas/groupby.py:GroupbyReduceImpl._build_skew_impl"]}
{"id": "C26", "title": "partition-wise merge equals merge", "statement": "left/inner/right merge computed by merging every row partition of one side with the whole other side and concatenating equals the merge of the whole frames, including row order.", "quantifier": "every pair of frames, every partitioning, every key equality", "why_tests_cant": "Distributivity over arbitrary partitions; not a finite set of cases.", "anchors": ["modin/core/storage_formats/pandas/merge.py:MergeImpl.row_axis_merge", "modin/core/storage_formats/pandas/merge.py:MergeImpl.range_partitioning_merge"]}
{"id": "C27", "title": "configuration reads see the last write", "statement": "Every configuration variable returns the last value put (normalised), otherwise the environment value, otherwise the default; invalid values are rejected without changing anything; the reported source matches.", "quantifier": "every sequence of put/get/subscribe/add_option operations on every parameter", "why_tests_cant": "State machine over unbounded histories.", "anchors": ["modin/config/pubsub.py:Parameter"]}
{"id": "C28", "title": "configuration subscribers are told of every change", "statement": "Callbacks registered with subscribe/once run exactly for the changes they subscribed to: a plain subscriber is called once at subscription and once per actual value change; a once-callback is called exactly once, the first time its value is current.", "quantifier": "every sequence of operations, any set of subscribers", "why_tests_cant": "Histories are unbounded; a dropped or duplicated notification needs a specific interleaving.", "anchors": ["modin/config/pubsub.py:Parameter.subscribe", "modin/config/pubsub.py:Parameter.once", "modin/config/pubsub.py:Parameter._check_callbacks"]}
{"id": "C29", "title": "configuration contexts restore everything", "statement": "Leaving `with context(...)` restores every mentioned variable to the value it had on entry, even if the body raises or changes the variables, and even if entering the context fails.", "quantifier": "every set of variables and values, every body", "why_tests_cant": "Exception paths, including failures while entering.", "anchors": ["modin/config/pubsub.py:context"]}
{"id": "C30", "title": "lazy operation queues equal eager execution", "statement": "A partition on which operations were queued and executed later (at any drain points) yields the same data as applying each operation immediately, and a failing drain leaves the queued operations in place.", "quantifier": "every operation sequence, every choice of drain points, every failing position", "why_tests_cant": "Schedules and failure points are unbounded.", "anchors": ["modin/core/dataframe/pandas/partitioning/partition.py:PandasDataframePartition", "modin/core/execution/python/implementations/pandas_on_python/partitioning/partition.py", "modin/core/dataframe/pandas/partitioning/axis_partition.py:drain_call_queue"]}
{"id": "C31", "title": "deferred execution equals direct execution", "statement": "A tree of deferred operations sent to a remote worker as one flat task computes the same value for every node as executing the operations one by one, with shared sub-trees executed once.", "quantifier": "every finite tree/DAG of deferred functions, arguments and constants", "why_tests_cant": "The flattening/reconstruction is a serialisation format; round trip for all trees.", "anchors": ["modin/core/execution/ray/common/deferred_execution.py"]}
{"id": "C32", "title": "inferred dtypes are correct", "statement": "Whenever the lazily tracked dtypes claim a dtype for a column, that is the column's actual dtype, after any sequence of column selection, renaming, concatenation and materialisation.", "quantifier": "every sequence of metadata operations on frames with unique column names", "why_tests_cant": "Partial knowledge is merged through many branches; soundness is an invariant.", "anchors": ["modin/core/dataframe/pandas/metadata/dtypes.py:DtypesDescriptor", "modin/core/dataframe/pandas/metadata/dtypes.py:ModinDtypes"]}
{"id": "C33", "title": "read_parquet reads each row group once", "statement": "read_parquet assigns every row group of every file to exactly one partition, in file order, and creates min(NPartitions, number of row groups) partitions.", "quantifier": "every list of files with any numbers of row groups (zero included), every NPartitions", "why_tests_cant": "Nested loop with carried counters; must hold for all lists.", "anchors": ["modin/core/io/column_stores/parquet_dispatcher.py:_determine_partitioning"]}
{"id": "C34", "title": "read_sql partitions cover the result", "statement": "The queries read_sql issues select each row of the query result exactly once: LIMIT/OFFSET windows tile the result, and the experimental bounded version tiles [lower, upper].", "quantifier": "every row count, NPartitions, bounds", "why_tests_cant": "Integer arithmetic over all counts.", "anchors": ["modin/core/io/sql/sql_dispatcher.py:_read", "modin/experimental/core/io/sql/sql_dispatcher.py:_read"]}
{"id": "C35", "title": "automatic backend choice is cheapest", "statement": "When operands live on different backends, the backend chosen for an operation has the minimal total cost among those that do not exceed their maximum cost (or among all if every one does), with the first operand's backend winning ties in order.", "quantifier": "every list of operands and cost tables", "why_tests_cant": "Loop over arbitrary cost tables and orders.", "anchors": ["modin/core/storage_formats/base/query_compiler_calculator.py:BackendCostCalculator.calculate"]}
{"id": "C36", "title": "interchange chunks tile the frame", "statement": "The chunks a frame offers through the dataframe interchange protocol are consecutive, disjoint and together contain every row in order, for any admissible number of chunks.", "quantifier": "every frame, partitioning, n_chunks", "why_tests_cant": "Integer arithmetic over all lengths.", "anchors": ["modin/core/dataframe/pandas/interchange/dataframe_protocol/dataframe.py:get_chunks"]}
{"id": "C37", "title": "interchange string buffers round trip", "statement": "Encoding a string column into data, offsets and validity buffers and decoding it gives back the same strings and the same missing entries.", "quantifier": "every list of optional byte strings (empty strings included)", "why_tests_cant": "Encoding/decoding of unbounded data.", "anchors": ["modin/core/dataframe/pandas/interchange/dataframe_protocol/column.py", "modin/core/dataframe/pandas/interchange/dataframe_protocol/from_dataframe.py"]}
{"id": "C38", "title": "empty partitions are dropped without data loss", "statement": "Filtering out empty partitions keeps every row and column of the table and true lengths, and keeps at least enough structure for an empty table's labels.", "quantifier": "every block grid with zero-length rows/columns anywhere", "why_tests_cant": "Which blocks are empty is data dependent.", "anchors": ["modin/core/dataframe/pandas/dataframe/dataframe.py:_filter_empties"]}
{"id": "C39", "title": "label propagation pairs labels with rows", "statement": "When labels are assigned lazily, propagating them into the partitions gives each block exactly the labels of its rows/columns.", "quantifier": "every frame, label list and partitioning", "why_tests_cant": "Cumulative slicing over arbitrary partition lengths.", "anchors": ["modin/core/dataframe/pandas/dataframe/dataframe.py:_propagate_index_objs", "modin/core/dataframe/pandas/dataframe/dataframe.py:_set_index"]}
{"id": "C40", "title": "missing groups of categorical keys are inserted in place", "statement": "groupby on categorical keys with observed=False over range partitions inserts every unobserved category exactly once and in category order, with neutral aggregate values.", "quantifier": "every category list, observed subset, bin split", "why_tests_cant": "Depends on which categories are missing in which partitions.", "anchors": ["modin/core/dataframe/pandas/dataframe/utils.py:add_missing_categories_to_groupby"]}
{"id": "C41", "title": "transpose", "statement": "df.T swaps rows and columns cell by cell and is its own inverse, whatever the partitioning; lengths caches swap.", "quantifier": "every frame and block grid", "why_tests_cant": "Per-block transposition plus grid transposition for all grids.", "anchors": ["modin/core/dataframe/pandas/dataframe/dataframe.py:transpose"]}
{"id": "C42", "title": "batch pipeline outputs", "statement": "Each output of a query pipeline equals the composition of all queries added before it, in order, applied to the input, independently of later queries; repartitioning inside keeps every row.", "quantifier": "every sequence of add_query calls, any number of partitions", "why_tests_cant": "Histories of add_query are unbounded.", "anchors": ["modin/experimental/batch/pipeline.py:PandasQueryPipeline"]}
{"id": "C43", "title": "a textual setting means the same in the environment and in put", "statement": "A configuration text accepted both as environment value and as argument of put gives the variable the same value either way.", "quantifier": "every variable type, every text", "why_tests_cant": "All texts, including odd spacing and capitals.", "anchors": ["modin/config/pubsub.py:_TYPE_PARAMS", "modin/config/envvars.py:EnvironmentVariable._get_value_from_config", "modin/config/pubsub.py:Parameter._put_nocallback"]}
{"id": "C44", "title": "Backend always names the current engine and storage format", "statement": "Whenever Backend, Engine and StorageFormat can be read, the backend is the one registered for exactly that engine and storage format, whichever of the three the user set, and even after a setting was refused.", "quantifier": "every environment and every history of reads, writes, registrations and activations", "why_tests_cant": "Histories are unbounded and include failing operations.", "anchors": ["modin/config/envvars.py:Backend", "modin/config/envvars.py:Engine", "modin/config/envvars.py:StorageFormat", "modin/__init__.py:set_execution"]}
{"id": "C45", "title": "read_parquet returns the whole dataset", "statement": "read_parquet returns every row of every row group of every file, in file order, with all requested columns and the stored row labels, and the partition sizes it caches are the true ones, whatever the division into files and row groups and whatever NPartitions and the minimum partition sizes are.", "quantifier": "every dataset (files, row groups, rows; empty ones included), every NPartitions and minimum partition sizes", "why_tests_cant": "The re-partitioning after the read depends on the arithmetic relation between sizes; must hold for all of them.", "anchors": ["modin/core/io/column_stores/parquet_dispatcher.py:build_query_compiler", "modin/core/io/column_stores/parquet_dispatcher.py:_normalize_partitioning", "modin/core/io/column_stores/column_store_dispatcher.py:build_columns", "modin/core/storage_formats/pandas/parsers.py:PandasParquetParser"]}
{"id": "C46", "title": "read_hdf and read_feather return the stored table", "statement": "The frame read_hdf or read_feather builds has the stored cells at their positions and true partition sizes, and converting it to pandas gives the stored table, for every table and every partitioning configuration.", "quantifier": "every table, every NPartitions and minimum partition sizes", "why_tests_cant": "Must hold for all sizes and labels.", "anchors": ["modin/core/io/column_stores/column_store_dispatcher.py:ColumnStoreDispatcher", "modin/core/storage_formats/pandas/parsers.py:PandasHDFParser", "modin/core/storage_formats/pandas/parsers.py:PandasFeatherParser"]}
{"id": "C47", "title": "calls mixing backends", "statement": "A call on operands living on different backends passes every operand to one implementation on a single backend without changing any data; a pinned operand decides that backend, conflicting pins raise ValueError and change nothing; updates the implementation makes to an operand reach the caller's object; the result is pinned exactly when an operand was.", "quantifier": "every nesting of arguments, every set of objects, backends, costs and pins, and every implementation", "why_tests_cant": "Ranges over arbitrary argument nesting, object sharing and implementations.", "anchors": ["modin/core/storage_formats/pandas/query_compiler_caster.py:wrap_function_in_argument_caster", "modin/core/storage_formats/pandas/query_compiler_caster.py:visit_nested_args"]}
{"id": "C48", "title": "categorical columns survive interchange", "statement": "A categorical column exported through the dataframe interchange protocol and read back by modin.pandas.io.from_dataframe has the same category in every row and is missing exactly where it was missing.", "quantifier": "all category lists (of any supported type) and all columns over them, missing entries included", "why_tests_cant": "the code maps codes to values modulo the number of categories and looks for the sentinel among the values; whether an entry survives depends on the category list", "anchors": ["modin/core/dataframe/pandas/interchange/dataframe_protocol/from_dataframe.py:categorical_column_to_series", "modin/core/dataframe/pandas/interchange/dataframe_protocol/from_dataframe.py:set_nulls", "modin/core/dataframe/pandas/interchange/dataframe_protocol/column.py:_get_data_buffer"]}
{"id": "C49", "title": "foreign masks and windows are read exactly", "statement": "from_dataframe reads a foreign column given by buffers, an offset and a size as exactly the entries of that window, and an entry is missing exactly if its bit (or byte) in the validity mask says so.", "quantifier": "all buffers, offsets, sizes, mask paddings and memory contents behind the buffers", "why_tests_cant": "the mask is decoded in three loops with separate byte arithmetic; errors show only for particular combinations of offset, length and padding", "anchors": ["modin/core/dataframe/pandas/interchange/dataframe_protocol/from_dataframe.py:buffer_to_ndarray", "modin/core/dataframe/pandas/interchange/dataframe_protocol/from_dataframe.py:bitmask_to_bool_ndarray", "modin/core/dataframe/pandas/interchange/dataframe_protocol/from_dataframe.py:primitive_column_to_ndarray"]}
{"id": "C50", "title": "merge validation", "statement": "merge(validate=...) fails exactly when a validated side has two rows with the same key, whatever the partitioning of either frame.", "quantifier": "every pair of frames, every partitioning, every key columns, every validate mode", "why_tests_cant": "Whether duplicates are seen depends on which partitions hold them; every partitioning has to be covered.", "anchors": ["modin/core/storage_formats/pandas/merge.py:MergeImpl.row_axis_merge", "modin/pandas/dataframe.py:DataFrame.merge"]}
{"id": "C51", "title": "to_csv writes the table once and in order", "statement": "DataFrame.to_csv leaves in the file what pandas' to_csv of the same table would leave, although the row partitions are written by concurrent tasks; at every moment, also after a crash, the file is as before or what the mode keeps followed by a prefix of that text; without a crash the call ends.", "quantifier": "every frame and partitioning, every mode, every previous content of the file, every interleaving of the writing tasks, every crash point", "why_tests_cant": "the order comes from a chain of signals between tasks; a missing or early signal shows only under particular schedules, and crashes can come at any point", "anchors": ["modin/core/execution/ray/implementations/pandas_on_ray/io/io.py:PandasOnRayIO.to_csv", "modin/core/execution/ray/common/engine_wrapper.py:SignalActor"]}
{"id": "C52", "title": "to_sql writes every row once", "statement": "DataFrame.to_sql leaves in the database what pandas' to_sql of the same table would leave: the rows that were kept, then every row of the frame exactly once; the call ends, and it fails only if pandas' would or a worker dies.", "quantifier": "every frame and partitioning, every if_exists mode, every earlier table and constraint, every interleaving of the writing tasks, every crash of a worker and retry", "why_tests_cant": "the tasks commit concurrently and may be run again after a crash at any point; tests see one schedule and no crash", "anchors": ["modin/core/io/sql/sql_dispatcher.py:SQLDispatcher.write"]}
{"id": "C53", "title": "to_parquet then read_parquet is the identity", "statement": "After DataFrame.to_parquet(dir) returns, read_parquet(dir) gives the same table (rows in order, labels, headers), whatever was there and however the tasks were scheduled.", "quantifier": "every frame and partitioning, every earlier content of the directory, every number of row partitions, every placement of tasks on processes and threads, every crash and retry, every reader configuration", "why_tests_cant": "the order of rows depends on the sorting of file names, and the path is passed through a variable shared by threads; errors show for large numbers of partitions, re-used directories or particular interleavings", "anchors": ["modin/core/io/column_stores/parquet_dispatcher.py:ParquetDispatcher.write", "modin/core/io/column_stores/parquet_dispatcher.py:ParquetDispatcher.build_index"]}
{"id": "C54", "title": "to_*_glob then read_*_glob is the identity", "statement": "Writing a frame with to_pickle_glob, to_parquet_glob, to_json_glob or to_xml_glob to a pattern with a star and reading the same pattern back gives the same table in the same row order.", "quantifier": "every frame and partitioning, every pattern, every earlier content of the directory, every order of the writing tasks", "why_tests_cant": "file names are sorted as text; the order breaks only beyond ten partitions, tests use few", "anchors": ["modin/experimental/core/io/glob/glob_dispatcher.py:ExperimentalGlobDispatcher.write", "modin/experimental/core/io/glob/glob_dispatcher.py:ExperimentalGlobDispatcher._read"]}
{"id": "C55", "title": "Labels assigned to a frame are the labels every later operation works with", "statement": "After any sequence of assignments to df.index and df.columns, on any of several frames and interleaved with copies, transposes, element-wise functions, cumulative functions, reductions, index resets and reads, every table shown and every error raised is the one pandas shows or raises for the same program; assigning labels of the wrong length raises ValueError and changes nothing.", "quantifier": "all sequences of these actions on any number of frames, all tables, label lists, functions and partitionings", "why_tests_cant": "Assigned labels are only noted on the frame and pushed into the partitions later, if and when some operation asks for it; which operations do so, and on which axis, matters only for particular orders of operations, of which there are unboundedly many.", "anchors": ["modin/core/dataframe/pandas/dataframe/utils.py: lazy_metadata_decorator", "modin/core/dataframe/pandas/dataframe/dataframe.py: PandasDataframe._set_index, _set_columns, synchronize_labels, _propagate_index_objs, map, fold, tree_reduce, transpose, copy, from_labels, to_pandas", "modin/core/storage_formats/pandas/query_compiler.py: PandasQueryCompiler.reset_index, round, replace, isin", "modin/pandas/base.py: BasePandasDataset.reset_index"]}
{"id": "C56", "title": "Distributed XGBoost training uses every labelled row exactly once", "statement": "modin.experimental.xgboost.train gives the workers, together, every row of the training data exactly once and with its own label, whatever nodes the partitions are on; the same holds for each evaluation set, which the workers evaluate under the given names and in the given order. Workers differ by at most one partition.", "quantifier": "all clusters (lists of nodes), placements of partitions on nodes, numbers of workers asked for, partitionings of the features and labels, and lists of evaluation sets", "why_tests_cant": "the balancing has two phases whose interplay depends on how many partitions lie on each node; tests run one small cluster with all partitions on one node", "anchors": ["modin/experimental/xgboost/xgboost_ray.py: _train, create_actors, _split_data_across_actors, _assign_row_partitions_to_actors, ModinXGBoostActor", "modin/experimental/xgboost/xgboost.py: DMatrix, train"]}
{"id": "C57", "title": "Partitions handed out and taken back are the table", "statement": "unwrap_partitions(df, axis) gives pieces that, put together along the axis, are df with its current labels; from_partitions(pieces, axis, index, columns) gives a DataFrame that reads as the pieces put together, under the given labels if any; the two compose to the identity. Booster.predict gives, under the data's row labels, the prediction of every row in order.", "quantifier": "all frames in any state of deferred labels, all partitionings (empty pieces included), all three axis arguments, all optional label arguments, all row-wise prediction functions", "why_tests_cant": "whether labels are in the blocks depends on the history of the frame, and empty pieces change the stored lengths; tests unwrap freshly built frames", "anchors": ["modin/distributed/dataframe/pandas/partitions.py: unwrap_partitions, from_partitions", "modin/core/dataframe/pandas/partitioning/partition_manager.py: get_indices", "modin/core/dataframe/pandas/dataframe/dataframe.py: _propagate_index_objs, synchronize_labels", "modin/experimental/xgboost/xgboost.py: DMatrix, Booster.predict", "modin/experimental/xgboost/xgboost_ray.py: _predict"]}
{"id": "C58", "title": "Pairwise statistics do not depend on the partitioning", "statement": "df.corr(min_periods) and df.cov(min_periods, ddof) are, for every pair of columns, the statistic of the rows where both have a number, under the column labels on both axes; the result does not depend on how the table is cut into blocks nor on which partitions have missing cells, and df itself is not changed.", "quantifier": "all numeric tables, all placements of missing cells, all partitionings, any state of deferred labels, all min_periods and ddof", "why_tests_cant": "two different kernels run on partitions with and without missing cells and their sums are merged, so the answer depends on how missing cells fall on partition boundaries; tests use one partition or one kind", "anchors": ["modin/core/storage_formats/pandas/aggregations.py: CorrCovBuilder, build_corr_method, _CorrCovKernels", "modin/core/storage_formats/pandas/query_compiler.py: cov, _nancorr"]}
{"id": "C59", "title": "Selection by label follows the labels", "statement": "df.loc[rows, columns] and df.loc[rows] return exactly the rows and columns whose labels are asked for, in the order asked for, with all repetitions of a label in the table; a slice a:b takes every label from a to b, both included; a label that is not there raises KeyError; none of this depends on how the table is cut into blocks.", "quantifier": "all tables, all partitionings, all labels with equality and order, all keys (labels, lists, pandas.Index, slices with steps, ranges, boolean masks) on both axes", "why_tests_cant": "labels are turned into positions (several per label, open and closed ends, steps in both directions) and positions into blocks; tests try a few keys on frames with a default index", "anchors": ["modin/pandas/indexing.py: _LocIndexer.__getitem__", "modin/core/storage_formats/base/query_compiler.py: take_2d_labels, get_positions_from_labels", "modin/core/dataframe/pandas/dataframe/dataframe.py: take_2d_labels_or_positional"]}
{"id": "C60", "title": "reindex gives exactly the labels asked for", "statement": "df.reindex(index=labels) (or columns=labels) returns a frame with exactly these labels in this order: each row (column) is the one of df with that label, or filled with fill_value if df has none; df itself is unchanged; if labels of df repeat, ValueError is raised unless nothing changes; none of this depends on how the table is cut into blocks.", "quantifier": "all tables, all partitionings, all lists of new labels (absent, repeated, reordered), all fill values, both axes", "why_tests_cant": "the function runs on whole axes rebuilt from blocks and the result is cut again into other blocks; tests reindex small frames with a few lists", "anchors": ["modin/pandas/base.py: reindex", "modin/core/storage_formats/pandas/query_compiler.py: reindex", "modin/core/dataframe/pandas/dataframe/dataframe.py: apply_full_axis"]}
{"id": "C61", "title": "Assignment by label changes exactly the cells addressed", "statement": "df.loc[rows, columns] = value replaces exactly the cells whose row and column labels are addressed; a new row label adds one row at the end, new column labels add columns on the right whose other cells are missing values; everything else keeps its value and place; an assignment that raises changes nothing.", "quantifier": "all tables, all partitionings, all keys on both axes with present and absent labels, all values (scalars, lists, arrays)", "why_tests_cant": "labels become positions, enlargement goes through reindexing, and the write through whole-row, whole-column or per-block code depending on the shape; tests cover some combinations of one frame", "anchors": ["modin/pandas/indexing.py: _LocIndexer.__setitem__, _setitem_with_new_columns, _set_item_existing_loc, _check_missing_loc, _compute_enlarge_labels", "modin/core/storage_formats/pandas/query_compiler.py: reindex, write_items"]}
{"id": "C62", "title": "drop removes exactly the labelled rows and columns", "statement": "df.drop(index=rows, columns=columns) returns df without every row and column that carries one of these labels, the others in their old order and with their old values; a label that is not there raises KeyError, or is passed over with errors=\"ignore\"; none of this depends on how the table is cut into blocks.", "quantifier": "all tables (repeated labels included), all partitionings, all labels and lists of labels on both axes, both settings of errors", "why_tests_cant": "labels go through a sorted set difference and back to positions, which are then looked up in blocks; tests drop a few labels of one frame", "anchors": ["modin/pandas/base.py: drop", "modin/core/storage_formats/pandas/query_compiler.py: drop", "modin/core/dataframe/pandas/dataframe/dataframe.py: take_2d_labels_or_positional"]}
{"id": "C63", "title": "dropna removes exactly the rows or columns that count as missing", "statement": "df.dropna(axis, how, thresh, subset) returns df without the rows (columns) in which some, every or too many of the looked-at cells are missing, whatever the partitioning and the number of partitions; an unknown label in subset raises KeyError.", "quantifier": "all tables, all partitionings, both axes, how any/all or any thresh, all subsets", "why_tests_cant": "for columns the verdict is computed per row of blocks, combined and applied by label to each block, on another path when there are many blocks; tests use small frames with distinct labels", "anchors": ["modin/pandas/base.py: dropna", "modin/core/storage_formats/pandas/query_compiler.py: dropna", "modin/core/dataframe/pandas/dataframe/dataframe.py: filter, broadcast_apply"]}
{"id": "C64", "title": "A mask selects exactly the rows it marks", "statement": "df[mask] and series[mask] return the rows marked true, in their old order and with their old labels and values. A list of booleans is read by position and must be as long as the frame (ValueError otherwise). A boolean Series is read by label: each row takes the value under its label, and a row without a value raises. None of this depends on how the frame or the mask are cut into blocks.", "quantifier": "all tables, all masks with any labels in any order, all partitionings of both", "why_tests_cant": "the mask is repartitioned and joined by label with the frame before blocks meet; tests take the mask from the frame itself, so its labels and blocks always agree", "anchors": ["modin/pandas/dataframe.py: __getitem__", "modin/pandas/series.py: __getitem__", "modin/core/storage_formats/pandas/query_compiler.py: getitem_array", "modin/core/dataframe/pandas/dataframe/dataframe.py: broadcast_apply, _copartition"]}
{"id": "C65", "title": "reset_index numbers the rows and keeps the labels", "statement": "df.reset_index() returns the same rows numbered 0, 1, 2, ... across all of the frame, with the former labels in a new first column named after the index, or \"index\", or \"level_0\" if \"index\" is taken; drop=True leaves that column out. If a column of that name is there already it raises ValueError. None of this depends on how the frame is cut into blocks or on whether its labels have been computed.", "quantifier": "all tables with a one-level index, named or not, all partitionings, labels computed or not", "why_tests_cant": "two implementations answer, chosen by whether labels happen to be cached; the lazy one numbers each row of blocks on its own from the lengths of those before it; tests use frames fresh from pandas, with labels known", "anchors": ["modin/pandas/base.py: reset_index", "modin/core/storage_formats/pandas/query_compiler.py: reset_index", "modin/core/dataframe/pandas/dataframe/dataframe.py: from_labels"]}
{"id": "C66", "title": "Duplicates are found across blocks and only the right rows dropped", "statement": "df.duplicated(keep=) marks exactly the rows equal to an earlier row (keep=\"first\"), a later row (\"last\") or any other row (False), under the labels of the frame. df.drop_duplicates(subset=, keep=, ignore_index=) returns the other rows in their order, with all their columns and their labels, or numbered from 0 with ignore_index=True; an unknown column in subset raises KeyError. None of this depends on how the frame is cut into blocks.", "quantifier": "all tables with rows, all subsets of the columns, all three values of keep, with and without ignore_index, all partitionings", "why_tests_cant": "how rows are compared depends on the number of column blocks (cells, or an md5 of the row's text), so equality of every pair of values in every grid matters; a row lost by it leaves no trace", "anchors": ["modin/core/storage_formats/pandas/query_compiler.py: duplicated, unique, getitem_array, reset_index", "modin/core/storage_formats/base/query_compiler.py: unique", "modin/pandas/base.py: drop_duplicates", "modin/core/dataframe/pandas/dataframe/dataframe.py: reduce, apply_full_axis"]}
{"id": "C67", "title": "insert puts one column where it was asked for and changes nothing else", "statement": "df.insert(loc, column, value) puts a column with that label before the column number loc and keeps every other column and row. A scalar fills every row, a list gives one value to each row, a Series gives its values by label (missing where it has no such label). The inserted object and all other objects the user holds stay as they were. A list of another length, a label that is there already (unless allow_duplicates=True), a value of several columns or a negative position raise ValueError, a position out of bounds IndexError. None of this depends on how the frame or the value is cut into blocks.", "quantifier": "all tables with rows and columns, all positions, labels and values, all partitionings of the frame and of the value, all other objects of the user", "why_tests_cant": "the block the position falls in depends on the widths of the blocks; objects share their partitions, so an effect on another object is not seen by looking at the result", "anchors": ["modin/pandas/dataframe.py: insert", "modin/core/storage_formats/pandas/query_compiler.py: insert, _wrap_column_data", "modin/core/storage_formats/base/query_compiler.py: insert_item", "modin/core/dataframe/pandas/dataframe/dataframe.py: apply_full_axis_select_indices, _set_columns, concat, _join_index_objects", "modin/core/dataframe/pandas/partitioning/partition_manager.py: apply_func_to_select_indices_along_full_axis"]}
{"id": "C68", "title": "sort_index orders whole rows by all labels; nlargest and nsmallest return the best rows of the whole table", "statement": "df.sort_index() returns the rows of the table, each with its own label and values, in the order of all row labels of the table, not block by block; with axis=1 the columns likewise; with ignore_index=True the result is numbered from 0. df.nlargest(n, columns) and df.nsmallest(n, columns) return whole rows, chosen by the values of the named columns in the whole table; an unknown column raises KeyError. None of this depends on how the frame is cut into blocks.", "quantifier": "all tables, all orders of labels, all choices of rows by values, all partitionings", "why_tests_cant": "each block column is sorted on its own and the labels are sorted a third time: they agree only if the whole label axis reaches each of them, whatever the partitioning", "anchors": ["modin/core/storage_formats/pandas/query_compiler.py: sort_index, _nsort", "modin/pandas/base.py: sort_index", "modin/pandas/dataframe.py: nlargest, nsmallest", "modin/core/dataframe/pandas/dataframe/dataframe.py: apply_full_axis"]}
{"id": "C69", "title": "set_index turns columns or values into row labels, all or nothing", "statement": "df.set_index(keys) labels each row with the values of the key columns (or given values) of that row, in the order of the keys; the old labels come first with append=True; the key columns are dropped unless drop=False; every other column keeps its place and values; the levels are named after the keys. With inplace=True the frame itself becomes the result, otherwise it is untouched. An unknown column raises KeyError, values of another length or repeated labels with verify_integrity=True raise ValueError, and after an error the frame is as it was.", "quantifier": "all tables with rows, all key columns and values in any mixture and order, all combinations of the flags, all partitionings", "why_tests_cant": "the labels are read through a selection of blocks that depends on where the key columns lie; what is left of the frame after an error depends on which of several steps fails", "anchors": ["modin/pandas/dataframe.py: set_index, __delitem__", "modin/pandas/base.py: pop", "modin/core/storage_formats/pandas/query_compiler.py: set_index_from_columns", "modin/core/dataframe/pandas/dataframe/dataframe.py: to_labels, _set_index, take_2d_labels_or_positional"]}
{"id": "C70", "title": "Merge with range partitioning finds the same matches", "statement": "With range partitioning switched on, df.merge(other, how='left' or 'inner', on=column) returns the columns of the merge of the whole frames and exactly its rows, each as often as pandas returns it, numbered from 0, whatever the random samples were; with sort=True the rows are in pandas' order. validate= fails exactly when a checked side has two rows with the same key. Calls that range partitioning cannot serve give the result of the ordinary merge.", "quantifier": "all pairs of tables with rows, all key columns with missing and repeated values, all orders of the key values, all pivots the samples can give, all partitionings of both frames", "why_tests_cant": "both frames are shuffled into bins by pivots taken from a random sample of the left one: a row matched in the wrong bin is lost for some samples and some partitionings only", "anchors": ["modin/core/storage_formats/pandas/merge.py: range_partitioning_merge", "modin/core/dataframe/pandas/dataframe/dataframe.py: _apply_func_to_range_partitioning_broadcast", "modin/core/dataframe/pandas/partitioning/partition_manager.py: shuffle_partitions", "modin/core/dataframe/pandas/dataframe/utils.py: ShuffleSortFunctions"]}
{"id": "C71", "title": "df[key] = value replaces and adds columns", "statement": "After df['c'] = value the frame is the pandas one: the column c holds the value (a scalar in every row, a list or array by position, a Series or a one-column frame by row label, missing where the label is missing), a column that was not there is the last one, every other cell, the row labels and the order of the columns are unchanged. df[['a', 'b']] = frame puts the first column of the frame under a and the second under b, by row label. A value of the wrong length is a ValueError and changes nothing. The assigned object and every other frame stay as they are.", "quantifier": "all tables, all keys and values of the listed kinds, all row labels of the value, all partitionings of both frames", "why_tests_cant": "the frame is cut into runs of columns that are taken from two differently partitioned frames and glued back: it must hold for every pattern of keys and every pair of partitionings", "anchors": ["modin/pandas/dataframe.py: __setitem__", "modin/core/storage_formats/pandas/query_compiler.py: setitem, _setitem", "modin/core/storage_formats/base/query_compiler.py: insert_item"]}
{"id": "C72", "title": "melt gives the long form", "statement": "df.melt(id_vars, value_vars, var_name, value_name) has exactly one row for each row of df and each value column, holding the identifiers of that row, the name of the column and the cell; nothing is lost, doubled or paired with another row's identifiers. The rows are numbered from 0, and the rows made from one column come in the order they have in df (the order of the columns is free). Without value_vars all columns that are not identifiers are melted; an unknown column is a KeyError.", "quantifier": "all tables, all choices of identifier and value columns, all partitionings, cached or uncached block lengths", "why_tests_cant": "each block of value columns is melted alone with a block of identifiers that is fetched from another frame with its own partitioning: the pairing must be right for every partitioning", "anchors": ["modin/pandas/dataframe.py: melt", "modin/core/storage_formats/pandas/query_compiler.py: melt", "modin/core/dataframe/pandas/dataframe/dataframe.py: broadcast_apply_select_indices", "modin/core/dataframe/pandas/partitioning/partition_manager.py: broadcast_apply_select_indices"]}
{"id": "C73", "title": "modin.numpy indexing and split give NumPy's arrays", "statement": "For a modin.numpy array a of one or two dimensions, a[key] and a[rows, cols] are the scalar or array NumPy gives for the same data, with the same number of dimensions and the same shape; np.split(a, positions, axis) and np.split(a, k, axis) give the same parts as NumPy, so that the parts put together are a.", "quantifier": "all arrays of one or two dimensions, all keys (numbers, slices, lists, masks), all split positions, all partitionings, cached or uncached block lengths", "why_tests_cant": "a test uses arrays that fit into one block and a handful of keys; the result must not depend on how the array is cut into blocks", "anchors": ["modin/numpy/indexing.py: ArrayIndexer.__getitem__, _compute_lookup, _get_numpy_object_from_qc_view", "modin/numpy/arr.py: array.__init__, split, _to_numpy, _get_shape"]}
{"id": "C74", "title": "modin.numpy binary operations broadcast as NumPy's do", "statement": "For two modin.numpy arrays of one or two dimensions (or an array and a scalar), an arithmetic operation or comparison gives the array NumPy gives for the same data: element by element after broadcasting, in the given order of operands, in the common dtype; and it leaves the operands as they were.", "quantifier": "all pairs of arrays of one or two dimensions, all element-wise operations, all dtypes and casts, all partitionings of the two arrays", "why_tests_cant": "a test uses a few shapes that fit into one block; the blocks of the operands are matched and cut anew for every pair of partitionings, and operands are swapped behind the scenes", "anchors": ["modin/numpy/arr.py: array._preprocess_binary_op, __add__, subtract, divide, floor_divide, _greater", "modin/core/dataframe/algebra/binary.py: Binary.register", "modin/core/dataframe/pandas/dataframe/dataframe.py: broadcast_apply, n_ary_op", "modin/core/dataframe/pandas/partitioning/partition_manager.py: base_broadcast_apply"]}
{"id": "C75", "title": "modin.numpy reductions give NumPy's result", "statement": "For a non-empty modin.numpy array of one or two dimensions, sum, prod, max, min, any, all, mean, argmax, argmin and norm give what NumPy gives for the same data, for every axis, with and without keepdims and initial: the same values, the same number of dimensions, and an error where NumPy raises one.", "quantifier": "all arrays of one or two dimensions, all axes (None, positive, negative, out of range), keepdims and initial, all partitionings", "why_tests_cant": "results are put together from per-block partial results and from one reduction after another; a test covers a few shapes, dtypes and argument combinations, and the wrong ones (keepdims with axis=None, NaN, truth values) are rarely among them", "anchors": ["modin/numpy/arr.py: array.sum, prod, max, min, any, all, mean, argmax, argmin, _norm, _validate_axis", "modin/core/storage_formats/pandas/query_compiler.py: sum, prod, max, min, mean, any, all, idxmax", "modin/core/dataframe/algebra/tree_reduce.py: TreeReduce.register"]}
{"id": "C76", "title": "several names for the same data", "statement": "After any history of making objects, copying them deeply or shallowly, wrapping a frame in DataFrame(df) or array(df), selecting columns and slices, and changing objects in place, every object shows what it shows in pandas without copy-on-write: an in-place call changes its target, the objects that share its data in the way pandas shares it, and no other.", "quantifier": "all histories of any length over any number of objects, all tables, labels and positions", "why_tests_cant": "the number of histories is unbounded and what a name shows depends on every earlier copy and selection; a test has a few objects and a few calls", "anchors": ["modin/pandas/base.py: _add_sibling, _update_inplace, copy", "modin/pandas/series.py: _update_inplace", "modin/pandas/dataframe.py: __init__, _getitem_column, __setitem__", "modin/pandas/indexing.py: _helper_for__getitem__, _iLocIndexer.__getitem__, _LocIndexer.__setitem__, _setitem_positional", "modin/numpy/arr.py: array.__init__, _add_sibling, _update_inplace"]}
{"id": "C77", "title": "registered attributes", "statement": "After any history of register_dataframe_accessor, register_series_accessor, register_base_accessor and register_pd_accessor calls, obj.name is the last attribute registered under that name for the object's class and its current backend, else the last default for its class, else what the class defines, and likewise for the base class; a registration for one backend does not change what objects on another see; assigning to the name of a registered property goes through the property; reserved names are refused.", "quantifier": "all histories of registrations of any length, all classes, backends (in any spelling), names and kinds of attributes, with and without a column of that name", "why_tests_cant": "the histories are unbounded and the outcome depends on the order of registrations and on what each class already has under the name", "anchors": ["modin/pandas/api/extensions/extensions.py: register_dataframe_accessor, register_series_accessor, register_base_accessor, register_pd_accessor, _set_attribute_on_obj, __getattr___impl", "modin/core/storage_formats/pandas/query_compiler_caster.py: _get_extension, _getattribute__from_extension_impl, _get_extension_for_method, apply_argument_cast_to_class, wrap_function_in_argument_caster, wrap_free_function_in_argument_caster", "modin/pandas/base.py: __getattribute__, __setattr__", "modin/pandas/dataframe.py: __getattribute__, __getattr__, __setattr__", "modin/pandas/series.py: __getattribute__, __getattr__, __setattr__"]}
{"id": "C78", "title": "filling, testing and locating missing values", "statement": "df.fillna (a value, values by column, limits, both axes), df.ffill, df.bfill, the cumulative functions (cumsum, cumprod, cummax, cummin, diff), df.isin (a list, a dict, a Series, a DataFrame), df.clip, df.first_valid_index, df.last_valid_index and df.mode give pandas' result, and raise where pandas raises, however the frame is split into blocks.", "quantifier": "all tables, all partitionings into row and column blocks, all filling values, limits, axes, bounds and sets of values, all partitioning settings", "why_tests_cant": "a limit, a carried value, a running total or a position counts along whole lines, which may be cut anywhere; tests use a few frame shapes and one block layout", "anchors": ["modin/pandas/base.py: fillna, ffill, bfill, cumsum, cumprod, cummax, cummin, clip, isin, first_valid_index, last_valid_index, mode", "modin/core/storage_formats/pandas/query_compiler.py: fillna, isin, clip, first_valid_index, last_valid_index, mode", "modin/core/dataframe/algebra/fold.py: Fold", "modin/core/dataframe/pandas/dataframe/dataframe.py: fold, map, reduce, apply_full_axis"]}
{"id": "C79", "title": "matrix products", "statement": "df.dot(other) and series.dot(other), where other is a DataFrame, a Series, a 2-d array or a 1-d array, give pandas' product: rows and columns are matched by label, the numbers, the labels and the name of the result are pandas', and labels or shapes that do not match raise ValueError, however the frame is split into blocks.", "quantifier": "all frames and Series, all partitionings into blocks, all other operands (labels in any order, repeated or missing), all products of two lines", "why_tests_cant": "the result depends on the labels, the shape of both operands and the block layout together; tests multiply a few frames by their own transposes and by one vector", "anchors": ["modin/pandas/dataframe.py: dot, _reduce_dimension", "modin/pandas/series.py: dot, _reduce_dimension, _get_name", "modin/core/storage_formats/pandas/query_compiler.py: dot", "modin/core/storage_formats/base/query_compiler.py: columnarize", "modin/core/dataframe/pandas/dataframe/dataframe.py: apply_full_axis"]}
{"id": "C80", "title": "exploding lists into rows", "statement": "df.explode(columns, ignore_index=) and series.explode(ignore_index=) give pandas' result: every row is replaced by as many rows as its lists have elements, in order, with its label and its other cells repeated, renumbered if ignore_index; unknown or repeated columns and lists of different lengths in a row raise, however the frame is split into blocks.", "quantifier": "all tables, all partitionings into row and column blocks, all choices of columns, all lists in cells (of any length, empty or scalar), all partitioning settings", "why_tests_cant": "the rows of each block grow by different amounts, so labels, block lengths and the numbering depend on the data and on the block layout together; tests use one small frame", "anchors": ["modin/pandas/base.py: explode", "modin/pandas/series.py: explode", "modin/core/storage_formats/pandas/query_compiler.py: explode", "modin/core/dataframe/pandas/dataframe/dataframe.py: explode"]}
{"id": "C81", "title": "indicator columns for categories", "statement": "get_dummies(df, prefix=, columns=, dummy_na=, drop_first=) gives pandas' table: the columns that are not encoded first, then for each encoded column in the order asked for one column per category, 1 in the rows that have it, with the prefix that belongs to the column; a label that is not there raises KeyError; columns=None encodes the columns pandas encodes; whatever the partitioning.", "quantifier": "all tables with different column labels, all partitionings into row and column blocks, all lists of columns in any order, all kinds of prefix, all categories", "why_tests_cant": "the number of columns of each block changes with the data and the prefixes have to reach the right block; tests use frames of one column block", "anchors": ["modin/pandas/general.py: get_dummies", "modin/core/storage_formats/pandas/query_compiler.py: get_dummies, drop", "modin/core/dataframe/pandas/dataframe/dataframe.py: take_2d_labels_or_positional, apply_full_axis, concat"]}
{"id": "C82", "title": "query keeps the rows in which the expression is true", "statement": "df.query(expression) keeps exactly the rows, in order and with their labels, in which the expression over the columns, the constants and the caller's @variables is true by pandas' rules, and raises where pandas raises, whatever the partitioning and however deep the expression.", "quantifier": "all tables, all partitionings into row and column blocks, all expressions, all values of the caller's variables", "why_tests_cant": "an expression is evaluated on each row block by itself if a walk over its syntax tree finds it row-wise; the tests run a handful of expressions on small frames of one block", "anchors": ["modin/pandas/dataframe.py: query, _update_var_dicts_in_kwargs", "modin/core/storage_formats/pandas/query_compiler.py: rowwise_query", "modin/core/dataframe/pandas/dataframe/dataframe.py: filter"]}
{"id": "C83", "title": "membership tests do not depend on how an object was made", "statement": "After any history of selecting columns, squeezing, converting between Series and DataFrame, copying and element-wise operations, x.isin(values) for every object x of the history answers as pandas does for that kind of object: a DataFrame looks at the column labels of a dict, the row labels of a Series and both labels of a DataFrame, a Series only at the elements; and it raises where pandas raises.", "quantifier": "all histories of calls, all tables, all partitionings, all arguments of isin", "why_tests_cant": "whether a block is treated as a Series depends on a mutable hint that several objects share and that many operations set or pass on; tests call isin on freshly made frames", "anchors": ["modin/core/storage_formats/pandas/query_compiler.py: isin, getitem_column_array, copy", "modin/pandas/dataframe.py: squeeze, _getitem_column, __init__", "modin/pandas/series.py: to_frame, __init__", "modin/core/dataframe/algebra/map.py", "modin/core/dataframe/algebra/binary.py"]}
{"id": "C84", "title": "quantiles and ranks", "statement": "df.quantile(qs, axis, numeric_only) for a list of quantiles returns one row for each quantile and one column for each column (axis=0) or row (axis=1) of df, computed from whole lines of df as in pandas, and raises TypeError exactly when pandas does; df.rank(axis) returns the ranks within whole columns or rows under the labels of df.", "quantifier": "all tables, all partitionings, all lists of quantiles, all dtypes of the columns", "why_tests_cant": "a quantile needs every cell of a line, which are spread over blocks; which columns enter depends on their dtypes and labels, in combinations tests do not enumerate", "anchors": ["modin/pandas/base.py: quantile, rank", "modin/core/storage_formats/pandas/query_compiler.py: quantile_for_list_of_values, rank"]}
{"id": "C85", "title": "case_when chooses the first case that holds", "statement": "s.case_when(cases) gives every row the replacement of the first case whose condition holds in that row, and the old cell if none does; conditions and replacements that are Series are matched by label, rows they lack count as true in a condition and are missing in a replacement; lists must have one entry for each row, otherwise ValueError.", "quantifier": "all Series, all divisions of their rows into blocks, all lists of cases with functions, lists, pandas Series, Modin Series and scalars in any combination", "why_tests_cant": "arguments are cut into pieces at the block boundaries, by three different rules that depend on their kind and labels", "anchors": ["modin/core/dataframe/pandas/dataframe/dataframe.py: case_when", "modin/core/dataframe/base/dataframe/utils.py: is_trivial_index", "modin/pandas/series.py: case_when"]}
{"id": "C86", "title": "join on a column looks its cells up among the row labels", "statement": "left.join(right, on=key, how=...) pairs each left row with every right row whose label is the left row's cell in the column key. how='left' keeps left rows without partner, padded with NaN; 'inner' drops them; 'right' keeps every right row, with its label in the key column and NaN as its own label if it has no partner. Rows keep the labels of left, in the order of left (of right for 'right'). A missing key column is a KeyError, headers that overlap without suffixes are a ValueError.", "quantifier": "all pairs of frames, all divisions of both into blocks, all three kinds of join, all key columns, all rules for renaming headers", "why_tests_cant": "one side is gathered and sent to every row block of the other, the sides are swapped for 'right', and the width of the result is divided anew by a rule that depends on cached widths", "anchors": ["modin/core/storage_formats/pandas/query_compiler.py: join", "modin/core/storage_formats/pandas/utils.py: merge_partitioning", "modin/pandas/dataframe.py: join"]}
{"id": "C87", "title": "join without on matches rows by their labels", "statement": "left.join(right, how=...) pairs each left row with every right row of the same label. how='left' keeps left rows without partner and 'right' right rows without partner, padded with NaN; 'inner' drops both. Rows come in the order of left (of right for 'right'). Headers that overlap without suffixes are a ValueError.", "quantifier": "all pairs of frames, all divisions of both into blocks, all three kinds of join, all rules for renaming headers", "why_tests_cant": "rows of the two frames lie in blocks cut at different places; they are aligned by positions computed from the labels, with shortcuts when labels or block lengths agree", "anchors": ["modin/pandas/dataframe.py: join", "modin/core/storage_formats/pandas/query_compiler.py: concat", "modin/core/dataframe/pandas/dataframe/dataframe.py: concat, _copartition, _join_index_objects"]}
{"id": "C88", "title": "a loop over the rows sees the rows the frame had when the loop began", "statement": "for label, row in df.iterrows(): body gives the body every row df had when the loop began, once, in order and under its label, whatever body does to df in place (dropping, sorting, renumbering or adding rows), and ends after the last of them without an exception of its own.", "quantifier": "all frames, all divisions into blocks before and after every step, all bodies, that is all histories of in-place changes between two steps", "why_tests_cant": "the iterator reads row k of the object as it is at step k, so the result depends on the whole history of changes made between the steps", "anchors": ["modin/pandas/iterator.py: PartitionIterator", "modin/pandas/dataframe.py: iterrows", "modin/pandas/indexing.py: _iLocIndexer.__getitem__"]}
{"id": "C89", "title": "a loop over the columns sees the headers of the start and the columns as they are", "statement": "for header, column in df.items(): body gives the body the headers df had when the loop began, in order, each with the column that is at that position when its turn comes, whatever body does to df in place (overwriting cells, adding or dropping rows, adding or renaming columns), ends with IndexError only if that column is gone, and leaves the frame that body leaves.", "quantifier": "all frames, all divisions into blocks before and after every step, all bodies, that is all histories of in-place changes between two steps", "why_tests_cant": "the iterator reads column k of the object as it is at step k, so the result depends on the whole history of changes made between the steps", "anchors": ["modin/pandas/iterator.py: PartitionIterator", "modin/pandas/dataframe.py: items", "modin/pandas/indexing.py: _iLocIndexer.__getitem__"]}
{"id": "C90", "title": "equals tells whether two tables are the same", "statement": "df.equals(other) for two Modin frames returns True exactly if the two tables have the same row labels, the same headers and the same cells in the same order, and raises nothing, whatever blocks either of them is stored in.", "quantifier": "all pairs of frames, all divisions of each into blocks, known and unknown lengths and labels, all settings of the number and least size of blocks", "why_tests_cant": "the frames are first cut alike and then compared block by block; the answer must not depend on the two divisions or on which lengths happen to be cached", "anchors": ["modin/pandas/dataframe.py: equals", "modin/core/storage_formats/pandas/query_compiler.py: equals", "modin/core/dataframe/pandas/dataframe/dataframe.py: n_ary_op, _copartition", "modin/core/dataframe/pandas/partitioning/partition_manager.py: n_ary_operation"]}
{"id": "C91", "title": "comparing two Series ignores their names and changes neither", "statement": "s.equals(t) for two Modin Series returns True exactly if they have the same row labels and the same elements in the same order, whatever their names; after the call every Series, s and t included, has the name and the contents it had before, also if s and t are the same object.", "quantifier": "all sessions of Series, all choices of s and t among them, all divisions into blocks, all names", "why_tests_cant": "the call renames both Series in place and gives the names back afterwards; whether that is seen depends on which variables share an object and on how the Series are divided", "anchors": ["modin/pandas/series.py: equals, _set_name, _get_name", "modin/core/storage_formats/pandas/query_compiler.py: equals", "modin/core/dataframe/pandas/dataframe/dataframe.py: n_ary_op, _set_columns"]}
{"id": "C92", "title": "filter keeps the columns asked for", "statement": "df.filter(like=...) and df.filter(regex=...) return all columns whose header passes the test, whole and in the order of df; df.filter(items=[...]) returns the columns named by an item, whole, each once and in the order of the items.", "quantifier": "all frames, all divisions into blocks, all tests of headers, all lists of items", "why_tests_cant": "the columns are found again by their labels across all block columns; tests name items in the order of the columns and use distinct headers", "anchors": ["modin/pandas/base.py: filter", "modin/core/storage_formats/pandas/query_compiler.py: getitem_array, getitem_column_array"]}
{"id": "C93", "title": "truncate keeps the rows between two labels", "statement": "On sorted row labels df.truncate(before, after) returns exactly the rows whose label is neither before `before` nor after `after`, whole and in order; axis=1 does the same with the columns; unsorted labels, or before > after, raise ValueError.", "quantifier": "all frames with sorted labels (repeated ones included), all divisions into blocks, all bounds, present or absent in the labels", "why_tests_cant": "the bounds can fall between, before, after or on a run of equal labels, on any boundary between blocks; tests use a few increasing labels", "anchors": ["modin/pandas/base.py: truncate", "modin/pandas/indexing.py: _iLocIndexer.__getitem__"]}
{"id": "C94", "title": "head and tail give the first and last rows", "statement": "df.head(n) returns the first n rows (all if there are fewer; for negative n all but the last -n) and df.tail(n) the last n rows (all if there are fewer; for negative n all but the first -n), whole, with their labels and in order.", "quantifier": "all frames, all divisions into blocks, all integers n", "why_tests_cant": "the cut can fall anywhere inside a block or on a boundary, and n = 0, negative n and n past the end take different paths; tests use a few n", "anchors": ["modin/pandas/base.py: head, tail", "modin/pandas/indexing.py: _iLocIndexer.__getitem__"]}
{"id": "C95", "title": "take gives the rows or columns at the positions asked for", "statement": "df.take(indices, axis) returns the whole rows (axis=1: columns) at the positions asked for, in the order asked for, counting negative positions from the end, whatever kind of sequence holds the positions; positions outside raise IndexError.", "quantifier": "all frames, all divisions into blocks, both axes, all lists of positions", "why_tests_cant": "positions in any order spread over any blocks; tests take two rows and one column from a list", "anchors": ["modin/pandas/base.py: take", "modin/pandas/indexing.py: _iLocIndexer.__getitem__, _LocationIndexerBase._parse_row_and_column_locators"]}
{"id": "C96", "title": "assign puts several columns one after the other on a copy", "statement": "df.assign(c1=v1, c2=v2, ...) returns the table with the columns set or added from left to right; a callable is given the table with the columns before it already set; df and every other object stay as they were; a value that has not one entry for each row raises ValueError.", "quantifier": "all frames, all divisions into blocks, all sequences of columns and values, callables that are arbitrary functions of the table", "why_tests_cant": "later columns depend on earlier ones through arbitrary callables, and every step divides the frame into blocks anew; tests assign one or two columns", "anchors": ["modin/pandas/dataframe.py: assign, __setitem__, insert"]}
