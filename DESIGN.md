# Formal model of modin (pinned commit in /repo) in Rocq/Coq 8.16.1

Contents: method, trusted base, what is modelled, what is not, plan per property, findings, mutation tests.
The claims and their theorems are listed in MANIFEST.json.

## Method

* Models are total, computable Gallina functions that mirror the Python functions branch by branch.
  Every definition cites the file and lines it models and names its simplifications.
* A table is a list of rows, a row a list of cells of an arbitrary type; an axis is a list; a block grid is a
  list (rows of blocks) of lists of tables.  What a user function does to a cell/column/row is an arbitrary
  Coq function (a universally quantified parameter of the theorem, never an axiom).
* Python exceptions are values (`Err`), never silently totalised.  `Err Unmodelled` marks inputs outside the
  modelled fragment; a theorem concluding `Ok` excludes it.
* Layout of `rocq/theories`: `XModel.v` (model of the code), `XSpec.v` (small specification that does not
  use the model), `XProofs*.v` (lemmas), `XProps.v` (the theorems, `Print Assumptions` for each, refutations,
  and concrete `Example`s that meet the hypotheses).
* When the full English property is false of the code, a theorem with suffix `_refuted` gives a concrete
  witness (computed by the kernel from the model), and the strongest true version is proved with suffix `_partial`.
* Unbounded: no theorem bounds a size, depth, history length or number of partitions.

## Trusted base

1. The kernel of Coq 8.16.1 (including `vm_compute`, used in refutations and examples).
2. Axioms: none.  `Print Assumptions` is printed at the end of each `XProps.v` for every theorem named in
   MANIFEST.json, and every one of them answers "Closed under the global context".  (vcheck also lists seven constants of
   `Coq.ssr.ssrunder.Under_rel`: they belong to a module type of the standard library's ssreflect file that is loaded
   with it; no theorem depends on them.)
   No `Variable`/`Hypothesis` occurs outside a section, there is no `Admitted`, no functor, no plugin.
3. That the model says what the Python code does.  The code was read, not run: this is the largest assumption.
   Each definition's comment cites the lines, so it can be checked by reading the two side by side.
4. That the specification files say what the English properties say, and that the pandas/NumPy operations used as
   primitives behave as the small functions in Base.v, Table.v and the Spec files say (slicing, `iloc`, `concat`,
   `searchsorted`/`digitize`, stable sort, `reindex`, `groupby` of one block, `merge` of two blocks, `read_csv` of one chunk).

Idealisations that hold throughout:

* Integers are unbounded; sums, means and variances are over exact rationals, not floats (C06, C24, C25).  Square
  roots are parameters.
* `uuid4` never repeats: identifiers are drawn from a counter (C14).
* Random sampling and `np.quantile` are one parameter `quantiles`, constrained only to return values of the sample's
  kind; theorems hold for every pivot list (C21-C23, C40).
* Engines are replaced by what a task computes: a remote call is a pure function of its arguments.  Scheduling does not
  appear because a partition's value is fixed by its inputs; where it is not (call queues C30, deferred execution C31,
  configuration C27-C29, label caches C14, dtype caches C32) the model is a state machine and theorems are by induction
  over all histories.
* Dtypes, categories and memory layout of cells are not modelled except where they are the subject (C32, C40, C48, C49).

## What is modelled

| files in rocq/theories | code in /repo/modin |
|---|---|
| Chunk* (C01-C03) | core/storage_formats/pandas/utils.py `compute_chunksize`, `get_length_list`, `split_result_of_axis_func_pandas`; partition_manager.py `split_pandas_df_into_partitions`, `from_pandas`, `to_pandas`; dataframe.py `from_pandas` |
| Grid* (C04-C06, C38, C39, C41) | partition_manager.py `map_partitions` (all three modes), `map_axis_partitions`, `lazy_map`, `concatenate`; axis_partition.py `deploy_axis_func`, `apply`; dataframe.py `map`, `reduce`, `tree_reduce`, `apply_full_axis`, `_filter_empties`, `_propagate_index_objs`, `transpose`, the constructor's length bookkeeping |
| Sel* (C07-C09) | pandas/indexing.py `_compute_lookup`, `iloc.__getitem__`; dataframe.py `_take_2d_positional`, `_get_dict_of_block_index`, `_get_new_lengths`, `_reorder_labels`, `_maybe_reorder_labels`; partition.py `mask` |
| Set* (C10) | pandas/indexing.py `iloc.__setitem__`, `_setitem_positional`, `_determine_setitem_axis`; pandas/utils.py `broadcast_item`; pandas/dataframe.py `__setitem__` (existing column); query_compiler.py `write_items`, `setitem`; base/query_compiler.py `insert_item`; partition_manager.py `apply_func_to_indices_both_axis`, `apply_func_to_select_indices`, `..._along_full_axis`; dataframe.py `apply_select_indices` |
| Join* (C11-C13) | partition_manager.py `rebalance_partitions`, `concat`, `broadcast_apply`, `n_ary_operation`; dataframe.py `_copartition`, `_join_index_objects`, `concat`, `n_ary_op` |
| Index* (C14) | metadata/index.py `ModinIndex`; dataframe.py label caches, `_check_if_axes_identical`, `_repartition` |
| Csv*, Newline*, Glob* (C15-C20) | core/io/text/text_file_dispatcher.py `offset`, `_read_rows`, `partitioned_file`, `_define_header_size`, `_manage_skiprows_parameter`, `_get_skip_mask`, `_read`; core/io/text/utils.py `CustomNewlineIterator`; experimental csv_glob_dispatcher.py; `generic_parse`, CSVGlob parser |
| Shuf* (C21-C23) | dataframe/utils.py `ShuffleSortFunctions`; partition_manager.py `shuffle_partitions`; dataframe.py `_apply_func_to_range_partitioning`, `sort_by` |
| Group* (C24, C25) | algebra/groupby.py `GroupByReduce`; storage_formats/pandas/groupby.py `GroupbyReduceImpl`; dataframe.py and partition_manager.py `groupby_reduce` |
| Merge* (C26, C50) | storage_formats/pandas/merge.py `row_axis_merge`; query_compiler.py `sort_rows_by_column_values`, `reset_index` on its path |
| Cfg*, Exec*, Text* (C27-C29, C43, C44) | config/pubsub.py, config/envvars.py `Engine`, `StorageFormat`, `Backend`; modin/__init__.py `set_execution` |
| Queue* (C30) | call queues of the Python, Dask and Unidist partitions and of axis partitions |
| Def* (C31) | core/execution/ray/common/deferred_execution.py; Ray partition.py |
| Dtype* (C32) | metadata/dtypes.py `DtypesDescriptor`, `ModinDtypes`; the dtype bookkeeping of dataframe.py |
| Read* (C33, C34, C45, C46) | parquet, HDF, feather dispatchers; SQL dispatchers |
| Cast* (C35, C47) | query_compiler_calculator.py, query_compiler_caster.py |
| Xchg* (C36, C37, C48, C49) | core/dataframe/pandas/interchange; modin/pandas/io.py from_dataframe path |
| Cat* (C40) | range-partitioning groupby with categorical keys, `add_missing_categories_to_groupby` |
| Pipe* (C42) | experimental/batch/pipeline.py |
| Write* (C51) | pandas_on_ray/io/io.py `to_csv`, engine_wrapper.py `SignalActor` (the Unidist version is the same code) |
| Asg* (C96) | pandas/dataframe.py assign 657-667 for lists, scalars and callables that give lists; column assignment as in Itm*. Not modelled: arrays and Series as values (one at a time in Itm*), empty frames |
| Tak* (C95) | pandas/base.py take 3240-3246. Not modelled: a tuple of one, scalars and slices as indices, the path of empty frames to pandas, Series |
| Hea* (C94) | pandas/base.py head 1953-1957, tail 3232-3238. Not modelled: n that is no integer, the path of empty frames to pandas |
| Tru* (C93) | pandas/base.py truncate 3694-3712, both axes; Index.slice_locs of pandas as counts of labels. Not modelled: Series, missing labels (NaN), labels that cannot be compared |
| Flt* (C92) | pandas/base.py filter 1862-1898 with axis=1; selection by a list of labels as in Itm*. Not modelled: axis=0 (a list mask, C64), the texts of like and regex (an arbitrary test), the checks of the arguments |
| Seq* (C91) | pandas/series.py equals 1138-1161, _get_name and _set_name 186-214; the comparison as in Equ*, new headers as in Ins*. Not modelled: dtypes, cached lengths across a renaming, pandas arguments, exceptions of the renaming itself |
| Equ* (C90) | pandas/dataframe.py equals 841-859; query_compiler.py equals 542-547; dataframe.py n_ary_op 3850-3950 with labels="drop", _get_index and _get_columns 726-760; copartitioning as in Join*. Not modelled: dtypes, Series.equals, pandas arguments, the tree reduction of all(axis=None) (taken as the conjunction) |
| Iter* (C89) | pandas/iterator.py 24-81 with axis 1; pandas/dataframe.py items 1201-1212; iloc as in Sel*. Not modelled: itertuples, dtypes of the columns, writes through the yielded Series |
| Iter* (C88) | pandas/iterator.py 24-81; pandas/dataframe.py iterrows 1188-1199; iloc as in Sel*. Not modelled: itertuples, dtypes of the rows, cells overwritten in place in a frame of one dtype (pandas makes no promise there) |
| Lix* (C87) | pandas/dataframe.py join 1274-1304 (one DataFrame, no on); query_compiler.py concat 482-502 with axis=1; dataframe.py _join_index_objects 1988-2075 for left, right, inner. Not modelled: outer joins, sort=True, several frames, repeated labels that differ between the frames, dtypes |
| Jon* (C86) | pandas/dataframe.py join 1229-1273 (on given); query_compiler.py join 669-708; utils.py merge_partitioning 235-265; broadcast_apply_full_axis 3483-3676 for axis=1. Not modelled: sort=True, how='outer' and 'cross' (pandas on the gathered frames), several keys, dtypes, pandas' rules for a key column that is also a header of right |
| Case* (C85) | dataframe/dataframe.py case_when 4869-5038; base/dataframe/utils.py is_trivial_index 158-182. Simplified: _copartition of a Modin Series (C13) is aligning and cutting at the blocks of self. Not modelled: dtypes, replacement lists of the wrong length |
| Qnt* (C84) | base.py quantile 2403-2452, rank 2469-2492; query_compiler.py quantile_for_list_of_values 2815-2860, rank 2862-2877, with numeric_only=False at this level. Not modelled: a single quantile (a reduction, C07), method="table", rank(numeric_only=True), the check that quantiles lie in [0, 1], the dtype of the result |
| Hnt* (C83) | query_compiler.py _shape_hint 292-299, copy 465-466, isin 2009-2034, getitem_array 3097-3103, getitem_column_array 3105-3122; base/query_compiler.py columnarize 1879-1900; dataframe.py __init__ 156-157 and 209-260, squeeze 2116-2136, _getitem_column 2614-2636; series.py __init__ 159-183, to_frame 2183-2198; algebra/map.py 58-69; algebra/binary.py 442-458 (a scalar). Not modelled: unnamed Series, squeeze without axis, binary operations of two objects, repeated labels within histories |
| Qry* (C82) | pandas/dataframe.py query 1767-1806 (the row-wise way); query_compiler.py rowwise_query 3585-3641. Not modelled: the text and its parsing, @variables that are Series, inplace=, the names index and ilevel_n |
| Dum* (C81) | general.py get_dummies 638-682 (DataFrame); query_compiler.py get_dummies 4643-4680. Not modelled: the dtype cache of the result (always bool, although dtype= may say otherwise), Series and lists (pandas' own code), repeated column labels |
| Expl* (C80) | base.py explode 1632-1643; series.py explode 1163-1170; query_compiler.py explode 3461-3464; dataframe.py explode 2878-2916. Not modelled: dtypes |
| Dot* (C79) | query_compiler.py dot 2546-2605; dataframe.py dot 791-829, _reduce_dimension 3226-3239; series.py dot 1053-1089, _get_name 186-197, _reduce_dimension 2601-2614; base/query_compiler.py columnarize 1879-1900. Simplified: reindex and columnarize act on whole tables. Not modelled: dtypes, names of Indexes |
| Fil* (C78) | query_compiler.py isin 2009-2034, first/last_valid_index 2350-2384, cumulative functions 2429-2436, clip 2438-2453, mode 2683-2708, fillna 2710-2813; fold.py 77-84; base.py clip 1260-1285, cum* 1378-1392, fillna 1817-1846. Not modelled: dtypes, Series as self, DataFrames as filling values, mode(axis=1) and mode(numeric_only=True) |
| Ext* (C77) | modin/pandas/api/extensions/extensions.py _set_attribute_on_obj 68-127, register_pd_accessor 286-297, __getattr___impl 300-328; query_compiler_caster.py 344-390, 541-594, 905-922, 1046, 1207-1218; base.py __getattribute__ 4358-4380, __setattr__ 4618-4622; dataframe.py 2653-2687, 2715-2730; series.py 368-402, 563-567. Not modelled: instance attributes, the group-by classes, casting of arguments (C31, C47) and automatic switching (C35) |
| Ali* (C76) | modin/pandas/base.py _add_sibling 265-280, _update_inplace 321-334, copy 1303-1311; series.py _update_inplace 2704-2719; dataframe.py __init__ 160-181, _getitem_column 2614-2636, __setitem__ 2733-2868; indexing.py 486-583, 793-806, 853-897, 1116-1127; numpy/arr.py 167-287. A query compiler is the table it stands for. Not modelled: indexer objects kept across calls, set_backend, chained selections of more than one column, dtypes |
| Nred* (C75) | modin/numpy/arr.py sum 1976-2073, prod 1680-1790, max 529-616, min 618-705, all 2075-2128, any 2132-2185, mean 1405-1540, _norm 1849-1875, argmax 2189-2250, argmin 2252-2313, _validate_axis 289-315; query_compiler.py mean 1037-1095. Not modelled: out=, where=, dtype=, empty arrays, the NaN branches of argmax and argmin, var |
| Nbin* (C74) | modin/numpy/arr.py _preprocess_binary_op 749-863 and its callers without out= and where=; binary.py caller 334-460; dataframe.py broadcast_apply 3233-3335; partition_manager.py base_broadcast_apply 443-494. Not modelled: out=, where=, the replacement of infinities in floor_divide, DataFrames as operands |
| Arr* (C73) | modin/numpy/arr.py array.__init__ (from a query compiler) 181-236, split 1169-1235, _get_shape 2487-2490, _to_numpy 2599-2603; modin/numpy/indexing.py __getitem__ 371-415, _get_numpy_object_from_qc_view 269-330, _compute_lookup 538-601. Not modelled: dtypes, __setitem__, construction from Python lists, callables as keys |
| Mel* (C72) | pandas/dataframe.py melt 1333-1363; query_compiler.py melt 2918-3016; dataframe.py broadcast_apply_select_indices 3398-3480, _prepare_frame_to_broadcast 3337-3373; partition_manager.py broadcast_apply_select_indices 361-439. Not modelled: col_level, dtypes, repeated column labels, deferred relabelling (C46) |
| Itm* (C71) | pandas/dataframe.py __setitem__ 2733-2868; query_compiler.py setitem/_setitem 3129-3243; base/query_compiler.py insert_item. Objects live in a store, so that relabelling the user's value is visible. Not modelled: frames without rows; boolean and slice keys; lists with some columns that exist and some that do not; values other than a frame for several columns (C10's write_items); dtypes |
| Rng* (C70) | merge.py range_partitioning_merge; dataframe.py _apply_func_to_range_partitioning_broadcast; partition_manager.py shuffle_partitions with right_partitions; utils.py pick_samples_for_quantiles' failures; query_compiler.py merge. The pivots are any strictly increasing list; the sampling probability is a parameter. Not modelled: dtypes, suffixes other than a function of the label, indicator= |
| Key* (C69) | dataframe.py set_index, to_labels, _set_index; query_compiler.py set_index_from_columns; pop. Not modelled: frames without rows, MultiIndex columns, repeated column labels, labels that are instances of classes with a __dict__, dtypes |
| Ord* (C68) | query_compiler.py sort_index (one level), _nsort with columns. Not modelled: level, MultiIndex (defaults to pandas), Series.nlargest, repeated column labels in nlargest, ascending=None |
| Ins* (C67) | dataframe.py insert, query_compiler.py insert and _wrap_column_data, base query compiler insert_item (axis=1, how=None), apply_full_axis_select_indices and apply_func_to_select_indices_along_full_axis with keep_remaining, _set_columns (labels put in at once), _join_index_objects with how=None. Not modelled: frames without rows or columns, repeated labels that differ between value and frame, dtypes, callables |
| Dup* (C66) | query_compiler.py duplicated and unique (without range partitioning), base query compiler unique, base.py drop_duplicates. md5 is taken to be injective. Not modelled: frames without rows, an empty subset, subset with repeated column labels or labels not known, range partitioning, Series methods |
| Reset* (C65) | base.py reset_index; query_compiler.py reset_index for a one-level index; dataframe.py from_labels; to_pandas as [look]. Not modelled: several levels, level=, names=, allow_duplicates=, col_level/col_fill, columns precomputed from known index dtypes, Series.reset_index |
| Mask* (C64) | dataframe.py/series.py [_getitem] and query_compiler.py getitem_array with boolean keys; broadcast_apply and base_broadcast_apply (axis 0). pandas' left join with sorting is described in MaskModel.v. Not modelled: repeated labels in a mask whose labels differ from the frame's, frames without rows (given to pandas), object-typed masks |
| Rem* (C62, C63) | pandas/base.py: drop (index=, columns=), dropna; query_compiler.py: drop, dropna; dataframe.py: filter; partition_manager.py: base_broadcast_apply (axis 1). pandas' DataFrame.dropna on a block and Index.difference are described in RemSpec.v and RemModel.v. Not modelled: level=, MultiIndex, inplace=, ignore_index=, dtypes |
| Enl* (C60, C61) | pandas/base.py: reindex (index= and columns=); query_compiler.py: reindex; pandas/indexing.py: _LocIndexer.__setitem__ for non-empty frames, _check_missing_loc, _compute_enlarge_labels, _setitem_with_new_columns, _set_item_existing_loc. pandas' DataFrame.reindex and Index.reindex are described in EnlModel.v for frames with distinct labels. Not modelled: reindex with labels=, method=, level=, limit=, tolerance= (mostly default to pandas), boolean Series keys, Series and DataFrame values (realigned first), tuples as keys, MultiIndex |
| Loc* (C59) | pandas/indexing.py: _LocIndexer.__getitem__ and _helper_for__getitem__ for non-empty frames; storage_formats/base/query_compiler.py: take_2d_labels, get_positions_from_labels. pandas' Index.get_indexer_for and slice_indexer are described in LocSpec.v. MultiIndex labels, boolean Series keys, numbers that are not integers as slice ends, decreasing indexes with absent slice ends, and squeezing are not modelled |
| Corr* (C58) | storage_formats/pandas/aggregations.py: CorrCovBuilder.build_corr_method with its map, combine and reduce kernels; query_compiler.py: cov, _nancorr (cov branch). Rounding, infinities, duplicate column labels, method other than pearson, and non-numeric columns are not modelled |
| Part* (C57) | distributed/dataframe/pandas/partitions.py: unwrap_partitions, from_partitions (node addresses left out); partition_manager.get_indices; xgboost.py DMatrix metadata and Booster.predict, xgboost_ray.py _map_predict, _predict (the booster is a function on tables) |
| Xgb* (C56) | experimental/xgboost/xgboost_ray.py: _assign_row_partitions_to_actors (both modes), create_actors (placement only), _split_data_across_actors, _train up to the start of training, the actor's _get_dmatrix/set_train_data/add_eval_data; the Rabit tracker, XGBoost itself and DMatrix parameters are not modelled |
| Lab* (C55) | dataframe.py `_set_index`, `_set_columns`, `_validate_set_axis`, `synchronize_labels`, `_propagate_index_objs` (effects on the frame), `copy`, `from_labels` (one index level), `to_pandas`; utils.py `lazy_metadata_decorator` (all modes, one frame argument); query_compiler.py and pandas/base.py `reset_index` (no options). Not modelled: dtypes caches, index names other than the one given to the reset, identical-labels test up to `==` of mixed types |
| Save* (C52-C54) | sql_dispatcher.py `write`; parquet_dispatcher.py `write`, `build_index` (range labels); glob_dispatcher.py `write`, `_read` |

## What is not modelled

* pandas, NumPy, PyArrow, the C parser, Ray, Dask, Unidist, MPI themselves; serialisation of objects; actual files (a file is a
  byte list), networks and processes; memory use and speed.
* Frame-level wrappers that only forward arguments (most of pandas/dataframe.py, series.py, base.py), plotting, display.
* Multi-level labels, except as opaque labels; dtypes of results, except C32.
* Native and hybrid execution modes beyond the choice of backend (C35, C47); XGBoost beyond C56, fuzzydata, spreadsheets, SQL queries
  on frames, the polars API; of the NumPy API only what C73 to C75 name.
* Readers: fwf, excel, json, custom text; skipfooter; compressed files beyond what `open` gives.
* `merge` with how outer/cross, index-level keys, other than what C70 says; `rolling`, `resample`, `pivot_table`,
  `describe`, `quantile`, `rank`, `eval`, window functions.
* What each theorem leaves out in addition is in the comment above it and in MANIFEST.json's note.

## Plan per property

| id | model | proof |
|----|-------|-------|
| C01 | compute_chunksize, split loops of from_pandas, to_pandas assembly over lists of rows | chunking/concatenation induction, row and column direction composed |
| C02 | length formulas of from_pandas | arithmetic + length of chunks |
| C03 | get_length_list, generate_result_of_axis_func_pandas | sum of list by induction, slices by cumulative sums |
| C04 | block grid map, the three dynamic-partitioning branches | concat/map homomorphism |
| C05 | axis partition: concat blocks, apply, split | via C03 |
| C06 | tree reduce over list of blocks | monoid fold over concat |
| C07 | positions -> sort -> block lookup -> mask -> unsort | refinement to `nth` selection; refuted for repeated positions that fill a block |
| C08 | _get_dict_of_block_index for lists and slices | cumulative-sum lemmas |
| C09 | _get_new_lengths, mask cache | lengths of selections |
| C10 | broadcast_item, block lookup, item distribution | pointwise update spec; refuted for the length-cache index bug, full-column shortcut, 1-D value sort |
| C11 | rebalance_partitions, both branches | loop invariant |
| C12 | concat of grids | list algebra |
| C13 | _copartition on labels | join/reindex per side |
| C14 | ModinIndex as state machine over histories | invariant: equal ids imply equal labels |
| C15,C16 | byte-level offset/_read_rows/partitioned_file | invariant on quote parity and file position |
| C17 | nrows branches of partitioned_file | invariant; refuted with pre_reading |
| C18 | _manage_skiprows_parameter, _get_skip_mask | case analysis; refuted for some lists |
| C19 | _define_metadata, reader split | arithmetic |
| C20 | csv_glob partitioned_file | invariant over file list; refuted for skiprows>0 and several files |
| C21-C23 | pivots, digitize, bin split, per-bin sort | monotone bin function; permutation; sortedness of concatenation |
| C24,C25 | per-partition groupby, reduce groupby | finite map fold; ring identities over Q |
| C26 | merge as list comprehension | distributivity over append |
| C27-C29 | Parameter/context state machine | invariants over operation lists; refuted for failing context entry |
| C30 | partition call queue | refinement to eager fold |
| C31 | deferred execution flattening | round trip over trees with sharing |
| C32 | DtypesDescriptor state machine | soundness invariant |
| C33 | _determine_partitioning | loop invariant |
| C34 | LIMIT/OFFSET windows, bounds | arithmetic |
| C35 | BackendCostCalculator | argmin of fold |
| C36,C37 | get_chunks; string buffers | tiling; codec round trip |
| C38,C39 | _filter_empties, _propagate_index_objs | list algebra |
| C40 | add_missing_categories | order-preserving insertion |
| C41 | transpose of grids | pointwise |
| C42 | pipeline | composition |
| C43 | the per-type decode/verify/normalize tables on ASCII texts | case analysis and string lemmas |
| C44 | the three variables' methods as one state machine | invariant over histories |
| C45 | parquet: dataset, partition plan, parse, index of the result | composition of C33 with grid assembly |
| C46 | column-store readers: column split, partition assembly | grid assembly |
| C47 | visit_nested_args, casting, pinning, propagation of updates | structural induction over nested arguments |
| C48 | categorical columns: codes, mapping, nulls | pointwise |
| C49 | bit/byte masks, offsets, windows of buffers | arithmetic on bits |
| C50 | merge's validate argument per partition | relation between duplicates of a list and of its pieces |
| C51 | to_csv on Ray and Unidist: the tasks, the signal actor and the file as a transition system | invariant over all interleavings and crashes; well-foundedness of the step relation for termination |
| C52 | the driver's empty insert, the tasks as transactions, crashes before and after commit | invariant: committed tasks form a duplicate-free order whose rows are in the table |
| C53 | a directory as a name-sorted map, the tasks with the shared path variable, crashes with retries | invariant over interleavings, sorting of padded numbers, composition with C45 |
| C54 | file names with decimal numbers, matching and sorted listing, frame from files | extensionality of sorted directories, grid assembly |
| C55 | frames with their two deferred-label flags; label setters, the decorator that propagates before and flags after, copy, transpose, map, fold, tree_reduce, from_labels, to_pandas; sessions of actions on several frames | invariant: the blocks hold the cells of the table, and the right labels on every axis whose flag is clear; kept by every action, so by induction on the session all observations equal those of pandas; label-reading maps need settled labels (refuted otherwise) |
| C56 | the balancing of row partitions over workers: partitions grouped by node, workers filled from their own node, then from what is left; labels following the features' order; the number of workers; the evaluation list | an invariant for the first phase (every worker at most the maximum, remaining maxima plus full workers constant, partitions only moved), a counting argument for the second (nothing is left and nobody is short), permutations for the labelled rows |
| C57 | unwrap_partitions and from_partitions over the frames with deferred labels of C55; distributed prediction on top of them | the pieces are stack/glue/cut of the table; propagation puts the labels into the blocks; the rebuilt grid is a cut of the table and the given labels are deferred |
| C58 | the map and reduce kernels of corr, with their two-level column labels, over exact rationals; cov as pairwise kernels per column partition | the partial sums of the row pieces add up to the sums of the whole columns (pairwise over present rows when there are missing cells); the combined table is read back by label; square root is any function with root 0 = 0 |
| C59 | the translation of labels to positions on each axis, over the selection model of C07, and the assignment of a pandas.Index key to the result | each kind of key gives the positions of the specification (located); then take_2d of C07; the meaning of located is proved from equality and order of labels |
| C60 | base.py reindex, the query compiler's reindex over apply_full_axis of C03 | reindexing rows is column-wise and reindexing columns is row-wise, so the full-axis theorem applies; the meaning of the kernel from equality of labels |
| C61 | _LocIndexer.__setitem__ over the positions of C59, reindex of C60 and the writes of C10 | keys to positions by C59, positions to cells by C10, enlargement by C60; the enlarged frame equals the table with one more row or more columns |
| C62 | base.py drop, the query compiler's drop over take_2d_positional of C07 | the sorted positions of the set difference are the positions of the labels not named; take_2d_positional by C07 |
| C63 | base.py dropna, the query compiler's dropna on both paths, dataframe.py filter, base_broadcast_apply on axis 1 | filter over whole axes keeps a mask cut at the block boundaries; any/all of the pieces is any/all of the whole, so every block drops the same columns |
| C64 | getitem_array with boolean keys, Series._getitem, broadcast_apply with join_type=left over _copartition of C12 | _copartition leaves both sides cut alike (C12); each block then keeps the piece of the mask of its rows; pieces join to the whole mask |
| C65 | the check of base.py, both branches of the query compiler's reset_index, from_labels | the numbers given to row of blocks i start at the sum of the lengths before it, so the results are the blocks of the numbered table; adding a column to the first blocks gives the blocks of the table with the labels |
| C66 | duplicated with its two ways of comparing rows, unique with its kernel and its generic way, drop_duplicates; on top of reduce (C06), apply_full_axis (C39), map, selection by mask (C64), selection of columns (C07), reset_index (C65) | on one block column the kernel sees the whole table; otherwise the digests are one column holding the whole table's rows, equal just where rows are; the marks, inverted, are a mask with the labels of the frame |
| C67 | insert for scalars (into one column partition), lists and objects (masks and concatenation along the columns with how=None), with a store of the frames behind the user's objects | a scalar widens one block column by one: the blocks of the wider table are those of the old one before, shifted after, and the widened one; otherwise the two masks (C07) and the value, aligned by label (C13), are glued together (C12) |
| C68 | sort_index for labels of one level, nlargest and nsmallest with columns; pandas' order of labels and choice of rows are parameters | sorting rows by a permutation got from the labels alone commutes with cutting columns (apply_full_axis on column-wise functions); nlargest on a frame one block wide is the kernel on the whole table; wider frames refuted by computation |
| C69 | set_index with its two branches (columns only; some key an array, where columns are popped one by one and pandas builds the index), as a function from an object to the object afterwards and the result | the extracted columns (C07) have the new labels as rows; popping is induction over the keys with the columns left out so far; errors by following the branches; refutations by computation |
| C70 | range_partitioning_merge, the shuffle of both frames by the left pivots, the per-bin merge, the fallback to the row-axis merge of C26 | rows with the same key are in bins that belong together (the bin of a row depends on its key value only), so the matches of a left row in its bin are its matches in the whole right frame; the bins' rows are a permutation of the frame's, and the bins are ordered by key, so sorted bins one after the other are the sorted frame |
| C71 | DataFrame.__setitem__ for one and for several column labels, over a store of the user's objects (C67) | the runs of columns concatenate to the column list (induction); every piece holds the expected cell under each of its labels, and gluing pieces keeps that; Series by the join with the first frame's labels (C13); new columns by C67 |
| C72 | DataFrame.melt down to the blocks: the frame of identifiers, the dictionary of blocks, melt on one block with pandas' concat(axis=1), the stacked blocks and the new row labels | a take of columns keeps the rows of blocks exactly if none is empty; melt on a block is stated by cells under labels; the stacked blocks are a cut of the stacked table; the order of rows is a permutation of the product (NoDup and membership) |
| C73 | the numpy layer on top of the frame: the constructor (labels numbered anew), indexing with the drop of axes, split by positions and into equal parts | take_2d_positional is already exact (C07); the constructor keeps the cells and numbers the labels; transposing one row gives one column; the loop of split by induction over the positions |
| C74 | the preprocessing of the operands with the swap of caller and callee and the casts, the query compiler's binary method in its three ways (n_ary_op, broadcast along rows, broadcast along columns) down to the blocks | the blocks of both frames are those of one cut (copartition, C13), the block function commutes with cutting; NumPy's broadcasting is a separate specification on values |
| C75 | the reductions of arr.py with their axis checks, the order of the two reductions for axis=None, the transposition of the result, initial and the casts of single results, on top of tree_reduce and reduce (C06) | tree_reduce and reduce give a frame that shows the reduced table (C06 strengthened), so that one reduction can follow another; a permutation argument for columns before rows; the position of the best element of a flattened matrix from the best row and the best element in it; NumPy's reductions are a separate specification on values |
| C76 | the objects with their query compilers, sibling lists, parent and parent axis, and the calls that make and change them, as a state machine; pandas as a second state machine of buffers and references to them | an invariant on the sibling lists and parents (every sibling list is the family without the object, parents stay in the family) by induction on the history; a simulation between the two machines for histories without selections; the rest by computation on counterexamples |
| C77 | the tables of extensions and the class dictionaries as a state changed by registrations, the lookup of a name on an object and on the module, and attribute assignment; the promise as a function of the history alone | the extension tables in closed form (last registration) by induction on the history, the class dictionaries by an invariant (native entry, or a dispatching wrapper made by a function registration); then by cases; the rest by computation on counterexamples |
| C78 | the calls on a partitioned frame: which blocks or whole lines pandas' function is applied to, with which arguments, and what is done with the results; pandas' functions as functions on a table | a function on lines commutes with cutting the other axis (column-wise, row-wise), a function on cells with cutting both; the positions through the tree-reduction law; mode as padding followed by dropping rows; the rest by computation on counterexamples |
| C79 | both API methods, the query compiler's dot with its special cases for one column, the kernel that runs pandas' dot on each whole row (or the whole frame) and relabels the result, and the conversion of the result to a Series, a scalar or an array; pandas' dot and Index.union on whole tables | the other operand reindexed once gives the same product (idempotence of the union); the product is a function of each row, so it commutes with cutting rows; a frame with one column is a single block; the label rules by computation on counterexamples |
| C80 | the API methods, the frame's explode on whole rows, the labels and lengths it takes from the new blocks, and reset_index for ignore_index; pandas' explode on a table with any function giving the elements of a cell | a function on whole rows applied band by band gives the bands of the tables below each other; explode distributes over such bands, also in failing; reset_index from C65 |
| C81 | get_dummies of the API and the query compiler: the choice of columns, the selection, the kernel on whole columns, drop and concat side by side; pandas' get_dummies with any categories and labels | a function on whole columns that keeps the row labels gives its results side by side, whatever their widths; encoding distributes over column bands; side-by-side tables can be regrouped; selection and drop from C07 and C62 |
| C82 | the syntax tree, the stack walk that decides whether an expression is row-wise, the filter on whole rows; pandas' query with any operators on values; the way through eval for calls is not modelled | the walk accepts exactly names, constants and operators; the value of an expression on a slice of the rows is the slice of its value (induction on the expression), errors included; filter from C63 |
| C83 | query compilers as shared mutable objects with a frame and a shape hint, DataFrames and Series referring to them, eight calls, isin block by block | invariant over histories: each object shows its table, a hint implies one column, a Series has the hint; functions that agree on tables of one column agree on frames of one column; isin of C78 |
| C84 | the dtype checks, dropping of non-numeric columns, selection by label, full-axis application with given labels, transposition | the kernels are column-wise and row-wise, so full-axis application computes them on the whole table (C05-C07); dropping by label as in C62; selection by label as in C71 |
| C85 | the Series as blocks of rows, arguments of five kinds, the preparation of Series arguments, the loop over blocks with its offset, pandas' case_when on each block | what an argument stands for in a block is the slice of what it stands for in the whole; choosing commutes with slicing; a list that is too short is too short in some block |
| C86 | the join of the query compiler with the swap for 'right', the gathered other side, merge_partitioning, the row blocks joined one by one and split by width | the join works row by row on the driving side and its errors depend on headers only; blocks of results below each other are the result of the whole |
| C87 | DataFrame.join without on over the column-wise concat of C12, with the joined labels for each kind of join, and the assignment of the headers | C12's alignment puts the cells of each joined label side by side; with unique labels pandas' matching finds exactly those rows |
| C88 | the iterator with its keys fixed at the start, iloc of C07 on the current frame at every step, an arbitrary body that replaces the frame | induction over the remaining keys with the invariant that rows still to come are those of the start; C07 gives each row |
| C89 | the iterator of C88 along the columns, iloc of C07 on the current frame at every step, an arbitrary body that replaces the frame | induction over the remaining headers with the invariant that headers still to come are those of the start; C07 gives each column |
| C90 | the comparison of the labels, the cutting of both frames as in C13, one answer for every pair of blocks, their conjunction | the copartition lemmas of C13 give equal cuts of both tables; equal blocks give equal tables by putting them together again |
| C91 | all Series of a session by number, the renaming in place, the comparison of C90, the renaming back | C90's block lemma on the renamed tables; the four renamings followed step by step for distinct and for identical objects |
| C92 | the marks on the headers, the headers marked, the selection of columns by labels of C71 | the positions found by label are those of the marks, by distinctness of the headers; C07 gives the columns |
| C93 | the positions of the bounds by pandas' slice_locs, then iloc by a slice (C07) | on increasing labels the rows below and up to a bound are prefixes, so the slice between the two counts is the rows between the bounds |
| C94 | head and tail as slices given to iloc (C07) | Python's rule for the bounds of a slice gives the two positions; C07 gives the rows between them |
| C95 | take as the selection by position of C07, with the way iloc takes tuples apart | positions inside become distinct block positions; C07 gives the rows or columns |
| C96 | the loop of assign over the column assignment of C71 on a copy in the store of objects | induction over the columns: each step shows the table with the column put and can be used again |

## Findings

Places where the code does not do what the property says.  Each line with a theorem name is proved of the model by
computation; lines without one were seen while reading and are not proved.

| id | what happens | theorem |
|----|--------------|---------|
| F1 | df.iloc[[0,0]] returns rows 0 and 1 when the list is as long as the block | C07_repeated_positions_refuted |
| F2 | df.iloc[[2,1,0], 0] = [7,8,9] (a whole column, or a whole row) ignores the order of the positions | C10_whole_column_order_refuted, C10_whole_row_order_refuted |
| F3 | df.iloc[1:4, cols] = array with uneven row blocks repeats the first values: the length cache is read at the entry's number instead of its block's | C10_uneven_blocks_refuted |
| F4 | a flat value is permuted by the order of the rows; df.iloc[3,[0,1]] = [7,8] writes 7 twice; the order of the columns is ignored | C10_row_order_refuted, C10_cells_of_one_row_refuted, C10_column_order_refuted |
| F5 | df.iloc[range(-2,2)] on four rows returns the frame unchanged | C07_negative_range_refuted |
| F6 | read_csv skiprows list starting right after the header and scattered | C18_after_header_refuted |
| F7 | read_csv nrows with rows skipped below row n | C17_skip_below_refuted |
| F8 | context(A=..., B=bad) leaves A changed | C29_failed_entry_refuted |
| F9 | read_csv_glob with skiprows > 0, a header and several files | C20_skiprows_header_refuted |
| F10 | dtypes merged in the wrong order when names come late | C32_late_names_refuted |
| F11 | lazily selecting from partly known dtypes, and copying them, raises ValueError | C32_reorder_fails_refuted, C32_copy_fails_refuted |
| F12 | df.iloc[3:1] returns rows; df.iloc[5:1, cols] = x writes rows | C07_backward_slice_refuted, C10_backward_slice_refuted |
| F13 | get_chunks() of one interchange column always raises AttributeError | C36_column_chunks_refuted |
| F14 | resample by range partitioning drops closed_on_right |  |
| F15 | map_partitions in dynamic mode on an empty grid: IndexError |  |
| F16 | iloc accepts a boolean mask of the wrong length |  |
| F17 | NPartitions.put(0) raises, stays stored and breaks every later call | C27_npartitions_refuted |
| F18 | context cannot restore a variable whose default is None | C29_none_default_refuted |
| F19 | put('false') on a boolean variable gives True | C43_bool_text_refuted |
| F20 | set_execution that fails half-way leaves engine and backend inconsistent | C44_set_execution_refuted |
| F21 | read_parquet of a dataset with columns and no row group: ZeroDivisionError | C45_no_row_groups_refuted |
| F22 | read_hdf loses stored row labels | C46_store_labels_refuted |
| F23 | operands nested in tuples are not cast to the common backend | C47_nested_tuple_refuted |
| F24 | GroupBy objects cannot be updated in place after a cast (NotImplementedError) |  |
| F25 | indexers do not pin their frame's backend |  |
| F26 | casting changes the caller's own lists | C47_caller_list_refuted |
| F27 | concat(axis=1) with a frame without rows | C12_empty_frame_refuted |
| F28 | binary operations pair wrong blocks when the right widths are unknown |  |
| F29 | binary operations with an empty row block in the middle | C13_empty_block_refuted |
| F30 | binary operations when the left widths are unknown | C13_unknown_widths_refuted |
| F31 | df._repartition() along both axes leaves stale lengths | C14_repartition_refuted, C14_stale_lengths_refuted |
| F32 | df.index = labels of the wrong length is accepted while the index is lazy |  |
| F33 | a missing categorical entry comes back as the last category | C48_missing_category_refuted |
| F34 | the category -1 comes back as missing | C48_minus_one_refuted |
| F35 | a padded validity mask is misread | C49_padded_mask_refuted |
| F36 | a window of a larger buffer is misread | C49_window_refuted |
| F37 | object columns with values that are not exact str | C37_object_values_refuted |
| F38 | Python engine: a failing drain loses the whole queue, later reads are stale | C30_failed_drain_refuted |
| F39 | a quote inside an unquoted field changes where chunks are cut | C15_stray_quote_refuted |
| F40 | read_csv nrows counts blank lines | C17_blank_lines_refuted |
| F41 | a blank first line loses one row per later chunk | C16_blank_first_line_refuted |
| F42 | a skiprows entry past the end of the file: IndexError | C18_past_end_refuted |
| F43 | blank lines shift list and callable skiprows | C18_blank_lines_refuted |
| F44 | read_csv nrows=0 reads everything | C17_zero_rows_refuted |
| F45 | a single unterminated line with an encoding and no header is lost | C16_single_line_encoding_refuted |
| F46 | a newline inside a quoted column name swallows rows | C16_header_newline_refuted |
| F47 | BOM encodings without a final newline: the reader never ends | C17_unterminated_never_ends_refuted |
| F48 | NPartitions=1 with several row partitions: the shuffle fails or keeps keys apart | C21_one_partition_refuted, C23_one_partition_refuted |
| F49 | shuffle on several key columns with a partition of exactly one non-missing row: ValueError | C23_single_row_refuted |
| F50 | sort_values with a key function that makes values missing misplaces rows | C22_key_function_refuted |
| F51 | groupby min_count of 2 or more is applied to partial results | C24_min_count_refuted |
| F52 | groupby mean/skew with every key missing returns duplicated columns | C25_no_key_refuted |
| F53 | groupby by a Series of a frame whose row partitions have other lengths loses rows | C24_other_lengths_refuted |
| F54 | ... or another number of row partitions: AssertionError | C24_other_number_refuted |
| F55 | merge with a left frame without blocks: IndexError | C26_empty_left_refuted |
| F56 | merge on crosswise key headers announces wrong columns | C26_swapped_keys_refuted |
| F57 | merge(sort=True) without key names is not sorted | C26_common_keys_sort_refuted |
| F58 | merge(how='right', sort=True) on differently named keys | C26_right_sort_refuted |
| F59 | merge(indicator=True) announces wrong columns | C26_indicator_refuted |
| F60 | merge(validate=...) misses duplicate left keys in different row partitions | C50_left_keys_refuted |
| F61 | dtypes wrong after rename of frames glued with unknown dtypes first | C32_remaining_first_refuted |
| F62 | concat(axis=0, join='inner') keeps dtypes of dropped columns | C32_inner_join_refuted |
| F63 | concat(axis=0, sort=True) leaves dtypes unsorted | C32_sorted_join_refuted |
| F64 | the set of dtypes names a dtype no column has | C32_spare_dtype_refuted |
| F65 | asking for the set of dtypes changes their order | C32_asked_set_refuted |
| F66 | categorical groupby fills all columns with one column's neutral value | C40_fill_value_refuted |
| F67 | categories not in the order of their values come out of place | C40_category_order_refuted |
| F68 | several keys: missing keys out of place when rows are spread by the second | C40_second_key_refuted |
| F69 | batch pipeline: a fan-out query is reduced by a later query's reducer | C42_other_reducer_refuted, C42_no_reducer_refuted |
| F70 | Ray deferred execution: a failing operation makes an unrelated shared one fail | C31_failed_sibling_refuted |
| F71 | ... or only its shape | C31_failed_metadata_refuted |
| F72 | nested tuples reach the function as lists | C31_nested_tuple_refuted |
| F73 | df.iloc[[0,0,1], 0] = 5 on three rows sets the whole column | C10_repeated_rows_refuted |
| F74 | assigning a whole column (row) by position writes every column (row) of that name, or the first one | C10_same_header_refuted, C10_same_label_refuted |
| F75 | df.iloc[0, []] = 9 on a frame of one cell sets it | C10_nothing_selected_refuted |
| F76 | df.iloc[:, [0]] = [9] raises ValueError; a one-row array for listed rows raises IndexError | C10_one_value_refuted, C10_one_row_array_refuted |
| F77 | df.loc[new_row, 'a'] = x fills the other columns with 0; df.iloc[:,0] = [[1],[2]] stores lists |  |
| F78 | drop_duplicates(ignore_index=True) by range partitioning restarts the labels in every partition |  |
| F79 | experimental read_sql loses rows whose partition column is outside the bounds or between integers |  |
| F80 | to_csv(mode="x") of a frame with several row partitions raises after writing a part of the file | C51_exclusive_mode_refuted |
| F81 | to_csv of a frame without rows writes nothing, not even the header | C51_no_rows_refuted |
| F82 | to_csv chooses column-wide formats (dates or times) per row partition | C51_column_format_refuted |
| F83 | to_sql: a task whose process dies after its commit is run again by Ray: its rows are in the table twice | C52_retry_refuted |
| F84 | to_sql: rows arrive in the order in which the tasks commit | C52_row_order_refuted |
| F85 | to_sql: when one partition is refused, the rows of others stay (pandas writes all or nothing) | C52_not_atomic_refuted |
| F86 | to_sql of a frame without rows raises IndexError | C52_no_rows_refuted |
| F87 | to_parquet does not remove the files of an earlier write to the same directory; read_parquet returns their rows too | C53_stale_files_refuted |
| F88 | to_parquet on a worker with several threads: the path variable is shared, a partition can overwrite another's file | C53_threads_refuted |
| F89 | to_parquet with more than 10000 row partitions: file names sort in another order than the partitions | C53_many_files_refuted |
| F90 | to_parquet of a frame with a RangeIndex other than 0..n-1 in several partitions: read_parquet returns 0..n-1 | C53_range_labels_refuted |
| F91 | to_*_glob with more than ten row partitions: read back in another row order (f10 before f2) | C54_eleven_files_refuted |
| F92 | to_*_glob leaves files of an earlier write with more partitions, which read_*_glob returns | C54_stale_files_refuted |
| F93 | after `df.columns = ...` (or `df.index = ...`) element-wise functions that look at labels (`round({col: n})`, `replace({col: ...})`, `isin(dict or DataFrame)`) see the old labels: `map` does not propagate deferred labels | `C55_rename_then_map_refuted` |
| F94 | `reset_index` with an index named like a column silently makes a duplicate column; pandas raises ValueError | `C55_reset_index_name_refuted` |
| F95 | xgboost.train on a cluster with more nodes than the data has row partitions raises ValueError (one worker per node is created, one gets no partition, and `zip(*[])` cannot be unpacked) | C56_more_nodes_refuted |
| F96 | xgboost.train with features and labels that have the same number of partitions but are cut at different rows (two frames partitioned independently) trains on rows paired with other rows' labels, silently, when partitions lie on several nodes | C56_cut_unalike_refuted |
| F97 | xgboost.train(evals=[(dtrain, 'train'), (dval, 'val')]) evaluates dtrain last, so early stopping watches the training set; the caller's list also loses the dtrain entry | C56_order_refuted |
| F98 | xgboost.train with dtrain under two names in evals evaluates only the last name | C56_two_names_refuted |
| F99 | unwrap_partitions(df, axis=None) of a DataFrame built without rows raises IndexError, and from_partitions cannot rebuild what unwrap_partitions(df, axis=0) returns for it (an empty list: IndexError) | C57_empty_refuted |
| F100 | df.corr() is wrong when the columns are not in sorted order and some row partitions have missing cells and others have none: the sums of the two kinds of partitions are added under each other's columns | C58_unsorted_refuted |
| F101 | df.corr() writes zeros over the missing cells of the caller's table when the engine hands the stored partition itself to the kernel (df.values is then a view that np.putmask modifies) | C58_overwrites_refuted |
| F102 | df.cov(min_periods=n) with n above the number of rows returns a table labelled 0, 1, ... instead of with the column names | C58_cov_labels_refuted |
| F103 | df.cov(ddof=k) on data with missing cells uses k; pandas ignores it there and divides by n - 1 | C58_cov_ddof_refuted |
| F104 | df.cov(ddof=k) with k above the number of rows divides by a negative number, giving negative variances; pandas divides by zero there | C58_cov_negative_refuted |
| F105 | df.loc[0:4:2] on integer labels leaves out the end label 4 (the step is subtracted from the end, as if it were a range) | C59_step_slice_refuted |
| F106 | df.loc[range(0, 5, 2)] leaves out label 4 | C59_step_range_refuted |
| F107 | df.loc[range(0, 3)] on labels 0, 5, 1, 2, 7 also returns row 5, and on 0, 10, 20, ... returns row 0 where pandas raises KeyError | C59_range_refuted |
| F108 | df.loc[pandas.RangeIndex(0, 2)] selects positions 0 and 1 whatever their labels, and then renames those rows 0 and 1 | C59_rangeindex_refuted |
| F109 | df.loc[["1"]] on integer labels returns row 1 (the list is converted to the dtype of the labels); pandas raises KeyError | C59_coerced_refuted |
| F110 | df.loc[mask] with a list of booleans that is too short is accepted; pandas raises IndexError | C59_mask_length_refuted |
| F111 | df.loc[pandas.Index([1])] raises ValueError when label 1 occurs twice; with the list [1] it works | C59_index_duplicates_refuted |
| F112 | df.loc[3:0] fails with an internal error on some partitionings; pandas returns no rows | C59_backward_slice_refuted |
| F113 | df.loc[[0, 0]] fails with an internal error on some partitionings | C59_repeated_refuted |
| F114 | df.reindex(index=pandas.Index(...), columns=[...]) raises AttributeError (the type of index decides how columns is compared) | C60_index_and_list_refuted |
| F115 | df.reindex(labels, copy=False) returns None and changes df | C60_in_place_refuted |
| F116 | df.loc[new_row, column] = v and df.loc[row, new_column] = v, both scalars, raise KeyError; pandas adds the row or column | C61_new_row_one_cell_refuted |
| F117 | df.loc[new_row, [column]] = v writes 0 into the other cells of the new row; pandas leaves them missing | C61_new_row_zero_refuted |
| F118 | df.loc[new_row, ...] = v that raises has already added a row of zeros (wrong length of value, or a new column too) | C61_half_done_refuted |
| F119 | df.loc[new_row] = values raises ValueError when other row labels repeat; pandas adds the row | C61_repeated_labels_refuted |
| F120 | df.loc[[], column] = v and df.loc[[False, False, False], column] = v raise KeyError; pandas does nothing | C61_nothing_selected_refuted |
| F121 | df.loc[:, [True, False]] = v adds columns named True and False | C61_boolean_columns_refuted |
| F122 | df.loc[:, pandas.Index(columns)] = v raises KeyError when a column is new; a list works | C61_new_columns_index_refuted |
| F123 | df.loc[:, [old, new]] = [1, 2] raises ValueError; pandas writes one value down each column | C61_one_row_of_values_refuted |
| F124 | df.drop(columns=(1, 2)) (or index=) drops labels 1 and 2; pandas drops the label (1, 2) | C62_tuple_refuted |
| F125 | df.dropna(axis=1) with a repeated column label returns each of these columns several times | C63_repeated_columns_refuted |
| F126 | df.dropna(axis=1) with a repeated column label keeps a column with missing values if a namesake in its block has none; with many partitions it does not | C63_missing_kept_refuted |
| F127 | df[mask] with a mask whose labels are in another order returns the rows sorted by label; pandas keeps their order | C64_order_refuted |
| F128 | df[mask] raises ValueError for a mask with values for more labels than the frame has; pandas takes those it needs | C64_longer_mask_refuted |
| F129 | series[mask] ignores the labels of the mask: with labels in another order it returns other rows than pandas | C64_series_labels_refuted |
| F130 | reset_index of an index named like a column returns a frame with that column twice if the row labels are known; pandas, and Modin with labels not known, raise ValueError | C65_named_like_column_refuted |
| F131 | reset_index of a named index raises ValueError if the columns include "level_0" and "index", though neither is to be inserted; pandas, and Modin with row labels not known, answer | C65_named_index_refuted |
| F132 | duplicated compares rows by md5 of their text once the frame is more than one block wide: rows differing in 0.0/-0.0 only are not duplicates then, in pandas and on one block column they are | C66_zeros_refuted |
| F133 | drop_duplicates on more than one block column drops a row that is no duplicate: 2**53 and 2**53+1 beside a float column have the same text, because df.apply(axis=1) makes floats of them | C66_rows_lost_refuted |
| F134 | drop_duplicates(keep="last", ignore_index=True) of one column keeps the first ones | C66_last_refuted |
| F135 | df.insert(loc, name, s) (and df[name] = s for a new name) renames the user's Series s, or the column of a one-column frame given as the value | C67_value_renamed_refuted |
| F136 | df.insert(1, "b", df) on a one-column frame renames its own column: two columns "b" | C67_into_itself_refuted |
| F137 | df.insert of a scalar with allow_duplicates=True raises ValueError if the label is in the block column the new column goes to, and works otherwise | C67_allow_duplicates_refuted |
| F138 | df.nlargest(n, columns) and df.nsmallest raise KeyError on a frame more than one block column wide: every block column looks for the key columns | C68_wide_refuted |
| F139 | df.set_index(["a", array], drop=False) raises KeyError | C69_kept_column_refuted |
| F140 | df.set_index(["a", array], inplace=True) that fails (wrong length, verify_integrity) has already removed column "a" from df | C69_half_done_refuted |
| F141 | df.set_index(["a", array, "a"]) raises KeyError | C69_repeated_with_values_refuted |
| F142 | a column whose label is a tuple cannot be a key together with an array: KeyError | C69_tuple_label_refuted |
| F143 | df.set_index(["a", "a"]) raises when the block column of "a" has two columns (the selection of repeated positions, F of C07) | C69_repeated_column_refuted |
| F144 | with range partitioning, df.merge(other, how="left"/"inner", on=c, sort=False) returns the rows in key-range order, not in the order of the left frame | C70_order_refuted |
| F145 | with range partitioning, merge raises ValueError when the left frame has several row partitions and few rows (for example 2 rows in 2 partitions after a filter): the guard against a sampling fraction above 1 is missing in the broadcast variant | C70_small_left_refuted |
| F146 | with range partitioning, a left merge with an empty right frame loses all rows of a left frame in several row partitions | C70_empty_right_refuted |
| F147 | with range partitioning, an empty left frame raises ZeroDivisionError or IndexError in merge | C70_empty_left_refuted |
| F148 | df["a"] = series for a column that exists renames the user's Series to a | C71_series_renamed_refuted |
| F149 | df["a"] = frame for a column that exists takes the frame's first column by position, without regard to the row labels, and ignores further columns (pandas aligns, and raises ValueError for several columns) | C71_frame_refuted |
| F150 | df[["a", "b"]] = frame with other row labels adds rows to df (pandas keeps df's rows) | C71_columns_add_rows_refuted |
| F151 | df[["a", "b"]] = frame renames the columns of the user's frame | C71_columns_renamed_refuted |
| F152 | an array that is too long, or has a second column, is cut silently in df["a"] = array for a column that exists (pandas: ValueError) | C71_long_array_refuted |
| F153 | df["a"] = series where two columns are called a replaces the first one only (pandas: both, as modin does for a scalar) | C71_same_name_refuted |
| F154 | df["a"] = series on a frame with rows and no columns replaces the row labels by those of the Series (pandas aligns) | C71_no_columns_refuted |
| F155 | melt with a value column that does not exist melts the last column (pandas: KeyError) | C72_absent_column_refuted |
| F156 | melt with a value column given twice fails (pandas takes it once) | C72_column_twice_refuted |
| F157 | melt with a column that is both an identifier and a value fails (pandas leaves it out of the values) | C72_id_as_value_refuted |
| F158 | melt with identifiers of a frame with an empty row of blocks and cached lengths (after a filter and len(df)) pairs the blocks wrongly: all values become missing, silently | C72_empty_block_refuted |
| F159 | melt with value_name equal to a column: an error or not, depending on the partitioning (pandas: ValueError) | C72_value_name_refuted |
| F160 | melt(ignore_index=False) numbers the rows all the same (pandas repeats the labels) | C72_keep_index_refuted |
| F161 | melt(id_vars=[...], value_vars=[]) melts all other columns (pandas: an empty frame) | C72_no_columns_refuted |
| F162 | modin.numpy a[[0,1],[1,0]] gives the cross product of the lists (NumPy reads them together) | C73_two_lists_refuted |
| F163 | modin.numpy v[2, 0] of a 1-D array answers (NumPy: IndexError) | C73_too_many_indices_refuted |
| F164 | modin.numpy accepts a boolean mask that is too short (NumPy: IndexError) | C73_short_mask_refuted |
| F165 | modin.numpy a[:, 1:1] raises ValueError (NumPy: an array without columns) | C73_no_columns_refuted |
| F166 | modin.numpy split at a position further back than the length repeats elements, silently | C73_split_far_back_refuted |
| F167 | modin.numpy split at [2, 0] loses elements of the last part, silently | C73_split_zero_refuted |
| F168 | modin.numpy split of columns at positions beyond the last one raises ValueError (NumPy: empty parts) | C73_split_beyond_refuted |
| F169 | modin.numpy a + row with a row of shape (1, m) makes every row but the first NaN, silently (labels are joined instead of broadcasting) | C74_one_row_refuted |
| F170 | modin.numpy column + a raises AssertionError although a + column works | C74_column_first_refuted |
| F171 | modin.numpy column + row raises ValueError (NumPy broadcasts) | C74_outer_refuted |
| F172 | modin.numpy column + vector raises ValueError (NumPy broadcasts) | C74_column_vector_refuted |
| F173 | modin.numpy v + one with a one-element vector raises IndexError (NumPy broadcasts) | C74_one_element_refuted |
| F174 | modin.numpy //, ** and % of a vector and a matrix are refused | C74_floor_divide_refuted |
| F175 | modin.numpy x + y changes the dtype of its operands for good: integers added to floats become floats in x itself and large ones lose precision | C74_operand_changed_refuted |
| F176 | modin.numpy max and min skip NaN: max([1, nan, 3]) is 3 (NumPy nan) | C75_max_nan_refuted |
| F177 | modin.numpy max/min(v, initial=i, keepdims=True) of a vector is always [i]: the comparison with initial asks a query compiler for its truth value | C75_initial_keepdims_refuted |
| F178 | modin.numpy any/all(a, keepdims=True) of a 2-D array is always [[True]] | C75_any_keepdims_refuted |
| F179 | modin.numpy any([nan]) is False (NumPy True) | C75_any_nan_refuted |
| F180 | modin.numpy sum(a, keepdims=True) of truth values is [[True]], not their number | C75_sum_keepdims_refuted |
| F181 | modin.numpy reductions of a vector accept any axis above 1 (NumPy AxisError) | C75_axis_refuted |
| F182 | modin.numpy norm(a, axis=k) has shape (1,) instead of one norm per column | C75_norm_axis_refuted |
| F183 | modin.numpy norm skips NaN | C75_norm_nan_refuted |
| F184 | modin.numpy argmax/argmin(a, keepdims=True) of a 2-D array is cast to a truth value: position 5 becomes 1 | C75_argmax_keepdims_refuted |
| F185 | modin.numpy mean(a, keepdims=True) of integers is cut to an integer: [[1]] for [[1, 2]] | C75_mean_keepdims_refuted |
| F186 | modin.numpy mean(a) of a 2-D array of truth values is 1/n whatever their number | C75_mean_bool_refuted |
| F187 | modin.numpy mean(a, keepdims=True) with NaN is a scalar | C75_mean_nan_keepdims_refuted |
| F188 | b = a.copy(deep=False) (or DataFrame(a)); b['new'] = v adds the column to a as well | C76_new_column_refuted |
| F189 | b = a.copy(deep=False); b['x'] = v overwrites a['x'] (pandas replaces the column of b only) | C76_column_overwritten_refuted |
| F190 | b = a.copy(deep=False); b.columns = [...] renames the columns of a | C76_shallow_labels_refuted |
| F191 | b = DataFrame(a); b.drop(..., inplace=True) drops the rows of a | C76_constructor_drop_refuted |
| F192 | b = DataFrame(a); b.columns = [...]; a write to a makes b lose its own labels | C76_constructor_labels_refuted |
| F193 | s = df[c]; t = df[c]; writing through s and then through t loses the first write in df | C76_lost_write_refuted |
| F194 | s = df[c]; a write to df followed by a write through s undoes the write to df | C76_write_undone_refuted |
| F195 | s = df[c]; a write to df is not seen in s (seen in pandas without copy-on-write) | C76_column_stale_refuted |
| F196 | s = df[c]; s.reset_index(drop=True, inplace=True); s.iloc[0] = v makes the whole column of df missing | C76_relabelled_column_refuted |
| F197 | s = df[c]; s.name = z; s.iloc[0] = v adds a column z to df | C76_renamed_column_refuted |
| F198 | s = df.iloc[:, j]; s.iloc[0] = v adds a row named after the column to df and does not write the cell | C76_iloc_column_refuted |
| F199 | t = s.iloc[a:b] of a Series; t.iloc[0] = v adds an entry named after the Series to s | C76_slice_refuted |
| F200 | a = modin.numpy.array(df, copy=False); a[i, j] = v makes df lose its labels | C76_array_labels_refuted |
| F201 | t = df[c].copy(deep=False); t.iloc[0] = v is not seen in df | C76_copied_column_refuted |
| F202 | a class registered on DataFrame or Series (the usual accessor, df.geo) is accepted and df.geo raises AttributeError | C77_class_refuted |
| F203 | a function registered over an existing property (e.g. shape) is accepted and ignored | C77_over_property_refuted |
| F204 | a function registered over a class method (e.g. from_dict) is accepted and ignored | C77_class_method_refuted |
| F205 | a property registered for the base class wins over DataFrame's own method of that name | C77_base_wins_refuted |
| F206 | a function registered for DataFrame on one backend makes the base class's default function of that name raise on the others | C77_shadow_refuted |
| F207 | a new function registered for the base class first is called although DataFrame has its own registration | C77_base_first_refuted |
| F208 | the order of two registrations for different classes decides which function is called | C77_order_refuted |
| F209 | a new function registered for one backend makes df.name raise on other backends where it was a column | C77_hides_column_refuted |
| F210 | a function registered over a pandas method is not called on empty frames and Series | C77_empty_refuted |
| F211 | names that are never looked up (_pinned, ...) but not reserved: registration accepted and ignored | C77_never_looked_up_refuted |
| F212 | df.head = v raises AttributeError with nothing registered (pandas, and Series, store it) | C77_assign_function_refuted |
| F213 | series.a = v for an entry a does not change the Series | C77_assign_entry_refuted |
| F214 | a base-class property with the name of a column: df.x reads the property, df.x = v sets the column | C77_assign_column_refuted |
| F215 | a function registered on the module for one backend over a class or value removes it on every other backend | C77_module_class_lost_refuted |
| F216 | a value registered on the module for one backend is hidden by a function registered for another | C77_module_value_hidden_refuted |
| F217 | a default value registered on the module over a function is not seen | C77_module_default_refuted |
| F218 | clip with a list of bounds of which one is NaN ignores all of them (pandas ignores that one) | C78_clip_nan_refuted |
| F219 | first_valid_index and last_valid_index raise IndexError if one column has no valid cell and another in the same block has | C78_missing_column_refuted |
| F220 | first_valid_index and last_valid_index raise if nothing is valid (pandas returns None) | C78_all_missing_refuted |
| F221 | mode(dropna=False) loses the rows whose modes are all missing | C78_mode_missing_refuted |
| F222 | df.dot of a frame with several columns by a DataFrame or array with one column labels the resulting column '__reduced__' | C79_one_column_label_refuted |
| F223 | df.dot of a frame with one row and one column by a DataFrame with one column labels the resulting row '__reduced__' | C79_one_cell_label_refuted |
| F224 | df.dot of a frame with one column by a Series or 1-d array returns a Series named 0; with one row the label of the row becomes 0 | C79_one_column_name_refuted |
| F225 | series.dot(DataFrame with one column) loses the name of the Series and labels the result '__reduced__' | C79_series_label_refuted |
| F226 | series.dot(2-d array with one column) returns an array without dimensions instead of an array of length 1 | C79_series_array_refuted |
| F227 | get_dummies(df, prefix=[...]) or prefix={...}: every column block gets all prefixes, so a frame whose encoded columns are in several column blocks raises ValueError | C81_prefixes_refuted |
| F228 | get_dummies(df, columns=cs) with all columns named in another order: the dummies come in the order of the frame | C81_order_refuted |
| F229 | get_dummies(df, columns=cs, prefix=[...]) with all columns named in another order: the prefixes go to the wrong columns | C81_prefix_order_refuted |
| F230 | get_dummies(df, columns=cs) with a label that is not there: no KeyError; the label is ignored, or the last column comes twice | C81_unknown_refuted |
| F231 | get_dummies(df): encodes date and other non-numeric columns too; pandas encodes object, string and category columns only | C81_dates_refuted |
| F232 | df.query("a in b") and "a not in b" with two columns count as row-wise: each row block searches only its own part of b, so rows are lost or kept wrongly | C82_in_column_refuted |
| F233 | df.query("a < @array") with one value for each row counts as row-wise: each row block is compared with the whole array and raises ValueError | C82_array_refuted |
| F234 | df.query with a name in backticks: the check parses the text with Python's ast, which raises SyntaxError | C82_quoted_refuted |
| F235 | df[["a"]].isin({"a": [...]}) tests whether the values are keys of the dict: selecting one column marks the frame as a Series | C83_selected_refuted |
| F236 | df[["a"]].isin(series) ignores the row labels, and takes a Series with repeated labels where pandas raises ValueError | C83_series_refuted |
| F237 | df.squeeze(axis=1) of a one-column frame changes what df.isin answers later: the mark is set on the query compiler of df itself | C83_squeeze_refuted |
| F238 | s.to_frame().isin(dict) tests against the keys of the dict | C83_to_frame_refuted |
| F239 | (df * 2).isin(dict) of a one-column frame tests against the keys of the dict | C83_scalar_refuted |
| F240 | df[["a"]] with two columns named a is marked as a Series; the answer of isin depends on whether the two columns are in one block | C83_repeated_refuted |
| F241 | df.quantile([...], axis=1) over an int64 and a float64 column raises TypeError; pandas answers | C84_mixed_refuted |
| F242 | df.quantile([...], numeric_only=True) leaves out numeric columns that share their label | C84_repeated_refuted |
| F243 | df.quantile([...], axis=1) counts columns with a repeated label several times | C84_repeated_rows_refuted |
| F244 | s.case_when with a function that looks at several rows (s > s.mean()) applies it to each block on its own | C85_function_refuted |
| F245 | s.case_when([(list, x)]) cuts off a list of conditions that is longer than s; pandas raises ValueError | C85_long_list_refuted |
| F246 | s.case_when([(pandas_series, x)]) on a Series with float labels slices the condition by label instead of by position and replaces rows where the condition is false | C85_float_labels_refuted |
| F247 | left.join(right) with the same row labels on both sides, some repeated, pairs rows by position; pandas pairs every row with every row of the same label | C87_repeated_refuted |
| F248 | df.iterrows() with a body that drops the row it was given in place skips every other row and ends with IndexError; pandas gives all rows of the start | C88_drop_refuted |
| F249 | df.iterrows() with a body that sorts df in place gives some rows twice and others never | C88_sort_refuted |
| F250 | df.items() with a body that renames the columns in place gives the new names; pandas gives the names of the start | C89_rename_refuted |
| F251 | df.equals(other) returns False for the same table if both have an empty row block in the middle and only the column widths of df are known | C90_right_widths_refuted |
| F252 | df.equals(other) raises IndexError in the same situation if only the column widths of other are known | C90_left_widths_refuted |
| F253 | df.filter(items=["c", "a"]) returns the columns in the order of df; pandas returns them in the order of the items | C92_order_refuted |
| F254 | df.filter(like=...) with a repeated header returns its columns several times, and columns that do not pass the test under that header | C92_repeated_refuted |
| F255 | df.truncate(before=5, after=7) on decreasing labels 9, 7, 5, 3 returns no rows: pandas swaps the bounds on decreasing labels, Modin does not | C93_decreasing_refuted |
| F256 | df.take((2, 0)) returns the cell in row 2 and column 0, and df.take((2, 0, 1)) raises; pandas returns the rows at these positions | C95_tuple_refuted |
| F257 | df.take([True, False, True]) uses the booleans as a mask; pandas takes the positions 1, 0, 1 | C95_booleans_refuted |

## Mutation tests

`seeded/LOG.jsonl` has one line per edited model: the definition, the edit, the claim it breaks, the theorems that
stopped proving, and what was tightened when none did.  Edits are made in a scratch copy; the whole development is rebuilt and
the first failing theorem of every file is recorded.  Edits that change no behaviour covered by a claim are marked harmless.
