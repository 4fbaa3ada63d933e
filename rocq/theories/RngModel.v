(** Model of [DataFrame.merge] with range partitioning switched on: core/storage_formats/pandas/merge.py
    [MergeImpl.range_partitioning_merge], core/dataframe/pandas/dataframe/dataframe.py
    [_apply_func_to_range_partitioning_broadcast] and core/dataframe/pandas/partitioning/partition_manager.py
    [shuffle_partitions] with right partitions.  pandas' own merge of two tables is the parameter [pm]. *)
From Verif Require Import Base Table ChunkModel GridModel JoinModel GroupSpec ShufSpec ShufModel MergeSpec MergeModel.

Section RangeMerge.
  Context {L H A K : Type}.
  Variable leqb : L -> L -> bool.
  Variable heqb : H -> H -> bool.
  Variable suffixed : bool -> H -> H.
  Variable kle : K -> K -> bool.                            (* how NumPy compares the key values *)
  Variable value : A -> option K.                           (* the value of a key cell; None: missing *)
  Variable numeric : nat -> bool.                           (* [is_numeric_dtype] of the left key column *)
  Variable quantiles : nat -> nat -> list (option K).       (* whatever pivots the random samples of the left give *)
  Variable over : nat -> nat -> bool.
    (* [over rows partitions]: [(1 / (rows / partitions)) * log(partitions * rows) > 1] *)
  Notation dframe := (df L H A).
  Notation pf := (@pframe L H A).
  Notation pfn := (@pframe nat H A).
  Notation row := (@row L A).

  (** [df[col]] of a row, and whether it is missing (utils.py 380-397) *)
  Definition key_at (on : H) (cols : list H) (_ : nat) (r : row) : option K :=
    match keepl (heqb on) cols (snd r) with x :: _ => value x | [] => None end.
  Definition na_at (on : H) (cols : list H) (i : nat) (r : row) : bool :=
    match key_at on cols i r with None => true | Some _ => false end.

  (** utils.py [pick_samples_for_quantiles] 246-286: a division by the mean number of rows of a partition, then
      [df.sample(frac=probability)], a ValueError for a fraction above 1 *)
  Definition sample (rows partitions : nat) : res unit :=
    if rows =? 0 then Err ZeroDivisionError else if over rows partitions then Err ValueError else Ok tt.

  (** axis_partition.py [apply] 195-309 with another axis partition and
      [deploy_func_between_two_axis_partitions] 502-594: one joined left and one joined right table *)
  Definition between (axis : bool) (func : dframe -> dframe -> res (df nat H A)) (num_splits min_block : nat)
      (right_left : list dframe * list dframe) : res (list (df nat H A)) :=
    do l <- concat_axis leqb heqb axis (snd right_left);
    do r <- concat_axis leqb heqb axis (fst right_left);
    do out <- func l r;
    split_result_of_axis_func axis num_splits out min_block None.

  (** partition_manager.py [shuffle_partitions] 1937-2052 with [right_partitions]: the bins of the left key,
      [ascending=True], [closed_on_right=False], missing keys last.  [np.array([]).T] has no rows. *)
  Definition shuffle_with (min_row min_col ideal : nat) (on : H) (lcols rcols : list H)
      (func : dframe -> dframe -> res (df nat H A)) (lgrid rgrid : list (list dframe)) : res (list (list (df nat H A))) :=
    let '(infos, num_bins) := pivot_fn quantiles 1 ideal in
    let split cols := split_partition leqb heqb kle (na_at on cols) (key_at on cols) numeric infos true false false in
    if 1 <? num_bins then
      do ls <- rmap (split lcols) lgrid;
      do rs <- rmap (split rcols) rgrid;
      rmap (between false func 1 min_row)
           (combine (match rs with [] => [] | _ => transp num_bins rs end) (transp num_bins ls))
    else rmap (fun rl => between true func (length (snd rl)) min_col rl) (combine rgrid lgrid).

  (** dataframe.py [_apply_func_to_range_partitioning_broadcast] 4087-4160.  A left frame without blocks: the array
      of blocks has one axis, [partitions[:, index]] is an IndexError. *)
  Definition range_broadcast (nparts min_row min_col : nat) (on : H) (func : dframe -> dframe -> res (df nat H A))
      (columns : option (list H)) (left right : pf) : res pfn :=
    if length (pgrid left) =? 1 then broadcast_rows leqb heqb min_col func right nparts columns left
    else if length (pgrid left) =? 0 then Err IndexError
    else
      do _ <- sample (list_sum (row_lengths left)) (length (pgrid left));
      do g <- shuffle_with min_row min_col (length (pgrid left)) on (col_labels left) (col_labels right) func
                (pgrid left) (pgrid right);
      construct (mkpf g None columns None None).

  (** merge.py [range_partitioning_merge] 39-101: one key column given with [on], present on both sides, [how] left
      or inner; otherwise NotImplementedError.  (Line 58 tests [left_on] a second time instead of [right_on]; the
      missing [on] stops such a call anyway.) *)
  Definition range_merge (pm : dframe -> dframe -> res (df nat H A)) (nparts min_row min_col : nat)
      (h : how) (k : keys_arg H) (left right : pf) : res pfn :=
    match h, k with
    | HRight, _ => Err NotImplementedErr
    | _, On [on] =>
        if inb heqb on (col_labels left) && inb heqb on (col_labels right) then
          do columns <- result_columns heqb suffixed left right k;
          do m <- range_broadcast nparts min_row min_col on pm columns left right;
          reset_index heqb min_col m
        else Err NotImplementedErr
    | _, _ => Err NotImplementedErr
    end.

  (** query_compiler.py [merge] 657-667 with [RangePartitioning] on: what range partitioning cannot do goes to the
      row-axis merge (C26). *)
  Definition merge_entry (pm : dframe -> dframe -> res (df nat H A)) (nparts min_row min_col : nat)
      (sort_rows : list H -> pfn -> res pfn) (h : how) (k : keys_arg H) (sort : bool) (left right : pf) : res pfn :=
    match range_merge pm nparts min_row min_col h k left right with
    | Err NotImplementedErr => row_axis_merge_of leqb heqb suffixed pm nparts min_row min_col sort_rows h k sort left right
    | x => x
    end.

  (** [pandas.merge(..., sort=True)], how left and inner: the rows in the order of the keys, rows with the same key
      in the order of the left side.  [sort_left]: a stable sort of a table by its key column. *)
  Variable aeqb : A -> A -> bool.
  Variable nan : A.
  Definition pandas_merge_sorted (sort_left : dframe -> dframe) (h : how) (k : keys_arg H) (l r : dframe) : res (df nat H A) :=
    pandas_merge heqb aeqb nan suffixed h k (sort_left l) r.
End RangeMerge.
