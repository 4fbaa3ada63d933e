(** Model of how a pandas table is cut into blocks, put back together, and how the
    result of a full-axis function is split. *)
From Verif Require Import Base Table.

(** core/storage_formats/pandas/utils.py [compute_chunksize] 28-58.
    [min_block_size] is an int > 0 or the function raises ValueError; [num_splits = 0]
    is Python's ZeroDivisionError.  Integers are nat: negative arguments do not occur. *)
Definition compute_chunksize (axis_len num_splits min_block_size : nat) : res nat :=
  if min_block_size =? 0 then Err ValueError
  else if num_splits =? 0 then Err ZeroDivisionError
  else
    let chunksize := axis_len / num_splits in
    let chunksize := if axis_len mod num_splits =? 0 then chunksize else chunksize + 1 in
    Ok (Nat.max chunksize min_block_size).

(** core/storage_formats/pandas/utils.py [get_length_list] 156-182 *)
Definition get_length_list (axis_len num_splits min_block_size : nat) : res (list nat) :=
  do chunksize <- compute_chunksize axis_len num_splits min_block_size;
  Ok (map (fun i => if (i + 1) * chunksize <=? axis_len then chunksize
                    else Nat.max 0 (axis_len - i * chunksize))
          (seq 0 num_splits)).

(** partition_manager.py [from_pandas] 1131-1146: the reported lengths
    ([len % c or c] is [c] when the remainder is 0). *)
Definition reported_lengths (n c : nat) : list nat :=
  map (fun i => if i + c <? n then c else if n mod c =? 0 then c else n mod c)
      (range_step 0 n c).

Section Chunk.
  Context {L H A : Type}.
  Variable leqb : L -> L -> bool.
  Variable heqb : H -> H -> bool.
  Notation dframe := (df L H A).

  (** core/storage_formats/pandas/utils.py [generate_result_of_axis_func_pandas] 98-153, the
      list it yields.  [remove_unused_levels] keeps the labels, so it is omitted;
      [result] is a DataFrame (a Series behaves like one column). *)
  Definition split_result_of_axis_func
      (axis : bool (* true = columns *)) (num_splits : nat) (result : dframe)
      (min_block_size : nat) (length_list : option (list nat)) : res (list dframe) :=
    if num_splits =? 1 then Ok [result]
    else
      do lens <- match length_list with
                 | Some l => Ok l
                 | None => get_length_list (if axis then ncols result else nrows result)
                                           num_splits min_block_size
                 end;
      let sums := cumsum0 lens in
      Ok (map (fun i =>
                 if axis then iloc_cols result (nth i sums 0) (nth (S i) sums 0)
                 else iloc_rows result (nth i sums 0) (nth (S i) sums 0))
              (seq 0 (length sums - 1))).

  (** partition_manager.py [split_pandas_df_into_partitions] 1029-1066; putting a block into
      the store is the identity on its contents. *)
  Definition split_pandas_df_into_partitions (d : dframe) (row_chunksize col_chunksize : nat)
    : list (list dframe) :=
    let col_parts :=
      if ncols d <=? col_chunksize then [d]
      else map (fun i => iloc_cols d i (i + col_chunksize))
               (range_step 0 (ncols d) col_chunksize) in
    map (fun i => map (fun col_part => iloc_rows col_part i (i + row_chunksize)) col_parts)
        (range_step 0 (nrows d) row_chunksize).

  (** A modin frame: the block grid, the external labels, the two length caches.
      core/dataframe/pandas/dataframe/dataframe.py [PandasDataframe.__init__] *)
  Record frame := mkframe {
    fgrid : list (list dframe);
    findex : list L;
    fcols : list H;
    frow_lengths : list nat;
    fcol_widths : list nat }.

  (** partition_manager.py [from_pandas] 1070-1149 and dataframe.py [from_pandas] 4592-4620.
      [nparts], [minrow], [mincol] are NPartitions, MinRowPartitionSize and
      MinColumnPartitionSize.  The progress bar is omitted; dtypes travel in [H]. *)
  Definition from_pandas (nparts minrow mincol : nat) (d : dframe) : res frame :=
    do rc <- compute_chunksize (nrows d) nparts minrow;
    do cc <- compute_chunksize (ncols d) nparts mincol;
    Ok (mkframe (split_pandas_df_into_partitions d rc cc) (dindex d) (dcols d)
                (reported_lengths (nrows d) rc) (reported_lengths (ncols d) cc)).

  (** core/dataframe/pandas/utils.py [is_part_empty] 119-122 *)
  Definition is_part_empty (p : dframe) : bool := df_empty p && (ncols p =? 0).

  (** core/dataframe/pandas/utils.py [create_pandas_df_from_partitions] 74-149, DataFrame
      blocks, without [new_index]/[new_columns] *)
  Definition create_pandas_df_from_partitions (grid : list (list dframe)) : res dframe :=
    do rows <- rmap (concat_cols leqb)
                    (filter (fun row => negb (forallb is_part_empty row)) grid);
    match rows with
    | [] => Ok (empty_df)
    | _ => concatenate heqb rows
    end.

  (** dataframe.py [to_pandas] 4692-4722 with materialised external labels (they always are
      after [from_pandas]).  A label mismatch raises modin's internal error. *)
  Definition to_pandas (f : frame) : res dframe :=
    do d <- create_pandas_df_from_partitions (fgrid f);
    if df_empty d then Ok (df_of_labels (findex f) (fcols f))
    else if negb (list_eqb leqb (dindex d) (findex f)) then Err InternalBug
    else if negb (list_eqb heqb (dcols d) (fcols f)) then Err InternalBug
    else Ok (mkdf (findex f) (fcols f) (dcells d)).
End Chunk.
Arguments mkframe {L H A} _ _ _ _ _.
Arguments fgrid {L H A} _.
Arguments findex {L H A} _.
Arguments fcols {L H A} _.
Arguments frow_lengths {L H A} _.
Arguments fcol_widths {L H A} _.
