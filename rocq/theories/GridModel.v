(** Model of operations on the grid of blocks: block-wise and axis-wise maps, tree reduction,
    dropping empty blocks, propagating labels, transposing. *)
From Verif Require Import Base Table ChunkModel.

Section Axis.
  Context {L H A : Type} {L2 H2 B : Type}.
  Variable leqb : L -> L -> bool.
  Variable heqb : H -> H -> bool.

  Definition axis_size {L H A} (axis : bool) (d : df L H A) : nat :=
    if axis then ncols d else nrows d.

  (** [pandas.concat(list(partitions), axis=axis)]; [axis = false] is 0 (rows).  Blocks whose
      other labels differ would be aligned by pandas: outside the model. *)
  Definition concat_axis (axis : bool) (parts : list (df L H A)) : res (df L H A) :=
    if axis then concat_cols leqb parts
    else match parts with
         | [] => Err ValueError
         | _ => match concatenate heqb parts with Ok d => Ok d | Err _ => Err Unmodelled end
         end.

  (** axis_partition.py [deploy_axis_func] 396-499.  The retry for read-only buffers re-runs the
      same function and is omitted. *)
  Definition deploy_axis_func (axis : bool) (func : df L H A -> res (df L2 H2 B))
      (num_splits : nat) (maintain_partitioning : bool) (parts : list (df L H A))
      (min_block_size : nat) (lengths : option (list nat)) (manual_partition : bool)
    : res (list (df L2 H2 B)) :=
    let len_partitions := length parts in
    let old_lengths := map (axis_size axis) parts in
    do dataframe <- concat_axis axis parts;
    do result <- func dataframe;
    let lengths :=
      if num_splits =? 1 then None
      else if manual_partition then lengths
      else if negb (num_splits =? len_partitions) || negb maintain_partitioning then None
      else if list_sum old_lengths =? axis_size axis result then Some old_lengths else None in
    split_result_of_axis_func axis num_splits result min_block_size lengths.

  (** partition_manager.py [broadcast_axis_partitions] 498-611 with [right=None] (this is
      [map_axis_partitions] 818-879).  [nparts] is NPartitions; [min_block] the minimum block
      size of the axis.  An empty [lengths] list is falsy in Python. *)
  Definition map_axis_partitions (nparts min_block : nat) (axis : bool)
      (grid : list (list (df L H A))) (func : df L H A -> res (df L2 H2 B))
      (keep_partitioning : bool) (num_splits : option nat) (lengths : option (list nat))
    : res (list (list (df L2 H2 B))) :=
    if keep_partitioning && match lengths with Some _ => true | None => false end
    then Err InternalBug
    else
    let truthy := match lengths with Some (_ :: _) => true | _ => false end in
    let ns :=
      match keep_partitioning, num_splits with
      | true, None => if axis then grid_width grid else length grid
      | _, _ => match lengths with
                | Some (x :: xs) => length (x :: xs)
                | _ => match num_splits with None => nparts | Some n => n end
                end
      end in
    let left_partitions := if axis then grid else transp (grid_width grid) grid in
    do blocks <- rmap (fun parts => deploy_axis_func axis func ns keep_partitioning parts min_block
                                      (if truthy then lengths else None) truthy)
                      left_partitions;
    Ok (if axis then blocks else transp (grid_width blocks) blocks).

  (** partition_manager.py [base_map_partitions] 615-654 (and [lazy_map_partitions] 773-815, whose
      queued calls give the same blocks, see the call-queue model). *)
  Definition base_map_partitions (grid : list (list (df L H A)))
      (map_func : df L H A -> res (df L2 H2 B)) : res (list (list (df L2 H2 B))) :=
    rmap (rmap map_func) grid.

  (** partition_manager.py [map_partitions_joined_by_column] 882-940 *)
  Definition map_partitions_joined_by_column (min_row : nat) (grid : list (list (df L H A)))
      (column_splits : nat) (map_func : df L H A -> res (df L2 H2 B))
    : res (list (list (df L2 H2 B))) :=
    if column_splits <? 1 then Err ValueError
    else
      let step := Nat.max (length grid / column_splits) 1 in
      do groups <-
        rmap (fun i =>
                let subset := slice grid i (i + step) in
                let actual_step := length subset in
                do cols <- rmap (fun parts => deploy_axis_func false map_func actual_step true parts
                                                min_row None false)
                                (transp (grid_width grid) subset);
                Ok (transp actual_step cols))
             (range_step 0 (length grid) step);
      Ok (concat groups).

  Definition absdiff (a b : nat) : nat := (a - b) + (b - a).

  (** partition_manager.py [map_partitions] 708-769.  [dynamic] is DynamicPartitioning, [cpus]
      CpuCount.  An empty object array has shape (0,), so [shape[1]] is an IndexError. *)
  Definition map_partitions (dynamic : bool) (cpus nparts min_row min_col : nat)
      (grid : list (list (df L H A))) (map_func : df L H A -> res (df L2 H2 B))
    : res (list (list (df L2 H2 B))) :=
    if negb dynamic then base_map_partitions grid map_func
    else match grid with
    | [] => Err IndexError
    | _ =>
      let shape0 := length grid in
      let shape1 := grid_width grid in
      let axis := absdiff shape0 cpus <? absdiff shape1 cpus in
      if shape1 =? 0 then Err ZeroDivisionError
      else
        let column_splits := cpus / shape1 in
        if negb axis && (1 <? column_splits)
        then map_partitions_joined_by_column min_row grid column_splits map_func
        else map_axis_partitions nparts (if axis then min_col else min_row) axis grid map_func
               true None None
    end.
End Axis.

Section Frame.
  Context {L H A : Type}.
  Notation dframe := (df L H A).
  Variable leqb : L -> L -> bool.
  Variable heqb : H -> H -> bool.

  (** The attributes of PandasDataframe: the grid, the label caches and the length caches, each
      of which may be unknown (None). *)
  Record pframe := mkpf {
    pgrid : list (list dframe);
    pindex : option (list L);
    pcols : option (list H);
    prl : option (list nat);
    pcl : option (list nat) }.

  (** dataframe.py [row_lengths] 242-257, [column_widths] 290-305: the cache, else the lengths of the
      blocks in the first grid column (widths of the first grid row). *)
  Definition row_lengths (f : pframe) : list nat :=
    match prl f with
    | Some l => l
    | None => map (fun row => match row with b :: _ => nrows b | [] => 0 end)
                  (filter (fun row => negb (length row =? 0)) (pgrid f))
    end.
  Definition column_widths (f : pframe) : list nat :=
    match pcl f with
    | Some l => l
    | None => match pgrid f with row :: _ => map ncols row | [] => [] end
    end.

  Definition is_empty_list {X} (o : option (list X)) : bool :=
    match o with Some [] => true | _ => false end.

  (** [[xs[j] for j in range(len(xs)) if j < len(lens) and lens[j] != 0]] *)
  Definition keep_nonzero {X} (lens : list nat) (xs : list X) : list X :=
    map fst (filter (fun p => negb (snd p =? 0)) (combine xs lens)).

  Definition nonzero (lens : list nat) : list nat := filter (fun n => negb (n =? 0)) lens.

  (** dataframe.py [_filter_empties] 865-914; the lengths-id bookkeeping of the label caches
      is in the index-cache model. *)
  Definition filter_empties (compute_metadata : bool) (f : pframe) : pframe :=
    if negb compute_metadata
       && (match prl f with None => true | _ => false end
           || match pcl f with None => true | _ => false end)
    then f
    else if is_empty_list (pindex f) || is_empty_list (pcols f)
            || (list_sum (row_lengths f) =? 0) || (list_sum (column_widths f) =? 0)
    then mkpf (pgrid f) (pindex f) (pcols f) (Some (row_lengths f)) (Some (column_widths f))
    else
      let rl := row_lengths f in
      let cl := column_widths f in
      mkpf (keep_nonzero rl (map (keep_nonzero cl) (pgrid f)))
           (pindex f) (pcols f) (Some (nonzero rl)) (Some (nonzero cl)).

  (** dataframe.py [_validate_axes_lengths] 191-228 (lengths are nat, so never negative) *)
  Definition validate_axes_lengths (f : pframe) : bool :=
    let check {X} (lens : option (list nat)) (labels : option (list X)) :=
      match lens, labels with
      | Some l, Some (x :: xs) =>
          (list_sum l =? 0) || (list_sum l =? length (x :: xs))
      | _, _ => true
      end in
    check (prl f) (pindex f) && check (pcl f) (pcols f).

  (** dataframe.py [PandasDataframe.__init__] 161-189 (dtypes aside) *)
  Definition construct (f : pframe) : res pframe :=
    if validate_axes_lengths f then Ok (filter_empties false f) else Err InternalBug.

  (** dataframe.py [to_pandas] 4692-4722; an axis without a label cache takes its labels from the
      blocks. *)
  Definition pf_to_pandas (f : pframe) : res dframe :=
    do d <- create_pandas_df_from_partitions leqb heqb (pgrid f);
    if df_empty d then
      match pindex f, pcols f with
      | Some i, Some c => Ok (df_of_labels i c)
      | _, _ => Err Unmodelled
      end
    else
      do d1 <- match pindex f with
               | Some i => if list_eqb leqb (dindex d) i then Ok (mkdf i (dcols d) (dcells d))
                           else Err InternalBug
               | None => Ok d
               end;
      match pcols f with
      | Some c => if list_eqb heqb (dcols d1) c then Ok (mkdf (dindex d1) c (dcells d1))
                  else Err InternalBug
      | None => Ok d1
      end.

  (** [df.set_axis(labels, axis)]: pandas raises ValueError on a length mismatch. *)
  Definition set_index_labels (idx : list L) (b : dframe) : res dframe :=
    if length idx =? nrows b then Ok (mkdf idx (dcols b) (dcells b)) else Err ValueError.
  Definition set_col_labels (cols : list H) (b : dframe) : res dframe :=
    if length cols =? ncols b then Ok (mkdf (dindex b) cols (dcells b)) else Err ValueError.

  (** dataframe.py [_propagate_index_objs] 934-1038.  [axis]: None = both, Some false = rows,
      Some true = columns.  The labels are materialised ([index], [columns]).  The queued relabelling
      of every block is applied here; draining later gives the same block. *)
  Definition propagate_index_objs (axis : option bool) (f : pframe) : res (list (list dframe)) :=
    let f := filter_empties false f in
    let rows := match axis with Some true => false | _ => true end in
    let cols := match axis with Some false => false | _ => true end in
    let cr := cumsum0 (row_lengths f) in
    let cc := cumsum0 (column_widths f) in
    rmap (fun ir =>
            rmap (fun jb =>
                    do b1 <- (if rows then
                                match pindex f with
                                | Some idx => set_index_labels
                                    (slice idx (nth (fst ir) cr 0) (nth (S (fst ir)) cr 0)) (snd jb)
                                | None => Err Unmodelled
                                end
                              else Ok (snd jb));
                    if cols then
                      match pcols f with
                      | Some cs => set_col_labels
                          (slice cs (nth (fst jb) cc 0) (nth (S (fst jb)) cc 0)) b1
                      | None => Err Unmodelled
                      end
                    else Ok b1)
                 (combine (seq 0 (length (snd ir))) (snd ir)))
         (combine (seq 0 (length (pgrid f))) (pgrid f)).
End Frame.
Arguments mkpf {L H A} _ _ _ _ _.
Arguments pgrid {L H A} _.
Arguments pindex {L H A} _.
Arguments pcols {L H A} _.
Arguments prl {L H A} _.
Arguments pcl {L H A} _.

Section TreeReduce.
  Context {L H A M B : Type}.
  Variable leqb : L -> L -> bool.
  Variable heqb : H -> H -> bool.
  (** MODIN_UNNAMED_SERIES_LABEL as a row label and as a column header *)
  Variable ulabel : L.
  Variable uheader : H.

  (** dataframe.py [_build_treereduce_func] 2081-2123: a function producing one value per column
      (axis 0) or per row (axis 1), shaped back into a one-row or one-column table. *)
  Definition build_treereduce_func {X Y} (axis : bool) (agg : list X -> Y) (d : df L H X)
    : res (df L H Y) :=
    if axis then Ok (mkdf (dindex d) [uheader] (map (fun r => [agg r]) (dcells d)))
    else Ok (mkdf [ulabel] (dcols d) [map agg (transp (ncols d) (dcells d))]).

  (** dataframe.py [_compute_tree_reduce_metadata] 2125-2168 *)
  Definition compute_tree_reduce_metadata {X Y} (axis : bool) (f : pframe (L:=L) (H:=H) (A:=X))
      (idx : list L) (cols : list H) (new_parts : list (list (df L H Y))) : res pframe :=
    construct
      (if axis
       then mkpf new_parts (Some idx) (Some [uheader]) (Some (row_lengths f)) (Some [1])
       else mkpf new_parts (Some [ulabel]) (Some cols) (Some [1]) (Some (column_widths f))).

  (** dataframe.py [reduce] 2171-2205 *)
  Definition reduce (nparts min_row min_col : nat) (axis : bool) (agg : list A -> B)
      (f : pframe (L:=L) (H:=H) (A:=A)) (idx : list L) (cols : list H) : res pframe :=
    do parts <- map_axis_partitions leqb heqb nparts (if axis then min_col else min_row) axis
                  (pgrid f) (build_treereduce_func axis agg) false None None;
    compute_tree_reduce_metadata axis f idx cols parts.

  (** dataframe.py [tree_reduce] 2208-2250 *)
  Definition tree_reduce (dynamic : bool) (cpus nparts min_row min_col : nat) (axis : bool)
      (magg : list A -> M) (ragg : list M -> B)
      (f : pframe (L:=L) (H:=H) (A:=A)) (idx : list L) (cols : list H) : res pframe :=
    do map_parts <- map_partitions leqb heqb dynamic cpus nparts min_row min_col (pgrid f)
                      (build_treereduce_func axis magg);
    do reduce_parts <- map_axis_partitions leqb heqb nparts (if axis then min_col else min_row) axis
                         map_parts (build_treereduce_func axis ragg) false None None;
    compute_tree_reduce_metadata axis f idx cols reduce_parts.
End TreeReduce.

Section FrameOps.
  Context {L H A L2 H2 B : Type}.
  Variable leqb : L -> L -> bool.
  Variable heqb : H -> H -> bool.

  (** dataframe.py [map] 2253-2319 (dtypes aside).  The row labels are kept; [new_columns] replaces
      the headers when given. *)
  Definition frame_map (dynamic : bool) (cpus nparts min_row min_col : nat)
      (func : df L H A -> res (df L H B)) (new_columns : option (list H))
      (f : pframe (L:=L) (H:=H) (A:=A)) : res (pframe (L:=L) (H:=H) (A:=B)) :=
    do parts <- map_partitions leqb heqb dynamic cpus nparts min_row min_col (pgrid f) func;
    match new_columns, pcols f with
    | Some nc, Some c =>
        if length nc =? length c
        then construct (mkpf parts (pindex f) (Some nc) (prl f) (pcl f))
        else Err AssertionError
    | Some nc, None => construct (mkpf parts (pindex f) (Some nc) (prl f) (pcl f))
    | None, c => construct (mkpf parts (pindex f) c (prl f) (pcl f))
    end.

  (** dataframe.py [fold] 2357-2400 *)
  Definition fold (nparts min_row min_col : nat) (axis : bool)
      (func : df L H A -> res (df L H B)) (new_index : option (list L)) (new_columns : option (list H))
      (shape_preserved : bool) (f : pframe (L:=L) (H:=H) (A:=A)) : res (pframe (L:=L) (H:=H) (A:=B)) :=
    do parts <- map_axis_partitions leqb heqb nparts (if axis then min_col else min_row) axis
                  (pgrid f) func true None None;
    if shape_preserved
    then construct (mkpf parts (match new_index with None => pindex f | i => i end)
                               (match new_columns with None => pcols f | c => c end)
                               (prl f) (pcl f))
    else construct (mkpf parts new_index new_columns None None).

  (** dataframe.py [broadcast_apply_full_axis] 3483-3676 with [other=None], [apply_indices=None]
      (this is [apply_full_axis] 2956-3032; dtypes aside).  [func] is already wrapped by
      [_build_treereduce_func]; [new_index]/[new_columns] are materialised labels or None.  The
      labels given are propagated into the blocks later ([propagate_index_objs]). *)
  Definition apply_full_axis (nparts min_row min_col : nat) (axis : bool)
      (func : df L H A -> res (df L2 H2 B)) (new_index : option (list L2)) (new_columns : option (list H2))
      (keep_partitioning : bool) (num_splits : option nat)
      (f : pframe (L:=L) (H:=H) (A:=A)) : res (pframe (L:=L2) (H:=H2) (A:=B)) :=
    do parts <- map_axis_partitions leqb heqb nparts (if axis then min_col else min_row) axis
                  (pgrid f) func keep_partitioning num_splits None;
    let kw_rows :=
      match axis, new_index with
      | true, Some i => if length parts =? 1 then Some [length i] else None
      | _, _ => None
      end in
    let kw_cols :=
      match axis, new_columns with
      | false, Some c => if grid_width parts =? 1 then Some [length c] else None
      | _, _ => None
      end in
    if negb keep_partitioning then
      do rows <- match kw_rows, new_index with
                 | None, Some i =>
                     if axis then
                       match prl f with
                       | Some l => if length i =? list_sum l then Ok (Some l) else Ok None
                       | None => Ok None
                       end
                     else do l <- get_length_list (length i) (length parts) min_row; Ok (Some l)
                 | r, _ => Ok r
                 end;
      do cols <- match kw_cols, new_columns with
                 | None, Some c =>
                     if axis then do l <- get_length_list (length c) (grid_width parts) min_col; Ok (Some l)
                     else
                       match pcl f with
                       | Some l => if length c =? list_sum l then Ok (Some l) else Ok None
                       | None => Ok None
                       end
                 | c, _ => Ok c
                 end;
      construct (mkpf parts new_index new_columns rows cols)
    else
      let rows :=
        match axis, prl f, new_index with
        | false, Some l, Some i =>
            if (length i =? list_sum l) && forallb (fun r => negb (r =? 0)) l then Some l else kw_rows
        | _, _, _ => kw_rows
        end in
      let cols :=
        match axis, pcl f, new_columns with
        | true, Some l, Some c =>
            if (length c =? list_sum l) && forallb (fun r => negb (r =? 0)) l then Some l else kw_cols
        | _, _, _ => kw_cols
        end in
      construct (mkpf parts new_index new_columns rows cols).
End FrameOps.

Section Transpose.
  Context {L A : Type}.
  (** [df.T]: row and column labels have the same type here. *)
  Definition df_T (d : df L L A) : df L L A :=
    mkdf (dcols d) (dindex d) (transp (ncols d) (dcells d)).

  (** dataframe.py [transpose] 4747-4777 *)
  Definition transpose (f : pframe (L:=L) (H:=L) (A:=A)) : res pframe :=
    construct
      (mkpf (transp (grid_width (pgrid f)) (map (map df_T) (pgrid f)))
            (pcols f) (pindex f) (pcl f) (prl f)).
End Transpose.
