(** Model of the column-store, parquet and SQL readers. *)
From Coq Require Import ZArith.
From Verif Require Import Base Table ChunkModel GridModel ReadSpec.

(** * Parquet *)

(** core/io/column_stores/parquet_dispatcher.py [_determine_partitioning] 349-421, the while loop that
    fills one partition.  The state is (file_idx, row_group_idx, row_groups_left_in_current_file);
    [fuel] bounds the iterations (running out is never reached, see the proofs); a file index out of
    range is Python's IndexError.  A [ParquetFileToRead] is (file, row_group_start, row_group_end). *)
Fixpoint take_part (fuel : nat) (counts : list nat) (size taken : nat) (st : nat * nat * nat)
    (part_files : list (nat * nat * nat)) : res (list (nat * nat * nat) * (nat * nat * nat)) :=
  if taken =? size then Ok (part_files, st)
  else match fuel with
  | 0 => Err InternalBug
  | S fuel =>
      let '(file_idx, row_group_idx, avail) := st in
      do st1 <- (if avail <? 1 then
                   match nth_error counts (S file_idx) with
                   | Some n => Ok (S file_idx, 0, n)
                   | None => Err IndexError
                   end
                 else Ok (file_idx, row_group_idx, avail));
      let '(file_idx, row_group_idx, avail) := st1 in
      let to_take := Nat.min (size - taken) avail in
      take_part fuel counts size (taken + to_take)
        (file_idx, row_group_idx + to_take, avail - to_take)
        (part_files ++ [(file_idx, row_group_idx, row_group_idx + to_take)])
  end.

(** the loop over [part_sizes] *)
Fixpoint take_parts (counts : list nat) (sizes : list nat) (st : nat * nat * nat)
  : res (list (list (nat * nat * nat))) :=
  match sizes with
  | [] => Ok []
  | size :: rest =>
      do r <- take_part (size + length counts + 1) counts size 0 st [];
      do more <- take_parts counts rest (snd r);
      Ok (fst r :: more)
  end.

(** the whole function; [counts] is [dataset.row_groups_per_file].  The sanity check at the end can
    only fail if a loop did not take exactly [size] row groups, which the while condition excludes. *)
Definition determine_partitioning (nparts : nat) (counts : list nat)
  : res (list (list (nat * nat * nat))) :=
  let num_row_groups := list_sum counts in
  if num_row_groups =? 0 then Ok []
  else
    let num_splits := Nat.min nparts num_row_groups in
    if num_splits =? 0 then Err ZeroDivisionError
    else
      let part_size := num_row_groups / num_splits in
      let reminder := num_row_groups mod num_splits in
      let part_sizes := repeat part_size (num_splits - reminder) ++ repeat (part_size + 1) reminder in
      take_parts counts part_sizes (0, 0, nth 0 counts 0).

(** Python's [round(a / b)]: half to even (the division is exact here, not floating point) *)
Definition py_round_div (a b : nat) : nat :=
  let q := a / b in
  let r := a mod b in
  if 2 * r <? b then q else if b <? 2 * r then q + 1 else if Nat.even q then q else q + 1.

(** core/io/column_stores/column_store_dispatcher.py [build_columns] 149-190: column intervals and widths.
    [num_row_parts = Some 0] divides by zero. *)
Definition build_columns (nparts mincol ncolumns : nat) (num_row_parts : option nat)
  : res (list (nat * nat) * list nat) :=
  if ncolumns =? 0 then Ok ([], [])
  else
    do min_block <- match num_row_parts with
                    | None => Ok 1
                    | Some k =>
                        if k =? 0 then Err ZeroDivisionError
                        else let remaining := py_round_div nparts k in
                             if remaining =? 0 then Err ZeroDivisionError
                             else Ok (Nat.min (ncolumns / remaining) mincol)
                    end;
    do splits <- compute_chunksize ncolumns nparts (Nat.max 1 min_block);
    let parts := map (fun i => (i, i + splits)) (range_step 0 ncolumns splits) in
    Ok (parts, map (fun iv => length (slice (seq 0 ncolumns) (fst iv) (snd iv))) parts).

Section Parquet.
  Context {L H A : Type}.
  Notation dframe := (df L H A).
  Variable leqb : L -> L -> bool.
  Variable heqb : H -> H -> bool.
  Variable cols : list H.                          (* the requested columns *)
  Variable files : @dataset L A.

  (** parsers.py [PandasParquetParser._read_row_group_chunk] 702-783 without filters: the rows of row
      groups [start, stop) of a file, restricted to a range of the requested columns; the index column
      comes along. *)
  Definition read_row_group_chunk (r : nat * nat * nat) (ci : nat * nat) : dframe :=
    let '(file, start, stop) := r in
    let rows := concat (slice (nth file files []) start stop) in
    mkdf (map fst rows) (slice cols (fst ci) (snd ci)) (map (fun x => slice (snd x) (fst ci) (snd ci)) rows).

  (** parsers.py [PandasParquetParser.parse] 794-822 *)
  Definition parse (requests : list (nat * nat * nat)) (ci : nat * nat) : res dframe :=
    concatenate heqb (map (fun r => read_row_group_chunk r ci) requests).

  (** parquet_dispatcher.py [call_deploy] 424-477 and [build_partition] 480-515 *)
  Definition call_deploy (partition_files : list (list (nat * nat * nat))) (col_parts : list (nat * nat))
    : res (list (list dframe)) :=
    match col_parts with
    | [] => Ok []
    | _ => rmap (fun requests => rmap (parse requests) col_parts) partition_files
    end.

  (** parquet_dispatcher.py [_normalize_partitioning] 630-736, the row loop: [row_idx] counts from [i]. *)
  Fixpoint normalize_rows (minrow splits remainder i : nat) (rows : list (nat * list dframe))
    : res (list (list dframe) * list nat) :=
    match rows with
    | [] => Ok ([], [])
    | (part_len, row_parts) :: rest =>
        let num_splits := if i <? remainder then splits + 1 else splits in
        do here <-
          (if num_splits =? 1 then Ok ([row_parts], [part_len])
           else
             do split <- rmap (fun part => deploy_axis_func leqb heqb false (fun d => Ok d) num_splits false
                                             [part] minrow None false) row_parts;
             do lens <- get_length_list part_len num_splits minrow;
             Ok (transp num_splits split, lens));
        do more <- normalize_rows minrow splits remainder (S i) rest;
        Ok (fst here ++ fst more, snd here ++ snd more)
    end.

  Definition normalize_partitioning (nparts minrow mincol : nat) (grid : list (list dframe))
      (row_lens : option (list nat)) (col_widths : list nat)
    : res (list (list dframe) * option (list nat) * list nat) :=
    match grid with
    | [] => Ok (grid, row_lens, col_widths)
    | _ =>
        let actual := length grid in
        let desired := match row_lens with
                       | Some l => Nat.max 1 (Nat.min (list_sum l / minrow) nparts)
                       | None => actual
                       end in
        do g1 <- (if 3 * actual <? 2 * desired then
                    match row_lens with
                    | None => Err TypeError
                    | Some l => do r <- normalize_rows minrow (desired / actual) (desired mod actual) 0 (combine l grid);
                                Ok (fst r, Some (snd r))
                    end
                  else Ok (grid, row_lens));
        let desired_col := Nat.max 1 (Nat.min (list_sum col_widths / mincol) nparts) in
        if 3 * desired_col <? 2 * grid_width (fst g1) then
          do g2 <- rmap (fun row_parts => deploy_axis_func leqb heqb true (fun d => Ok d) desired_col false
                                            row_parts mincol None false) (fst g1);
          do widths <- get_length_list (list_sum col_widths) desired_col mincol;
          Ok (g2, snd g1, widths)
        else Ok (fst g1, snd g1, col_widths)
    end.

  (** parquet_dispatcher.py [build_query_compiler] 739-801 for data with a stored index and no filters:
      [build_index] 518-627 concatenates the index of the first block of every row (it reads the file's
      index when there is no block). *)
  Definition read_parquet (nparts minrow mincol : nat) : res (pframe (L:=L) (H:=H) (A:=A)) :=
    do partition_files <- determine_partitioning nparts (map (@length _) files);
    do cp <- build_columns nparts mincol (length cols) (Some (length partition_files));
    do grid <- call_deploy partition_files (fst cp);
    let index := match grid with
                 | [] => map fst (concat (concat files))
                 | _ => concat (map (fun row => match row with b :: _ => dindex b | [] => [] end) grid)
                 end in
    let row_lens := match grid with
                    | [] => None
                    | _ => Some (map (fun row => match row with b :: _ => nrows b | [] => 0 end) grid)
                    end in
    do r <- normalize_partitioning nparts minrow mincol grid row_lens (snd cp);
    let '(grid, row_lens, widths) := r in
    construct (mkpf grid (Some index) (Some cols) row_lens (Some widths)).
End Parquet.

(** * HDF and feather *)

(** column_store_dispatcher.py [build_index] 108-146, the row lengths *)
Definition store_row_lengths (nparts minrow index_len : nat) : res (list nat) :=
  do c <- compute_chunksize index_len nparts minrow;
  Ok (if index_len <? c then index_len :: repeat 0 (nparts - 1)
      else map (fun i => if (i + 1) * c <? index_len then c else Nat.max 0 (index_len - c * i)) (seq 0 nparts)).

Section Store.
  Context {L H A : Type}.
  (** [range_labels n] are the labels of [pandas.RangeIndex(n)] *)
  Variable range_labels : nat -> list L.

  (** column_store_dispatcher.py [call_deploy] 33-70, [build_partition] 73-106, [build_query_compiler]
      214-251, with the HDF and feather parsers (parsers.py 826-874): every worker reads a range of columns
      of the stored table [d], splits it by rows and reports [len(df.index)]. *)
  Definition read_store (nparts minrow mincol : nat) (d : df L H A) : res (pframe (L:=L) (H:=H) (A:=A)) :=
    do cp <- build_columns nparts mincol (ncols d) None;
    do columns_of_blocks <- rmap (fun ci => split_result_of_axis_func false nparts (iloc_cols d (fst ci) (snd ci)) minrow None) (fst cp);
    match columns_of_blocks with
    | [] => construct (mkpf [] (Some (range_labels 0)) (Some (dcols d)) (Some (match store_row_lengths nparts minrow 0 with Ok l => l | _ => [] end)) (Some (snd cp)))
    | _ =>
        do lens <- store_row_lengths nparts minrow (nrows d);
        construct (mkpf (transp nparts columns_of_blocks) (Some (range_labels (nrows d))) (Some (dcols d))
                        (Some lens) (Some (snd cp)))
    end.
End Store.

(** * SQL *)

(** core/io/sql/sql_dispatcher.py [_read] 46-129: the (limit, offset) of every partition's query.
    [math.ceil(row_cnt / num_partitions)] is taken exactly. *)
Definition sql_windows (nparts row_cnt : nat) : res (list (nat * nat)) :=
  if nparts =? 0 then Err ZeroDivisionError
  else
    let limit := (row_cnt + nparts - 1) / nparts in
    Ok (map (fun part => (limit, part * limit)) (seq 0 nparts)).

(** experimental/core/io/sql/sql_dispatcher.py [_read] 41-135: the [start, end] range of every partition.
    [max_sessions = 0] stands for None or 0. *)
Fixpoint bound_ranges (n : nat) (min_size rest stop : Z) : list (Z * Z) :=
  match n with
  | 0 => []
  | S n =>
      let size := (if rest =? 0 then min_size else min_size + 1)%Z in
      let rest := (if rest =? 0 then rest else rest - 1)%Z in
      let start := (stop + 1)%Z in
      let stop := (start + size - 1)%Z in
      (start, stop) :: bound_ranges n min_size rest stop
  end.
Definition sql_bound_ranges (nparts max_sessions : nat) (lower upper : Z) : list (Z * Z) :=
  let num_parts := Nat.min nparts (if max_sessions =? 0 then 1 else max_sessions) in
  let diff := (upper - lower + 1)%Z in
  bound_ranges num_parts (diff / Z.of_nat num_parts) (diff mod Z.of_nat num_parts) (lower - 1).
