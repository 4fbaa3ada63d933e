(** Model of [DataFrame.merge] by row partitions: core/storage_formats/pandas/merge.py [MergeImpl.row_axis_merge].
    pandas' own merge of two tables is the specification's [merge]. *)
From Verif Require Import Base Table ChunkModel GridModel JoinModel GroupSpec MergeSpec.

(** [ndarray.shape[1]] of an array of partitions; an array without rows has one dimension only *)
Definition shape1 {X} (g : list (list X)) : res nat :=
  match g with [] => Err IndexError | row :: _ => Ok (length row) end.

(** core/storage_formats/pandas/utils.py [merge_partitioning] 235-265, axis 1; [ceil(a / b)] is [nchunks] *)
Definition merge_partitioning {X} (nparts min_col : nat) (lw rw : option (list nat)) (lgrid rgrid : list (list X)) : res nat :=
  match lw, rw with
  | Some l, Some r =>
      do chunk <- compute_chunksize (list_sum l + list_sum r) nparts min_col;
      if chunk =? 0 then Err ZeroDivisionError else Ok (nchunks (list_sum l + list_sum r) chunk)
  | _, _ => do lsplits <- shape1 lgrid; do rsplits <- shape1 rgrid; Ok (Nat.min (lsplits + rsplits) nparts)
  end.

Section Merge.
  Context {L H A : Type}.
  Variable leqb : L -> L -> bool.
  Variable heqb : H -> H -> bool.
  Variable aeqb : A -> A -> bool.
  Variable nan : A.
  Variable suffixed : bool -> H -> H.
  Notation dframe := (df L H A).
  Notation pf := (@pframe L H A).
  Notation pfn := (@pframe nat H A).

  (** [pandas.merge(left, right, how, on, left_on, right_on, sort=False)] *)
  Definition pandas_merge (h : how) (k : keys_arg H) (l r : dframe) : res (df nat H A) :=
    let present lo ro := forallb (fun c => inb heqb c (dcols l)) lo && forallb (fun c => inb heqb c (dcols r)) ro in
    let run := Ok (merge heqb aeqb nan suffixed (key_pairs heqb (dcols l) (dcols r) k) l r h) in
    match k with
    | On o => if present o o then run else Err KeyError
    | LeftRight lo ro => if negb (length lo =? length ro) then Err ValueError
                         else if present lo ro then run else Err KeyError
    | Common => if existsb (fun c => inb heqb c (dcols r)) (dcols l) then run else Err ValueError
    end.

  (** core/dataframe/base/dataframe/utils.py [join_columns] 59-147.  A key that is not a column (an index level)
      raises NotImplementedError or is handled apart there: outside the model. *)
  Definition join_columns (left right lo ro : list H) : res (list H) :=
    if existsb (fun c => negb (inb heqb c left)) lo || existsb (fun c => negb (inb heqb c right)) ro
    then Err Unmodelled
    else
      let conflict c :=
        (inb heqb c left && (inb heqb c right && negb (inb heqb c ro)))
        || (inb heqb c right && (inb heqb c left && negb (inb heqb c lo))) in
      let new_name c s := if conflict c then suffixed s c else c in
      Ok (map (fun c => new_name c false) left
          ++ map (fun c => new_name c true)
                 (filter (fun c => negb (inb heqb c lo && inb heqb c ro)) right)).

  (** merge.py [_compute_result_metadata] 255-335, the columns *)
  Definition result_columns (left right : pf) (k : keys_arg H) : res (option (list H)) :=
    match pcols left with
    | None => Ok None
    | Some lc =>
        let rc := col_labels right in
        let '(lo, ro) := match k with
                         | On o => (o, o)
                         | LeftRight lo ro => (lo, ro)
                         | Common => let o := filter (fun c => inb heqb c rc) lc in (o, o)
                         end in
        do c <- join_columns lc rc lo ro; Ok (Some c)
    end.

  (** dataframe.py [combine] 2918-2953, partition_manager.py [combine] 1328-1373: one block with everything
      (the labels in the blocks are up to date) *)
  Definition combine_frame (f : pf) : res pf :=
    if gsize (pgrid f) <=? 1 then Ok f
    else
      do d <- create_pandas_df_from_partitions leqb heqb (pgrid f);
      let total o := match o with Some l => Some [list_sum l] | None => None end in
      construct (mkpf [[d]] (pindex f) (pcols f) (total (prl f)) (total (pcl f))).

  (** dataframe.py [_extract_partitions] 3375-3395 *)
  Definition extract_partitions (f : pf) : list (list dframe) :=
    if 0 <? gsize (pgrid f) then pgrid f else [[df_of_labels (row_labels f) (col_labels f)]].

  (** dataframe.py [broadcast_apply_full_axis] 3483-3676 with axis=1, keep_partitioning=False, new_index=None;
      partition_manager.py [broadcast_axis_partitions] 498-611 (broadcast_all) and axis_partition.py
      [deploy_func_between_two_axis_partitions] 502-594 *)
  Definition broadcast_rows (min_col : nat) (func : dframe -> dframe -> res (df nat H A)) (other : pf)
      (num_splits : nat) (new_columns : option (list H)) (f : pf) : res pfn :=
    let right := extract_partitions other in
    do parts <- rmap (fun blocks =>
                        do l <- concat_axis leqb heqb true blocks;
                        do rows <- rmap (concat_axis leqb heqb true) right;
                        do r <- concat_axis leqb heqb false rows;
                        do out <- func l r;
                        split_result_of_axis_func true num_splits out min_col None)
                     (pgrid f);
    do widths <- match new_columns with
                 | Some c => do n <- shape1 parts;
                             do w <- get_length_list (length c) n min_col; Ok (Some w)
                 | None => Ok None
                 end;
    construct (mkpf parts None new_columns None widths).

  (** query_compiler.py [reset_index] 741-806 with drop=True and lazy row labels: every row of blocks gets the
      numbers of its rows, from the lengths of the blocks above *)
  Definition reset_index (min_col : nat) (f : pfn) : res pfn :=
    match pindex f with
    | Some _ => Err Unmodelled
    | None =>
        let lens := row_lengths f in
        do parts <- rmap (fun ir : nat * list (df nat H A) =>
                            let start := list_sum (firstn (fst ir) lens) in
                            let stop := list_sum (firstn (S (fst ir)) lens) in
                            deploy_axis_func Nat.eqb heqb true
                              (fun d => set_index_labels (seq start (stop - start)) d)
                              (grid_width (pgrid f)) true (snd ir) min_col None false)
                         (combine (seq 0 (length (pgrid f))) (pgrid f));
        let cols := match pcl f, pcols f with
                    | Some l, Some c =>
                        if (length c =? list_sum l) && forallb (fun w => negb (w =? 0)) l then Some l else None
                    | _, _ => None
                    end in
        construct (mkpf parts None (pcols f) None cols)
    end.

  (** [default_to_pandas(pandas.DataFrame.merge, right, ...)]: gather, merge, distribute *)
  Definition merge_default (pm : dframe -> dframe -> res (df nat H A)) (nparts min_row min_col : nat) (left right : pf) : res pfn :=
    do l <- pf_to_pandas leqb heqb left;
    do r <- pf_to_pandas leqb heqb right;
    do d <- pm l r;
    do f <- from_pandas nparts min_row min_col d;
    Ok (mkpf (fgrid f) (Some (findex f)) (Some (fcols f)) (Some (frow_lengths f)) (Some (fcol_widths f))).

  (** merge.py [row_axis_merge] 104-252, left_index=right_index=False.  Keys are columns, no index level has the
      name of a key ([keep_index] is False).  [pm]: [pandas.merge] of two tables with the caller's arguments.
      [sort_rows by]: [sort_rows_by_column_values(by)]. *)
  Definition row_axis_merge_of (pm : dframe -> dframe -> res (df nat H A)) (nparts min_row min_col : nat)
      (sort_rows : list H -> pfn -> res pfn) (h : how) (k : keys_arg H) (sort : bool) (left right : pf) : res pfn :=
    let reverted := match h with HRight => true | _ => false end in
    if reverted && (gsize (pgrid right) =? 0) then merge_default pm nparts min_row min_col left right
    else
      let '(a, b) := if reverted then (right, left) else (left, right) in
      let map_func l r := if reverted then pm r l else pm l r in
      do other <- combine_frame b;
      do columns <- result_columns left right k;
      do a <- (if (10 * length (pgrid a) <? 3 * nparts) && (nparts * min_row <? list_sum (row_lengths a))
               then apply_full_axis leqb heqb nparts min_row min_col false (fun d => Ok d) (pindex a) (pcols a) false None a
               else Ok a);
      do splits <- merge_partitioning nparts min_col (pcl a) (pcl b) (pgrid a) (pgrid b);
      do m <- broadcast_rows min_col map_func other splits columns a;
      do m <- (if sort then match k with
                            | LeftRight lo ro => sort_rows (lo ++ ro) m
                            | On o => sort_rows o m
                            | Common => Ok m
                            end
               else Ok m);
      reset_index min_col m.

  Definition row_axis_merge (nparts min_row min_col : nat) (sort_rows : list H -> pfn -> res pfn)
      (h : how) (k : keys_arg H) (sort : bool) (left right : pf) : res pfn :=
    row_axis_merge_of (pandas_merge h k) nparts min_row min_col sort_rows h k sort left right.

  (** [pandas.merge(..., validate=...)]: "one_to_one" checks both sides, "one_to_many" the left one, "many_to_one"
      the right one; MergeError is a ValueError *)
  Definition unique_keys (ks : list (list A)) : bool :=
    forallb (fun k => length (filter (list_eqb aeqb k) ks) <=? 1) ks.
  Definition pandas_merge_validated (check_left check_right : bool) (h : how) (k : keys_arg H) (l r : dframe) : res (df nat H A) :=
    do out <- pandas_merge h k l r;
    let keys := key_pairs heqb (dcols l) (dcols r) k in
    if check_left && negb (unique_keys (map (left_key heqb keys l) (dcells l))) then Err ValueError
    else if check_right && negb (unique_keys (map (right_key heqb keys r) (dcells r))) then Err ValueError
    else Ok out.

  (** [pandas.merge(..., indicator=True)]: a last column saying where the row comes from; its cells play no part *)
  Definition pandas_merge_indicated (merge_col : H) (mark : list A -> A) (h : how) (k : keys_arg H) (l r : dframe) : res (df nat H A) :=
    do out <- pandas_merge h k l r;
    Ok (mkdf (dindex out) (dcols out ++ [merge_col]) (map (fun row => row ++ [mark row]) (dcells out))).
End Merge.
