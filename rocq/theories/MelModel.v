(** pandas/dataframe.py [melt] 1333-1363, core/storage_formats/pandas/query_compiler.py [melt] 2918-3016,
    core/dataframe/pandas/dataframe/dataframe.py [broadcast_apply_select_indices] 3398-3480, [apply_select_indices] 3110-3191,
    [_prepare_frame_to_broadcast] 3337-3373, core/dataframe/pandas/partitioning/partition_manager.py
    [broadcast_apply_select_indices] 361-439, [_apply_func_to_list_of_partitions_broadcast] 1270-1299.  [col_level] and dtypes
    are left out. *)
From Verif Require Import Base Table ChunkModel GridModel SelSpec SelModel LocModel.

Section Mel.
  Context {L H A : Type}.
  Variable leqb : L -> L -> bool.
  Variable heqb : H -> H -> bool.
  Variables min_row min_col nparts : nat.
  Variables known_l known_w : nat -> nat -> bool.
  Variable argsort : list Z -> list nat.
  Variable fill : A.
  Variable name : H -> A.                (* a column label as a cell *)
  Variable num : nat -> L.               (* the labels of a RangeIndex *)
  Notation dframe := (df L H A).
  Notation pf := (@pframe L H A).
  Notation take cols f := (take_2d_positional leqb heqb min_row min_col nparts known_l known_w argsort false None (Some (IList cols)) f).

  Definition has {X} (eqb : X -> X -> bool) (x : X) (l : list X) : bool := existsb (eqb x) l.
  Fixpoint unique {X} (eqb : X -> X -> bool) (l : list X) : bool :=
    match l with [] => true | x :: l => negb (has eqb x l) && unique eqb l end.

  (** the cells of a row under the label [h] *)
  Definition under {X} (cols : list H) (row : list X) (h : H) : list X :=
    map snd (filter (fun p => heqb (fst p) h) (combine cols row)).
  (** [algos.unique] *)
  Fixpoint first_only (l : list H) : list H :=
    match l with [] => [] | h :: l => h :: filter (fun x => negb (heqb x h)) (first_only l) end.

  (** pandas' [DataFrame.melt(id_vars, value_vars, var_name, value_name)], core/reshape/melt.py: one value column after the
      other; a value column that is an identifier is popped; repeated column labels are not modelled. *)
  Definition pandas_melt (ids vals : list H) (var value : H) (t : dframe) : res dframe :=
    if has heqb value (dcols t) then Err ValueError
    else if negb (forallb (fun h => has heqb h (dcols t)) (ids ++ vals)) then Err KeyError
    else if negb (unique heqb ids) then Err KeyError
    else if negb (unique heqb (dcols t)) then Err Unmodelled
    else
      let vals := filter (fun h => negb (has heqb h ids)) (first_only vals) in
      Ok (mkdf (map num (seq 0 (nrows t * length vals))) (ids ++ [var; value])
            (flat_map (fun v => map (fun row => flat_map (under (dcols t) row) ids ++ name v :: under (dcols t) row v) (dcells t)) vals)).

  (** pandas' [concat([a, b], axis=1)]: rows of equal indexes side by side, else all the labels, if they are unique *)
  Definition row_at (t : dframe) (x : L) : list A :=
    match filter (fun p => leqb (fst p) x) (combine (dindex t) (dcells t)) with
    | (_, r) :: _ => r
    | [] => repeat fill (ncols t)
    end.
  Definition beside (a b : dframe) : res dframe :=
    if list_eqb leqb (dindex a) (dindex b) then Ok (mkdf (dindex a) (dcols a ++ dcols b) (zipapp (dcells a) (dcells b)))
    else if unique leqb (dindex a) && unique leqb (dindex b) then
      let all := dindex a ++ filter (fun x => negb (has leqb x (dindex a))) (dindex b) in
      Ok (mkdf all (dcols a ++ dcols b) (map (fun x => row_at a x ++ row_at b x) all))
    else Err ValueError.

  (** [other[columns_to_add]], the columns the block does not have.  [difference] also sorts them; [melt] takes columns by
      their labels, so that is left out. *)
  Definition columns_to_add (cols : list H) (t : dframe) : dframe :=
    mkdf (dindex t) (filter (fun h => negb (has heqb h cols)) (dcols t))
         (map (fun row => flat_map (under (dcols t) row) (filter (fun h => negb (has heqb h cols)) (dcols t))) (dcells t)).

  (** query_compiler.py [applyier] 2954-2988, on one block *)
  Definition applyier (ids : list H) (var value : H) (internal : list nat) (other : list dframe) (t : dframe) : res dframe :=
    do whole <- match other with
                | [] => Ok t
                | _ => do o <- concat_cols leqb other; beside t (columns_to_add (dcols t) o)
                end;
    if negb (forallb (fun p => p <? ncols whole) internal) then Err IndexError
    else pandas_melt ids (pick (dcols whole) internal) var value whole.

  (** the blocks of the column [i] of the grid *)
  Definition column_blocks (i : nat) (g : list (list dframe)) : res (list dframe) :=
    rmap (fun row => match nth_error row i with Some b => Ok b | None => Err IndexError end) g.

  (** partition_manager.py 361-439: the blocks of every chosen column of blocks, with the row of blocks of [other] in the
      same place ([zip] ends with the shorter one); 1468-1477 without [other] *)
  Definition apply_blocks (ids : list H) (var value : H) (widths : list nat) (g : list (list dframe)) (other : option (list (list dframe)))
      (e : nat * bidx) : res (list dframe) :=
    do blocks <- column_blocks (fst e) g;
    let internal := expand (nth (fst e) widths 0) (snd e) in
    match other with
    | None => rmap (fun b => applyier ids var value internal [] b) blocks
    | Some o => rmap (fun p : dframe * list dframe => applyier ids var value internal (snd p) (fst p)) (combine blocks o)
    end.

  (** [result.index = new_index]: dataframe.py [_set_index] 762-774, [_validate_set_axis] 696-724; the labels are put into
      the blocks here and now *)
  Definition set_labels (idx : list L) (f : pf) : res pf :=
    do old <- labels (pindex f);
    if negb (length old =? length idx) then Err ValueError
    else
      do g <- propagate_index_objs (Some false) (mkpf (pgrid f) (Some idx) (pcols f) (prl f) (pcl f));
      Ok (mkpf g (Some idx) (pcols f) None None).

  (** query_compiler.py [melt] 2918-3016; the frame with dummy labels only carries the blocks *)
  Definition qc_melt (ids vals : list H) (var value : H) (f : pf) : res pf :=
    do index <- labels (pindex f);
    do columns <- labels (pcols f);
    do vals <- match vals with
               | [] => if forallb (fun h => has heqb h columns) ids then Ok (filter (fun h => negb (has heqb h ids)) columns) else Err KeyError
               | _ => Ok vals
               end;
    do other <- match ids with
                | [] => Ok None
                | _ => do o <- take (get_indexer heqb columns ids) f; Ok (Some (pgrid o))
                end;
    do dict <- block_index (column_widths f) (grid_width (pgrid f)) (length columns) (IList (get_indexer heqb columns vals)) false;
    do parts <- rmap (apply_blocks ids var value (column_widths f) (pgrid f) other) dict;
    let new_index := map num (seq 0 (length index * length vals)) in
    do new <- construct (mkpf (map (fun b => [b]) (concat parts)) (Some new_index) (Some (ids ++ [var; value])) None None);
    set_labels new_index new.

  (** pandas/dataframe.py 1333-1363: without [value_vars], the columns that are not identifiers.  [ignore_index] is not used. *)
  Definition df_melt (ids : list H) (vals : option (list H)) (var value : H) (ignore_index : bool) (f : pf) : res pf :=
    do vals <- match vals with
               | Some vs => Ok vs
               | None => do columns <- labels (pcols f);
                   if forallb (fun h => has heqb h columns) ids then Ok (filter (fun h => negb (has heqb h ids)) columns) else Err KeyError
               end;
    qc_melt ids vals var value f.
End Mel.
