(** Model of rebalancing, concatenation and alignment of partitioned frames. *)
From Verif Require Import Base Table ChunkModel GridModel JoinSpec.

Section Rebalance.
  Context {L H A : Type}.
  Variable leqb : L -> L -> bool.
  Variable heqb : H -> H -> bool.
  Notation dframe := (df L H A).

  (** A row of the grid with the cached length of its blocks. *)
  Definition grow_row := (nat * list dframe)%type.

  (** [column_partitions(rows, full_axis=False)]: per grid column one virtual partition whose value is the
      concatenation of its blocks (axis_partition.py [list_of_blocks]) *)
  Definition join_rows (rows : list (list dframe)) : res (list dframe) :=
    rmap (concat_axis leqb heqb false) (transp (grid_width rows) rows).

  (** core/dataframe/pandas/partitioning/partition_manager.py [rebalance_partitions] 1803-1933.
      The while loop 1886-1889: [tail] is [partitions[stop + 1:]]. *)
  Fixpoint grow (ideal : nat) (tail : list grow_row) (stop size : nat) : nat * nat :=
    if size <? ideal then
      match tail with
      | [] => (S stop, size)
      | (l, _) :: t => grow ideal t (S stop) (size + l)
      end
    else (stop, size).
  (** The for loop 1876-1930 on [rest = partitions[start:]] (earlier rows are never looked at again); [stop]
      is relative to [start]. *)
  Fixpoint regroup (n ideal : nat) (rest : list grow_row) : list (list grow_row) :=
    match n with
    | 0 => []
    | S n =>
        match rest with
        | [] => []
        | (l0, _) :: tail =>
            let '(stop, size) := grow ideal tail 0 l0 in
            if 3 * ideal <? 2 * size then
              let prev := list_sum (map fst (firstn stop rest)) in
              let new_last := ideal - prev in
              match nth_error rest stop with
              | Some (_, row) =>
                  let part1 := (new_last, map (fun b => iloc_rows b 0 new_last) row) in
                  let part2 := (size - (prev + new_last), map (fun b => iloc_rows b new_last (nrows b)) row) in
                  (firstn stop rest ++ [part1]) :: regroup n ideal (part2 :: skipn (S stop) rest)
              | None => []      (* not reached: size > ideal means the loop stopped inside *)
              end
            else firstn (S stop) rest :: regroup n ideal (skipn (S stop) rest)
        end
    end.
  (** [known]: every block's length is cached (and then it is the true one). *)
  Definition rebalance_partitions (nparts : nat) (known : bool) (grid : list (list dframe))
    : res (list (list dframe) * option (list nat)) :=
    let n := length grid in
    if 2 * n <=? 3 * nparts then Ok (grid, None)
    else if negb known then
      do chunk <- compute_chunksize n nparts 1;
      do parts <- rmap (fun i => join_rows (slice grid i (i + chunk))) (range_step 0 n chunk);
      Ok (parts, None)
    else
      let rows := map (fun row => (match row with b :: _ => nrows b | [] => 0 end, row)) grid in
      do ideal <- compute_chunksize (list_sum (map fst rows)) nparts 1;
      let groups := regroup nparts ideal rows in
      do parts <- rmap (fun g => join_rows (map snd g)) groups;
      Ok (parts, Some (map (fun g => list_sum (map fst g)) groups)).
End Rebalance.

Section Copartition.
  Context {L H A X : Type}.
  Variable leqb : L -> L -> bool.
  Variable heqb : H -> H -> bool.
  Notation dframe := (df L H A).
  Notation pf := (@pframe L H A).
  (** the axis and what belongs to it: the labels ([get_axis]), their cache, the partition lengths, their cache *)
  Variable axis : bool.
  Variable xeqb : X -> X -> bool.
  Variable labels : pf -> list X.
  Variable label_cache : pf -> option (list X).
  Variable lens : pf -> list nat.
  Variable lens_cache : pf -> option (list nat).
  (** [df.reindex] / [_reindex_with_indexers] *)
  Variable reindex : list X -> list (option nat) -> dframe -> dframe.
  (** pandas' join of the labels of all frames, with indexers *)
  Variable join : list (list X) -> list X * list (list (option nat)).

  (** dataframe.py [_check_if_axes_identical] 3678-3707: the cache comparisons are modelled in IndexModel;
      they decide the same question (C14) *)
  Definition axes_identical (self o : pf) : bool :=
    list_eqb xeqb (labels o) (labels self) && list_eqb Nat.eqb (lens o) (lens self).

  (** dataframe.py [_join_index_objects] 1988-2075 *)
  Definition join_index_objects (idxs : list (list X)) : list X * list (list (option nat)) :=
    match idxs with
    | [] => ([], [])
    | i0 :: rest =>
        if forallb (list_eqb xeqb i0) rest then (i0, map (fun i => map Some (seq 0 (length i))) idxs)
        else join idxs
    end.

  (** [_partitions.size] *)
  Definition gsize {Y} (g : list (list Y)) : nat := length g * grid_width g.
  Fixpoint first_nonempty (k : nat) (frames : list pf) : option (nat * pf) :=
    match frames with
    | [] => None
    | f :: rest => if negb (gsize (pgrid f) =? 0) then Some (k, f) else first_nonempty (S k) rest
    end.

  (** dataframe.py [_copartition] 3709-3848 (force_repartition=False); result: the grids of all frames, the
      joined labels and the lengths along the axis *)
  Definition copartition (nparts min_block : nat) (self : pf) (others : list pf)
    : res (list (list (list dframe)) * option (list X) * option (list nat)) :=
    let frames := self :: others in
    if forallb (axes_identical self) others
    then Ok (map pgrid frames, label_cache self, lens_cache self)
    else
      let '(joined, ixs) := join_index_objects (map labels frames) in
      match first_nonempty 0 frames with
      | None => Ok (map pgrid frames, Some joined, Some [])
      | Some (b, base) =>
          let reindexer i := fun d => Ok (reindex joined (nth i ixs []) d) in
          let do_reindex := negb (list_eqb xeqb (labels base) joined) in
          do rebased <- (if do_reindex
                         then map_axis_partitions leqb heqb nparts min_block axis (pgrid base) (reindexer b) false None None
                         else Ok (pgrid base));
          let base_lengths :=
            if do_reindex
            then (if axis then match rebased with row :: _ => map ncols row | [] => [] end
                  else map (fun row => match row with b :: _ => nrows b | [] => 0 end) rebased)
            else lens base in
          do others' <- rmap (fun io =>
                          if negb (list_eqb xeqb (labels (snd io)) joined) || negb (list_eqb Nat.eqb (lens (snd io)) base_lengths)
                          then map_axis_partitions leqb heqb nparts min_block axis (pgrid (snd io)) (reindexer (fst io))
                                 false None (Some base_lengths)
                          else Ok (pgrid (snd io)))
                        (combine (seq (S b) (length frames)) (skipn (S b) frames));
          Ok (map pgrid (firstn b frames) ++ rebased :: others', Some joined, Some base_lengths)
      end.
End Copartition.

Section Join.
  Context {L H A : Type}.
  Variable leqb : L -> L -> bool.
  Variable heqb : H -> H -> bool.
  Variable fill : A.                                     (* NaN *)
  Notation dframe := (df L H A).
  Notation pf := (@pframe L H A).

  (** dataframe.py [_get_index] / [_get_columns] (618-690): the cache, else the labels of the blocks
      (partition_manager.py [get_indices] 1220-1267) *)
  Definition row_labels (f : pf) : list L :=
    match pindex f with
    | Some i => i
    | None => concat (map (fun row => match row with b :: _ => dindex b | [] => [] end) (pgrid f))
    end.
  Definition col_labels (f : pf) : list H :=
    match pcols f with
    | Some c => c
    | None => match pgrid f with row :: _ => concat (map (@dcols L H A) row) | [] => [] end
    end.

  Variable join_rows_labels : list (list L) -> list L * list (list (option nat)).
  Variable join_cols_labels : list (list H) -> list H * list (list (option nat)).
  Definition copartition_rows :=
    copartition leqb heqb false leqb row_labels pindex (@row_lengths L H A) prl (pick_rows fill) join_rows_labels.
  Definition copartition_cols :=
    copartition leqb heqb true heqb col_labels pcols (@column_widths L H A) pcl (pick_cols fill) join_cols_labels.

  (** partition_manager.py [concat] 943-986; [np.concatenate] raises ValueError when the other dimensions
      differ *)
  Definition np_concatenate (axis : bool) (grids : list (list (list dframe))) : res (list (list dframe)) :=
    match grids with
    | [] => Err ValueError
    | g :: _ =>
        if axis then
          if forallb (fun h => length h =? length g) grids
          then Ok (fold_right zipapp (repeat [] (length g)) grids) else Err ValueError
        else
          if forallb (fun h => grid_width h =? grid_width g) grids then Ok (concat grids) else Err ValueError
    end.
  Definition pm_concat (nparts : nat) (known axis : bool) (left_parts : list (list dframe)) (right_parts : list (list (list dframe)))
    : res (list (list dframe) * option (list nat)) :=
    let right_parts := filter (fun o => negb (gsize o =? 0)) right_parts in
    let to_concat := if negb (gsize left_parts =? 0) then left_parts :: right_parts else right_parts in
    do result <- match to_concat with [] => Ok left_parts | _ => np_concatenate axis to_concat end;
    if axis then Ok (result, None) else rebalance_partitions leqb heqb nparts known result.

  Definition all_some {Y} (l : list (option (list Y))) : option (list Y) :=
    fold_right (fun o acc => match o, acc with Some x, Some y => Some (x ++ y) | _, _ => None end) (Some []) l.

  (** dataframe.py [concat] 3952-4085 along rows (dtypes aside).  [known], [first_known]: whether the block
      lengths of all blocks (of the first grid column of the result) are cached. *)
  Definition concat_frames_rows (nparts min_col : nat) (known first_known : bool) (self : pf) (others : list pf) : res pf :=
    do c <- (if forallb (axes_identical heqb col_labels (@column_widths L H A) self) others
             then Ok (map pgrid (self :: others), pcols self, pcl self)
             else copartition_cols nparts min_col self others);
    let '(parts, joined, sizes) := c in
    do r <- match parts with l :: rs => pm_concat nparts known false l rs | [] => Err InternalBug end;
    let '(new_partitions, new_lengths) := r in
    let new_index := all_some (map pindex (self :: others)) in
    let new_lengths :=
      match new_lengths with
      | Some (x :: xs) => Some (x :: xs)
      | _ => if gsize new_partitions =? 0 then Some []
             else if first_known
                  then Some (map (fun row => match row with b :: _ => nrows b | [] => 0 end) new_partitions)
                  else None
      end in
    construct (mkpf new_partitions new_index joined new_lengths sizes).

  (** the same along columns *)
  Definition concat_frames_cols (nparts min_row : nat) (first_known : bool) (self : pf) (others : list pf) : res pf :=
    let widths := all_some (map pcl (self :: others)) in
    do c <- (if forallb (axes_identical leqb row_labels (@row_lengths L H A) self) others
             then Ok (map pgrid (self :: others), pindex self, prl self)
             else copartition_rows nparts min_row self others);
    let '(parts, joined, sizes) := c in
    do r <- match parts with l :: rs => pm_concat nparts false true l rs | [] => Err InternalBug end;
    let '(new_partitions, new_lengths2) := r in
    let new_columns := all_some (map pcols (self :: others)) in
    let new_lengths := match sizes with Some _ => sizes | None => new_lengths2 end in
    let new_widths :=
      match widths with
      | Some (x :: xs) => Some (x :: xs)
      | _ => if gsize new_partitions =? 0 then Some []
             else if first_known
                  then Some (match new_partitions with row :: _ => map ncols row | [] => [] end)
                  else None
      end in
    construct (mkpf new_partitions joined new_columns new_lengths new_widths).
End Join.

Section NAry.
  Context {L H A B : Type}.
  Variable leqb : L -> L -> bool.
  Variable heqb : H -> H -> bool.
  Variable fill : A.
  Variable join_rows_labels : list (list L) -> list L * list (list (option nat)).
  Variable join_cols_labels : list (list H) -> list H * list (list (option nat)).
  Notation dframe := (df L H A).
  Notation pf := (@pframe L H A).

  (** A pandas binary operation on two blocks, working cell by cell when their labels agree; otherwise pandas
      would align them, which is outside the model. *)
  Definition block_op (f : A -> A -> B) (d e : dframe) : res (df L H B) :=
    if list_eqb leqb (dindex d) (dindex e) && list_eqb heqb (dcols d) (dcols e)
    then Ok (zip_cells f d e) else Err Unmodelled.

  (** partition_manager.py [n_ary_operation] 1725-1788 with one right frame; the right block is looked up by
      position (IndexError if there is none) *)
  Definition n_ary_operation (f : A -> A -> B) (l r : list (list dframe)) : res (list (list (df L H B))) :=
    rmap (fun irow =>
      rmap (fun jb =>
        match nth_error r (fst irow) with
        | Some rrow => match nth_error rrow (fst jb) with Some e => block_op f (snd jb) e | None => Err IndexError end
        | None => Err IndexError
        end) (combine (seq 0 (length (snd irow))) (snd irow)))
      (combine (seq 0 (length l)) l).

  (** dataframe.py [n_ary_op] 3850-3950 with one right frame, copartition_along_columns=True,
      labels="replace" (dtypes aside) *)
  Definition n_ary_op (nparts min_row min_col : nat) (f : A -> A -> B) (self right : pf)
    : res (@pframe L H B) :=
    do c <- copartition_rows leqb heqb fill join_rows_labels nparts min_row self [right];
    let '(parts, joined_index, row_lengths) := c in
    match parts with
    | [lparts; rparts] =>
        do left1 <- construct (mkpf lparts joined_index (pcols self) row_lengths (pcl self));
        do right1 <- construct (mkpf rparts joined_index (pcols right) row_lengths (pcl right));
        do c2 <- copartition_cols leqb heqb fill join_cols_labels nparts min_col left1 [right1];
        let '(parts2, joined_columns, column_widths) := c2 in
        match parts2 with
        | [lparts2; rparts2] =>
            do new_frame <- (match lparts2, rparts2 with [], _ => Ok [] | _, [] => Ok [] | _, _ => n_ary_operation f lparts2 rparts2 end);
            construct (mkpf new_frame joined_index joined_columns row_lengths column_widths)
        | _ => Err InternalBug
        end
    | _ => Err InternalBug
    end.
End NAry.
