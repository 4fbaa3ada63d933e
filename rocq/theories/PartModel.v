(** distributed/dataframe/pandas/partitions.py: unwrap_partitions, from_partitions. *)
From Verif Require Import Base Table GridModel LabModel PartSpec.

Section PartModel.
  Context {L A : Type}.
  Variable leqb : L -> L -> bool.
  Notation dframe := (df L L A).
  Notation lframe := (@lframe L A).
  Notation parts := (@parts L L A).

  (** [unwrap_partitions] 58-151: the frame after it (labels propagated) and the pieces.  An axis partition
      is joined into one piece (axis_partition.py [force_materialization] 181-197, base [unwrap] 170-205).
      Addresses of nodes are left out; [_partitions[0][0]] (125) fails without blocks. *)
  Definition unwrap (axis : option bool) (x : lframe) : res (lframe * parts) :=
    do x' <- propagate None x;
    let g := pgrid (lf x') in
    match axis with
    | None => match g with
              | (_ :: _) :: _ => Ok (x', Blocks g)
              | _ => Err IndexError
              end
    | Some false => do ps <- rmap (concat_axis leqb leqb true) g; Ok (x', Rows ps)
    | Some true => do ps <- rmap (concat_axis leqb leqb false) (transp (grid_width g) g); Ok (x', Cols ps)
    end.

  (** [from_partitions] 211-249: the grid; [partitions[0]] (216, 232, 240) fails on an empty list *)
  Definition place (p : parts) : res (list (list dframe)) :=
    match p with
    | Blocks ((b :: row) :: g) => Ok ((b :: row) :: g)
    | Rows (b :: ps) => Ok (map (fun q => [q]) (b :: ps))
    | Cols (b :: ps) => Ok [b :: ps]
    | _ => Err IndexError
    end.

  (** partition_manager.py [get_indices] 1220-1267 on the first grid column (row): labels of every block *)
  Definition get_index (g : list (list dframe)) : list (list L) :=
    map (fun row => match row with b :: _ => dindex b | [] => [] end) g.
  Definition get_columns (g : list (list dframe)) : list (list L) :=
    match g with row :: _ => map dcols row | [] => [] end.

  (** [from_partitions] 154-275: given labels are not in the blocks and are propagated later
      ([labels_axis_to_sync], dataframe.py [synchronize_labels] 916-932) *)
  Definition from_partitions (p : parts) (index columns : option (list L)) (rl cl : option (list nat)) : res lframe :=
    do g <- place p;
    let rl' := match index, rl with None, None => Some (map (@length L) (get_index g)) | _, _ => rl end in
    let cl' := match columns, cl with None, None => Some (map (@length L) (get_columns g)) | _, _ => cl end in
    let idx := match index with Some i => i | None => concat (get_index g) end in
    let cols := match columns with Some c => c | None => concat (get_columns g) end in
    do f <- construct (mkpf g (Some idx) (Some cols) rl' cl');
    let given {X} (o : option X) := match o with Some _ => true | None => false end in
    Ok (mklf f (given index) (given columns)).

  (** xgboost.py [DMatrix.__init__] 60-104, [Booster.predict] 307-369, xgboost_ray.py [_map_predict]
      578-607, [_predict] 610-673: every row partition is predicted on its own, [predict] giving the values
      of its rows.  The column count is what a trial prediction has. *)
  Definition predict (values : dframe -> list (list A)) (columns : list L) (x : lframe) : res lframe :=
    do u <- unwrap (Some false) x;
    let x' := fst u in
    match snd u, pindex (lf x') with
    | Rows ps, Some index =>
        from_partitions (Rows (map (fun q => mkdf (dindex q) columns (values q)) ps))
          (Some index) (Some columns) (Some (row_lengths (lf x'))) (Some [length columns])
    | _, _ => Err Unmodelled
    end.
End PartModel.
