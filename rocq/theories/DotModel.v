(** [DataFrame.dot] and [Series.dot]. *)
From Verif Require Import Base Table GridModel JoinModel RemModel DotSpec.

Section Model.
  Context {L A : Type}.
  Variable leqb : L -> L -> bool.
  Variables (nan : A) (inner : list A -> list A -> A).
  Variables (num : nat -> L) (union : list L -> list L -> list L).
  (** utils.py MODIN_UNNAMED_SERIES_LABEL, '__reduced__' *)
  Variable reduced : L.
  Variables nparts min_row min_col : nat.
  Notation pf := (@pframe L L A).
  Notation dframe := (df L L A).
  Notation other := (other L A).
  Notation answer := (answer L A).

  (** [other.reindex(index=common)] and then [to_pandas], dataframe.py 803, series.py 1063 and
      query_compiler.py 2547-2552.  Simplified: reindex acts on the whole table (its blocks are the
      subject of C60). *)
  Definition reindexed (o : other) (common : list L) : res other :=
    match o with
    | OFrame t => if rearrangeable leqb (dindex t) common
                  then Ok (OFrame (mkdf common (dcols t) (arrange leqb (repeat nan (ncols t)) (dindex t) (dcells t) common)))
                  else Err ValueError
    | OSeries ix vs => if rearrangeable leqb ix common then Ok (OSeries common (arrange leqb nan ix vs common))
                       else Err ValueError
    | _ => Ok o
    end.

  (** query_compiler.py 2554 *)
  Definition num_cols (o : other) : nat :=
    match o with OFrame t => ncols t | OMatrix w _ => w | _ => 1 end.

  (** query_compiler.py 2586-2589: [pandas.DataFrame(result)] or [pandas.DataFrame([result])] *)
  Definition to_frame (a : answer) : dframe :=
    match a with
    | AFrame t => t
    | ASeries name ix vs => mkdf ix [match name with Some n => n | None => num 0 end] (map (fun v => [v]) vs)
    | AArray vs => mkdf (map num (seq 0 (length vs))) [num 0] (map (fun v => [v]) vs)
    | AScalar v | AArray0 v => mkdf [num 0] [num 0] [[v]]
    end.

  (** [df.squeeze(axis=1)] of a block with one column *)
  Definition squeezed (t : dframe) : list A := map (hd nan) (dcells t).

  (** query_compiler.py [map_func] 2582-2596; assigning labels of another length is a ValueError *)
  Definition dot_block (squeeze_self align_columns align_index : bool) (o : other) (t : dframe) : res dframe :=
    do a <- (if squeeze_self then p_sdot leqb nan inner union (Some (hd reduced (dcols t))) (dindex t) (squeezed t) o
             else p_dot leqb nan inner num union t o);
    let r := to_frame a in
    do r1 <- (if align_columns then (if ncols r =? 1 then Ok (mkdf (dindex r) [reduced] (dcells r)) else Err ValueError) else Ok r);
    if align_index then (if nrows r1 =? 1 then Ok (mkdf [reduced] (dcols r1) (dcells r1)) else Err ValueError) else Ok r1.

  (** query_compiler.py [dot] 2546-2605 *)
  Definition qc_dot (squeeze_self : bool) (o : other) (f : pf) : res pf :=
    let one := num_cols o =? 1 in
    if length (col_labels f) =? 1 then
      let with_index := ((length (row_labels f) =? 1) || squeeze_self) && one in
      let with_columns := squeeze_self && one in
      apply_full_axis leqb leqb nparts min_row min_col false (dot_block squeeze_self with_columns with_index o)
        (if with_index then Some [reduced] else None) (if with_columns then Some [reduced] else None) true None f
    else
      apply_full_axis leqb leqb nparts min_row min_col true (dot_block squeeze_self one false o)
        (Some (row_labels f)) (if one then Some [reduced] else None) true None f.

  (** series.py [_get_name] 186-197 *)
  Definition name_of (l : L) : option L := if leqb l reduced then None else Some l.

  (** series.py [Series(query_compiler=...)] and base/query_compiler.py [columnarize] 1879-1900: one row
      labelled '__reduced__', or several columns, are transposed.  Simplified: on the whole table. *)
  Definition series_of (t : dframe) : answer :=
    let t' := if negb (ncols t =? 1) || list_eqb leqb (dindex t) [reduced] then df_T t else t in
    ASeries (name_of (hd reduced (dcols t'))) (dindex t') (squeezed t').

  (** dataframe.py 797-801, series.py 1058-1061 *)
  Definition too_long (mine theirs : list L) : bool :=
    let common := union mine theirs in
    (length mine <? length common) || (length theirs <? length common).

  (** dataframe.py [DataFrame.dot] 791-829 and [_reduce_dimension] 3226-3239 *)
  Definition api_dot (o : other) (f : pf) : res answer :=
    match o with
    | OFrame t =>
        if too_long (col_labels f) (dindex t) then Err ValueError
        else do o' <- reindexed o (union (col_labels f) (dindex t));
             do f' <- qc_dot false o' f; do t' <- shown leqb leqb f'; Ok (AFrame t')
    | OSeries ix _ =>
        if too_long (col_labels f) ix then Err ValueError
        else do o' <- reindexed o (union (col_labels f) ix);
             do f' <- qc_dot false o' f; do t' <- shown leqb leqb f'; Ok (series_of t')
    | OMatrix _ rows =>
        if length (col_labels f) =? length rows then
          do f' <- qc_dot false o f; do t' <- shown leqb leqb f'; Ok (AFrame t')
        else Err ValueError
    | OVector vs =>
        if length (col_labels f) =? length vs then
          do f' <- qc_dot false o f; do t' <- shown leqb leqb f'; Ok (series_of t')
        else Err ValueError
    end.

  (** series.py [Series._reduce_dimension] 2601-2614: [to_pandas().squeeze()] *)
  Definition scalar_of (t : dframe) : res answer :=
    match dcells t with [[v]] => Ok (AScalar v) | _ => Err Unmodelled end.
  (** series.py 1083: [to_numpy().squeeze()] of a table with one column *)
  Definition array_of (t : dframe) : res answer :=
    if ncols t =? 1 then Ok (match dcells t with [[v]] => AArray0 v | _ => AArray (squeezed t) end) else Err Unmodelled.

  (** series.py [Series.dot] 1053-1089 *)
  Definition api_sdot (o : other) (f : pf) : res answer :=
    match o with
    | OFrame t =>
        if too_long (row_labels f) (dindex t) then Err ValueError
        else do o' <- reindexed o (union (row_labels f) (dindex t));
             do f' <- qc_dot true o' f; do t' <- shown leqb leqb f'; Ok (series_of t')
    | OSeries ix _ =>
        if too_long (row_labels f) ix then Err ValueError
        else do o' <- reindexed o (union (row_labels f) ix);
             do f' <- qc_dot true o' f; do t' <- shown leqb leqb f'; scalar_of t'
    | OMatrix _ rows =>
        if length (row_labels f) =? length rows then
          do f' <- qc_dot true o f; do t' <- shown leqb leqb f'; array_of t'
        else Err ValueError
    | OVector vs =>
        if length (row_labels f) =? length vs then
          do f' <- qc_dot true o f; do t' <- shown leqb leqb f'; scalar_of t'
        else Err ValueError
    end.
End Model.
