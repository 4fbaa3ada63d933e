(** pandas/dataframe.py [equals] (C90). *)
From Verif Require Import Base Table ChunkModel GridModel JoinModel.

Section Model.
  Context {L H A : Type}.
  Variable leqb : L -> L -> bool.
  Variable heqb : H -> H -> bool.
  Variable aeqb : A -> A -> bool.
  Variable fill : A.
  Variables nparts min_row min_col : nat.
  Notation dframe := (df L H A).
  Notation pf := (@pframe L H A).

  (** pandas' [DataFrame.equals] on two blocks (dtypes aside) *)
  Definition block_equals (d e : dframe) : bool :=
    list_eqb leqb (dindex d) (dindex e) && list_eqb heqb (dcols d) (dcols e) && list_eqb (list_eqb aeqb) (dcells d) (dcells e).

  (** dataframe.py [_join_index_objects] 1988-2075 with how=None: the first labels.  Reached only if the labels differ, and then [equals]
      has answered already. *)
  Definition first_labels {X} (idxs : list (list X)) : list X * list (list (option nat)) :=
    (nth 0 idxs [], map (fun i => map Some (seq 0 (length i))) idxs).

  (** partition_manager.py [n_ary_operation] 1725-1788 with one right frame and query_compiler.py [equals] 542-547: a one-cell block for every
      pair of blocks *)
  Definition equals_blocks (l r : list (list dframe)) : res (list (list bool)) :=
    rmap (fun irow =>
      rmap (fun jb =>
        match nth_error r (fst irow) with
        | Some rrow => match nth_error rrow (fst jb) with Some e => Ok (block_equals (snd jb) e) | None => Err IndexError end
        | None => Err IndexError
        end) (combine (seq 0 (length (snd irow))) (snd irow)))
      (combine (seq 0 (length l)) l).

  (** dataframe.py [n_ary_op] 3850-3950 with one right frame, join_type=None, labels="drop": the grid of answers, which carries no labels *)
  Definition qc_equals (self right : pf) : res (list (list bool)) :=
    do c <- copartition_rows leqb heqb fill first_labels nparts min_row self [right];
    let '(parts, joined_index, row_lengths) := c in
    match parts with
    | [lparts; rparts] =>
        do left1 <- construct (mkpf lparts joined_index (pcols self) row_lengths (pcl self));
        do right1 <- construct (mkpf rparts joined_index (pcols right) row_lengths (pcl right));
        do c2 <- copartition_cols leqb heqb fill first_labels nparts min_col left1 [right1];
        let '(parts2, joined_columns, column_widths) := c2 in
        match parts2 with
        | [lparts2; rparts2] => match lparts2, rparts2 with [], _ => Ok [] | _, [] => Ok [] | _, _ => equals_blocks lparts2 rparts2 end
        | _ => Err InternalBug
        end
    | _ => Err InternalBug
    end.

  (** dataframe.py [_get_index] / [_get_columns]: labels that are not known are read from the blocks and kept, with the lengths if they are not
      known either *)
  Definition labelled (f : pf) : pf :=
    mkpf (pgrid f) (Some (row_labels f)) (Some (col_labels f))
      (match pindex f, prl f with None, None => Some (row_lengths f) | _, l => l end)
      (match pcols f, pcl f with None, None => Some (column_widths f) | _, w => w end).

  (** pandas/dataframe.py [equals] 841-859 on two Modin frames; [result.all(axis=None)], pandas/base.py 930-949, is the conjunction of all cells *)
  Definition equals (self other : pf) : res bool :=
    if negb (list_eqb leqb (row_labels self) (row_labels other)) || negb (list_eqb heqb (col_labels self) (col_labels other)) then Ok false
    else do answers <- qc_equals (labelled self) (labelled other); Ok (forallb (forallb (fun b => b)) answers).
End Model.
