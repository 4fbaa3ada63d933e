(** pandas/dataframe.py [join] with [on=], query_compiler.py [join] (C86). *)
From Verif Require Import Base Table ChunkModel GridModel JoinModel GroupSpec MergeSpec MergeModel JonSpec.

Section Model.
  Context {L H A : Type}.
  Variable leqb : L -> L -> bool.
  Variable heqb : H -> H -> bool.
  Variable nan : A.
  Variable is_label : A -> L -> bool.
  Variable label_cell : L -> A.
  Variable nolabel : L.
  Variable names : list H -> list H -> res (list H).
  Variables nparts min_row min_col : nat.
  Notation dframe := (df L H A).
  Notation pf := (@pframe L H A).
  Notation p_join := (p_join heqb nan is_label label_cell nolabel names).

  (** dataframe.py [broadcast_apply_full_axis] 3483-3676 with axis=1, keep_partitioning=False, new_index=None, new_columns=None;
      as MergeModel.broadcast_rows, but the rows have the labels the function gives them *)
  Definition broadcast_labelled (func : dframe -> dframe -> res dframe) (other : pf) (num_splits : nat) (f : pf) : res pf :=
    let right := extract_partitions other in
    do parts <- rmap (fun blocks =>
                        do l <- concat_axis leqb heqb true blocks;
                        do rows <- rmap (concat_axis leqb heqb true) right;
                        do r <- concat_axis leqb heqb false rows;
                        do out <- func l r;
                        split_result_of_axis_func true num_splits out min_col None)
                     (pgrid f);
    construct (mkpf parts None None None None).

  (** pandas' join of two tables, then distributed: [default_to_pandas] *)
  Definition join_default (h : how) (on : H) (left right : pf) : res pf :=
    do l <- pf_to_pandas leqb heqb left;
    do r <- pf_to_pandas leqb heqb right;
    do d <- p_join h on l r;
    do f <- from_pandas nparts min_row min_col d;
    Ok (mkpf (fgrid f) (Some (findex f)) (Some (fcols f)) (Some (frow_lengths f)) (Some (fcol_widths f))).

  (** query_compiler.py [join] 669-708 with sort=False; dataframe.py [join] 1262-1273 passes its arguments on *)
  Definition qc_join (h : how) (on : H) (left right : pf) : res pf :=
    let reverted := match h with HRight => true | _ => false end in
    if reverted && (gsize (pgrid right) =? 0) then join_default h on left right
    else
      let '(a, b) := if reverted then (right, left) else (left, right) in
      let map_func l r := if reverted then p_join h on r l else p_join h on l r in
      do right_to_broadcast <- combine_frame leqb heqb b;
      do splits <- merge_partitioning nparts min_col (pcl a) (pcl b) (pgrid a) (pgrid b);
      broadcast_labelled map_func right_to_broadcast splits a.
End Model.
