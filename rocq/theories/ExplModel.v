(** [explode]. *)
From Verif Require Import Base Table GridModel JoinModel ResetModel ExplSpec.

Section Model.
  Context {L H A : Type}.
  Variables (leqb : L -> L -> bool) (heqb : H -> H -> bool).
  Variable elements : A -> list A.
  Variable num : nat -> L.
  Variable cell : L -> A.
  Variables hindex hlevel : H.
  Variables nparts min_row min_col : nat.
  Notation pf := (@pframe L H A).
  Notation dframe := (df L H A).

  (** dataframe.py [explode] 2878-2916 along [axis] (true: 1, whole rows); [_compute_axis_labels_and_lengths] takes the
      labels and lengths of the new axis from the first blocks *)
  Definition frame_explode (axis : bool) (func : dframe -> res dframe) (f : pf) : res pf :=
    do parts <- map_axis_partitions leqb heqb nparts (if axis then min_col else min_row) axis (pgrid f) func true None None;
    let g := mkpf parts None None None None in
    if axis
    then construct (mkpf parts (Some (row_labels g)) (pcols f) (Some (row_lengths g)) (pcl f))
    else construct (mkpf parts (pindex f) (Some (col_labels g)) (prl f) (Some (column_widths g))).

  (** query_compiler.py [explode] 3461-3464 *)
  Definition qc_explode (columns : list H) (f : pf) : res pf :=
    frame_explode true (p_explode heqb elements num columns false) f.

  (** base.py [explode] 1632-1643 *)
  Definition api_explode (columns : list H) (ignore_index : bool) (f : pf) : res pf :=
    do g <- qc_explode columns f;
    if ignore_index then df_reset_index leqb heqb num cell hindex hlevel min_col nparts true None g else Ok g.

  (** series.py [explode] 1163-1170: a Series is a frame with one column *)
  Definition api_series_explode (label : H) (ignore_index : bool) (f : pf) : res pf := api_explode [label] ignore_index f.
End Model.
