(** core/storage_formats/pandas/query_compiler.py [sort_index] 2879-2916, [_nsort] 2605-2651; pandas/base.py [sort_index]
    3109-3143; pandas/dataframe.py [nlargest], [nsmallest] 1476-1494. *)
From Verif Require Import Base Table GridModel SelSpec SelModel JoinSpec JoinModel.

Section Ord.
  Context {L H A : Type}.
  Variable leqb : L -> L -> bool.
  Variable heqb : H -> H -> bool.
  Variables min_row min_col nparts : nat.
  Notation dframe := (df L H A).
  Notation pf := (@pframe L H A).

  (** pandas' [sort_index] on a block: [order] gives the positions of labels in order, for the given ascending, kind,
      na_position and key; with [ignore_index] the result is numbered by [num]. *)
  Definition kernel_sort_rows (order : list L -> list nat) (num : nat -> L) (ignore : bool) (t : dframe) : dframe :=
    let p := order (dindex t) in
    mkdf (if ignore then map num (seq 0 (length p)) else pick (dindex t) p) (dcols t) (pick (dcells t) p).
  Definition kernel_sort_columns (order : list H -> list nat) (num : nat -> H) (ignore : bool) (t : dframe) : dframe :=
    let p := order (dcols t) in
    mkdf (dindex t) (if ignore then map num (seq 0 (length p)) else pick (dcols t) p) (map (fun r => pick r p) (dcells t)).

  (** query_compiler.py [sort_index] for labels of one level; with several levels or [level] it defaults to pandas, which
      is not modelled.  [index.to_frame().sort_index().index] is the sorted labels (2902, 2905). *)
  Definition sort_index_rows (order : list L -> list nat) (num : nat -> L) (ignore : bool) (f : pf) : res pf :=
    let index := row_labels f in
    let p := order index in
    let new_index := if ignore then map num (seq 0 (length p)) else pick index p in
    apply_full_axis leqb heqb nparts min_row min_col false (fun t => Ok (kernel_sort_rows order num ignore t))
      (Some new_index) (Some (col_labels f)) false None f.
  Definition sort_index_columns (order : list H -> list nat) (num : nat -> H) (ignore : bool) (f : pf) : res pf :=
    let columns := col_labels f in
    let p := order columns in
    let new_columns := if ignore then map num (seq 0 (length p)) else pick columns p in
    apply_full_axis leqb heqb nparts min_row min_col true (fun t => Ok (kernel_sort_columns order num ignore t))
      (Some (row_labels f)) (Some new_columns) false None f.

  (** pandas' [nlargest]/[nsmallest] on a block: [best] gives the positions of the rows to return, in their order, from
      the values in the columns named; a column that the block does not have is a KeyError.  A label is looked up once:
      repeated column labels are not modelled. *)
  Definition kernel_nsort (best : list (list A) -> list nat) (columns : list H) (t : dframe) : res dframe :=
    do ps <- rmap (fun h => match position heqb h (dcols t) with Some p => Ok p | None => Err KeyError end) columns;
    let rows := best (map (fun r => pick r ps) (dcells t)) in
    Ok (mkdf (pick (dindex t) rows) (dcols t) (pick (dcells t) rows)).
  (** query_compiler.py [_nsort] 2643-2651 with [columns] given *)
  Definition nsort (best : list (list A) -> list nat) (columns : list H) (f : pf) : res pf :=
    apply_full_axis leqb heqb nparts min_row min_col false (kernel_nsort best columns) None (Some (col_labels f)) false None f.
End Ord.
