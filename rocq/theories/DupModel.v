(** core/storage_formats/pandas/query_compiler.py [duplicated] 3346-3387 and [unique] 2231-2270 (without range
    partitioning), core/storage_formats/base/query_compiler.py [unique] 2428-2435 and pandas/base.py [drop_duplicates]
    1606-1624.  Frames with rows. *)
From Verif Require Import Base Table ChunkModel GridModel GridSpec SelSpec SelModel JoinModel RemSpec MaskModel ResetModel DupSpec.

Section Dup.
  Context {L H A T : Type}.
  Variable leqb : L -> L -> bool.
  Variable heqb : H -> H -> bool.
  (** pandas' equality of cells, missing values included *)
  Variable same : A -> A -> bool.
  (** md5 of [str(tuple(row))], the row first brought to a common type by [df.apply(axis=1)], 3348-3350 *)
  Variable text : list A -> T.
  Variable teqb : T -> T -> bool.
  Variable truth : A -> option bool.
  Variable ofbool : bool -> A.
  Variable invert : A -> A.
  Variable fill : A.
  Variable sorted : list L -> list nat.
  Variable num : nat -> L.
  Variable cell : L -> A.
  Variables (ulabel : L) (uheader : H).   (* MODIN_UNNAMED_SERIES_LABEL *)
  Variables cpus min_row min_col nparts : nat.
  Variable dynamic : bool.
  Variables known_l known_w : nat -> nat -> bool.
  Variable argsort : list Z -> list nat.
  Notation dframe := (df L H A).
  Notation pf := (@pframe L H A).

  (** [_compute_duplicated] 3359-3367 on the hashes and on the cells *)
  Definition dup_hashes (k : keeping) (d : df L H T) : dframe :=
    mkdf (dindex d) [uheader] (map (fun b => [ofbool b]) (repeated (same_row teqb) k (dcells d))).
  Definition dup_cells (k : keeping) (d : dframe) : dframe :=
    mkdf (dindex d) [uheader] (map (fun b => [ofbool b]) (repeated (same_row same) k (dcells d))).

  (** [duplicated] 3369-3387 *)
  Definition qc_duplicated (k : keeping) (f : pf) : res pf :=
    if 1 <? grid_width (pgrid f) then
      do h <- reduce leqb heqb ulabel uheader nparts min_row min_col true text f (row_labels f) (col_labels f);
      apply_full_axis leqb heqb nparts min_row min_col false (fun t => Ok (dup_hashes k t)) (pindex f) (Some [uheader]) true None h
    else
      apply_full_axis leqb heqb nparts min_row min_col false (fun t => Ok (dup_cells k t)) (pindex f) (Some [uheader]) true None f.

  (** [lambda x: x.squeeze(axis=1).unique()] 2267: the first of every kind, numbered.  The header, set when labels are
      put into the blocks, is here from the start. *)
  Definition unique_kernel (d : dframe) : dframe :=
    let rows := kept (map negb (repeated (same_row same) KFirst (dcells d))) (dcells d) in
    mkdf (map num (seq 0 (length rows))) (dcols d) rows.

  (** [getitem_column_array(subset, ignore_order=True)] 3115-3121 for distinct column labels *)
  Definition in_subset (f : pf) (hs : list H) : list nat :=
    true_from 0 (map (fun h => existsb (heqb h) hs) (col_labels f)).

  Definition is_first_or_last (k : keeping) : bool := match k with KNone => false | _ => true end.
  Definition qc_unique (k : keeping) (ignore : bool) (subset : option (list H)) (f : pf) : res pf :=
    if match subset with None => true | Some _ => false end && ignore && (length (col_labels f) =? 1) && is_first_or_last k then
      apply_full_axis leqb heqb nparts min_row min_col false (fun t => Ok (unique_kernel t)) None (Some (col_labels f)) false None f
    else
      do mask <- match subset with
                 | None => Ok f
                 | Some hs => take_2d_positional leqb heqb min_row min_col nparts known_l known_w argsort false None
                                (Some (IList (map Z.of_nat (in_subset f hs)))) f
                 end;
      do dup <- qc_duplicated k mask;
      do inv <- frame_map leqb heqb dynamic cpus nparts min_row min_col (fun t => Ok (cellwise (fun _ _ => invert) (fun h => h) t)) None dup;
      do r <- df_getitem_mask leqb heqb truth fill sorted min_row nparts f inv;
      if ignore then df_reset_index leqb heqb num cell uheader uheader min_col nparts true None r else Ok r.

  (** base.py 1606-1624 *)
  Definition df_drop_duplicates (subset : option (list H)) (k : keeping) (ignore : bool) (f : pf) : res pf :=
    if match subset with Some hs => negb (forallb (fun h => existsb (heqb h) (col_labels f)) hs) | None => false end
    then Err KeyError
    else qc_unique k ignore subset f.
End Dup.
