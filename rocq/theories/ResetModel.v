(** pandas/base.py [reset_index] 2691-2713, core/storage_formats/pandas/query_compiler.py [reset_index] 741-914 for a
    one-level index without [level=], [names=], [allow_duplicates=], and dataframe.py [from_labels] 1450-1554. *)
From Verif Require Import Base Table ChunkModel GridModel GridSpec JoinModel ResetSpec.

(** What a user sees, dataframe.py [to_pandas] 4691-4719: the labels are put into the blocks
    ([_propagate_index_objs], by the decorator) and the blocks joined; labels not known are taken from the blocks. *)
Definition look {L H A} (leqb : L -> L -> bool) (heqb : H -> H -> bool) (f : @pframe L H A) : res (df L H A) :=
  let f' := mkpf (pgrid f) (Some (row_labels f)) (Some (col_labels f)) (prl f) (pcl f) in
  do g <- propagate_index_objs None f';
  pf_to_pandas leqb heqb (mkpf g (pindex f') (pcols f') None None).

Section Reset.
  Context {L H A : Type}.
  Variable leqb : L -> L -> bool.
  Variable heqb : H -> H -> bool.
  Variable num : nat -> L.
  Variable cell : L -> A.
  Variables hindex hlevel : H.
  Variables min_row min_col nparts : nat.
  Notation dframe := (df L H A).
  Notation pf := (@pframe L H A).

  (** [from_labels_executor] 1512-1531 on a block.  Both branches build the same columns; the row labels of the result
      are overwritten later. *)
  Definition add_labels (h : H) (b : dframe) : dframe := with_labels cell h b.

  (** [from_labels] 1463-1554 *)
  Definition from_labels (name : option H) (f : pf) : res pf :=
    let cols := col_labels f in
    let h := label_header heqb hindex hlevel name cols in
    let parts := map (fun row => match row with [] => [] | b :: bs => add_labels h b :: bs end) (pgrid f) in
    match column_widths f with
    | [] => Err IndexError
    | w :: ws => construct (mkpf parts (Some (map num (seq 0 (length (row_labels f))))) (Some (h :: cols)) (prl f) (Some (S w :: ws)))
    end.

  (** [_reset] 744-755 on the whole rows of one row of blocks *)
  Definition reset_rows (drop : bool) (name : option H) (lens : list nat) (i : nat) (t : dframe) : res dframe :=
    do r <- reset heqb num cell hindex hlevel drop name t;
    let start := list_sum (firstn i lens) in
    let stop := list_sum (firstn (S i) lens) in
    if negb (stop - start =? nrows r) then Err ValueError
    else Ok (mkdf (map num (seq start (stop - start))) (dcols r) (dcells r)).

  (** 742-806, labels of the rows not known: [apply_full_axis(axis=1, enumerate_partitions=True, sync_labels=False,
      pass_axis_lengths_to_partitions=True)].  With [drop=False] the new columns are left to be computed. *)
  Definition reset_lazy (drop : bool) (name : option H) (f : pf) : res pf :=
    let lens := row_lengths f in
    do parts <- rmap (fun ir => deploy_axis_func leqb heqb true (reset_rows drop name lens (fst ir)) nparts false (snd ir) min_col None false)
                  (combine (seq 0 (length (pgrid f))) (pgrid f));
    let nc := if drop then pcols f else None in
    do w <- match nc with
            | Some c => do l <- get_length_list (length c) (grid_width parts) min_col; Ok (Some l)
            | None => Ok None
            end;
    construct (mkpf parts None nc None w).

  (** base.py 2695-2713 and query_compiler.py 741-914 *)
  Definition df_reset_index (drop : bool) (name : option H) (f : pf) : res pf :=
    if negb drop
       && match pindex f, pcols f with Some _, Some cols => has heqb hlevel cols && has heqb hindex cols | _, _ => false end
    then Err ValueError
    else match pindex f with
         | None => reset_lazy drop name f
         | Some _ => if drop then Ok (mkpf (pgrid f) (Some (map num (seq 0 (list_sum (row_lengths f))))) (pcols f) (prl f) (pcl f))
                     else from_labels name f
         end.
End Reset.
