(** pandas/dataframe.py [insert] 1093-1164, core/storage_formats/pandas/query_compiler.py [insert] 3394-3438 and
    [_wrap_column_data] 3440-3457, core/storage_formats/base/query_compiler.py [insert_item] 4982-5024. *)
From Verif Require Import Base Table ChunkModel GridModel GridSpec SelSpec SelModel JoinSpec JoinModel SetModel InsSpec.

(** The objects a user holds, by their name: every one has its partitioned frame.  (A Series is a frame of one column;
    [squeeze(axis=1)], pandas/dataframe.py 2127-2129, makes a Series on the same query compiler as the frame.) *)
Definition store (L H A : Type) := nat -> @pframe L H A.
Definition assign {L H A} (s : store L H A) (k : nat) (f : @pframe L H A) : store L H A := fun i => if i =? k then f else s i.

(** what is inserted: a scalar, a list-like without labels, or an object of the user (a Series or a DataFrame) *)
Inductive inserted (A : Type) := IScalar (a : A) | IValues (l : list A) | IObject (k : nat).
Arguments IScalar {A} _. Arguments IValues {A} _. Arguments IObject {A} _.

Section Ins.
  Context {L H A : Type}.
  Variable leqb : L -> L -> bool.
  Variable heqb : H -> H -> bool.
  Variables min_row min_col nparts : nat.
  Variables known_l known_w : nat -> nat -> bool.
  Variable argsort : list Z -> list nat.
  Variable fill : A.
  Notation dframe := (df L H A).
  Notation pf := (@pframe L H A).

  (** dataframe.py [_set_columns] 776-810: the frame itself is changed.  The labels are put into the blocks here and
      now (LabModel has the deferral), and the cached lengths are left out: they are read off the blocks again. *)
  Definition set_columns (cols : list H) (f : pf) : res pf :=
    do old <- labels (pcols f);
    if list_eqb heqb old cols then Ok f
    else if negb (length old =? length cols) then Err ValueError
    else
      let f' := mkpf (pgrid f) (pindex f) (Some cols) (prl f) (pcl f) in
      do g <- propagate_index_objs (Some true) f';
      Ok (mkpf g (pindex f) (Some cols) None None).

  (** dataframe.py [_join_index_objects] 1988-2075 with [how=None]: the labels of the first frame.  Labels that repeat in
      one frame and differ in another are not modelled ([get_indexer_for] gives all their positions). *)
  Definition first_labels (ls : list (list L)) : list L * list (list (option nat)) :=
    let joined := nth 0 ls [] in (joined, indexers leqb joined ls).

  (** base query compiler [insert_item] with axis=1, replace=False, how=None *)
  Definition insert_column (first_known : bool) (loc : nat) (value f : pf) : res pf :=
    do columns <- labels (pcols f);
    let n := length columns in
    let mask idx := if length idx =? n then Ok f
                    else take_2d_positional leqb heqb min_row min_col nparts known_l known_w argsort false
                           None (Some (IList (map Z.of_nat idx))) f in
    if loc <? n then
      do first_mask <- mask (seq 0 loc);
      do second_mask <- mask (seq loc (n - loc));
      concat_frames_cols leqb heqb fill first_labels nparts min_row first_known first_mask [value; second_mask]
    else concat_frames_cols leqb heqb fill first_labels nparts min_row first_known f [value].

  (** partition_manager.py [apply_func_to_select_indices_along_full_axis] 1499-1614 with axis=0, keep_remaining=True *)
  Definition apply_func_to_select_cols_full (func : bidx -> dframe -> res dframe)
      (dict : list (nat * bidx)) (g : list (list dframe)) : res (list (list dframe)) :=
    let parts := transp (grid_width g) g in
    do result <- rmap (fun ip => match find_entry (fst ip) dict with
                                 | None => Ok (snd ip)
                                 | Some ix => deploy_axis_func leqb heqb false (func ix) (length (snd ip)) true (snd ip)
                                                min_row None false
                                 end)
                      (combine (seq 0 (length parts)) parts);
    Ok (transp (length g) result).

  (** query_compiler.py [insert.insert] 3400-3413: pandas' insert on a column partition; a label it has already is a
      ValueError there *)
  Definition insert_builder (column : H) (a : A) (internal : bidx) (b : dframe) : res dframe :=
    match expand (ncols b) internal with
    | i :: _ =>
        if existsb (heqb column) (dcols b) then Err ValueError
        else if ncols b <? i then Err IndexError
        else Ok (mkdf (dindex b) (firstn i (dcols b) ++ column :: skipn i (dcols b))
                      (map (fun r => firstn i r ++ a :: skipn i r) (dcells b)))
    | [] => Err IndexError
    end.

  (** query_compiler.py [insert] 3415-3438 (dtypes aside), dataframe.py [apply_full_axis_select_indices] 3035-3107 *)
  Definition insert_scalar (loc : nat) (column : H) (a : A) (f : pf) : res pf :=
    do index <- labels (pindex f);
    do columns <- labels (pcols f);
    do dict <- block_index (column_widths f) (grid_width (pgrid f)) (length columns) (IList [Z.of_nat loc]) false;
    do g <- apply_func_to_select_cols_full (insert_builder column a) dict (pgrid f);
    construct (mkpf g (Some index) (Some (firstn loc columns ++ column :: skipn loc columns)) None None).

  (** pandas/dataframe.py [insert] 1093-1164 on the frame with the name [r].  Frames without rows or without columns
      go another way (1118-1138), which is not modelled. *)
  Definition df_insert (first_known : bool) (loc : Z) (column : H) (value : inserted A) (allow_duplicates : bool)
      (r : nat) (s : store L H A) : res (store L H A) :=
    do index <- labels (pindex (s r));
    do columns <- labels (pcols (s r));
    do shape <- match value with
                | IObject k => do cs <- labels (pcols (s k)); Ok (length cs)
                | _ => Ok 1
                end;
    if negb (shape =? 1) then Err ValueError
    else if (length index =? 0) || (length columns =? 0) then Err Unmodelled
    else if match value with IValues l => negb (length l =? length index) | _ => false end then Err ValueError
    else if negb allow_duplicates && existsb (heqb column) columns then Err ValueError
    else if negb ((- Z.of_nat (length columns) <=? loc) && (loc <=? Z.of_nat (length columns)))%Z then Err IndexError
    else if (loc <? 0)%Z then Err ValueError
    else
      let loc := Z.to_nat loc in
      match value with
      | IScalar a => do new <- insert_scalar loc column a (s r); Ok (assign s r new)
      | IValues l =>
          do v <- distribute min_row min_col nparts (mkdf index [column] (map (fun x => [x]) l));
          do new <- insert_column first_known loc v (s r); Ok (assign s r new)
      | IObject k =>
          do v <- set_columns [column] (s k);
          let s := assign s k v in
          do new <- insert_column first_known loc (s k) (s r); Ok (assign s r new)
      end.
End Ins.
