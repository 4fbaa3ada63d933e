(** Reindexing (core/storage_formats/pandas/query_compiler.py [reindex], pandas/base.py [reindex]) and assignment by
    label (pandas/indexing.py [_LocIndexer.__setitem__]). *)
From Verif Require Import Base Table GridModel SelSpec SelModel SetSpec SetModel LocSpec LocModel EnlSpec.

Section Reindex.
  Context {L A : Type}.
  Variable leqb : L -> L -> bool.
  Variables min_row min_col nparts : nat.
  Notation dframe := (df L L A).
  Notation pf := (@pframe L L A).

  (** pandas [df.reindex(labels, axis=..., fill_value=fill)] of a table whose labels on the axis are distinct or
      already as wanted *)
  Definition reindex_rows (fill : A) (ls : list L) (d : dframe) : dframe :=
    if list_eqb leqb (dindex d) ls then d
    else mkdf ls (dcols d)
           (map (fun l => match everywhere leqb (dindex d) l with
                          | p :: _ => nth p (dcells d) []
                          | [] => repeat fill (ncols d)
                          end) ls).
  Definition reindex_cols (fill : A) (ls : list L) (d : dframe) : dframe :=
    if list_eqb leqb (dcols d) ls then d
    else mkdf (dindex d) ls
           (map (fun r => map (fun l => match everywhere leqb (dcols d) l with
                                        | q :: _ => nth q r fill
                                        | [] => fill
                                        end) ls) (dcells d)).

  (** pandas [Index.reindex] *)
  Fixpoint distinct (ls : list L) : bool :=
    match ls with [] => true | l :: ls => negb (existsb (leqb l) ls) && distinct ls end.
  Definition index_reindex (old ls : list L) : res (list L) :=
    if list_eqb leqb old ls then Ok ls else if distinct old then Ok ls else Err ValueError.

  (** query_compiler.py [reindex] 713-739 (dtypes aside, [method] not given); dataframe.py [apply_full_axis] 2956-3032
      with keep_partitioning=True *)
  Definition qc_reindex (axis : bool) (fill : A) (ls : list L) (f : pf) : res pf :=
    do index <- labels (pindex f);
    do columns <- labels (pcols f);
    if axis
    then do nc <- index_reindex columns ls;
         apply_full_axis leqb leqb nparts min_row min_col true (fun d => Ok (reindex_cols fill ls d))
           (Some index) (Some nc) true None f
    else do ni <- index_reindex index ls;
         apply_full_axis leqb leqb nparts min_row min_col false (fun d => Ok (reindex_rows fill ls d))
           (Some ni) (Some columns) true None f.

  (** What is passed as new labels: a pandas.Index or another sequence. *)
  Inductive new_labels := AnIndex (ls : list L) | AList (ls : list L).
  Definition labels_of (x : new_labels) : list L := match x with AnIndex ls | AList ls => ls end.

  (** pandas/base.py [reindex] 2520-2550.  The result: what is returned (None when the frame itself is updated)
      and the frame afterwards. *)
  Definition df_reindex (index columns : option new_labels) (fill : A) (copy : option bool) (f : pf)
    : res (option pf * pf) :=
    do old_index <- labels (pindex f);
    do old_columns <- labels (pcols f);
    do f1 <- match index with
             | None => Ok f
             | Some x =>
                 if match x with AnIndex ls => list_eqb leqb ls old_index | AList _ => false end then Ok f
                 else qc_reindex false fill (labels_of x) f
             end;
    do f2 <- match columns with
             | None => Ok f1
             | Some y =>
                 match index with
                 | Some (AnIndex _) =>
                     match y with
                     | AnIndex ls => if list_eqb leqb ls old_columns then Ok f1 else qc_reindex true fill ls f1
                     | AList _ => Err AttributeError          (* columns.equals *)
                     end
                 | _ => qc_reindex true fill (labels_of y) f1
                 end
             end;
    Ok (match copy with Some false => (None, f2) | _ => (Some f2, f) end).
End Reindex.

Section LocSet.
  Context {L A : Type}.
  Variables leqb leb : L -> L -> bool.
  Variable of_Z : Z -> L.
  Variable of_bool : bool -> L.             (* True and False as labels *)
  Variable num : L -> option Z.
  Variable coerce : L -> res L.
  Variables min_row min_col nparts : nat.
  Variables known_l known_w : nat -> nat -> bool.
  Variable argsort : list Z -> list nat.
  Variable join_rows_labels : list (list L) -> list L * list (list (option nat)).
  Variables nan zero : A.                   (* missing, and the number 0 *)
  Variable first_known : bool.
  Notation pf := (@pframe L L A).

  Definition has (ls : list L) (l : L) : bool := existsb (leqb l) ls.
  Definition scalar (k : key L) : bool := match k with KLabel _ => true | _ => false end.

  (** indexing.py [_setitem_positional] 486-530 with [_determine_setitem_axis] *)
  Definition setitem_positional (row_scalar col_scalar : bool) (rlookup clookup : option indexer) (value : item A)
      (f : pf) : res pf :=
    do index <- labels (pindex f);
    do columns <- labels (pcols f);
    let rows := or_all (length index) rlookup in
    let cols := or_all (length columns) clookup in
    match determine_setitem_axis (length index) (length columns) (length (ipos rows)) (length (ipos cols))
            row_scalar col_scalar with
    | Some false =>
        if negb (length (ipos cols) =? 1) then Err AssertionError
        else do keys <- np_take columns (ipos cols);
             match keys with
             | key :: _ => df_setitem leqb leqb min_row min_col nparts known_l known_w argsort nan join_rows_labels
                             first_known key value f
             | [] => Err IndexError
             end
    | Some true =>
        if negb (length (ipos rows) =? 1) then Err AssertionError
        else do keys <- np_take index (ipos rows);
             match keys with
             | key :: _ => setitem_row leqb leqb min_col key value f
             | [] => Err IndexError
             end
    | None => write_items rows cols value f
    end.

  (** indexing.py [_set_item_existing_loc] 936-974 (not for boolean Series) *)
  Definition set_item_existing_loc (rk ck : key L) (value : item A) (f : pf) : res pf :=
    do index <- labels (pindex f);
    do columns <- labels (pcols f);
    do rows <- positions_from_labels leqb leb of_Z num coerce index rk;
    do cols <- positions_from_labels leqb leb of_Z num coerce columns ck;
    setitem_positional (scalar rk) (scalar ck) rows cols value f.

  (** indexing.py [_compute_enlarge_labels] 1017-1056 for a list: how many labels are missing *)
  Fixpoint distinct_count (ls : list L) : nat :=
    match ls with [] => 0 | l :: ls => (if has ls l then 0 else 1) + distinct_count ls end.
  Definition compute_enlarge_labels (index ls : list L) : res nat :=
    if existsb (has index) ls
    then Ok (distinct_count (filter (fun l => negb (has index l)) ls))
    else Err KeyError.
  (** the same for a list of booleans *)
  Definition compute_enlarge_mask (index : list L) (m : list bool) : res nat :=
    if negb (length m =? length index) then Err ValueError
    else if existsb (fun b => b) m then Ok 0 else Err KeyError.

  (** indexing.py [_check_missing_loc] 976-1015: Some false for a new row, Some true for new columns.  [KMask] is a
      list of booleans here (an array is not looked at). *)
  Definition check_missing_loc (index columns : list L) (rk ck : key L) : res (option bool) :=
    match rk with
    | KLabel l => Ok (if has index l then None else Some false)
    | _ =>
        do missing <- match rk with
                      | KList ls => compute_enlarge_labels index ls
                      | KMask m => compute_enlarge_mask index m
                      | _ => Ok 0
                      end;
        if 1 <? missing then Err KeyError
        else Ok (match ck with
                 | KList ls => if existsb (fun l => negb (has columns l)) ls then Some true else None
                 | KMask m => if existsb (fun b => negb (has columns (of_bool b))) m then Some true else None
                 | KLabel l => if has columns l then None else Some true
                 | _ => None
                 end)
    end.

  (** The frame afterwards, and the exception if one was raised. *)
  Definition finish (r : res pf) (f : pf) : pf * option err :=
    match r with Ok f' => (f', None) | Err e => (f, Some e) end.

  (** indexing.py [_setitem_with_new_columns] 899-934.  [col_loc] as a list; afterwards it is an array (of labels,
      or of booleans). *)
  Definition setitem_with_new_columns (rk ck : key L) (value : item A) (f : pf) : pf * option err :=
    let col_loc := match ck with
                   | KLabel l => [l]
                   | KList ls => ls
                   | KMask m => map of_bool m
                   | _ => []
                   end in
    let ck' := match ck with KMask m => KMask m | _ => KIndex col_loc end in
    if match value with
       | Scalar _ => false
       | Vector _ _ => negb (length col_loc =? 1)
       | Matrix _ c _ => negb (c =? length col_loc)
       end then (f, Some ValueError)
    else
      match labels (pcols f) with
      | Err e => (f, Some e)
      | Ok columns =>
          let new := filter (fun l => negb (has columns l)) col_loc in
          match (if length new =? 0 then Ok f
                 else qc_reindex leqb min_row min_col nparts true nan (columns ++ new) f) with
          | Err e => (f, Some e)
          | Ok f1 => finish (set_item_existing_loc rk ck' value f1) f1
          end
      end.

  (** indexing.py [_LocIndexer.__setitem__] 853-897 for a frame with rows and columns (an empty one defaults to
      pandas) *)
  Definition loc_setitem (rk ck : key L) (value : item A) (f : pf) : pf * option err :=
    match (do e <- empty f;
           if e then Err Unmodelled
           else do index <- labels (pindex f);
                do columns <- labels (pcols f);
                do append_axis <- check_missing_loc index columns rk ck;
                Ok (index, append_axis)) with
    | Err e => (f, Some e)
    | Ok (index, append_axis) =>
        if negb (scalar rk && scalar ck) then
          match append_axis with
          | Some true => setitem_with_new_columns rk ck value f
          | Some false =>
              match rk with
              | KLabel l =>
                  match qc_reindex leqb min_row min_col nparts false zero (index ++ [l]) f with
                  | Err e => (f, Some e)
                  | Ok f1 => finish (set_item_existing_loc rk ck value f1) f1
                  end
              | _ => (f, Some Unmodelled)
              end
          | None => finish (set_item_existing_loc rk ck value f) f
          end
        else finish (set_item_existing_loc rk ck value f) f
    end.
End LocSet.
