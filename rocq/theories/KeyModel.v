(** pandas/dataframe.py [set_index] 2047-2113, core/storage_formats/pandas/query_compiler.py [set_index_from_columns]
    921-952, core/dataframe/pandas/dataframe/dataframe.py [to_labels] 1556-1586; pandas/base.py [pop] 2385-2391.
    Row labels are lists of level values; dtypes are left out.  Column labels have one level. *)
From Verif Require Import Base Table GridModel SelSpec SelModel LocSpec LocModel JoinModel RemSpec RemModel KeySpec.

Section Key.
  Context {H A : Type}.
  Variable aeqb : A -> A -> bool.
  Variable heqb : H -> H -> bool.
  Variable order : list H -> list H.
  Variables min_row min_col nparts : nat.
  Variables known_l known_w : nat -> nat -> bool.
  Variable argsort : list Z -> list nat.
  (** [is_list_like(label)]: a label that is a tuple *)
  Variable is_tuple : H -> bool.
  Notation L := (list A).
  Notation leqb := (list_eqb aeqb).
  Notation dframe := (df L H A).
  Notation pf := (@pframe L H A).
  Notation key := (rowkey H A).
  Notation take cols f := (take_2d_positional leqb heqb min_row min_col nparts known_l known_w argsort false None (Some (IList cols)) f).

  (** a DataFrame of the user: its partitioned frame and the names of the levels of its index *)
  Record object := mkobj { body : pf; names : list (option H) }.

  (** dataframe.py [_set_index] 762-774, [_validate_set_axis] 696-724: the labels are put into the blocks here and now
      (LabModel has the deferral), and the cached lengths are left out: they are read off the blocks again. *)
  Definition set_rows (idx : list L) (f : pf) : res pf :=
    do old <- labels (pindex f);
    if negb (length old =? length idx) then Err ValueError
    else
      let f' := mkpf (pgrid f) (Some idx) (pcols f) (prl f) (pcl f) in
      do g <- propagate_index_objs (Some false) f';
      Ok (mkpf g (Some idx) (pcols f) None None).

  (** [to_labels] 1556-1586: the rows of the extracted columns are the labels ([Index(squeeze(axis=1))] if there is one,
      [MultiIndex.from_frame] if there are several; a repeated column label makes too many columns, a ValueError). *)
  Definition to_labels (column_list : list H) (f : pf) : res pf :=
    do columns <- labels (pcols f);
    do extracted <- take (get_indexer heqb columns column_list) f;
    do t <- pf_to_pandas leqb heqb extracted;
    if negb (ncols t =? length column_list) then Err ValueError
    else
      do result <- take (get_indexer heqb columns (filter (fun h => negb (existsb (heqb h) (dcols t))) columns)) f;
      set_rows (dcells t) result.

  (** [set_index_from_columns] 921-952 *)
  Definition set_index_from_columns (keys : list H) (drop append : bool) (o : object) : res object :=
    do new <- to_labels keys (body o);
    do index <- labels (pindex (body o));
    do l <- labels (pindex new);
    let arrays := if append then map2 (@app A) index l else l in
    let nms := (if append then names o else []) ++ map Some keys in
    do new <- (if append then set_rows arrays new else Ok new);
    if drop then Ok (mkobj new nms)
    else do result <- set_rows arrays (body o); Ok (mkobj result nms).

  (** [Index.is_unique] *)
  Fixpoint is_unique (ls : list L) : bool :=
    match ls with [] => true | l :: ls => negb (existsb (leqb l) ls) && is_unique ls end.

  (** 2080-2112.  The result is the object after the call and what the call returns (the object itself if in place).  A
      missing label is a KeyError; labels that are instances of classes with a __dict__ are not modelled. *)
  Definition by_labels (keys : list H) (drop append verify inplace : bool) (o : object) : object * res object :=
    match labels (pcols (body o)) with
    | Err e => (o, Err e)
    | Ok columns =>
      if existsb (fun h => negb (existsb (heqb h) columns)) keys then (o, Err KeyError)
      else match set_index_from_columns keys drop append o with
           | Err e => (o, Err e)
           | Ok r =>
             match labels (pindex (body r)) with
             | Err e => (o, Err e)
             | Ok index => if verify && negb (is_unique index) then (o, Err ValueError)
                           else (if inplace then r else o, Ok r)
             end
           end
    end.

  (** [pop]: [self[item]], [del self[item]] (dataframe.py 2911-2922, qc [delitem]: [drop(columns=[key])], query_compiler.py
      3326-3342); a repeated label gives a frame, which is not modelled. *)
  Definition pop (h : H) (o : object) : res (list A * object) :=
    do columns <- labels (pcols (body o));
    if negb (existsb (heqb h) columns) then Err KeyError
    else
      do column <- take (get_indexer heqb columns [h]) (body o);
      do t <- pf_to_pandas leqb heqb column;
      if negb (ncols t =? 1) then Err Unmodelled
      else
        do rest <- take (np_sort (get_indexer heqb columns (difference heqb order columns [h]))) (body o);
        Ok (concat (dcells t), mkobj rest (names o)).

  (** 2066: [[k if is_list_like(k) else frame.pop(k) for k in keys]] *)
  Fixpoint pops (keys : list key) (o : object) : object * res (list key) :=
    match keys with
    | [] => (o, Ok [])
    | KColumn h :: ks =>
        if is_tuple h then let (o', r) := pops ks o in (o', do l <- r; Ok (KColumn h :: l))
        else match pop h o with
             | Err e => (o, Err e)
             | Ok (vs, o1) => let (o', r) := pops ks o1 in (o', do l <- r; Ok (KValues (Some h) vs :: l))
             end
    | KValues n vs :: ks => let (o', r) := pops ks o in (o', do l <- r; Ok (KValues n vs :: l))
    end.

  (** pandas' [DataFrame(index=index).set_index(keys).index]: that frame has no columns, so a label is a KeyError; values
      of another length are a ValueError. *)
  Definition pandas_set_index (index : list L) (nms : list (option H)) (keys : list key) (append verify : bool)
      : res (list L * list (option H)) :=
    if existsb (fun k => match k with KColumn _ => true | KValues _ _ => false end) keys then Err KeyError
    else if existsb (fun k => match k with KColumn _ => false | KValues _ l => negb (length l =? length index) end) keys then Err ValueError
    else
      let levels := map (fun k => match k with KColumn _ => [] | KValues _ l => l end) keys in
      let new := transp (length index) levels in
      let new := if append then map2 (@app A) index new else new in
      if verify && negb (is_unique new) then Err ValueError
      else Ok (new, (if append then nms else []) ++ map (fun k => match k with KColumn h => Some h | KValues n _ => n end) keys).

  (** 2057-2078: some key is an array *)
  Definition by_values (keys : list key) (drop append verify inplace : bool) (o : object) : object * res object :=
    let (frame, ks) := if drop then pops keys o else (o, Ok keys) in
    let after := if inplace then frame else o in
    let r := do ks <- ks;
             do index <- labels (pindex (body o));
             do new <- pandas_set_index index (names o) ks append verify;
             do b <- set_rows (fst new) (body frame);
             Ok (mkobj b (snd new)) in
    match r with
    | Err e => (after, Err e)
    | Ok x => (if inplace then x else o, Ok x)
    end.

  Definition df_set_index (keys : list key) (drop append verify inplace : bool) (o : object) : object * res object :=
    if existsb (fun k => match k with KColumn _ => false | KValues _ _ => true end) keys
    then by_values keys drop append verify inplace o
    else by_labels (key_columns keys) drop append verify inplace o.
End Key.
