(** Model of the lazily tracked dtypes (modin/core/dataframe/pandas/metadata/dtypes.py).
    Simplifications common to the whole file: column names are flat ([_normalize_levels], dtypes.py:634-731, is the
    identity on a flat index); a Python dict is an association list in insertion order; [columns_order], a dict from
    0..n-1, is the list of its values; lazy categorical proxies ([LazyProxyCategoricalDtype]) are not modelled. *)
From Verif Require Import Base DtypeSpec.

Section Model.
  Context {H T : Type}.
  Variable hdec : forall a b : H, {a = b} + {a <> b}.
  Variable tdec : forall a b : T, {a = b} + {a <> b}.
  Variable common : list T -> T.      (* pandas' find_common_type *)
  Variable tfloat : T.                (* pandas_dtype("float") *)

  Definition has (c : H) (l : list H) : bool := if in_dec hdec c l then true else false.
  Definition dup (l : list H) : bool := negb (length (nodup hdec l) =? length l).
  Definition is_nil {A} (l : list A) : bool := match l with [] => true | _ => false end.

  (** [d[c] = t] and [d.update(l)] on a Python dict. *)
  Fixpoint dset (d : list (H * T)) (c : H) (t : T) : list (H * T) :=
    match d with
    | [] => [(c, t)]
    | (c', t') :: d => if hdec c c' then (c', t) :: d else (c', t') :: dset d c t
    end.
  Definition dupdate (d l : list (H * T)) : list (H * T) := fold_left (fun d ct => dset d (fst ct) (snd ct)) l d.

  (** A frame, as far as its dtypes metadata looks at it: whether its column names are already computed
      ([has_materialized_columns]), and what its columns are. *)
  Record frame := Frame { fmat : bool; ftruth : list (H * T) }.

  (** dataframe.py:472-515 [PandasDataframe._compute_dtypes(columns)], whose tree-reduce over the partitions is
      taken to deliver the dtypes; asking for a subset computes the column names (493). *)
  Definition compute_dtypes (f : frame) (subset : option (list H)) : res (list (H * T) * frame) :=
    match subset with
    | None => Ok (ftruth f, f)
    | Some cols =>
        if forallb (fun c => has c (header (ftruth f))) cols
        then Ok (filter (fun ct => has (fst ct) cols) (ftruth f), Frame true (ftruth f))
        else Err KeyError
    end.

  (** dtypes.py:31-134: the fields of a [DtypesDescriptor]. *)
  Record desc := Desc { known : list (H * T); unknown : list H; schema : bool; know_all : bool;
                        remaining : option T; parent : option frame; order : option (list H) }.

  (** dtypes.py:149-188 the property [columns_order], as its effect on the descriptor. *)
  Definition columns_order (d : desc) : desc :=
    match order d, parent d with
    | Some _, _ | None, None => d
    | None, Some f =>
        if fmat f then
          let o := header (ftruth f) in
          let d1 :=
            if (length (known d) + length (unknown d)) <? length o then
              let new_cols := filter (fun c => negb (has c (map fst (known d))) && negb (has c (unknown d))) o in
              match remaining d with
              | Some r => Desc (dupdate (known d) (map (fun c => (c, r)) new_cols)) (unknown d)
                               (if length (unknown d) =? 0 then true else schema d) (know_all d) None (parent d) None
              | None => Desc (known d) (unknown d ++ new_cols) (schema d) (know_all d) None (parent d) None
              end
            else d in
          Desc (known d1) (unknown d1) (schema d1) true (remaining d1) (parent d1) (Some o)
        else d
    end.

  (** dtypes.py:62-134 [__init__]; [kn = None] and [un = None] are the arguments left out. *)
  Definition init (kn : option (list (H * T))) (un : option (list H)) (rem : option T) (par : option frame)
      (ord : option (list H)) (know : bool) (sch : option bool) : res desc :=
    if negb know && (match rem with Some _ => true | None => false end) then Err ValueError else
    let k := match kn with Some k => k | None => [] end in
    if dup (map fst k) then Err NotImplementedErr else
    let u := match un with Some u => u | None => [] end in
    if dup u then Err NotImplementedErr else
    let s := match sch with
             | Some s => s
             | None => match un, rem with
                       | Some u, None => if know && negb (is_nil k) then is_nil u else false
                       | _, _ => false
                       end
             end in
    let d := Desc k u s know rem par None in
    match ord with
    | None => Ok (columns_order d)
    | Some o =>
        match rem with
        | Some _ => Err ValueError
        | None =>
            if negb know then Err ValueError else
            if negb (length o =? length u + length k) then Err ValueError else
            Ok (Desc k u s know rem par (Some o))
        end
    end.

  (** dtypes.py:136-147 *)
  Definition update_parent (d : desc) (f : frame) : desc :=
    columns_order (Desc (known d) (unknown d) (schema d) (know_all d) (remaining d) (Some f) (order d)).

  (** dtypes.py:235-257: the loop of [lazy_get]. *)
  Definition get_known (d : desc) (ids : list H) : list (H * T) :=
    flat_map (fun c => if has c (unknown d) then []
                       else match dtype_of hdec c (known d), remaining d with
                            | Some t, _ => [(c, t)]
                            | None, Some r => [(c, r)]
                            | None, None => []
                            end) ids.
  Definition get_unknown (d : desc) (ids : list H) : list H :=
    filter (fun c => has c (unknown d)
                     || match dtype_of hdec c (known d), remaining d with None, None => true | _, _ => false end) ids.

  (** dtypes.py:204-257 [lazy_get(ids)] *)
  Definition lazy_get (d : desc) (ids : list H) : res desc :=
    if dup ids then Err NotImplementedErr else
    let u := get_unknown d ids in
    init (Some (get_known d ids)) (Some u) (if is_nil u then None else remaining d) (parent d) (Some ids) true None.

  (** dtypes.py:222-233 [lazy_get(ids, numeric_index=True)] *)
  Definition lazy_get_at (d : desc) (ps : list nat) : res desc :=
    if negb (length (nodup Nat.eq_dec ps) =? length ps) then Err NotImplementedErr else
    let d := columns_order d in
    match order d with
    | None => Err ValueError
    | Some o => do ids <- rmap (fun p => match nth_error o p with Some c => Ok c | None => Err KeyError end) ps;
                lazy_get d ids
    end.

  (** dtypes.py:259-279 *)
  Definition copy (d : desc) : res desc :=
    let d := columns_order d in
    init (Some (known d)) (Some (unknown d)) (remaining d) (parent d) (order d) (know_all d) (Some (schema d)).

  (** dtypes.py:281-324; [renamer[old]] is a dictionary lookup. *)
  Fixpoint rename (renamer : list (H * H)) (c : H) : res H :=
    match renamer with
    | [] => Err KeyError
    | (o, n) :: r => if hdec c o then Ok n else rename r c
    end.
  Definition set_index (d : desc) (new_index : list H) : res desc :=
    if dup new_index then Err NotImplementedErr else
    let d := columns_order d in
    match order d with
    | None => init None (Some new_index) None (parent d) (Some new_index) true None
    | Some _ =>
        do s <- copy d;
        match order s with
        | None => Err AttributeError
        | Some o =>
            if length new_index <? length o then Err IndexError else
            let renamer := combine o new_index in
            do k <- rmap (fun ct => do n <- rename renamer (fst ct); Ok (n, snd ct)) (known s);
            do u <- rmap (rename renamer) (unknown s);
            do o' <- rmap (rename renamer) o;
            Ok (Desc k u (schema s) (know_all s) (remaining s) (parent s) (Some o'))
        end
    end.

  Definition set_parent (d : desc) (f : frame) : desc :=
    Desc (known d) (unknown d) (schema d) (know_all d) (remaining d) (Some f) (order d).

  (** dtypes.py:359-373; reading [parent.columns] computes them. *)
  Definition materialize_all_names (d : desc) (f : frame) : desc * frame :=
    if know_all d then (d, f) else
    let new := filter (fun c => negb (has c (map fst (known d))) && negb (has c (unknown d))) (header (ftruth f)) in
    let f := Frame true (ftruth f) in
    (Desc (known d) (unknown d ++ new) (schema d) true (remaining d) (Some f) (order d), f).

  (** dtypes.py:375-394 *)
  Definition materialize_cols (d : desc) (f : frame) : res (desc * frame) :=
    let '(d, f, subset) :=
      if is_nil (known d) && is_nil (unknown d) && negb (know_all d) then (d, f, None)
      else let '(d, f) := materialize_all_names d f in (d, f, Some (unknown d)) in
    do kf <- (match subset with
              | Some [] => Ok (known d, f)
              | _ => do cf <- compute_dtypes f subset; Ok (dupdate (known d) (fst cf), snd cf)
              end);
    Ok (Desc (fst kf) [] (schema d) true (remaining d) (Some (snd kf)) (order d), snd kf).

  (** dtypes.py:396-430 *)
  Definition materialize (d : desc) : res desc :=
    if schema d then Ok d else
    match parent d with
    | None => Err RuntimeError
    | Some f =>
        do df <- materialize_cols d f;
        let '(d, f) := df in
        let '(k, f) :=
          match remaining d with
          | None => (known d, f)
          | Some r => (dupdate (known d) (map (fun c => (c, r))
                         (filter (fun c => negb (has c (map fst (known d)))) (header (ftruth f)))),
                       Frame true (ftruth f))
          end in
        let d := columns_order (Desc k (unknown d) (schema d) (know_all d) (remaining d) (Some f) (order d)) in
        do k <- (match order d with
                 | None => Ok (known d)
                 | Some o =>
                     if length o =? length (known d)
                     then rmap (fun c => match dtype_of hdec c (known d) with
                                         | Some t => Ok (c, t) | None => Err KeyError end) o
                     else Err AssertionError
                 end);
        Ok (Desc k (unknown d) true (know_all d) None None (order d))
    end.

  (** dtypes.py:432-441 *)
  Definition to_series (d : desc) : res (list (H * T)) := do d <- materialize d; Ok (known d).

  (** dtypes.py:443-456; without a parent [None._compute_dtypes] is an AttributeError.  The descriptor keeps what
      was computed on the way. *)
  Definition get_dtypes_set (d : desc) : res (desc * list T) :=
    do d <- (if negb (is_nil (unknown d)) || negb (know_all d) then
               match parent d with
               | None => Err AttributeError
               | Some f => do df <- materialize_cols d f; Ok (fst df)
               end
             else Ok d);
    Ok (d, nodup tdec (map snd (known d) ++ match remaining d with Some r => [r] | None => [] end)).

  (** What [concat] accepts: a descriptor, a pandas Series of dtypes, or None. *)
  Inductive dval := VDesc (d : desc) | VSeries (s : list (H * T)) | VNone.

  (** dtypes.py:458-546 [_merge_dtypes] (axis=1).  The DataFrame [dtypes_matrix] is the list of its rows; a cell is
      a dtype, the word "unknown", or NaN ([None]).  Its columns are told apart by position (in the code a Series
      value may bring a column name that is not its position). *)
  Inductive cell := Typ (t : T) | Unk.
  Definition matrix := list (H * list (option cell)).
  Fixpoint cell_of (c : H) (s : list (H * cell)) : option cell :=
    match s with [] => None | (c', x) :: s => if hdec c c' then Some x else cell_of c s end.
  (** dtypes.py:497 [pandas.concat([dtypes_matrix, series], axis=1)]: the row labels are joined in order of
      appearance; [w] is the number of columns so far. *)
  Definition add_column (w : nat) (m : matrix) (s : list (H * cell)) : matrix :=
    map (fun r => (fst r, snd r ++ [cell_of (fst r) s])) m
    ++ map (fun cx => (fst cx, repeat None w ++ [Some (snd cx)])) (filter (fun cx => negb (has (fst cx) (map fst m))) s).
  (** dtypes.py:498-509 [fillna({i: "unknown"})] on the column just added. *)
  Definition fill_unknown (w : nat) (m : matrix) : matrix :=
    map (fun r => (fst r, firstn w (snd r) ++ map (fun x => match x with None => Some Unk | _ => x end) (skipn w (snd r)))) m.
  Definition desc_cells (d : desc) : list (H * cell) :=
    map (fun ct => (fst ct, Typ (snd ct))) (known d) ++ map (fun c => (c, Unk)) (unknown d).
  Definition incomplete (d : desc) : bool :=
    negb (know_all d && match remaining d with None => true | Some _ => false end).
  Definition merge_step (st : nat * matrix * bool * bool) (v : dval) : nat * matrix * bool * bool :=
    let '(w, m, know, lost) := st in
    match v with
    | VDesc d =>
        let m := add_column w m (desc_cells d) in
        (S w, if incomplete d then fill_unknown w m else m,
         know && know_all d && match remaining d with None => true | Some _ => false end, lost)
    | VSeries s => (S w, add_column w m (map (fun ct => (fst ct, Typ (snd ct))) s), know, lost)
    | VNone => (w, m, false, true)
    end.
  (** dtypes.py:527-531 *)
  Definition combine_dtypes (row : list (option cell)) : cell :=
    if existsb (fun x => match x with Some Unk => true | _ => false end) row then Unk
    else Typ (common (map (fun x => match x with Some (Typ t) => t | _ => tfloat end) row)).
  Definition merge_dtypes (vs : list dval) : res desc :=
    let '(_, m, know, lost) := fold_left merge_step vs (0, [], true, false) in
    if lost : bool then init None (Some (map fst m)) None None None know None else
    let cells := map (fun r => (fst r, combine_dtypes (snd r))) m in
    init (Some (flat_map (fun cx => match snd cx with Typ t => [(fst cx, t)] | Unk => [] end) cells))
         (Some (flat_map (fun cx => match snd cx with Typ _ => [] | Unk => [fst cx] end) cells))
         None None None know None.

  (** dtypes.py:572-632 [concat(axis=0)].  [rem = None] is the placeholder "default". *)
  Record acc := Acc { aknown : list (H * T); aunknown : list H; aschema : bool; arem : option (option T); aknow : bool }.
  Definition clash (a : acc) (cols : list H) : bool :=
    existsb (fun c => has c (map fst (aknown a)) || has c (aunknown a)) cols.
  Definition concat_step (a : acc) (v : dval) : res acc :=
    match v with
    | VDesc d =>
        if clash a (map fst (known d) ++ unknown d) then Err NotImplementedErr else
        let know := aknow a && know_all d in
        let '(rem, know) :=
          if know then
            match arem a, remaining d with
            | None, Some r => (Some (Some r), know)
            | Some x, Some r => if (match x with Some x => if tdec x r then true else false | None => false end)
                                then (Some x, know) else (Some None, false)
            | x, None => (x, know)
            end
          else (Some None, know) in
        Ok (Acc (dupdate (aknown a) (known d)) (aunknown a ++ unknown d) (aschema a && schema d) rem know)
    | VSeries s =>
        if clash a (map fst s) then Err NotImplementedErr else
        Ok (Acc (dupdate (aknown a) s) (aunknown a) (aschema a) (arem a) (aknow a))
    | VNone => Ok (Acc (aknown a) (aunknown a) false (Some None) false)
    end.
  Fixpoint concat_loop (a : acc) (vs : list dval) : res acc :=
    match vs with [] => Ok a | v :: vs => do a <- concat_step a v; concat_loop a vs end.
  Definition concat_dtypes (vs : list dval) : res desc :=
    do a <- concat_loop (Acc [] [] true None true) vs;
    init (Some (aknown a)) (Some (aunknown a)) (match arem a with Some x => x | None => None end)
         None None (aknow a) (Some (aschema a)).

  (** dtypes.py:734-756 [ModinDtypes]: a callable (modelled by what it will return), a Series or a descriptor. *)
  Inductive mdtypes := MCall (r : res (list (H * T))) | MSeries (s : list (H * T)) | MDesc (d : desc).
  Definition wrap (d : desc) : res mdtypes :=
    if schema d then do s <- to_series d; Ok (MSeries s) else Ok (MDesc d).

  (** [series[ids]] and [series.iloc[ps]] *)
  Definition series_get (s : list (H * T)) (ids : list H) : res (list (H * T)) :=
    rmap (fun c => match dtype_of hdec c s with Some t => Ok (c, t) | None => Err KeyError end) ids.
  Definition series_get_at (s : list (H * T)) (ps : list nat) : res (list (H * T)) :=
    rmap (fun p => match nth_error s p with Some ct => Ok ct | None => Err IndexError end) ps.
  (** [series.index = new_index] *)
  Definition series_rename (s : list (H * T)) (new_index : list H) : res (list (H * T)) :=
    if length new_index =? length s then Ok (combine new_index (map snd s)) else Err ValueError.

  (** dtypes.py:991-1002 *)
  Definition m_copy (m : mdtypes) : res mdtypes :=
    match m with MDesc d => do d <- copy d; wrap d | _ => Ok m end.
  (** dtypes.py:811-840 *)
  Definition m_lazy_get (m : mdtypes) (ids : list H) : res mdtypes :=
    match m with
    | MDesc d => do d <- lazy_get d ids; wrap d
    | MCall r => Ok (MCall (do s <- r; series_get s ids))
    | MSeries s => do s <- series_get s ids; Ok (MSeries s)
    end.
  Definition m_lazy_get_at (m : mdtypes) (ps : list nat) : res mdtypes :=
    match m with
    | MDesc d => do d <- lazy_get_at d ps; wrap d
    | MCall r => Ok (MCall (do s <- r; series_get_at s ps))
    | MSeries s => do s <- series_get_at s ps; Ok (MSeries s)
    end.
  (** dtypes.py:887-912 *)
  Definition m_set_index (m : mdtypes) (new_index : list H) : res mdtypes :=
    match m with
    | MSeries s => do s <- series_rename s new_index; Ok (MSeries s)
    | MCall r => Ok (MCall (do s <- r; series_rename s new_index))
    | MDesc _ => do m <- m_copy m;
                 match m with
                 | MDesc d => do d <- set_index d new_index; Ok (MDesc d)
                 | _ => Err NotImplementedErr
                 end
    end.
  (** dtypes.py:789-809 [maybe_specify_new_frame_ref] *)
  Definition m_attach (m : mdtypes) (f : frame) : res mdtypes :=
    do m <- m_copy m;
    match m with MDesc d => Ok (MDesc (update_parent d f)) | _ => Ok m end.
  (** dtypes.py:914-931 *)
  Definition m_get (m : mdtypes) : res (list (H * T)) :=
    match m with MCall r => r | MSeries s => Ok s | MDesc d => to_series d end.
  (** dtypes.py:775-787 *)
  Definition m_dtypes_set (m : mdtypes) : res (mdtypes * list T) :=
    match m with
    | MDesc d => do ds <- get_dtypes_set d; Ok (MDesc (fst ds), snd ds)
    | _ => do s <- m_get m; Ok (MSeries s, nodup tdec (map snd s))
    end.
  (** dtypes.py:842-885; the fallback 884 is only for bare Series, which frames do not hold. *)
  Definition unwrap (v : option mdtypes) : res dval :=
    match v with
    | None => Ok VNone
    | Some (MDesc d) => Ok (VDesc d)
    | Some (MSeries s) => Ok (VSeries s)
    | Some (MCall _) => Err NotImplementedErr
    end.
  Definition m_concat (vs : list (option mdtypes)) : res mdtypes :=
    do vs <- rmap unwrap vs; do d <- concat_dtypes vs; wrap d.
  Definition m_merge (vs : list (option mdtypes)) : res mdtypes :=
    do vs <- rmap unwrap vs; do d <- merge_dtypes vs; wrap d.

  (** dataframe.py:414-437 [set_dtypes_cache]: what a frame with the given columns stores. *)
  Definition frame_dtypes (f : frame) (m : option mdtypes) : res (option mdtypes) :=
    match m with
    | Some m => do m <- m_attach m f; Ok (Some m)
    | None => if fmat f then
                do d <- init None (Some (header (ftruth f))) None (Some f) None true None;
                do m <- wrap d; Ok (Some m)
              else Ok None
    end.
  (** dataframe.py:439-457: the property [dtypes] of a frame. *)
  Definition frame_get (f : frame) (m : option mdtypes) : res (list (H * T)) :=
    match m with Some m => m_get m | None => Ok (ftruth f) end.
End Model.
