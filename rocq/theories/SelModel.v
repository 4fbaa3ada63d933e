(** Model of positional selection: locating positions in blocks, masking blocks, reordering. *)
From Verif Require Import Base Table ChunkModel GridModel SelSpec.

(** A positional indexer after [_iLocIndexer._compute_lookup]: a range ([pandas.RangeIndex]) or an
    array of positions. *)
Inductive indexer :=
  | IRange (start stop step : Z)
  | IList (ps : list Z).

Definition ipos (ix : indexer) : list Z :=
  match ix with IRange a b s => py_range a b s | IList ps => ps end.

(** [np.all(p[1:] >= p[:-1])] *)
Fixpoint increasing (zs : list Z) : bool :=
  match zs with
  | x :: (y :: _) as t => (x <=? y)%Z && increasing t
  | _ => true
  end.

(** [np.sort] *)
Fixpoint zinsert (x : Z) (l : list Z) : list Z :=
  match l with
  | [] => [x]
  | y :: ys => if (x <=? y)%Z then x :: y :: ys else y :: zinsert x ys
  end.
Definition np_sort (l : list Z) : list Z := fold_right zinsert [] l.

(** Indices inside one block: [slice(a, b)] or an array of positions. *)
Inductive bidx :=
  | BSlice (start stop : option nat)
  | BList (ps : list nat).

(** The positions a block index denotes in a block of length [len]. *)
Definition expand (len : nat) (ix : bidx) : list nat :=
  match ix with
  | BSlice a b =>
      let lo := Nat.min (match a with Some a => a | None => 0 end) len in
      let hi := Nat.min (match b with Some b => b | None => len end) len in
      seq lo (hi - lo)
  | BList ps => ps
  end.

(** [cumulative = np.append(bins[:-1].cumsum(), INT_MAX)] without the last entry, which no index
    reaches *)
Definition cumulative (bins : list nat) : list nat := skipn 1 (cumsum0 (removelast bins)).

(** [np.digitize(x, cumulative)] *)
Definition digitize (bins : list nat) (x : nat) : nat :=
  length (filter (fun c => c <=? x) (cumulative bins)).

(** dataframe.py [_get_dict_of_block_index] 1916-1986, arrays and ranges with a step.  [bins] are
    the row lengths (column widths), [n] the axis length.  The result lists the dict's items. *)
Definition block_index_array (bins : list nat) (n : nat) (indices : list Z) (are_sorted : bool)
  : list (nat * list nat) :=
  let has_negative := existsb (fun z => (z <? 0)%Z) indices in
  let indices := map (fun z => if (z <? 0)%Z then (z mod Z.of_nat n)%Z else z) indices in
  let indices := if has_negative || negb are_sorted then np_sort indices else indices in
  let indices := map Z.to_nat indices in
  let partition_ids := map (digitize bins) indices in
  let nb := S (length (cumulative bins)) in
  let counts := map (fun i => length (filter (Nat.eqb i) partition_ids)) (seq 0 nb) in
  let ends := cumsum0 counts in
  let internal i ps := if i =? 0 then ps else map (fun p => p - nth (i - 1) (cumulative bins) 0) ps in
  map (fun i => (i, internal i (slice indices (nth i ends 0) (nth (S i) ends 0))))
      (filter (fun i => nth i ends 0 <? nth (S i) ends 0) (seq 0 nb)).

(** [list(self._get_dict_of_block_index(axis, [x]).items())[0]] *)
Definition locate (bins : list nat) (n : nat) (x : Z) : res (nat * nat) :=
  match block_index_array bins n [x] false with
  | (p, i :: _) :: _ => Ok (p, i)
  | _ => Err IndexError
  end.

Definition whole : bidx := BSlice None None.

(** dataframe.py [_get_dict_of_block_index] 1830-1986.  [nparts] is the number of blocks along the
    axis. *)
Definition block_index (bins : list nat) (nparts n : nat) (ix : indexer) (are_sorted : bool)
  : res (list (nat * bidx)) :=
  match ix with
  | IList [] => Ok [(0, BList [])]
  | IList ps => Ok (map (fun e => (fst e, BList (snd e))) (block_index_array bins n ps are_sorted))
  | IRange start stop step =>
      if negb (step =? 1)%Z
      then Ok (map (fun e => (fst e, BList (snd e)))
                   (block_index_array bins n (py_range start stop step) are_sorted))
      else if ((start =? 0) && (Z.of_nat n <=? stop))%Z
      then Ok (map (fun i => (i, whole)) (seq 0 nparts))
      else if (start =? stop)%Z then Ok []
      else if (start =? 0)%Z then
        do last <- locate bins n stop;
        Ok (map (fun i => (i, whole)) (seq 0 (fst last)) ++ [(fst last, BSlice None (Some (snd last)))])
      else if (Z.of_nat n <=? stop)%Z then
        do first <- locate bins n start;
        Ok ((fst first, BSlice (Some (snd first)) None)
              :: map (fun i => (i, whole)) (seq (S (fst first)) (nparts - S (fst first))))
      else
        do first <- locate bins n start;
        do last <- locate bins n stop;
        if fst first =? fst last
        then Ok [(fst first, BSlice (Some (snd first)) (Some (snd last)))]
        else Ok ((fst first, BSlice (Some (snd first)) None)
                   :: map (fun i => (i, whole)) (seq (S (fst first)) (fst last - S (fst first)))
                   ++ [(fst last, BSlice None (Some (snd last)))])
  end.

(** dataframe.py [_get_new_lengths] 1132-1162 *)
Definition get_new_lengths (bins : list nat) (dict : list (nat * bidx)) : list nat :=
  map (fun e => match snd e with
                | BSlice _ _ => length (expand (nth (fst e) bins 0) (snd e))
                | BList ps => length ps
                end) dict.

(** dataframe.py [_get_sorted_positions] 1113-1130 *)
Definition get_sorted_positions (ix : indexer) : indexer :=
  match ix with
  | IRange a b s => if (s >? 0)%Z then ix else IList (np_sort (py_range a b s))
  | IList ps => IList (np_sort ps)
  end.

(** [labels[array of positions]] (IndexError when out of bounds) *)
Definition np_take {X} (labels : list X) (ps : list Z) : res (list X) :=
  match wrap_all (length labels) ps with
  | Some ns => Ok (pick labels ns)
  | None => Err IndexError
  end.

(** dataframe.py [_get_new_index_obj] 1164-1197 *)
Definition get_new_index_obj {X} (labels : list X) (ix sorted : indexer) : res (list X) :=
  match ix with
  | IRange a b s =>
      if (s >? 0)%Z
      then match slice_indices (length labels) (Some a) (Some b) (Some s) with
           | Some (x, y, st) => np_take labels (py_range x y st)
           | None => Err ValueError
           end
      else np_take labels (ipos sorted)
  | IList _ => np_take labels (ipos sorted)
  end.

Section Mask.
  Context {L H A : Type}.
  Notation dframe := (df L H A).

  (** [df.iloc[rows, cols]] with non-negative positions *)
  Definition df_iloc (rows cols : list nat) (b : dframe) : res dframe :=
    if forallb (fun p => p <? nrows b) rows && forallb (fun p => p <? ncols b) cols
    then Ok (take2d rows cols b) else Err IndexError.

  (** partition.py [mask.is_full_axis_mask] 241-252.  [known]: the block's length cache is
      materialised. *)
  Definition is_full_axis_mask (known : bool) (len : nat) (ix : bidx) : bool :=
    match ix with
    | BSlice None None => true
    | BSlice _ _ => known && (length (expand len ix) =? len)
    | BList ps => known && (length ps =? len)
    end.

  (** partition.py [mask] 224-262 *)
  Definition mask (known_l known_w : bool) (ri ci : bidx) (b : dframe) : res dframe :=
    if is_full_axis_mask known_l (nrows b) ri && is_full_axis_mask known_w (ncols b) ci
    then Ok b
    else df_iloc (expand (nrows b) ri) (expand (ncols b) ci) b.

  (** partition.py [mask.try_recompute_cache] 264-273: the new length cache, from the old one. *)
  Definition recompute_cache (ix : bidx) (previous : option nat) : option nat :=
    match ix, previous with
    | BList ps, _ => Some (length ps)
    | BSlice _ _, Some len => Some (length (expand len ix))
    | BSlice _ _, None => None
    end.
End Mask.

Section Take.
  Context {L H A : Type}.
  Notation dframe := (df L H A).
  Notation pf := (@pframe L H A).
  Variable leqb : L -> L -> bool.
  Variable heqb : H -> H -> bool.
  Variables min_row min_col nparts : nat.
  (** Which blocks have a materialised length (width) cache, by block position. *)
  Variables known_l known_w : nat -> nat -> bool.
  (** [np.argsort] with its unstable default algorithm *)
  Variable argsort : list Z -> list nat.

  (** [lambda df: df.iloc[positions]] and [df.iloc[:, positions]] *)
  Definition take_rows (ps : list Z) (b : dframe) : res dframe :=
    match wrap_all (nrows b) ps with
    | Some rows => Ok (take2d rows (seq 0 (ncols b)) b)
    | None => Err IndexError
    end.
  Definition take_cols (ps : list Z) (b : dframe) : res dframe :=
    match wrap_all (ncols b) ps with
    | Some cols => Ok (take2d (seq 0 (nrows b)) cols b)
    | None => Err IndexError
    end.

  (** [self.index] / [self.columns]; an unknown label cache would be computed from the blocks, which
      is outside this model (theorems assume materialised labels) *)
  Definition labels {X} (o : option (list X)) : res (list X) :=
    match o with Some l => Ok l | None => Err Unmodelled end.

  (** dataframe.py [_reorder_labels] 1589-1684 (dtypes aside) *)
  Definition reorder_labels (rows cols : option (list Z)) (f : pf) : res pf :=
    do r <- match rows with
            | None => Ok (pgrid f, pindex f, prl f)
            | Some ps =>
                do g <- map_axis_partitions leqb heqb nparts min_row false (pgrid f) (take_rows ps)
                          true None None;
                do index <- labels (pindex f);
                do row_idx <- np_take index ps;
                if negb (length row_idx =? length index)
                then do lens <- get_length_list (length row_idx) (length g) min_row;
                     Ok (g, Some row_idx, Some lens)
                else Ok (g, Some row_idx, prl f)
            end;
    let '(ordered_rows, row_idx, new_lengths) := r in
    do c <- match cols with
            | None => Ok (ordered_rows, pcols f, pcl f)
            | Some ps =>
                do g <- map_axis_partitions leqb heqb nparts min_col true ordered_rows (take_cols ps)
                          true None None;
                do columns <- labels (pcols f);
                do col_idx <- np_take columns ps;
                if negb (length col_idx =? length columns)
                then do lens <- get_length_list (length col_idx) (grid_width g) min_col;
                     Ok (g, Some col_idx, Some lens)
                else Ok (g, Some col_idx, pcl f)
            end;
    let '(ordered_cols, col_idx, new_widths) := c in
    construct (mkpf ordered_cols row_idx col_idx new_lengths new_widths).

  (** dataframe.py [_maybe_reorder_labels] 1382-1448 *)
  Definition in_order (ix : option indexer) : bool :=
    match ix with
    | None => true
    | Some ix => match ix with IRange _ _ s => (s >? 0)%Z | IList _ => false end
                 || (length (ipos ix) =? 1) || increasing (ipos ix)
    end.
  Definition unsort_order (ix : option indexer) : option (list Z) :=
    match ix with
    | None => None
    | Some (IRange a b s) =>
        if (s <? 0)%Z then Some (py_range (Z.of_nat (range_len a b s) - 1) (-1) (-1)) else None
    | Some (IList ps) => Some (map Z.of_nat (argsort (map Z.of_nat (argsort ps))))
    end.
  Definition maybe_reorder_labels (rows cols : option indexer) (intermediate : pf) : res pf :=
    if in_order rows && in_order cols then Ok intermediate
    else reorder_labels (unsort_order rows) (unsort_order cols) intermediate.

  (** The part of [_take_2d_positional] handling one axis: which blocks, the new lengths, the new
      labels. *)
  Definition take_axis {X} (bins : list nat) (nblocks : nat) (cache : option (list nat))
      (lab : option (list X)) (ix : option indexer)
    : res (list (nat * bidx) * option (list nat) * option (list X)) :=
    match ix with
    | None => Ok (map (fun i => (i, whole)) (seq 0 nblocks), cache, lab)
    | Some ix =>
        do l <- labels lab;
        let sorted := if increasing (ipos ix) then ix else get_sorted_positions ix in
        do dict <- block_index bins nblocks (length l) sorted true;
        do new_labels <- get_new_index_obj l ix sorted;
        Ok (dict, Some (get_new_lengths bins dict), Some new_labels)
    end.

  (** dataframe.py 1220-1226: an indexer covering the whole axis is replaced by None *)
  Definition normalize {X} (lab : option (list X)) (ix : option indexer) : res (option indexer) :=
    match ix with
    | Some (IRange a b s) =>
        do l <- labels lab;
        if ((s =? 1)%Z && (range_len a b s =? length l)) then Ok None else Ok ix
    | _ => Ok ix
    end.

  (** dataframe.py [_take_2d_positional] 1199-1380 (dtypes aside).  [big] is the outcome of the
      floating-point test [all_rows and len(row_positions) > 0.9 * all_rows]; the second test at
      1278-1285 holds whenever the positions are unsorted, because [x >= min(y, x)].  [copy()] keeps
      everything. *)
  Definition take_2d_positional (big : bool) (rows cols : option indexer) (f : pf) : res pf :=
    do rows <- normalize (pindex f) rows;
    do cols <- normalize (pcols f) cols;
    match rows, cols with
    | None, None => Ok f
    | _, _ =>
      let direct := match rows, cols with
                    | Some ix, None => if big || negb (increasing (ipos ix)) then Some (ipos ix) else None
                    | _, _ => None
                    end in
      match direct with
      | Some ps => reorder_labels (Some ps) None f
      | None =>
        do r <- take_axis (row_lengths f) (length (pgrid f)) (prl f) (pindex f) rows;
        do c <- take_axis (column_widths f) (grid_width (pgrid f)) (pcl f) (pcols f) cols;
        let '(rdict, new_rl, new_index) := r in
        let '(cdict, new_cl, new_columns) := c in
        if match cols, new_cl, new_columns with
           | Some _, Some cl, Some cs => negb (list_sum cl =? length cs)
           | _, _, _ => false
           end
        then Err InternalBug
        else
        do grid <- rmap (fun re => rmap (fun ce =>
                     match nth_error (pgrid f) (fst re) with
                     | Some row =>
                         match nth_error row (fst ce) with
                         | Some b => mask (known_l (fst re) (fst ce)) (known_w (fst re) (fst ce))
                                       (snd re) (snd ce) b
                         | None => Err IndexError
                         end
                     | None => Err IndexError
                     end) cdict) rdict;
        do intermediate <- construct (mkpf grid new_index new_columns new_rl new_cl);
        maybe_reorder_labels rows cols intermediate
      end
    end.

  (** indexing.py [_iLocIndexer._compute_lookup] 1172-1235, one axis of length [n]; [slice(None)]
      becomes None (1103-1114).  [boolean_mask_to_numeric] 220-243. *)
  Definition compute_lookup (n : nat) (loc : locator) : res (option indexer) :=
    let array zs :=
      if existsb (fun z => (z <? 0)%Z) zs
      then match wrap_all n zs with
           | Some ps => Ok (Some (IList (map Z.of_nat ps)))
           | None => Err IndexError
           end
      else Ok (Some (IList zs)) in
    match loc with
    | LInt z => array [z]
    | LSlice None None None => Ok None
    | LSlice a b s => match slice_indices n a b s with
                      | Some (x, y, st) => Ok (Some (IRange x y st))
                      | None => Err ValueError
                      end
    | LRange x y st => if (st =? 0)%Z then Err ValueError else Ok (Some (IRange x y st))
    | LMask m => Ok (Some (IList (map (fun p => Z.of_nat (fst p))
                                    (filter (fun p => snd p) (combine (seq 0 (length m)) m)))))
    | LList zs => array zs
    end.

  (** indexing.py [_iLocIndexer.__getitem__] 1071-1115 for a non-empty frame; scalars give a
      one-row (one-column) table, squeezed by pandas rules afterwards (not modelled). *)
  Definition iloc_getitem (big : bool) (row_loc col_loc : locator) (f : pf) : res pf :=
    do index <- labels (pindex f);
    do columns <- labels (pcols f);
    do rows <- compute_lookup (length index) row_loc;
    do cols <- compute_lookup (length columns) col_loc;
    take_2d_positional big rows cols f.
End Take.
