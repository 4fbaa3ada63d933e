(** Model of positional assignment: [df.iloc[rows, cols] = value]. *)
From Verif Require Import Base Table ChunkModel GridModel SelSpec SelModel JoinModel SetSpec.

(* ---------------- pandas and numpy primitives ---------------- *)

(** The last position of [p] in [l]. *)
Fixpoint last_index (l : list nat) (p : nat) : option nat :=
  match l with
  | [] => None
  | x :: t => match last_index t p with
              | Some i => Some (S i)
              | None => if x =? p then Some 0 else None
              end
  end.

(** [f] with the position of each element *)
Fixpoint imap_from {X Y} (k : nat) (f : nat -> X -> Y) (l : list X) : list Y :=
  match l with [] => [] | x :: t => f k x :: imap_from (S k) f t end.
Definition imap {X Y} (f : nat -> X -> Y) (l : list X) : list Y := imap_from 0 f l.

(** [l[i] = x] *)
Fixpoint set_nth {X} (i : nat) (x : X) (l : list X) : list X :=
  match l, i with [], _ => [] | _ :: t, 0 => x :: t | y :: t, S i => y :: set_nth i x t end.

(** [np.argsort(lookup, kind="stable")] *)
Fixpoint insert_pair (x : Z * nat) (l : list (Z * nat)) : list (Z * nat) :=
  match l with
  | [] => [x]
  | y :: t => if (fst x <=? fst y)%Z then x :: y :: t else y :: insert_pair x t
  end.
Definition sort_pairs (l : list (Z * nat)) : list (Z * nat) := fold_right insert_pair [] l.
Definition stable_argsort (zs : list Z) : list nat := map snd (sort_pairs (combine zs (seq 0 (length zs)))).

(** [lookup[argsort_index]] *)
Definition take_z (zs : list Z) (ix : list nat) : list Z := map (fun i => nth i zs 0%Z) ix.

Section Put.
  Context {L H A : Type}.
  Notation dframe := (df L H A).

  (** [df.iloc[rows, cols] = v] in pandas, [v] having the shape of the selection: later mentions of a row or
      column overwrite earlier ones.  The dtype changes this may cause are not modelled. *)
  Definition put (rows cols : list nat) (v : nat -> nat -> A) (d : dframe) : dframe :=
    mkdf (dindex d) (dcols d)
         (imap (fun p r => match last_index rows p with
                           | None => r
                           | Some i => imap (fun q x => match last_index cols q with
                                                        | None => x
                                                        | Some j => v i j
                                                        end) r
                           end) (dcells d)).

  (** The same with the checks: positions out of bounds are an IndexError; an array with one row is repeated
      for every row, other shapes do not fit (ValueError).  An array whose width differs is outside the model. *)
  Definition iloc_set (rows cols : list nat) (it : item A) (b : dframe) : res dframe :=
    if forallb (fun p => p <? nrows b) rows && forallb (fun p => p <? ncols b) cols
    then match it with
         | Scalar a => Ok (put rows cols (fun _ _ => a) b)
         | Vector n v => if n =? length cols then Ok (put rows cols (fun _ j => v j) b) else Err ValueError
         | Matrix r c v =>
             if negb (c =? length cols) then Err Unmodelled
             else if r =? length rows then Ok (put rows cols v b)
             else if r =? 1 then Ok (put rows cols (fun _ j => v 0 j) b)
             else Err ValueError
         end
    else Err IndexError.
End Put.

(* ---------------- pandas/utils.py broadcast_item ---------------- *)
Section Broadcast.
  Context {A : Type}.

  (** [sort_index] 352-366 *)
  Definition sort_index (ix : indexer) : list nat * indexer :=
    let o := stable_argsort (ipos ix) in (o, IList (take_z (ipos ix) o)).

  (** [should_avoid_sort] 368-377; [slice(None)] has been turned into a range before *)
  Definition should_avoid_sort (ix : indexer) : bool :=
    match ix with IRange _ _ s => (s >? 0)%Z | IList _ => false end.

  (** [item[row_argsort]], [item[row_argsort, :]], [item[:, col_argsort]], [item[np.ix_(...)]] *)
  Definition in_bounds (o : list nat) (n : nat) : bool := forallb (fun i => i <? n) o.
  Definition take_rows_of (o : list nat) (it : item A) : res (item A) :=
    match it with
    | Scalar a => Ok it
    | Vector n v => if in_bounds o n then Ok (Vector (length o) (fun i => v (nth i o 0))) else Err IndexError
    | Matrix r c v => if in_bounds o r then Ok (Matrix (length o) c (fun i j => v (nth i o 0) j)) else Err IndexError
    end.
  Definition take_cols_of (o : list nat) (it : item A) : res (item A) :=
    match it with
    | Matrix r c v => if in_bounds o c then Ok (Matrix r (length o) (fun i j => v i (nth j o 0))) else Err IndexError
    | _ => Ok it
    end.

  (** [item.reshape(to_shape)] when the sizes agree, else [np.broadcast_to(item, to_shape)], 402-405 *)
  Definition to_shape (r c : nat) (it : item A) : res (nat -> nat -> A) :=
    match it with
    | Scalar a => Ok (fun _ _ => a)
    | Vector n v =>
        if n =? r * c then Ok (fun i j => v (i * c + j))
        else if n =? c then Ok (fun _ j => v j)
        else if n =? 1 then Ok (fun _ _ => v 0)
        else Err ValueError
    | Matrix r0 c0 v =>
        if r0 * c0 =? r * c then Ok (fun i j => v ((i * c + j) / c0) ((i * c + j) mod c0))
        else if ((r0 =? r) || (r0 =? 1)) && ((c0 =? c) || (c0 =? 1))
        then Ok (fun i j => v (if r0 =? 1 then 0 else i) (if c0 =? 1 then 0 else j))
        else Err ValueError
    end.

  (** pandas/utils.py [broadcast_item] 265-411 for lists and arrays of one or two dimensions (Series and
      DataFrame items, which are reindexed first, are not modelled).  Result: the array, the row lookup, the
      column lookup. *)
  Definition broadcast_item (rows cols : indexer) (it : item A)
    : res ((nat -> nat -> A) * indexer * indexer) :=
    let r := length (ipos rows) in
    let c := length (ipos cols) in
    let avoid_row := should_avoid_sort rows in
    let avoid_col := should_avoid_sort cols in
    match it with
    | Matrix _ _ _ =>
        if avoid_row then
          if avoid_col then do v <- to_shape r c it; Ok (v, rows, cols)
          else let '(o, cols') := sort_index cols in
               do it' <- take_cols_of o it; do v <- to_shape r c it'; Ok (v, rows, cols')
        else if avoid_col then
          let '(o, rows') := sort_index rows in
          do it' <- take_rows_of o it; do v <- to_shape r c it'; Ok (v, rows', cols)
        else
          let '(o, rows') := sort_index rows in
          let '(o2, cols') := sort_index cols in
          do it1 <- take_rows_of o it; do it2 <- take_cols_of o2 it1;
          do v <- to_shape r c it2; Ok (v, rows', cols')
    | _ =>
        if avoid_row then do v <- to_shape r c it; Ok (v, rows, cols)
        else let '(o, rows') := sort_index rows in
             do it' <- take_rows_of o it; do v <- to_shape r c it'; Ok (v, rows', cols)
    end.
End Broadcast.

(* ---------------- partition_manager.py ---------------- *)
Section Distribute.
  Context {L H A : Type}.
  Notation dframe := (df L H A).
  Notation pf := (@pframe L H A).

  (** [compute_part_size] 1673-1684.  [sizes]: the length cache, [k] the number of the entry (not of its
      block), [len] the block's own length.  Without a cache the block's length is used (it is remembered for
      the other blocks of the same entry, which are as long). *)
  Definition compute_part_size (sizes : option (list nat)) (k len : nat) (ix : bidx) : res nat :=
    match ix with
    | BList ps => Ok (length ps)
    | BSlice _ _ =>
        match sizes with
        | None => Ok (length (expand len ix))
        | Some l => match nth_error l k with Some s => Ok (length (expand s ix)) | None => Err IndexError end
        end
    end.

  (** [item_to_distribute[i : i + n, j : j + m]] of an r x c array; a scalar is passed as it is *)
  Definition sub_item (array : bool) (r c i n j m : nat) (v : nat -> nat -> A) : item A :=
    if array then Matrix (Nat.min (i + n) r - i) (Nat.min (j + m) c - j) (fun a b => v (i + a) (j + b))
    else Scalar (v 0 0).

  Definition get_block (g : list (list dframe)) (i j : nat) : res dframe :=
    match nth_error g i with
    | Some row => match nth_error row j with Some b => Ok b | None => Err IndexError end
    | None => Err IndexError
    end.
  Definition set_block (i j : nat) (b : dframe) (g : list (list dframe)) : list (list dframe) :=
    match nth_error g i with Some row => set_nth i (set_nth j b row) g | None => g end.

  (** [apply_func_to_indices_both_axis] 1618-1721: the inner loop over the column entries.  The calls are
      queued on the blocks; draining them later gives the same blocks. *)
  Fixpoint write_columns (array : bool) (r c : nat) (v : nat -> nat -> A) (rsizes csizes : option (list nat))
      (k : nat) (re : nat * bidx) (rpos : nat) (kc cpos row_offset : nat) (cdict : list (nat * bidx))
      (g : list (list dframe)) : res (list (list dframe) * nat) :=
    match cdict with
    | [] => Ok (g, row_offset)
    | ce :: rest =>
        do b <- get_block g (fst re) (fst ce);
        do ro <- compute_part_size rsizes k (nrows b) (snd re);
        do co <- compute_part_size csizes kc (ncols b) (snd ce);
        do b' <- iloc_set (expand (nrows b) (snd re)) (expand (ncols b) (snd ce))
                          (sub_item array r c rpos ro cpos co v) b;
        write_columns array r c v rsizes csizes k re rpos (S kc) (cpos + co) ro rest
                      (set_block (fst re) (fst ce) b' g)
    end.
  (** the outer loop over the row entries *)
  Fixpoint write_rows (array : bool) (r c : nat) (v : nat -> nat -> A) (rsizes csizes : option (list nat))
      (k rpos : nat) (rdict cdict : list (nat * bidx)) (g : list (list dframe)) : res (list (list dframe)) :=
    match rdict with
    | [] => Ok g
    | re :: rest =>
        do gr <- write_columns array r c v rsizes csizes k re rpos 0 0 0 cdict g;
        write_rows array r c v rsizes csizes (S k) (rpos + snd gr) rest cdict (fst gr)
    end.

  (** Whether [_get_dict_of_block_index] reads [row_lengths] ([column_widths]), which fills the cache:
      dataframe.py 1861-1920 *)
  Definition reads_lengths (n : nat) (ix : indexer) : bool :=
    match ix with
    | IList [] => false
    | IList _ => true
    | IRange a b s => negb ((s =? 1)%Z && (((a =? 0) && (Z.of_nat n <=? b))%Z || (a =? b)%Z))
    end.
  Definition cache_after (n : nat) (ix : indexer) (cache : option (list nat)) (real : list nat) : option (list nat) :=
    if reads_lengths n ix then Some real else cache.

  (** query_compiler.py [write_items] 4691-4771 and dataframe.py [apply_select_indices] 3203-3230 (dtypes
      aside) *)
  Definition write_items (rows cols : indexer) (it : item A) (f : pf) : res pf :=
    do index <- labels (pindex f);
    do columns <- labels (pcols f);
    do w <- match it with
            | Scalar a => Ok ((fun _ _ => a), rows, cols)
            | _ => broadcast_item rows cols it
            end;
    let '(v, rows', cols') := w in
    let array := match it with Scalar _ => false | _ => true end in
    let rl := row_lengths f in
    let cl := column_widths f in
    do rdict <- block_index rl (length (pgrid f)) (length index) rows' false;
    do cdict <- block_index cl (grid_width (pgrid f)) (length columns) cols' false;
    let rcache := cache_after (length index) rows' (prl f) rl in
    let ccache := cache_after (length columns) cols' (pcl f) cl in
    do g <- write_rows array (length (ipos rows)) (length (ipos cols)) v rcache ccache 0 0 rdict cdict (pgrid f);
    construct (mkpf g (Some index) (Some columns) rcache ccache).
End Distribute.

(* ---------------- whole rows and columns ---------------- *)
Section Axis.
  Context {L H A : Type}.
  Notation dframe := (df L H A).
  Notation pf := (@pframe L H A).
  Variable leqb : L -> L -> bool.
  Variable heqb : H -> H -> bool.
  Variables min_row min_col nparts : nat.
  Variables known_l known_w : nat -> nat -> bool.
  Variable argsort : list Z -> list nat.
  Variable fill : A.
  Variable join_rows_labels : list (list L) -> list L * list (list (option nat)).

  (** [index.get_indexer_for([key])]: every position of the label *)
  Definition get_indexer_for {X} (eqb : X -> X -> bool) (key : X) (labels : list X) : list nat :=
    map fst (filter (fun p => eqb (snd p) key) (combine (seq 0 (length labels)) labels)).

  Definition find_entry {Y} (i : nat) (dict : list (nat * Y)) : option Y :=
    option_map snd (find (fun e => fst e =? i) dict).

  (** query_compiler.py [_setitem.setitem_builder] 3168-3196.  Axis 0: [df[labels] = value] sets every column
      having one of the labels; axis 1: [df.iloc[positions] = value]. *)
  Definition setitem_builder (axis : bool) (value : item A) (internal : bidx) (b : dframe) : res dframe :=
    if axis then iloc_set (expand (nrows b) internal) (seq 0 (ncols b)) value b
    else
      let ps := expand (ncols b) internal in
      if negb (forallb (fun p => p <? ncols b) ps) then Err IndexError
      else
        let keys := pick (dcols b) ps in
        let targets := map fst (filter (fun p => existsb (heqb (snd p)) keys)
                                       (combine (seq 0 (ncols b)) (dcols b))) in
        match value with
        | Scalar a => Ok (put (seq 0 (nrows b)) targets (fun _ _ => a) b)
        | _ => Err Unmodelled
        end.

  (** partition_manager.py [apply_func_to_select_indices] 1377-1495, keep_remaining=True *)
  Definition apply_func_to_select_indices (axis : bool) (func : bidx -> dframe -> res dframe)
      (dict : list (nat * bidx)) (g : list (list dframe)) : res (list (list dframe)) :=
    let parts := if axis then g else transp (grid_width g) g in
    do result <- rmap (fun ip => match find_entry (fst ip) dict with
                                 | None => Ok (snd ip)
                                 | Some ix => rmap (func ix) (snd ip)
                                 end)
                      (combine (seq 0 (length parts)) parts);
    Ok (if axis then result else transp (length g) result).

  (** partition_manager.py [apply_func_to_select_indices_along_full_axis] 1499-1614 with axis=1,
      keep_remaining=True; axis_partition.py [apply] 199-309 *)
  Definition apply_func_to_select_rows_full (func : bidx -> dframe -> res dframe)
      (dict : list (nat * bidx)) (g : list (list dframe)) : res (list (list dframe)) :=
    rmap (fun ip => match find_entry (fst ip) dict with
                    | None => Ok (snd ip)
                    | Some ix => deploy_axis_func leqb heqb true (func ix) (length (snd ip)) true (snd ip)
                                   min_col None false
                    end)
         (combine (seq 0 (length g)) g).

  (** dataframe.py [from_pandas] 4592-4620, as a partitioned frame *)
  Definition distribute (d : dframe) : res pf :=
    do f <- from_pandas nparts min_row min_col d;
    Ok (mkpf (fgrid f) (Some (findex f)) (Some (fcols f)) (Some (frow_lengths f)) (Some (fcol_widths f))).

  (** core/storage_formats/base/query_compiler.py [insert_item] 4982-5024 with axis=1, replace=True.
      [big] is the test of [_take_2d_positional] that only concerns row selections. *)
  Definition insert_item (first_known : bool) (loc : nat) (value : pf) (f : pf) : res pf :=
    do columns <- labels (pcols f);
    let n := length columns in
    let mask idx := if length idx =? n then Ok f
                    else take_2d_positional leqb heqb min_row min_col nparts known_l known_w argsort false
                           None (Some (IList (map Z.of_nat idx))) f in
    if loc <? n then
      do first_mask <- mask (seq 0 loc);
      do second_mask <- mask (seq (S loc) (n - S loc));
      concat_frames_cols leqb heqb fill join_rows_labels nparts min_row first_known first_mask [value; second_mask]
    else concat_frames_cols leqb heqb fill join_rows_labels nparts min_row first_known f [value].

  (** query_compiler.py [setitem] / [_setitem] 3129-3243 (dtypes aside) and [_wrap_column_data] 3440-3457.
      The new column's header is the key: with dtypes in the headers the value's dtype would replace it. *)
  Definition setitem_column (first_known : bool) (key : H) (value : item A) (f : pf) : res pf :=
    do index <- labels (pindex f);
    do columns <- labels (pcols f);
    let n := length index in
    match value with
    | Scalar a =>
        let ps := get_indexer_for heqb key columns in
        do dict <- block_index (column_widths f) (grid_width (pgrid f)) (length columns)
                     (IList (map Z.of_nat ps)) false;
        do g <- apply_func_to_select_indices false (setitem_builder false value) dict (pgrid f);
        construct (mkpf g (Some index) (Some columns) (Some (row_lengths f)) (Some (column_widths f)))
    | Vector m v =>
        if negb (m =? n) then Err ValueError
        else
          do col <- distribute (mkdf index [key] (map (fun i => [v i]) (seq 0 n)));
          match get_indexer_for heqb key columns with
          | idx :: _ => insert_item first_known idx col f
          | [] => Err Unmodelled
          end
    | Matrix _ _ _ => Err Unmodelled
    end.
  Definition setitem_row (key : L) (value : item A) (f : pf) : res pf :=
    do index <- labels (pindex f);
    do columns <- labels (pcols f);
    let ps := get_indexer_for leqb key index in
    do dict <- block_index (row_lengths f) (length (pgrid f)) (length index) (IList (map Z.of_nat ps)) false;
    match value with
    | Scalar _ =>
        do g <- apply_func_to_select_indices true (setitem_builder true value) dict (pgrid f);
        construct (mkpf g (Some index) (Some columns) (Some (row_lengths f)) (Some (column_widths f)))
    | _ =>
        do g <- apply_func_to_select_rows_full (setitem_builder true value) dict (pgrid f);
        construct (mkpf g (Some index) (Some columns) None None)
    end.

  (** pandas/dataframe.py [__setitem__] 2853-2868 for a column that exists: an array is flattened column by
      column and cut at the length of the frame.  A list is not cut (a longer one is a ValueError later). *)
  Definition df_setitem (first_known : bool) (key : H) (value : item A) (f : pf) : res pf :=
    do index <- labels (pindex f);
    let n := length index in
    let value := match value with
                 | Scalar a => Scalar a
                 | Vector m v => Vector (Nat.min m n) v
                 | Matrix r c v => Vector (Nat.min (r * c) n) (fun k => v (k mod r) (k / r))
                 end in
    setitem_column first_known key value f.

  (** pandas/indexing.py [_determine_setitem_axis] 532-585 (DataFrame) *)
  Definition determine_setitem_axis (n m r c : nat) (row_scalar col_scalar : bool) : option bool :=
    if (n =? 1) && (m =? 1) then
      if negb (xorb row_scalar col_scalar) then None else Some row_scalar
    else if (c =? 1) && (r =? 1) then None
    else if (r =? n) && (c =? 1) then Some false
    else if (c =? m) && (r =? 1) then Some true
    else None.

  (** pandas/indexing.py [_iLocIndexer.__setitem__] 1130-1170 for a non-empty frame and
      [_setitem_positional] 486-530 *)
  Definition is_int (loc : locator) : bool := match loc with LInt _ => true | _ => false end.
  Definition or_all (n : nat) (ix : option indexer) : indexer :=
    match ix with Some ix => ix | None => IRange 0 (Z.of_nat n) 1 end.
  Definition iloc_setitem (first_known : bool) (row_loc col_loc : locator) (value : item A) (f : pf) : res pf :=
    do index <- labels (pindex f);
    do columns <- labels (pcols f);
    do rlookup <- compute_lookup (length index) row_loc;
    do clookup <- compute_lookup (length columns) col_loc;
    let rows := or_all (length index) rlookup in
    let cols := or_all (length columns) clookup in
    match determine_setitem_axis (length index) (length columns) (length (ipos rows)) (length (ipos cols))
            (is_int row_loc) (is_int col_loc) with
    | Some false =>
        if negb (length (ipos cols) =? 1) then Err AssertionError
        else do keys <- np_take columns (ipos cols);
             match keys with
             | key :: _ => df_setitem first_known key value f
             | [] => Err IndexError
             end
    | Some true =>
        if negb (length (ipos rows) =? 1) then Err AssertionError
        else do keys <- np_take index (ipos rows);
             match keys with
             | key :: _ => setitem_row key value f
             | [] => Err IndexError
             end
    | None => write_items rows cols value f
    end.
End Axis.
