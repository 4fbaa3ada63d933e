(** modin/numpy/arr.py and modin/numpy/indexing.py: an array is a query compiler and a number of dimensions; a 1-D array is one
    column.  Dtypes are left out. *)
From Verif Require Import Base Table ChunkModel GridModel SelSpec SelModel ArrSpec.

Section Arr.
  Context {A : Type}.
  Variables min_row min_col nparts : nat.
  Variables known_l known_w : nat -> nat -> bool.
  Variable argsort : list Z -> list nat.
  Variable big : bool.
  Notation pf := (@pframe nat nat A).
  Notation take rows cols f := (take_2d_positional Nat.eqb Nat.eqb min_row min_col nparts known_l known_w argsort big rows cols f).

  Record arr := mka { aqc : pf; andim : nat }.

  (** arr.py [array.__init__] 181-186, 224-236 for a query compiler: rows and columns are numbered anew.
      [find_common_type] fails without columns.  Simplified: the labels are put into the blocks here and not later (C55). *)
  Definition np_array (f : pf) (n : nat) : res arr :=
    do idx <- labels (pindex f);
    do cols <- labels (pcols f);
    match cols with
    | [] => Err ValueError
    | _ =>
        let idx := seq 0 (length idx) in
        let cols := seq 0 (length cols) in
        do g <- propagate_index_objs None (mkpf (pgrid f) (Some idx) (Some cols) (prl f) (pcl f));
        Ok (mka (mkpf g (Some idx) (Some cols) None None) n)
    end.

  (** arr.py [_to_numpy] 2599-2603 *)
  Definition to_numpy (x : arr) : res (nd A) :=
    do d <- pf_to_pandas Nat.eqb Nat.eqb (aqc x);
    Ok (if andim x =? 1 then Vec (concat (dcells d)) else Mat (ncols d) (dcells d)).

  (** arr.py [_get_shape] 2487-2490 *)
  Definition get_shape (x : arr) : res (list nat) :=
    do idx <- labels (pindex (aqc x));
    do cols <- labels (pcols (aqc x));
    Ok (if andim x =? 1 then [length idx] else [length idx; length cols]).

  Inductive got := GScalar (a : A) | GArr (x : arr).

  (** indexing.py [_get_numpy_object_from_qc_view] 269-330, with [_compute_ndim] 227-253 *)
  Definition from_view (nd : nat) (row_scalar col_scalar : bool) (view : pf) : res got :=
    if negb row_scalar && negb col_scalar then do x <- np_array view nd; Ok (GArr x)
    else if (nd =? 1) && negb row_scalar then do x <- np_array view 1; Ok (GArr x)
    else if (nd =? 1) || (row_scalar && col_scalar) then
      do d <- pf_to_pandas Nat.eqb Nat.eqb view;
      match dcells d with
      | (a :: _) :: _ => Ok (GScalar a)
      | _ => Err IndexError
      end
    else if row_scalar then do t <- transpose view; do x <- np_array t 1; Ok (GArr x)
    else do x <- np_array view 1; Ok (GArr x).

  (** indexing.py [__getitem__] 371-415, [_parse_row_and_column_locators] 332-369, [_compute_lookup] 538-601 (the code of
      [iloc]) *)
  Definition getitem (x : arr) (rk : locator) (ck : option locator) : res got :=
    let ck := match ck with Some k => k | None => LSlice None None None end in
    do idx <- labels (pindex (aqc x));
    do cols <- labels (pcols (aqc x));
    do rows <- compute_lookup (length idx) rk;
    do columns <- compute_lookup (length cols) ck;
    do view <- take rows columns (aqc x);
    from_view (andim x) (is_int rk) (is_int ck) view.

  (** what [split] returns: modin arrays, and NumPy arrays ([numpy.empty]) for empty parts *)
  Inductive chunk := CArr (x : arr) | CEmpty (shape : list nat).

  Definition without (axis : bool) (shape : list nat) : list nat :=
    match axis, shape with
    | false, _ :: s => 0 :: s
    | true, n :: _ :: s => n :: 0 :: s
    | _, s => s
    end.

  (** arr.py 1209-1220, 1226-1234: the positions from [a] up to [b] of an axis *)
  Definition take_span (axis : bool) (x : arr) (a b : Z) : res chunk :=
    let idxs := Some (IList (py_range a b 1)) in
    do f <- (if axis then take None idxs (aqc x) else take idxs None (aqc x));
    do y <- np_array f (andim x);
    Ok (CArr y).

  Definition one_chunk (axis : bool) (x : arr) (shape : list nat) (n : nat) (prev stop : Z) : res chunk :=
    if ((Z.of_nat n <? prev) || (prev =? stop))%Z then Ok (CEmpty (without axis shape))
    else take_span axis x prev (Z.min stop (Z.of_nat n)).

  (** arr.py [split] 1191-1221: [continue] at 1204 leaves [prev_index] as it was *)
  Fixpoint split_loop (axis : bool) (x : arr) (shape : list nat) (n : nat) (prev : Z) (idx : list Z) : res (list chunk) :=
    match idx with
    | [] => do c <- one_chunk axis x shape n prev (Z.of_nat n); Ok [c]
    | z :: idx =>
        if (z =? 0)%Z then do cs <- split_loop axis x shape n prev idx; Ok (CEmpty (without axis shape) :: cs)
        else
          let stop := if (z <? 0)%Z then (Z.of_nat n + z)%Z else z in
          do c <- one_chunk axis x shape n prev stop;
          do cs <- split_loop axis x shape n stop idx;
          Ok (c :: cs)
    end.

  (** arr.py [split] 1169-1235: a list of positions, or a number of parts *)
  Definition split (axis : bool) (x : arr) (idx : list Z) : res (list chunk) :=
    do sh <- get_shape x;
    if axis && (andim x =? 1) then Err IndexError
    else split_loop axis x sh (nth (if axis then 1 else 0) sh 0) 0 idx.

  Definition split_even (axis : bool) (x : arr) (k : nat) : res (list chunk) :=
    do sh <- get_shape x;
    if axis && (andim x =? 1) then Err IndexError
    else
      let n := nth (if axis then 1 else 0) sh 0 in
      if k =? 0 then Err ZeroDivisionError
      else if negb (n mod k =? 0) then Err ValueError
      else if n / k =? 0 then Err ValueError
      else rmap (fun i => take_span axis x i (i + Z.of_nat (n / k))%Z) (py_range 0 (Z.of_nat n) (Z.of_nat (n / k))).
End Arr.
