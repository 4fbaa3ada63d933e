(** Model of the range-partitioning shuffle behind sort_values, range-partitioning groupby, unique and
    drop_duplicates: core/dataframe/pandas/dataframe/utils.py [ShuffleSortFunctions],
    core/dataframe/pandas/partitioning/partition_manager.py [shuffle_partitions] and
    core/dataframe/pandas/dataframe/dataframe.py [_apply_func_to_range_partitioning], [sort_by]. *)
From Verif Require Import Base Table ChunkModel GridModel ShufSpec.

(** Python's [round(a / b)]: halves go to the even neighbour (exact quotient; floats are exact below 2^53). *)
Definition py_round_div (a b : nat) : nat :=
  let q := a / b in
  let r := a mod b in
  if 2 * r <? b then q else if b <? 2 * r then S q else if Nat.even q then q else S q.

(** [np.split(l, n)] for n dividing len(l); [np.split(l, range(step, len(l), step))]. *)
Definition np_split_sections {X} (n : nat) (l : list X) : list (list X) :=
  map (fun i => slice l (i * (length l / n)) (S i * (length l / n))) (seq 0 n).
Definition np_split_steps {X} (step : nat) (l : list X) : list (list X) :=
  map (fun i => slice l i (i + step)) (range_step 0 (length l) step).

Section Shuffle.
  Context {L H A K : Type}.
  Notation dframe := (df L H A).
  Notation pf := (@pframe L H A).
  Notation row := (@row L A).
  Variable leqb : L -> L -> bool.
  Variable heqb : H -> H -> bool.
  Variable kle : K -> K -> bool.             (* how NumPy compares the key values *)
  Variable raw_na : nat -> row -> bool.      (* [key_data.isna()]: is the i-th key of the row missing? *)
  Variable kval : nat -> row -> option K.    (* the i-th key of the row, after the user's [key] function; None: NaN *)
  Variable numeric : nat -> bool.            (* [is_numeric_dtype] of the i-th key *)
  Variable quantiles : nat -> nat -> list (option K).
    (* [np.unique(np.quantile(samples, [j/n for j in range(1, n)]))] of the i-th key: whatever the random samples give *)

  (** NumPy's order of float values: NaN is greater than all others. *)
  Definition npleb (x y : option K) : bool :=
    match x, y with
    | _, None => true
    | None, Some _ => false
    | Some a, Some b => kle a b
    end.
  Definition npltb (x y : option K) : bool := negb (npleb y x).

  Fixpoint increasing (l : list (option K)) : bool :=
    match l with
    | x :: ((y :: _) as l') => npleb x y && increasing l'
    | _ => true
    end.

  (** [np.searchsorted(pivots, x, side)], pivots ascending *)
  Definition searchsorted (pivots : list (option K)) (x : option K) (left : bool) : nat :=
    length (filter (fun p => if left then npltb p x else npleb p x) pivots).
  (** [np.digitize(x, pivots, right)]: [right=False]: bins[i-1] <= x < bins[i] for ascending bins,
      bins[i-1] > x >= bins[i] for descending ones; [right=True] closes the other end. *)
  Definition digitize (x : option K) (pivots : list (option K)) (right : bool) : nat :=
    if increasing pivots then searchsorted pivots x right
    else length (filter (fun p => if right then npleb x p else npltb x p) pivots).

  (** One key column of [columns_info]: its number and its pivots. *)
  Definition info : Type := nat * list (option K).

  (** utils.py 399-444, one row, one key column with pivots.  [len(np.unique(pivots)) == 1] is [len(pivots) == 1]
      since [np.unique] made the pivots. *)
  Definition group_code (ascending closed_right : bool) (ci : info) (r : row) : nat :=
    let '(i, pivots) := ci in
    if numeric i then
      let pivots := if ascending then pivots else rev pivots in
      let code := digitize (kval i r) pivots closed_right in
      if negb ascending && (length pivots =? 1) then length pivots - code else code
    else
      let code := searchsorted pivots (kval i r) closed_right in
      if ascending then code else length pivots - code.

  (** [pandas.MultiIndex.from_product(group_keys)] *)
  Fixpoint product (ns : list nat) : list (list nat) :=
    match ns with
    | [] => [[]]
    | n :: ns => flat_map (fun c => map (cons c) (product ns)) (seq 0 n)
    end.

  (** [groups[-1] = pandas.concat([groups[-1], na_rows])] or [groups[0] = ...] *)
  Fixpoint append_last {X} (gs : list (list X)) (na : list X) : list (list X) :=
    match gs with
    | [] => []
    | [g] => [g ++ na]
    | g :: gs => g :: append_last gs na
    end.
  Definition append_first {X} (gs : list (list X)) (na : list X) : list (list X) :=
    match gs with [] => [] | g :: gs => (g ++ na) :: gs end.

  (** utils.py [split_partitions_using_pivots_for_sort] 335-475, on the rows of a partition.  With exactly one
      row to distribute, [key != groupby_codes[0]] compares each group key with a one-element array: for a
      single key column that is the row's code, for several the tuple compares to an array of booleans whose
      truth value is a ValueError. *)
  Definition split_rows (infos : list info) (ascending closed_right na_first : bool) (rs : list row)
    : res (list (list row)) :=
    match infos with
    | [] => Ok [rs]
    | _ =>
        let is_na r := existsb (fun ci => raw_na (fst ci) r) infos in
        let na_rows := filter is_na rs in
        let non_na_rows := filter (fun r => negb (is_na r)) rs in
        let with_pivots := filter (fun ci => negb (length (snd ci) =? 0)) infos in
        let code r := map (fun ci => group_code ascending closed_right ci r) with_pivots in
        let group_keys := product (map (fun ci => S (length (snd ci))) with_pivots) in
        match with_pivots with
        | [] => Ok [rs]
        | _ =>
            if (length non_na_rows =? 1) && (1 <? length with_pivots) then Err ValueError
            else
              let groups := map (fun key => filter (fun r => list_eqb Nat.eqb (code r) key) non_na_rows)
                                group_keys in
              Ok (if na_first then append_first groups na_rows else append_last groups na_rows)
        end
    end.

  (** utils.py [pick_pivots_from_samples_for_sort] 288-332 *)
  Definition pick_pivots (i num_pivots : nat) : list (option K) :=
    if num_pivots <? 2 then [] else quantiles i num_pivots.

  (** utils.py [pivot_fn] 163-192: the columns_info and the number of bins *)
  Fixpoint pivot_loop (keys : list nat) (ideal : nat) (infos : list info) (ngroups : nat) : list info * nat :=
    match keys with
    | [] => (infos, ngroups)
    | i :: keys =>
        let num_pivots := ideal / ngroups in
        if (num_pivots <? 2) && negb (length infos =? 0) then (infos, ngroups)
        else let pivots := pick_pivots i num_pivots in
             pivot_loop keys ideal (infos ++ [(i, pivots)]) (ngroups * S (length pivots))
    end.
  Definition pivot_fn (nkeys ideal : nat) : list info * nat := pivot_loop (seq 0 nkeys) ideal [] 1.

  (** axis_partition.py [split] 311-351, [deploy_splitting_func] 354-393 for one row of blocks *)
  Definition split_partition (infos : list info) (ascending closed_right na_first : bool) (blocks : list dframe)
    : res (list dframe) :=
    do d <- concat_axis leqb heqb true blocks;
    do gs <- split_rows infos ascending closed_right na_first (rows_of d);
    Ok (map (of_rows (dcols d)) gs).

  (** A column partition with [full_axis=False]: the function runs on the blocks joined, the result is not split. *)
  Definition apply_joined (min_row : nat) (final : dframe -> res dframe) (blocks : list dframe) : res dframe :=
    do out <- deploy_axis_func leqb heqb false final 1 true blocks min_row None false;
    match out with d :: _ => Ok d | [] => Err IndexError end.

  (** partition_manager.py [shuffle_partitions] 1937-2052 with [right_partitions=None].  Sampling is the
      [quantiles] parameter. *)
  Definition shuffle_partitions (min_row min_col : nat) (nkeys ideal : nat)
      (ascending closed_right na_first : bool) (final : dframe -> res dframe) (grid : list (list dframe))
    : res (list (list dframe)) :=
    let '(infos, num_bins) := pivot_fn nkeys ideal in
    if 1 <? num_bins then
      do split <- rmap (split_partition infos ascending closed_right na_first) grid;
      rmap (fun col => do d <- apply_joined min_row final col; Ok [d]) (transp num_bins split)
    else rmap (fun blocks => deploy_axis_func leqb heqb true final (length blocks) true blocks min_col None false)
              grid.

  (** [column_partitions(ptn_grp, full_axis=False)] of every group, each later joined along the rows *)
  Definition join_groups (groups : list (list (list dframe))) : res (list (list dframe)) :=
    rmap (fun g => rmap (concat_axis leqb heqb false) (transp (grid_width g) g)) groups.

  (** dataframe.py [combine_and_apply] 2519-2562 (label arguments not given) *)
  Definition combine_and_apply (nparts min_row min_col : nat) (func : dframe -> res dframe) (f : pf) : res pf :=
    do m <- (if 1 <? grid_width (pgrid f)
             then do g <- rmap (fun r => do d <- concat_axis leqb heqb true r; Ok [d]) (pgrid f);
                  construct (mkpf g (pindex f) (pcols f) (prl f)
                              (match pcols f with Some c => Some [length c] | None => None end))
             else Ok f);
    apply_full_axis leqb heqb nparts min_row min_col false func None None true None m.

  (** dataframe.py [_apply_func_to_range_partitioning] 2565-2739 with [data=None].  [over]: the computed sampling
      probability is at least 1.  The row labels in the blocks are up to date (the decorator sees to that). *)
  Definition range_partitioning (nparts min_row min_col : nat) (over : bool) (nkeys : nat)
      (ascending closed_right na_first preserve_columns : bool) (func : dframe -> res dframe) (f : pf) : res pf :=
    if length (pgrid f) =? 1 then
      do r <- apply_full_axis leqb heqb nparts min_row min_col true func None
                (if preserve_columns then pcols f else None) true None f;
      Ok (if preserve_columns then mkpf (pgrid r) (pindex r) (pcols r) (prl r) (pcl f) else r)
    else
      let n := list_sum (row_lengths f) in
      let ideal := min (length (pgrid f)) nparts in
      let ideal' := py_round_div n min_row in
      let finish ideal grid :=
        do g <- shuffle_partitions min_row min_col nkeys ideal ascending closed_right na_first func grid;
        do r <- construct (mkpf g None None None None);
        Ok (if preserve_columns
            then mkpf (pgrid r) (pindex r) (pcols f) (prl r)
                   (match pcols f with Some c => Some [length c] | None => pcl r end)
            else r) in
      if over then
        if (n <? min_row) || (ideal' <? 2) then combine_and_apply nparts min_row min_col func f
        else if ideal' <? length (pgrid f) then
          do grid <- join_groups (if length (pgrid f) mod ideal' =? 0
                                  then np_split_sections ideal' (pgrid f)
                                  else np_split_steps (py_round_div (length (pgrid f)) ideal') (pgrid f));
          finish ideal' grid
        else finish ideal' (pgrid f)
      else finish ideal (pgrid f).

  (** dataframe.py [sort_by] 2742-2813, axis 0, [ignore_index=False].  [sort_values]: what pandas does in a worker. *)
  Definition sort_by (nparts min_row min_col : nat) (over ascending na_first : bool)
      (sort_values : dframe -> dframe) (f : pf) : res pf :=
    if (list_sum (column_widths f) =? 0) || (list_sum (row_lengths f) =? 0) then Ok f
    else range_partitioning nparts min_row min_col over 1 ascending false na_first true
           (fun d => Ok (sort_values d)) f.
End Shuffle.
