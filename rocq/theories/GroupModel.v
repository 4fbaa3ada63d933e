(** Model of groupby by per-partition partial aggregation: core/dataframe/algebra/groupby.py [GroupByReduce],
    core/storage_formats/pandas/groupby.py [GroupbyReduceImpl],
    core/dataframe/pandas/dataframe/dataframe.py [groupby_reduce] 4530-4589 and
    core/dataframe/pandas/partitioning/partition_manager.py [groupby_reduce] 303-357.
    pandas' own groupby of one block is the specification's [pick] and [keys_of]. *)
From Verif Require Import Base Table ChunkModel GridSpec GridModel SelModel GroupSpec.
From Coq Require Import QArith Qcanon.
Open Scope nat_scope.

Section Group.
  Context {L H A : Type}.
  Notation dframe := (df L H A).
  Notation pf := (@pframe L H A).
  Notation key := (list A).
  Variable leqb : L -> L -> bool.
  Variable heqb : H -> H -> bool.
  Variable aeqb : A -> A -> bool.
  Variable na : A -> bool.
  Variable nan : A.                           (* NaN, what reindexing puts for a label it does not find *)
  Variable kle : key -> key -> bool.
  Notation keqb := (keqb aeqb).
  Notation keys_of := (keys_of aeqb na kle).

  (** One entry of [_groupby_reduce_impls] (groupby.py 237-248): the map function gives, for every column, one
      partial aggregate per tag of the ID level (mean: sum, count; skew: count, sum, pow2_sum, pow3_sum); the reduce
      function aggregates the partials of every column with [ired] and combines those of one original column with
      [ifin].  Plain entries ([iplain]) have no ID level; here they carry a single tag that is dropped again. *)
  Record impl := mkimpl {
    iplain : bool;
    itags : list nat;
    imap : nat -> list A -> A;
    ired : list A -> A;
    ifin : list A -> A }.

  (** [pandas.concat([grp.f() for f in ...], axis=1, keys=tags)], algebra/groupby.py 204-208 with the map functions
      of storage_formats/pandas/groupby.py 125-146, 194-201. *)
  Definition grouped_map (im : impl) (sort dropna : bool) (ks : list key) (d : dframe) : df key (nat * H) A :=
    let out := keys_of sort dropna ks in
    mkdf out (list_prod (itags im) (dcols d))
         (map (fun k => map (fun tc => imap im (fst tc) (snd tc))
                            (list_prod (itags im) (transp (ncols d) (pick aeqb k ks (dcells d))))) out).

  (** What the caller groups on: a frame of key columns ([drop]: taken from the grouped frame itself), or a level of
      the index. *)
  Inductive by_kind := ByFrame (drop : bool) | ByLevel (lkey : L -> key).

  (** pandas' [_convert_grouper] for a Series: its values if the labels agree, else reindexed. *)
  Definition series_keys (idx : list L) (o : dframe) : res (list key) :=
    if list_eqb leqb (dindex o) idx then Ok (dcells o)
    else if forallb (fun l => length (filter (leqb l) (dindex o)) <=? 1) (dindex o) then
      Ok (map (fun l => match filter (fun p => leqb l (fst p)) (combine (dindex o) (dcells o)) with
                        | p :: _ => snd p
                        | [] => [nan]
                        end) idx)
    else Err ValueError.

  (** algebra/groupby.py [GroupByReduce.map] 124-208.  [selection]: the column of a one-column dict aggregation
      ([groupby_size]); otherwise all columns that are not grouping columns are aggregated. *)
  Definition map_part (bk : by_kind) (im : impl) (sort dropna : bool) (selection : option H)
      (d : dframe) (other : option dframe) : res (df key (nat * H) A) :=
    let wanted by_ h := match selection with Some s => heqb s h | None => negb (inb heqb h by_) end in
    match bk, other with
    | ByLevel lkey, None =>
        Ok (grouped_map im sort dropna (map lkey (dindex d)) (keep_cols (wanted []) d))
    | ByFrame drop, Some o =>
        if drop || negb (ncols o =? 1) then
          do d1 <- concat_cols leqb [d; keep_cols (fun h => negb (inb heqb h (dcols d))) o];
          let by_ := dcols o in
          Ok (grouped_map im sort dropna (row_keys heqb by_ d1) (keep_cols (wanted by_) d1))
        else
          do ks <- series_keys (dindex d) o;
          Ok (grouped_map im sort dropna ks (keep_cols (wanted []) d))
    | _, _ => Err Unmodelled
    end.

  (** The end of the reduce functions: plain entries return the aggregated partials; [mean_reduce] 219-226 and
      [skew_reduce] 149-175 return an empty result with the ID level dropped, else combine the sub-frames of the
      tags column by column. *)
  Definition finish (im : impl) (sums : df key (nat * H) A) : res (df key H A) :=
    if iplain im || df_empty sums then Ok (mkdf (dindex sums) (map snd (dcols sums)) (dcells sums))
    else
      let subs := map (fun t => keep_cols (fun th => fst th =? t) sums) (itags im) in
      match subs with
      | [] => Err Unmodelled
      | s :: _ =>
          if forallb (fun e => list_eqb heqb (map snd (dcols e)) (map snd (dcols s))) subs
          then Ok (mkdf (dindex sums) (map snd (dcols s))
                        (map (fun rs => map (ifin im) (transp (ncols s) rs))
                             (transp (nrows sums) (map dcells subs))))
          else Err Unmodelled
      end.

  (** default2pandas/groupby.py [handle_as_index] 393-555 and [handle_as_index_for_dataframe] 320-390, without
      categorical keys and dict selections: only the first block of columns gets the key columns, and none if
      the keys came from another frame.  [names] are the names of the index levels; [size]: the aggregation is
      "size", which inserts all keys. *)
  Definition handle_as_index (size drop : bool) (names : list H) (partition_idx : nat) (r : df key H A)
    : df (rlabel A) H A :=
    let numbers := map Pos (seq 0 (nrows r)) in
    if size then mkdf numbers (names ++ dcols r) (map2 (fun k row => k ++ row) (dindex r) (dcells r))
    else if negb (partition_idx =? 0) || negb drop then mkdf numbers (dcols r) (dcells r)
    else
      let insert h := negb (inb heqb h (dcols r)) in
      mkdf numbers (filter insert names ++ dcols r)
           (map2 (fun k row => keepl insert names k ++ row) (dindex r) (dcells r)).

  (** algebra/groupby.py [GroupByReduce.reduce] 211-300 (no finalizer) *)
  Definition reduce_part (im : impl) (sort dropna as_index size drop : bool) (names : list H)
      (partition_idx : nat) (m : df key (nat * H) A) : res (df (rlabel A) H A) :=
    let out := keys_of sort dropna (dindex m) in
    let sums := mkdf out (dcols m)
                  (map (fun k => map (ired im) (transp (ncols m) (pick aeqb k (dindex m) (dcells m)))) out) in
    do r <- finish im sums;
    Ok (if as_index then mkdf (map Key (dindex r)) (dcols r) (dcells r)
        else handle_as_index size drop names partition_idx r).

  Definition pair_eqb (x y : nat * H) : bool := (fst x =? fst y) && heqb (snd x) (snd y).

  (** partition_manager.py [base_broadcast_apply] 443-494 (axis 0): the blocks of the right frame in the same row of
      blocks, joined.  DynamicPartitioning off. *)
  Definition other_row (row : list dframe) : res dframe :=
    match row with
    | [] => Err IndexError
    | [o] => Ok o
    | _ => concat_cols leqb row
    end.

  (** partition_manager.py [groupby_reduce] 303-357, axis 0.  [enumerate_partitions] passes the number of the column
      of blocks. *)
  Definition grid_reduce (nparts min_row : nat) (bk : by_kind) (im : impl) (sort dropna as_index : bool)
      (selection : option H) (names : list H) (grid : list (list dframe)) (by_ : option (list (list dframe)))
    : res (list (list (df (rlabel A) H A))) :=
    do mapped <-
      match by_ with
      | Some b =>
          if negb (length grid =? length b) then Err AssertionError
          else rmap (fun pr : list dframe * list dframe =>
                       do o <- other_row (snd pr);
                       rmap (fun part => map_part bk im sort dropna selection part (Some o)) (fst pr))
                    (combine grid b)
      | None => rmap (rmap (fun part => map_part bk im sort dropna selection part None)) grid
      end;
    let drop := match bk with ByFrame drop => drop | ByLevel _ => false end in
    let size := match selection with Some _ => true | None => false end in
    let num_splits := Nat.min (length grid) nparts in
    let columns := transp (grid_width mapped) mapped in
    do blocks <-
      rmap (fun ic : nat * list (df key (nat * H) A) =>
              deploy_axis_func keqb pair_eqb false (reduce_part im sort dropna as_index size drop names (fst ic))
                num_splits false (snd ic) min_row None false)
           (combine (seq 0 (length columns)) columns);
    Ok (transp (grid_width blocks) blocks).

  (** algebra/groupby.py [GroupByReduce.caller] 303-450 and dataframe.py [groupby_reduce] 4530-4589.  Empty frames go
      to pandas before this point.  Grouping on a frame always sorts. *)
  Definition groupby_reduce (nparts min_row : nat) (bk : by_kind) (im : impl) (sort dropna as_index : bool)
      (selection : option H) (f : pf) (by_ : option pf) : res (@pframe (rlabel A) H A) :=
    let sort := match by_ with Some _ => true | None => sort end in
    let names := match by_ with
                 | Some b => match pgrid b with row :: _ => concat (map dcols row) | [] => [] end
                 | None => []
                 end in
    let f := match by_ with None => filter_empties false f | Some _ => f end in
    do grid <- match by_ with
               | None => propagate_index_objs (Some false) f
               | Some b => Ok (if length (pgrid b) =? length (pgrid f) then pgrid f else pgrid (filter_empties false f))
               end;
    let grid := match selection with
                | Some _ => map (fun row => firstn 1 (skipn (digitize (column_widths f) 0) row)) grid
                | None => grid
                end in
    do parts <- grid_reduce nparts min_row bk im sort dropna as_index selection names grid
                  (match by_ with Some b => Some (pgrid b) | None => None end);
    construct (mkpf parts None None None None).
End Group.

(** * storage_formats/pandas/groupby.py [_groupby_reduce_impls] 237-248 *)

(** The entries given by two names: the map and the reduce aggregation.  [min_count] is among [agg_kwargs], which
    both receive (algebra/groupby.py [build_map_reduce_functions] 687-790). *)
Definition plain_impl (map_agg reduce_agg : list (option Z) -> option Z) : impl (A := option Z) :=
  mkimpl true [0] (fun _ => map_agg) reduce_agg (fun xs => hd None xs).
Definition reduce_impl (name : agg_name) (min_count : nat) : impl :=
  match name with
  | GAll => plain_impl p_all p_all
  | GAny => plain_impl p_any p_any
  | GCount => plain_impl p_count p_sum
  | GMax => plain_impl (at_least min_count p_max) (at_least min_count p_max)
  | GMin => plain_impl (at_least min_count p_min) (at_least min_count p_min)
  | GProd => plain_impl (at_least min_count p_prod) (at_least min_count p_prod)
  | GSize => plain_impl p_size p_sum
  | GSum => plain_impl (at_least min_count p_sum) (at_least min_count p_sum)
  end.

Definition q_sum (l : list (option Qc)) : option Qc := Some (qsum (present l)).
Definition q_count (l : list (option Qc)) : option Qc := Some (qlen (present l)).
(** element-wise division: missing if an operand is; 0/0 is missing (x/0 with x <> 0 does not occur below) *)
Definition q_div (x y : option Qc) : option Qc :=
  match x, y with
  | Some x, Some y => if Qc_eq_dec y (Q2Qc 0) then None else Some (Qcdiv x y)
  | _, _ => None
  end.

(** [_build_mean_impl] 184-234: partial sums and counts, summed, divided.  Cells are exact rationals. *)
Definition mean_impl : impl (A := option Qc) :=
  mkimpl false [0; 1] (fun t => if t =? 0 then q_sum else q_count) q_sum
    (fun xs => match xs with [s; c] => q_div s c | _ => None end).

(** [_build_skew_impl] 115-182.  [root] x = x ** 0.5 and [root3] x = x ** 1.5, arbitrary functions here.  Simplified:
    exact rationals instead of floats; [data_to_agg] has its columns in sorted order, the other two sub-frames do not,
    and pandas aligns them by header: the order of the result's columns is only modelled for sorted headers. *)
Definition skew_impl (root root3 : Qc -> Qc) : impl (A := option Qc) :=
  let pow n := map (option_map (fun x : Qc => Qcpower x n)) in
  mkimpl false [0; 1; 2; 3]
    (fun t l => match t with
                | 0 => q_count l
                | 1 => q_sum l
                | 2 => q_sum (pow 2 l)
                | _ => q_sum (pow 3 l)
                end)
    q_sum
    (fun xs =>
       match xs with
       | [Some count; Some s; Some s2; Some s3] =>
           if Qclt_le_dec count (Q2Qc 3) then None
           else
             let m := Qcdiv s count in
             let m2 := Qcplus (Qcminus s2 (Qcmult (Qcmult (Q2Qc 2) m) s)) (Qcmult count (Qcpower m 2)) in
             let m3 := Qcminus (Qcplus (Qcminus s3 (Qcmult (Qcmult (Q2Qc 3) m) s2))
                                       (Qcmult (Qcmult (Q2Qc 3) s) (Qcpower m 2)))
                               (Qcmult count (Qcpower m 3)) in
             if Qc_eq_dec m2 (Q2Qc 0) then Some (Q2Qc 0)
             else Some (Qcmult (Qcdiv (Qcmult count (root (Qcminus count (Q2Qc 1)))) (Qcminus count (Q2Qc 2)))
                               (Qcdiv m3 (root3 m2)))
       | _ => None
       end).
