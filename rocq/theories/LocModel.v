(** pandas/indexing.py [_LocIndexer.__getitem__] and core/storage_formats/base/query_compiler.py
    [take_2d_labels], [get_positions_from_labels].  Labels without levels (no MultiIndex).

    pandas' [Index.get_indexer_for] and the bounds of [Index.slice_indexer] are the library functions described by
    [everywhere] and [place] of LocSpec.v. *)
From Verif Require Import Base Table GridModel SelSpec SelModel LabModel LocSpec.

Section LocModel.
  Context {L A : Type}.
  Variables leqb leb : L -> L -> bool.
  Variable of_Z : Z -> L.
  Variable num : L -> option Z.             (* the value of an integer label ([is_number]) *)
  Variable coerce : L -> res L.             (* conversion to the dtype of the axis labels *)
  Variables min_row min_col nparts : nat.
  Variables known_l known_w : nat -> nat -> bool.
  Variable argsort : list Z -> list nat.
  Notation pf := (@pframe L L A).
  Notation lframe := (@lframe L A).

  (** query_compiler.py 4938-4950: [get_indexer_for] with -1 for an absent label, then the KeyError *)
  Definition get_indexer (labels ls : list L) : list Z :=
    concat (map (fun l => match everywhere leqb labels l with
                          | [] => [(-1)%Z]
                          | ps => map Z.of_nat ps
                          end) ls).
  Definition found (zs : list Z) : res (option indexer) :=
    if existsb (fun z => (z =? -1)%Z) zs then Err KeyError else Ok (Some (IList zs)).

  (** pandas [Index.slice_indexer] (slice_locs): the numeric slice of a slice of labels.  Stepping down, -1 as an
      end means "before the first position" and is written -1 - n. *)
  Definition slice_indexer (labels : list L) (a b : option L) (step : option Z) : res (Z * Z) :=
    let n := Z.of_nat (length labels) in
    let get o := match o with Some p => Ok p | None => Err KeyError end in
    if match step with Some s => (0 <=? s)%Z | None => true end
    then do lo <- get (first_of leqb leb labels a);
         do hi <- get (past_of leqb leb labels b);
         Ok (Z.of_nat lo, Z.of_nat hi)
    else do lo <- get (first_of leqb leb labels b);
         do hi <- get (past_of leqb leb labels a);
         let down z := if (z =? -1)%Z then (z - n)%Z else z in
         Ok (down (Z.of_nat hi - 1), down (Z.of_nat lo - 1))%Z.

  (** query_compiler.py 4886-4919 *)
  Definition slice_lookup (labels : list L) (a b : option L) (step : option Z) : res (option indexer) :=
    let n := Z.of_nat (length labels) in
    let stop := match b with
                | Some l => match num l with
                            | Some z => Some (of_Z (z - match step with None => 0 | Some s => s end))
                            | None => Some l
                            end
                | None => None
                end in
    do p <- slice_indexer labels a stop step;
    let up z := if (0 <=? z)%Z then z else (z + n)%Z in
    let st := match step with Some s => s | None => 1%Z end in
    if (st =? 0)%Z then Err ValueError
    else Ok (Some (IRange (up (fst p)) (up (snd p)) st)).

  (** query_compiler.py [get_positions_from_labels] 4844-4956, one axis; [slice(None)] becomes None (4830-4841) *)
  Definition positions_from_labels (labels : list L) (k : key L) : res (option indexer) :=
    match k with
    | KLabel l => found (get_indexer labels [l])
    | KRangeIndex x y s => if (s =? 0)%Z then Err ValueError else Ok (Some (IRange x y s))
    | KSlice None None None => Ok None
    | KSlice a b s => slice_lookup labels a b s
    | KRange x y s => if (s =? 0)%Z then Err ValueError else slice_lookup labels (Some (of_Z x)) (Some (of_Z y)) (Some s)
    | KMask m => Ok (Some (IList (map (fun p => Z.of_nat (fst p)) (filter (fun p => snd p) (combine (seq 0 (length m)) m)))))
    | KList ls => do ls <- rmap coerce ls; found (get_indexer labels ls)
    | KIndex ls => found (get_indexer labels ls)
    end.

  (** query_compiler.py [take_2d_labels] 4809-4842 *)
  Definition take_2d_labels (big : bool) (rk ck : key L) (f : pf) : res pf :=
    do index <- labels (pindex f);
    do columns <- labels (pcols f);
    do rows <- positions_from_labels index rk;
    do cols <- positions_from_labels columns ck;
    take_2d_positional leqb leqb min_row min_col nparts known_l known_w argsort big rows cols f.

  (** indexing.py [_LocIndexer.__getitem__] 710-851 for a frame with rows and columns (an empty one defaults to
      pandas); a scalar gives a one-row (one-column) table, squeezed by pandas rules afterwards (not modelled).
      [df.loc[key]] with a pandas.Index assigns it to the result (844-850). *)
  Definition empty (f : pf) : res bool :=
    do index <- labels (pindex f);
    do columns <- labels (pcols f);
    Ok ((length index =? 0) || (length columns =? 0)).
  Definition loc_rows (big : bool) (rk : key L) (f : pf) : res lframe :=
    do e <- empty f;
    if e then Err Unmodelled
    else
      do r <- take_2d_labels big rk KAll f;
      let r := mklf r false false in
      match rk with
      | KIndex ls => set_index ls r
      | KRangeIndex x y s => set_index (map of_Z (py_range x y s)) r
      | _ => Ok r
      end.
  (** [df.loc[rows, columns]] *)
  Definition loc_both (big : bool) (rk ck : key L) (f : pf) : res lframe :=
    do e <- empty f;
    if e then Err Unmodelled
    else do r <- take_2d_labels big rk ck f; Ok (mklf r false false).
End LocModel.
