(** pandas/base.py [drop], [dropna] and core/storage_formats/pandas/query_compiler.py [drop], [dropna].
    Labels without levels (no MultiIndex). *)
From Verif Require Import Base Table GridModel GridSpec SelSpec SelModel LocSpec LocModel JoinModel RemSpec.

(** The table a user sees: [to_pandas] after the labels have been asked for (dataframe.py [_get_index],
    [_get_columns] 618-690 fill the caches from the blocks). *)
Definition shown {L H A} (leqb : L -> L -> bool) (heqb : H -> H -> bool) (f : @pframe L H A) : res (df L H A) :=
  pf_to_pandas leqb heqb (mkpf (pgrid f) (Some (row_labels f)) (Some (col_labels f)) (prl f) (pcl f)).

Section DropModel.
  Context {L A : Type}.
  Variable leqb : L -> L -> bool.
  (** pandas' [Index.difference] sorts its result when it can; [order] is that sorting. *)
  Variable order : list L -> list L.
  Variables min_row min_col nparts : nat.
  Variables known_l known_w : nat -> nat -> bool.
  Variable argsort : list Z -> list nat.
  Notation pf := (@pframe L L A).

  Fixpoint distinct (ls : list L) : list L :=
    match ls with
    | [] => []
    | l :: ls => l :: filter (fun x => negb (leqb l x)) (distinct ls)
    end.
  (** pandas [a.difference(b)]: every label of [a] that is not in [b], once *)
  Definition difference (a b : list L) : list L := order (filter (fun l => negb (inb leqb l b)) (distinct a)).

  (** base.py 1496-1497: a tuple is list-like, so it is taken as a list of labels *)
  Definition as_list (k : dropped L) : list L := match k with DOne l => [l] | DTuple ls => ls | DMany ls => ls end.

  (** base.py 1492-1516, one axis ([raise_]: errors="raise"; labels known, no lazy execution) *)
  Definition check (raise_ : bool) (labels : list L) (k : option (dropped L)) : res (option (list L)) :=
    match k with
    | None => Ok None
    | Some k =>
        if raise_ then match difference (as_list k) labels with [] => Ok (Some (as_list k)) | _ => Err KeyError end
        else match filter (fun l => inb leqb l labels) (as_list k) with [] => Ok None | ls => Ok (Some ls) end
    end.

  (** query_compiler.py [drop] 3326-3342: [np.sort(labels.get_indexer_for(labels.difference(ls)))] *)
  Definition remaining (labels : list L) (ls : option (list L)) : option indexer :=
    option_map (fun ls => IList (np_sort (get_indexer leqb labels (difference labels ls)))) ls.

  (** base.py [drop] 1450-1521 with [index=], [columns=]; neither given is a ValueError *)
  Definition drop (big raise_ : bool) (rows columns : option (dropped L)) (f : pf) : res pf :=
    match rows, columns with
    | None, None => Err ValueError
    | _, _ =>
        do index <- labels (pindex f);
        do cols <- labels (pcols f);
        do r <- check raise_ index rows;
        do c <- check raise_ cols columns;
        take_2d_positional leqb leqb min_row min_col nparts known_l known_w argsort big
          (remaining index r) (remaining cols c) f
    end.
End DropModel.

Section DropnaModel.
  Context {L H A : Type}.
  Variable leqb : L -> L -> bool.
  Variable heqb : H -> H -> bool.
  Variable na : A -> bool.
  Variables min_row min_col nparts : nat.
  Notation dframe := (df L H A).
  Notation pf := (@pframe L H A).

  (** dataframe.py [filter] 2816-2857 (dtypes aside).  [axis]: the condition gets whole rows. *)
  Definition frame_filter (axis : bool) (condition : dframe -> res dframe) (f : pf) : res pf :=
    do parts <- map_axis_partitions leqb heqb nparts (if axis then min_col else min_row) axis (pgrid f) condition true None None;
    construct (if axis then mkpf parts None (pcols f) None (pcl f) else mkpf parts (pindex f) None (prl f) None).

  (** pandas' [DataFrame.dropna] is the library function described in RemSpec.v; labels in [subset] are looked up
      on the other axis. *)
  Definition lookup {X} (xeqb : X -> X -> bool) (labels : list X) (subset : option (list X)) : res (option (list nat)) :=
    match subset with
    | None => Ok None
    | Some ls => match all_of xeqb labels ls with Some ps => Ok (Some ps) | None => Err KeyError end
    end.

  (** base.py [dropna] 1523-1564 (ignore_index=False) and query_compiler.py 3318-3324, dropping rows *)
  Definition dropna0 (r : rule) (subset : option (list H)) (f : pf) : res pf :=
    do _ <- lookup heqb (col_labels f) subset;
    frame_filter true (fun d => do sub <- lookup heqb (dcols d) subset; Ok (dropna_rows na r sub d)) f.

  (** query_compiler.py 3264: [getattr(df, how)()] on one column of truth values *)
  Definition condition (all : bool) (col : list bool) : bool := if all then forallb (fun b => b) col else existsb (fun b => b) col.

  (** query_compiler.py [mapper] 3266-3282: one row of truth values for the rows of a row of blocks.  With [subset]
      only the rows of the block with those labels ([df.loc[df.index.intersection(subset)]]). *)
  Definition mapper (all : bool) (subset : option (list L)) (d : dframe) : df unit H bool :=
    let rows := match subset with
                | None => dcells d
                | Some ls => kept (map (fun l => inb leqb l ls) (dindex d)) (dcells d)
                end in
    mkdf [tt] (dcols d) [map (fun col => condition all (map na col)) (transp (ncols d) rows)].

  (** query_compiler.py [reduce] 3288-3305.  [df[to_take]] takes, for every label, all columns with that label. *)
  Definition reducer (all : bool) (d : dframe) (mask : df unit H bool) : dframe :=
    let to_take := map fst (filter (fun p => negb (condition all (snd p)) && existsb (heqb (fst p)) (dcols d))
                                   (combine (dcols mask) (transp (ncols mask) (dcells mask)))) in
    take2d (seq 0 (nrows d)) (concat (map (everywhere heqb (dcols d)) to_take)) d.

  (** partition_manager.py [base_broadcast_apply] 443-494, axis 1: every block gets the blocks of the other frame in
      the same column of blocks, joined *)
  Definition unit_eqb (_ _ : unit) : bool := true.
  Definition broadcast_cols {B} (func : dframe -> df unit H B -> dframe) (left : list (list dframe)) (right : list (list (df unit H B)))
    : res (list (list dframe)) :=
    do others <- rmap (fun col => match col with
                                  | [] => Err IndexError
                                  | [o] => Ok o
                                  | _ => concat_axis unit_eqb heqb false col
                                  end) (transp (grid_width right) right);
    rmap (fun row => rmap (fun jb => match nth_error others (fst jb) with
                                     | Some o => Ok (func (snd jb) o)
                                     | None => Err IndexError
                                     end) (combine (seq 0 (length row)) row)) left.

  (** base.py [dropna] and query_compiler.py [dropna] 3249-3324, dropping columns.  [few]: fewer than 32 * CpuCount
      blocks. *)
  Definition dropna1 (few : bool) (r : rule) (subset : option (list L)) (f : pf) : res pf :=
    do _ <- lookup leqb (row_labels f) subset;
    let by_pandas := frame_filter false (fun d => do sub <- lookup leqb (dindex d) subset; Ok (dropna_columns na r sub d)) f in
    let by_masks all :=
      do masks <- apply_full_axis leqb heqb nparts min_row min_col true (fun d => Ok (mapper all subset d)) None None true None f;
      do parts <- broadcast_cols (reducer all) (pgrid f) (pgrid masks);
      construct (mkpf parts (pindex f) None (prl f) None) in
    match r with
    | AnyMissing => if few then by_masks false else by_pandas
    | AllMissing => if few then by_masks true else by_pandas
    | FewerThan _ => by_pandas
    end.
End DropnaModel.
