(** Labels assigned to a frame are propagated to its blocks lazily: core/dataframe/pandas/dataframe/dataframe.py
    and [lazy_metadata_decorator] in core/dataframe/pandas/dataframe/utils.py. *)
From Verif Require Import Base Table GridSpec GridModel LabSpec.

Section LabModel.
  Context {L A : Type}.
  Variable leqb : L -> L -> bool.
  Variable of_pos : nat -> L.
  Variable cell_of : L -> A.
  Variable unnamed : L.
  Variable dynamic : bool.
  Variables cpus nparts min_row min_col : nat.
  Notation dframe := (df L L A).
  Notation pf := (@pframe L L A).
  Notation act := (@act L A).
  Notation obs := (@obs L A).

  (** PandasDataframe with its [_deferred_index] and [_deferred_column] attributes (113-114). *)
  Record lframe := mklf { lf : pf; defi : bool; defc : bool }.

  (** dataframe.py [_set_index] 762-774, [_validate_set_axis] 696-724, [synchronize_labels] 916-932.
      The labels are known here ([has_materialized_index]). *)
  Definition set_index (l : list L) (x : lframe) : res lframe :=
    match pindex (lf x) with
    | Some old =>
        if length old =? length l
        then Ok (mklf (mkpf (pgrid (lf x)) (Some l) (pcols (lf x)) (prl (lf x)) (pcl (lf x))) true (defc x))
        else Err ValueError
    | None => Err Unmodelled
    end.

  (** dataframe.py [_set_columns] 776-810 (dtypes aside): nothing happens when the labels are the same. *)
  Definition set_columns (l : list L) (x : lframe) : res lframe :=
    match pcols (lf x) with
    | Some old =>
        if list_eqb leqb old l then Ok x
        else if length old =? length l
        then Ok (mklf (mkpf (pgrid (lf x)) (pindex (lf x)) (Some l) (prl (lf x)) (pcl (lf x))) (defi x) true)
        else Err ValueError
    | None => Err Unmodelled
    end.

  (** dataframe.py [_propagate_index_objs] 934-1038 with its effects on the frame: empty blocks
      dropped, the lengths used are cached, the flags of the axis cleared. *)
  Definition propagate (axis : option bool) (x : lframe) : res lframe :=
    do g <- propagate_index_objs axis (lf x);
    let f := filter_empties false (lf x) in
    let rows := match axis with Some true => false | _ => true end in
    let cols := match axis with Some false => false | _ => true end in
    Ok (mklf (mkpf g (pindex f) (pcols f)
                (if rows then Some (row_lengths f) else prl f)
                (if cols then Some (column_widths f) else pcl f))
             (if rows then false else defi x) (if cols then false else defc x)).

  (** utils.py [lazy_metadata_decorator] 680-771: the modes, what is propagated before the call
      (709-754) and the flags of the result (755-767).  The result of [f] is a new frame, whose flags
      are clear unless [f] sets them. *)
  Inductive mode := MNone | MTranspose | MBoth | MOpposite (axis : bool) | MRows.
  Definition before (m : mode) (x : lframe) : res lframe :=
    match m with
    | MBoth => if defi x && defc x then propagate None x
               else if defi x then propagate (Some false) x
               else if defc x then propagate (Some true) x else Ok x
    | MOpposite axis =>
        if negb axis && defc x then propagate (Some true) x
        else if axis && defi x then propagate (Some false) x else Ok x
    | MRows => propagate (Some false) x
    | _ => Ok x
    end.
  Definition after (m : mode) (self result : lframe) : lframe :=
    match m with
    | MNone => mklf (lf result) (defi self) (defc self)
    | MTranspose => mklf (lf result) (defc self) (defi self)
    | MOpposite axis => if axis then mklf (lf result) (defi result) (defc self)
                        else mklf (lf result) (defi self) (defc result)
    | MRows => mklf (lf result) (defi result) (defc self)
    | MBoth => result
    end.
  Definition lazy (m : mode) (f : pf -> res lframe) (x : lframe) : res (lframe * lframe) :=
    do self <- before m x;
    do r <- f (lf self);
    Ok (self, after m self r).
  Definition fresh (r : res pf) : res lframe := do f <- r; Ok (mklf f false false).

  (** dataframe.py [from_labels] 1451-1548, one index level called [name] *)
  Definition from_labels (name : L) (f : pf) : res lframe :=
    match pindex f, pcols f with
    | Some idx, Some cols =>
        let parts := map (fun row => match row with
                                     | b :: rest => mkdf (dindex b) (name :: dcols b)
                                                      (map2 (fun l r => cell_of l :: r) (dindex b) (dcells b)) :: rest
                                     | [] => []
                                     end) (pgrid f) in
        let widths := match column_widths f with w :: ws => (1 + w) :: ws | [] => [] end in
        do r <- construct (mkpf parts (Some (map of_pos (seq 0 (length idx)))) (Some (name :: cols))
                             (prl f) (Some widths));
        Ok (mklf r true false)
    | _, _ => Err Unmodelled
    end.

  (** dataframe.py [to_pandas] 4692-4722 *)
  Definition read (x : lframe) : res (lframe * dframe) :=
    do self <- before MBoth x;
    do d <- pf_to_pandas leqb leqb (lf self);
    Ok (self, d).

  (** dataframe.py [tree_reduce] 2208-2250, then reading the result *)
  Definition reduced (axis : bool) (magg ragg : list A -> A) (x : lframe) : res (lframe * dframe) :=
    do p <- lazy (MOpposite axis)
              (fun f => match pindex f, pcols f with
                        | Some idx, Some cols =>
                            fresh (tree_reduce leqb leqb unnamed unnamed dynamic cpus nparts min_row min_col
                                     axis magg ragg f idx cols)
                        | _, _ => Err Unmodelled
                        end) x;
    do r <- read (snd p);
    Ok (fst p, snd r).

  (** The actions: [copy] 1687-1704, [transpose] 4747-4777, [map] 2253-2322, [fold] 2357-2400;
      query_compiler.py [reset_index] 741-919 (known labels, one level, no options), pandas/base.py
      [reset_index] 2677-2713 (its check concerns an index without a name only). *)
  Definition modin_act (a : act) (x : lframe) : res (lframe * list lframe * obs) :=
    match a with
    | SetIndex l => do x' <- set_index l x; Ok (x', [], Done)
    | SetColumns l => do x' <- set_columns l x; Ok (x', [], Done)
    | Copy => do p <- lazy MNone (fun f => fresh (construct f)) x; Ok (fst p, [snd p], Done)
    | LabSpec.Transpose => do p <- lazy MTranspose (fun f => fresh (transpose f)) x; Ok (fst p, [snd p], Done)
    | MapCells g =>
        do p <- lazy MNone (fun f => fresh (frame_map leqb leqb dynamic cpus nparts min_row min_col
                                              (fun t => Ok (cellwise g (fun h => h) t)) None f)) x;
        Ok (fst p, [snd p], Done)
    | FoldAxis axis F =>
        do p <- lazy MBoth (fun f => fresh (fold leqb leqb nparts min_row min_col axis (fun t => Ok (F t))
                                              None None true f)) x;
        Ok (fst p, [snd p], Done)
    | Reduce axis magg ragg _ => do p <- reduced axis magg ragg x; Ok (fst p, [], Shown (snd p))
    | ResetIndex name => do p <- lazy MRows (from_labels name) x; Ok (fst p, [snd p], Done)
    | Read => do p <- read x; Ok (fst p, [], Shown (snd p))
    end.
End LabModel.
Arguments mklf {L A} _ _ _.
