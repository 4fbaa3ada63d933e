(** pandas/dataframe.py [_getitem] 3286-3322, pandas/series.py [_getitem] 2785-2809 and
    core/storage_formats/pandas/query_compiler.py [getitem_array] 3072-3103 with boolean keys, on frames with rows
    (base.py [__getitem__] 4001 gives a frame without rows to pandas). *)
From Verif Require Import Base Table ChunkModel GridModel GridSpec SelSpec SelModel JoinSpec JoinModel RemSpec SetModel.

Section MaskModel.
  Context {L H A : Type}.
  Variable leqb : L -> L -> bool.
  Variable heqb : H -> H -> bool.
  (** the truth value in a cell of a mask, [None] for a missing value; [fill] is what reindexing puts in *)
  Variable truth : A -> option bool.
  Variable fill : A.
  (** the positions of the labels in ascending order ([Index.sort_values]) *)
  Variable sorted : list L -> list nat.
  Variables min_row min_col nparts : nat.
  Variables known_l known_w : nat -> nat -> bool.
  Variable argsort : list Z -> list nat.
  Notation dframe := (df L H A).
  Notation pf := (@pframe L H A).

  (** pandas' [left.join(right, how="left", sort=True)] where [right] has distinct labels: dataframe.py
      [_copartition] 3760-3761 asks for sorting whenever the labels differ *)
  Definition left_join (idxs : list (list L)) : list L * list (list (option nat)) :=
    match idxs with
    | [a; b] =>
        let ps := sorted a in
        let joined := pick a ps in
        (joined, [map Some ps; if list_eqb leqb b joined then map Some (seq 0 (length b)) else map (fun x => position leqb x b) joined])
    | _ => ([], [])
    end.

  Fixpoint unique (ls : list L) : bool :=
    match ls with [] => true | l :: ls => negb (existsb (leqb l) ls) && unique ls end.

  (** [right.squeeze()] as a mask: pandas refuses a mask with missing values; of a block of one row squeezing makes a
      scalar, which [df[[r]]] takes for a column label if it is missing *)
  Definition truths (o : dframe) : res (list bool) :=
    rmap (fun row => match row with
                     | [x] => match truth x with Some b => Ok b | None => Err (if nrows o =? 1 then KeyError else ValueError) end
                     | _ => Err InternalBug
                     end) (dcells o).
  (** query_compiler.py [__getitem_bool] 3021-3025 on one block *)
  Definition mask_block (d o : dframe) : res dframe := do m <- truths o; Ok (keep_rows m d).

  (** partition_manager.py [base_broadcast_apply] 443-494, axis 0: every block gets the blocks of the other frame in
      the same row of blocks, joined *)
  Definition broadcast_rows (func : dframe -> dframe -> res dframe) (left right : list (list dframe)) : res (list (list dframe)) :=
    rmap (fun ir => match nth_error right (fst ir) with
                    | None => Err IndexError
                    | Some os => do o <- match os with [] => Err IndexError | [o] => Ok o | _ => concat_axis leqb heqb true os end;
                                 rmap (fun b => func b o) (snd ir)
                    end) (combine (seq 0 (length left)) left).

  (** [df[mask]] with a Series of bool dtype: [getitem_array] 3073-3079, binary.py 368-408 and dataframe.py
      [broadcast_apply] 3233-3335 with join_type="left", labels="drop".  Repeated labels in a mask whose labels are not
      those of the frame are not modelled. *)
  Definition df_getitem_mask (f key : pf) : res pf :=
    if negb (length (row_labels key) =? length (row_labels f)) then Err ValueError
    else if negb (length (col_labels key) =? 1) then Err AssertionError
    else if negb (list_eqb leqb (row_labels f) (row_labels key)) && negb (unique (row_labels key)) then Err Unmodelled
    else
      do c <- copartition_rows leqb heqb fill left_join nparts min_row f [key];
      let '(parts, _, _) := c in
      match parts with
      | [lparts; rparts] =>
          do new <- broadcast_rows mask_block lparts rparts;
          construct (mkpf new None (pcols f) None (pcl f))
      | _ => Err InternalBug
      end.

  (** [pandas.RangeIndex(n)[mask]] *)
  Fixpoint true_from (a : nat) (m : list bool) : list nat :=
    match m with [] => [] | b :: m => if b then a :: true_from (S a) m else true_from (S a) m end.

  (** [df[list]] with a list or array of booleans: [getitem_array] 3083-3096 *)
  Definition df_getitem_list (big : bool) (m : list bool) (f : pf) : res pf :=
    if negb (length m =? length (row_labels f)) then Err ValueError
    else match true_from 0 m with
         | [] => distribute min_row min_col nparts (mkdf [] (col_labels f) [])
         | ps => take_2d_positional leqb heqb min_row min_col nparts known_l known_w argsort big (Some (IList (map Z.of_nat ps))) None f
         end.

  (** [series[mask]] with a Series of bool dtype: series.py 2800-2809; the values of the mask without its labels *)
  Definition series_getitem_mask (big : bool) (f : pf) (key : dframe) : res pf :=
    do m <- truths key;
    if negb (length m =? length (row_labels f)) then Err IndexError
    else take_2d_positional leqb heqb min_row min_col nparts known_l known_w argsort big (Some (IList (map Z.of_nat (true_from 0 m)))) None f.
End MaskModel.
