(** modin/numpy/arr.py: binary operations ([_preprocess_binary_op] and its callers), with binary.py [Binary.register]. *)
From Verif Require Import Base Table ChunkModel GridModel GridSpec SelSpec SelModel JoinSpec JoinModel ArrSpec ArrModel.

Section Nbin.
  Context {A B D : Type}.
  Variables min_row min_col nparts cpus : nat.
  Variable dynamic : bool.
  Variable fill : A.
  (** pandas' outer join of labels *)
  Variable join : list (list nat) -> list nat * list (list (option nat)).
  (** [find_common_type] of two dtypes; [astype] of one cell *)
  Variable common : D -> D -> D.
  Variable cast : D -> A -> A.
  Notation pfA := (@pframe nat nat A).
  Notation pfB := (@pframe nat nat B).
  Notation dframe := (df nat nat A).

  (** an array together with its dtype *)
  Record typed := mkty { tarr : @arr A; tdt : D }.

  (** query_compiler.py [astype] of all columns: every block by itself.  Simplified: blocks of unchanged dtype are not told apart. *)
  Definition astype (d : D) (x : typed) : typed :=
    let f := aqc (tarr x) in
    mkty (mka (mkpf (map (map (fun b => mkdf (dindex b) (dcols b) (map (map (cast d)) (dcells b)))) (pgrid f))
                    (pindex f) (pcols f) (prl f) (pcl f)) (andim (tarr x))) d.

  (** binary.py 396-398 on one block, axis=0: [op(left, right.squeeze(), axis=0)].  A block of one cell squeezes to a scalar,
      a column to a Series that pandas aligns with the rows. *)
  Definition op_column (op : A -> A -> B) (d o : dframe) : res (df nat nat B) :=
    match dcells o with
    | [[b]] => Ok (mkdf (dindex d) (dcols d) (map (map (fun a => op a b)) (dcells d)))
    | _ => if list_eqb Nat.eqb (dindex d) (dindex o)
           then Ok (mkdf (dindex d) (dcols d) (map2 (fun r b => match b with [b] => map (fun a => op a b) r | _ => [] end) (dcells d) (dcells o)))
           else Err Unmodelled
    end.
  (** the same with axis=1: a row, aligned with the columns *)
  Definition op_row (op : A -> A -> B) (d o : dframe) : res (df nat nat B) :=
    match dcells o with
    | [[b]] => Ok (mkdf (dindex d) (dcols d) (map (map (fun a => op a b)) (dcells d)))
    | [r] => if list_eqb Nat.eqb (dcols d) (dcols o)
             then Ok (mkdf (dindex d) (dcols d) (map (fun row => map2 op row r) (dcells d)))
             else Err Unmodelled
    | _ => Err Unmodelled
    end.

  Definition one_block (axis : bool) (bs : list dframe) : res dframe :=
    match bs with [] => Err IndexError | [o] => Ok o | _ => concat_axis Nat.eqb Nat.eqb axis bs end.

  (** partition_manager.py [base_broadcast_apply] 443-494: every block gets the blocks of the other frame in the same row (axis 0)
      or column (axis 1) of blocks, joined *)
  Definition broadcast_blocks (axis : bool) (func : dframe -> dframe -> res (df nat nat B)) (left right : list (list dframe))
    : res (list (list (df nat nat B))) :=
    do others <- rmap (one_block (negb axis)) (if axis then transp (grid_width right) right else right);
    rmap (fun ir => rmap (fun jb => match nth_error others (if axis then fst jb else fst ir) with
                                    | None => Err IndexError
                                    | Some o => func (snd jb) o
                                    end) (combine (seq 0 (length (snd ir))) (snd ir)))
         (combine (seq 0 (length left)) left).

  (** dataframe.py [broadcast_apply] 3233-3335 with join_type="outer", labels="replace" *)
  Definition broadcast_apply (axis : bool) (func : dframe -> dframe -> res (df nat nat B)) (f other : pfA) : res pfB :=
    if axis then
      do c <- copartition_cols Nat.eqb Nat.eqb fill join nparts min_col f [other];
      let '(parts, joined, sizes) := c in
      match parts with
      | [l; r] => do g <- broadcast_blocks true func l r; construct (mkpf g (pindex f) joined (prl f) sizes)
      | _ => Err InternalBug
      end
    else
      do c <- copartition_rows Nat.eqb Nat.eqb fill join nparts min_row f [other];
      let '(parts, joined, sizes) := c in
      match parts with
      | [l; r] => do g <- broadcast_blocks false func l r; construct (mkpf g joined (pcols f) sizes (pcl f))
      | _ => Err InternalBug
      end.

  (** binary.py [caller] 334-460 for a query compiler on the right *)
  Definition qc_binary (op : A -> A -> B) (broadcast axis : bool) (f other : pfA) : res pfB :=
    if broadcast then
      do cols <- labels (pcols other);
      if negb (length cols =? 1) then Err AssertionError
      else if axis then do t <- transpose other; broadcast_apply true (op_row op) f t
      else broadcast_apply false (op_column op) f other
    else n_ary_op Nat.eqb Nat.eqb fill join join nparts min_row min_col op f other.

  (** what an operation does when its 2-D operand is on the right: call the method as it is (add, multiply, ==, !=), call the
      mirrored method (subtract, divide, <, <=, >, >=), or refuse (//, **, %) *)
  Inductive mirror := Plain | Mirrored | Refused.

  Definition shape_of (x : typed) : res (list nat) := get_shape (tarr x).

  (** arr.py [_preprocess_binary_op] 749-863 for two arrays: the operands after it, the caller and the callee, the dimensions of
      the result, broadcast and axis, and whether the operands have been exchanged *)
  Definition preprocess (casts : bool) (dtype : option D) (x y : typed)
    : res (typed * typed * (@pframe nat nat A) * (@pframe nat nat A) * nat * bool * bool * bool) :=
    let out := match dtype with Some d => d | None => common (tdt x) (tdt y) end in
    let x := if casts then astype out x else x in
    let y := if casts then astype out y else y in
    do sx <- shape_of x;
    do sy <- shape_of y;
    let qx := aqc (tarr x) in
    let qy := aqc (tarr y) in
    if negb (andim (tarr x) =? andim (tarr y)) then
      let swapped := negb (andim (tarr x) =? 2) in
      let '(sc, se) := if swapped then (sy, sx) else (sx, sy) in
      match sc, se with
      | _ :: m :: _, n :: _ => if negb (n =? m) then Err ValueError
                          else Ok (x, y, if swapped then qy else qx, if swapped then qx else qy, 2, true, true, swapped)
      | _, _ => Err IndexError
      end
    else if list_eqb Nat.eqb sx sy then Ok (x, y, qx, qy, andim (tarr x), false, false, false)
    else match sx, sy with
         | n :: sx', m :: sy' =>
             if n =? m then
               match sx', sy' with
               | p :: _, q :: _ => if (p =? 1) || (q =? 1) then Ok (x, y, qx, qy, andim (tarr x), true, false, false) else Err ValueError
               | _, _ => Err IndexError
               end
             else match sx', sy' with
                  | p :: _, q :: _ =>
                      if p =? q then
                        if (n =? 1) || (m =? 1) then Ok (x, y, qx, qy, andim (tarr x), false, true, false) else Err ValueError
                      else Err ValueError
                  | _, _ => Err IndexError
                  end
         | _, _ => Err IndexError
         end.

  (** arr.py [__add__] 1523-1538, [subtract] and the like for two arrays, without out and where.  With the operands as they are
      afterwards. *)
  Definition np_op (casts : bool) (k : mirror) (op : A -> A -> B) (dtype : option D) (x y : typed) : res (typed * typed * @arr B) :=
    do p <- preprocess casts dtype x y;
    let '(x, y, caller, callee, n, broadcast, axis, swapped) := p in
    let op' := match k with Mirrored => if swapped then (fun a b => op b a) else op | _ => op end in
    if swapped && match k with Refused => true | _ => false end then Err NotImplementedErr
    else do f <- qc_binary op' broadcast axis caller callee;
         do z <- np_array f n;
         Ok (x, y, z).

  (** arr.py 801-803 and binary.py 446-456: an array and a scalar *)
  Definition np_op_scalar (casts : bool) (op : A -> A -> B) (dtype : option D) (x : typed) (s : A) : res (typed * @arr B) :=
    let x := if casts then astype (match dtype with Some d => d | None => tdt x end) x else x in
    do f <- frame_map Nat.eqb Nat.eqb dynamic cpus nparts min_row min_col (fun t => Ok (cellwise (fun _ _ a => op a s) (fun h => h) t)) None (aqc (tarr x));
    do z <- np_array f (andim (tarr x));
    Ok (x, z).
End Nbin.
