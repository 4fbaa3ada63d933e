(** fillna, ffill, bfill, cumulative functions, clip, isin, first/last_valid_index and mode of DataFrames (C78):
    modin/pandas/base.py and modin/core/storage_formats/pandas/query_compiler.py.

    pandas' own functions, applied to a block, are those of FilSpec.v applied to that block: they are pandas' part of
    the computation.  Dtypes, Series as self and DataFrames as filling values are not modelled. *)
From Verif Require Import Base Table GridSpec ChunkModel GridModel RemSpec RemModel FilSpec.

Section Fillna.
  Context {L H V : Type}.
  Variables (leqb : L -> L -> bool) (heqb : H -> H -> bool).
  Variables (dynamic : bool) (cpus nparts min_row min_col : nat).
  Notation cell := (option V).
  Notation dframe := (df L H cell).
  Notation pf := (@pframe L H cell).

  (** pandas on a block.  Without [limit], filling does not need whole lines. *)
  Definition fill_items (items : list (H * cell)) (h : H) (c : cell) : cell :=
    fold_left (fun c kv => if heqb (fst kv) h then filled (snd kv) c else c) items c.
  Definition pandas_fill (axis : bool) (limit : option nat) (w : @filling H V) (d : dframe) : res dframe :=
    match w, limit with
    | Value v, None => Ok (cellwise (fun _ _ c => filled (Some v) c) (fun h => h) d)
    | ByLabel items, None => if axis then Err NotImplementedErr else Ok (cellwise (fun _ h c => fill_items items h c) (fun h => h) d)
    | _, _ => p_fillna heqb axis limit w d
    end.

  (** query_compiler.py [fillna] 2755-2759 (a Series), 2770-2784 (a dict: only the entries for columns of the
      block), 2806-2808 (a scalar, or nothing and a method) *)
  Definition fill_block (is_dict axis : bool) (limit : option nat) (w : filling) (d : dframe) : res dframe :=
    match w with
    | ByLabel items => pandas_fill axis limit (ByLabel (if is_dict then filter (fun kv => existsb (heqb (fst kv)) (dcols d)) items else items)) d
    | _ => pandas_fill axis limit w d
    end.

  (** [full_axis] 2716, and 2809-2813 *)
  Definition qc_fillna (is_dict axis : bool) (limit : option nat) (w : filling) (f : pf) : res pf :=
    let full_axis := match w with Forward | Backward => true | _ => false end || match limit with Some _ => true | None => false end in
    if full_axis
    then fold leqb heqb nparts min_row min_col axis (fill_block is_dict axis limit w) None None true f
    else frame_map leqb heqb dynamic cpus nparts min_row min_col (fill_block is_dict axis limit w) None f.

  (** base.py [fillna] 1817-1846: the arguments are checked first.  [method] is [Forward] or [Backward]. *)
  Definition api_fillna (value method : option filling) (is_dict axis : bool) (limit : option nat) (f : pf) : res pf :=
    match value, method with
    | None, None | Some _, Some _ => Err ValueError
    | Some w, None | None, Some w => match limit with Some 0 => Err ValueError | _ => qc_fillna is_dict axis limit w f end
    end.
End Fillna.

Section Folds.
  Context {L H A : Type}.
  Variables (leqb : L -> L -> bool) (heqb : H -> H -> bool) (nparts min_row min_col : nat).
  (** cummax, cummin, cumsum, cumprod and diff: query_compiler.py 2429-2436, fold.py 77-84 with fold_axis = axis
      (base.py 1378-1392).  [g] is the function on one line. *)
  Definition cumulative (axis : bool) (g : list A -> list A) (f : @pframe L H A) : res pframe :=
    fold leqb heqb nparts min_row min_col axis (fun d => Ok (along axis g d)) None None true f.
End Folds.

Section Clip.
  Context {L H V : Type}.
  Variables (leqb : L -> L -> bool) (heqb : H -> H -> bool) (dynamic : bool) (cpus nparts min_row min_col : nat).
  Variable trim : option V -> option V -> option V -> option V.     (* lower bound, upper bound, cell; no bound is None *)
  Notation cell := (option V).
  Inductive bound := NoBound | One (v : cell) | Each (vs : list cell).
  Definition is_list (b : bound) : bool := match b with Each _ => true | _ => false end.
  (** pandas' clip: the bound for position [i]; a missing bound is none *)
  Definition bound_at (b : bound) (i : nat) : cell := match b with NoBound => None | One v => v | Each vs => nth i vs None end.
  Definition clip_line (lo up : bound) (l : list cell) : list cell :=
    map2 (fun i c => trim (bound_at lo i) (bound_at up i) c) (seq 0 (length l)) l.
  (** [axis = false]: a list has one bound per row, and every column is cut with it *)
  Definition p_clip (axis : bool) (lo up : bound) (d : df L H cell) : df L H cell := along axis (clip_line lo up) d.

  (** base.py [clip] 1273-1277: a bound with any missing value is dropped as a whole *)
  Definition drop_nan (b : bound) : bound :=
    match b with
    | NoBound => NoBound
    | One None => NoBound
    | One v => One v
    | Each vs => if existsb (fun v => negb (valid v)) vs then NoBound else Each vs
    end.
  (** query_compiler.py [clip] 2438-2453; lists of another length are refused, base.py [_validate_other] 384-395 *)
  Definition fits (n : nat) (b : bound) : bool := match b with Each vs => length vs =? n | _ => true end.
  Definition api_clip (axis : bool) (lo up : bound) (n : nat) (f : @pframe L H cell) : res pframe :=
    let lo := drop_nan lo in
    let up := drop_nan up in
    if is_list lo || is_list up then
      if fits n lo && fits n up
      then fold leqb heqb nparts min_row min_col axis (fun d => Ok (p_clip axis lo up d)) None None true f
      else Err ValueError
    else frame_map leqb heqb dynamic cpus nparts min_row min_col
           (fun d => Ok (cellwise (fun _ _ c => trim (bound_at lo 0) (bound_at up 0) c) (fun h => h) d)) None f.
End Clip.

Section IsinModel.
  Context {L H V : Type}.
  Variables (leqb : L -> L -> bool) (heqb : H -> H -> bool) (veqb : V -> V -> bool).
  Variables (dynamic : bool) (cpus nparts min_row min_col : nat).
  (** query_compiler.py [isin] 2009-2034: pandas' isin on every block, with the whole of [values] *)
  Definition qc_isin (w : values_in) (f : @pframe L H (option V)) : res (@pframe L H bool) :=
    frame_map leqb heqb dynamic cpus nparts min_row min_col (p_isin leqb heqb veqb w) None f.
End IsinModel.

Section ValidModel.
  Context {L H V : Type}.
  Variables (leqb : L -> L -> bool) (heqb : H -> H -> bool).
  Variables (dynamic : bool) (cpus nparts min_row min_col : nat) (ulabel : L) (uheader : H).
  Notation cell := (option V).
  (** a position in a result of [df.apply]: an int, a float, or missing *)
  Inductive pos := PInt (n : nat) | PFloat (n : nat) | PNan.

  Fixpoint first_at (k : nat) (col : list cell) : option nat :=
    match col with [] => None | Some _ :: _ => Some k | None :: col => first_at (S k) col end.
  Fixpoint last_at (k : nat) (col : list cell) : option nat :=
    match col with
    | [] => None
    | c :: col => match last_at (S k) col with Some p => Some p | None => match c with Some _ => Some k | None => None end end
    end.
  (** the Series that [df.apply] makes of the results: ints stay ints only if none is None *)
  Definition as_series (ps : list (option nat)) : list pos :=
    if forallb (fun p => match p with Some _ => true | None => false end) ps
    then map (fun p => match p with Some n => PInt n | None => PNan end) ps
    else map (fun p => match p with Some n => PFloat n | None => PNan end) ps.
  (** [first_valid_index_builder] 2351-2355, [last_valid_index_builder] 2369-2373; rows are numbered in the column
      partition, which has them all; [_build_treereduce_func] makes a one-row table of the Series, dataframe.py 2112-2121. *)
  Definition valid_builder (last : bool) (d : df L H cell) : res (df L H pos) :=
    Ok (mkdf [ulabel] (dcols d) [as_series (map ((if last then last_at else first_at) 0) (columns d))]).
  (** [min(axis=1)], [max(axis=1)], skipping missing values *)
  Definition best2 (last : bool) (a b : pos) : pos :=
    let m x y := if last then Nat.max x y else Nat.min x y in
    match a, b with
    | PNan, p => p
    | p, PNan => p
    | PInt x, PInt y => PInt (m x y)
    | PInt x, PFloat y | PFloat x, PInt y | PFloat x, PFloat y => PFloat (m x y)
    end.
  Definition best (last : bool) (l : list pos) : pos := fold_right (best2 last) PNan l.
  (** [first_valid_index] 2350-2366, [last_valid_index] 2368-2384; [index] is self.index; a float or NaN is not an
      index *)
  Definition valid_index (last : bool) (f : @pframe L H cell) (index : list L) (cols : list H) : res L :=
    do parts <- map_axis_partitions leqb heqb nparts min_row false (pgrid f) (valid_builder last) false None None;
    do row <- compute_tree_reduce_metadata ulabel uheader false f index cols parts;
    do m <- tree_reduce leqb heqb ulabel uheader dynamic cpus nparts min_row min_col true (best last) (best last) row [ulabel] cols;
    do d <- pf_to_pandas leqb heqb m;
    match dcells d with
    | [[PInt n]] => match nth_error index n with Some l => Ok l | None => Err IndexError end
    | _ => Err IndexError
    end.
End ValidModel.

Section ModeModel.
  Context {L H V : Type}.
  Variables (leqb : L -> L -> bool) (heqb : H -> H -> bool) (nparts min_row min_col : nat).
  Variable modes : list (option V) -> list (option V).
  Notation cell := (option V).
  (** query_compiler.py [mode_builder] 2686-2697, axis=0: pandas' mode of the block, padded to its length *)
  Definition mode_builder (d : df L H cell) : res (df nat H cell) :=
    Ok (mkdf (seq 0 (nrows d)) (dcols d) (transp (nrows d) (map (fun c => padded (nrows d) (modes c)) (columns d)))).
  (** [mode] 2683-2708, axis=0, numeric_only=False; then rows without any value are dropped *)
  Definition qc_mode (f : @pframe L H cell) (index : list L) (cols : list H) : res (@pframe nat H cell) :=
    do g <- apply_full_axis leqb heqb nparts min_row min_col false mode_builder
              (Some (seq 0 (length index))) (Some cols) true None f;
    dropna0 Nat.eqb heqb (fun c => negb (valid c)) min_row min_col nparts AllMissing None g.
End ModeModel.
