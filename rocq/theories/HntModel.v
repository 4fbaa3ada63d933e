(** Query compilers with their shape hint, DataFrames and Series that refer to them, and isin (C83). *)
From Verif Require Import Base Table ChunkModel GridModel SelModel InsModel ItmModel FilSpec FilModel HntSpec.

Section Model.
  Context {L H V : Type}.
  Variables (leqb : L -> L -> bool) (heqb : H -> H -> bool) (veqb : V -> V -> bool).
  Variable as_cell : H -> option V.
  Variables (dynamic : bool) (cpus nparts min_row min_col : nat).
  Variables known_l known_w : nat -> nat -> bool.
  Variable argsort : list Z -> list nat.
  (** how [from_pandas] cuts a table into blocks (ChunkModel has the cutting itself) *)
  Variable distribute : df L H (option V) -> @pframe L H (option V).
  Notation cell := (option V).
  Notation pf := (@pframe L H cell).

  (** query_compiler.py 292-299: a frame and the hint; [true]: _shape_hint = "column".  A query compiler is an
      object: [heap] has one entry for each, and DataFrames and Series refer to entries. *)
  Record qc := mkqc { frame : pf; hint : bool }.
  Record state := mkst { heap : list qc; objs : list (kind * nat) }.
  Definition width (f : pf) : nat := match pcols f with Some c => length c | None => 0 end.
  Definition object_qc (s : state) (o : nat) : res (kind * nat * qc) :=
    do ki <- object_at (objs s) o;
    do q <- object_at (heap s) (snd ki);
    Ok (ki, q).
  Definition new (s : state) (k : kind) (q : qc) : state := mkst (heap s ++ [q]) (objs s ++ [(k, length (heap s))]).
  (** [qc._shape_hint = "column"]: seen by everything that refers to this query compiler *)
  Definition set_hint (i : nat) (h : list qc) : list qc :=
    map (fun jq => if fst jq =? i then mkqc (frame (snd jq)) true else snd jq) (combine (seq 0 (length h)) h).
  (** base/query_compiler.py [columnarize] 1879-1900 of a query compiler of its own with one column (a single row
      labelled with the label of unnamed Series aside) *)
  Definition columnarize (q : qc) : qc := mkqc (frame q) true.

  Definition getitem_array (cs : list H) (f : pf) : res qc :=
    (** query_compiler.py [getitem_array] 3097-3103, [getitem_column_array] 3105-3122: the hint depends on the
        number of labels *)
    do f' <- getitem_columns leqb heqb min_row min_col nparts known_l known_w argsort cs f;
    Ok (mkqc f' (length cs =? 1)).
  Definition map_cells (g : cell -> cell) (f : pf) : res pf :=
    frame_map leqb heqb dynamic cpus nparts min_row min_col (fun t => Ok (GridSpec.cellwise (fun _ _ c => g c) (fun h => h) t)) None f.

  Definition m_call (s : state) (a : call) : res state :=
    match a with
    (* dataframe.py [__init__] 209-260; series.py [__init__] 159-183 ends in [columnarize] *)
    | Make KFrame d => Ok (new s KFrame (mkqc (distribute d) false))
    | Make KSeries d => Ok (new s KSeries (columnarize (mkqc (distribute d) false)))
    | Select o cs => do x <- object_qc s o; do q <- getitem_array cs (frame (snd x)); Ok (new s KFrame q)
    (* dataframe.py [_getitem_column] 2614-2636: the selection is squeezed *)
    | GetColumn o c =>
        do x <- object_qc s o; do q <- getitem_array [c] (frame (snd x));
        if width (frame q) =? 1 then Ok (new s KSeries (mkqc (frame q) true)) else Ok (new s KFrame q)
    (* dataframe.py [squeeze] 2116-2136, axis=1: the hint is set on the query compiler of the frame itself *)
    | Squeeze o =>
        do x <- object_qc s o;
        if width (frame (snd x)) =? 1
        then Ok (mkst (set_hint (snd (fst x)) (heap s)) (objs s ++ [(KSeries, snd (fst x))]))
        else Ok (new s KFrame (snd x))
    (* series.py [to_frame] 2183-2198, dataframe.py 156-157: copies of the query compiler, which keep the hint
       (query_compiler.py [copy] 465-466); a named Series *)
    | ToFrame o => do x <- object_qc s o; Ok (new s KFrame (snd x))
    | Copy o => do x <- object_qc s o; Ok (new s (fst (fst x)) (snd x))
    (* algebra/map.py 58-69: the hint of the operand *)
    | Each o g => do x <- object_qc s o; do f <- map_cells g (frame (snd x)); Ok (new s (fst (fst x)) (mkqc f (hint (snd x))))
    (* algebra/binary.py 442-458 with a scalar: a hint when there is one column.  A Series made of it ends in
       [columnarize], which changes nothing then *)
    | WithScalar o g =>
        do x <- object_qc s o; do f <- map_cells g (frame (snd x));
        Ok (new s (fst (fst x)) (mkqc f (width (frame (snd x)) =? 1)))
    end.
  Fixpoint m_calls (s : state) (l : list call) : res state :=
    match l with [] => Ok s | a :: l => do s <- m_call s a; m_calls s l end.

  (** query_compiler.py [isin_func] 2022-2030: a block of a hinted frame is squeezed; a block of several columns
      (repeated labels) stays a DataFrame *)
  Definition isin_func (h : bool) (w : values_in) (t : df L H cell) : res (df L H bool) :=
    if h then if 1 <? ncols t then p_isin leqb heqb veqb w t else Ok (s_isin veqb as_cell w t) else p_isin leqb heqb veqb w t.
  (** base.py [isin] 2026-2038, query_compiler.py [isin] 2009-2034 *)
  Definition q_isin (q : qc) (w : values_in) : res (@pframe L H bool) :=
    frame_map leqb heqb dynamic cpus nparts min_row min_col (isin_func (hint q) w) None (frame q).
  Definition m_isin (s : state) (o : nat) (w : values_in) : res (@pframe L H bool) :=
    do x <- object_qc s o; q_isin (snd x) w.
End Model.
Arguments mkqc {L H V} _ _.
Arguments mkst {L H V} _ _.
