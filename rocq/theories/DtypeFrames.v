(** Model of the frames that carry dtypes metadata: which metadata each frame operation hands to its result.
    Simplifications: a frame is its column names (computed or not), the dtypes its columns have, and its dtypes cache;
    the partitions themselves are not modelled here; column names are unique. *)
From Verif Require Import Base DtypeSpec DtypeModel.

Section Frames.
  Context {H T : Type}.
  Variable hdec : forall a b : H, {a = b} + {a <> b}.
  Variable tdec : forall a b : T, {a = b} + {a <> b}.
  Variable common : list T -> T.
  Variable tfloat : T.
  Notation desc := (@desc H T).
  Notation mdtypes := (@mdtypes H T).
  Notation frame := (@frame H T).

  (** A frame with its cache [_dtypes]. *)
  Record df := Df { dframe : frame; dcache : option mdtypes }.
  Definition truth (x : df) : list (H * T) := ftruth (dframe x).

  (** [try: ... except E: None] *)
  Definition attempt {A} (caught : err -> bool) (r : res A) : res (option A) :=
    match r with
    | Ok a => Ok (Some a)
    | Err e => if caught e then Ok None else Err e
    end.
  Definition not_impl (e : err) : bool := match e with NotImplementedErr => true | _ => false end.
  Definition not_impl_or_value (e : err) : bool := match e with NotImplementedErr | ValueError => true | _ => false end.

  (** dataframe.py:414-437 [set_dtypes_cache], with the [except NotImplementedError] of 428-435 *)
  Definition make (f : frame) (m : option mdtypes) : res df :=
    do c <- (match m with
             | Some _ => frame_dtypes hdec f m
             | None => do c <- attempt not_impl (frame_dtypes hdec f None);
                       Ok (match c with Some c => c | None => None end)
             end);
    Ok (Df f c).

  (** The column names get computed ([frame.columns]); the descriptor's parent is the frame itself. *)
  Definition touch (x : df) : df :=
    Df (Frame true (truth x))
       (match dcache x with
        | Some (MDesc d) =>
            Some (MDesc (match parent d with
                         | Some f => set_parent d (Frame true (ftruth f))
                         | None => d
                         end))
        | c => c
        end).
  (** The property [columns_order] of the descriptor is read, as many methods do on the way. *)
  Definition reorder (x : df) : df :=
    match dcache x with
    | Some (MDesc d) => Df (dframe x) (Some (MDesc (columns_order hdec d)))
    | _ => x
    end.

  (** dataframe.py:1326-1346 (in [_take_2d_positional]) *)
  Definition take_columns (x : df) (ps : list nat) : res df :=
    let x := touch x in
    if negb (forallb (fun p => p <? length (truth x)) ps) then Err IndexError else
    do m <- (match dcache x with
             | Some (MSeries s) => do s <- series_get_at s ps; Ok (Some (MSeries s))
             | Some m => attempt not_impl_or_value (m_lazy_get_at hdec m ps)
             | None => Ok None
             end);
    make (Frame true (selected_at (truth x) ps)) m.

  (** dataframe.py:1646-1656 (in [_reorder_labels]) *)
  Definition reorder_columns (x : df) (ps : list nat) : res df :=
    let x := touch x in
    if negb (forallb (fun p => p <? length (truth x)) ps) then Err IndexError else
    let cs := selected_at (truth x) ps in
    do m <- (match dcache x with
             | Some (MSeries s) => do s <- series_get_at s ps; Ok (Some (MSeries s))
             | Some m => attempt not_impl (m_lazy_get hdec m (header cs))
             | None => Ok None
             end);
    make (Frame true cs) m.

  (** dataframe.py:776-807 [_set_columns] *)
  Definition set_columns (x : df) (names : list H) : res df :=
    if negb (length names =? length (truth x)) then Err ValueError else
    do m <- (match dcache x with
             | Some m => attempt not_impl (m_set_index hdec m names)
             | None => Ok None
             end);
    make (Frame true (renamed (truth x) names)) m.

  (** dataframe.py:379-392 [copy_dtypes_cache] *)
  Definition copy_cache (x : df) : res (option mdtypes) :=
    match dcache x with
    | Some m => do m <- m_copy hdec m; Ok (Some m)
    | None => Ok None
    end.
  (** dataframe.py:4052-4062 (in [concat], axis=1) *)
  Definition concat_columns (xs : list df) : res df :=
    do cs <- rmap copy_cache xs;
    do m <- attempt not_impl (m_concat hdec tdec cs);
    make (Frame (forallb (fun x => fmat (dframe x)) xs) (concat (map truth xs))) m.
  (** dataframe.py:4028-4039 (in [concat], axis=0, join="outer", sort=False); the common columns are computed *)
  Definition concat_rows (xs : list df) : res df :=
    let xs := map touch xs in
    do m <- m_merge hdec common tfloat (map dcache xs);
    make (Frame true (stacked hdec common tfloat (map truth xs))) (Some m).

  (** query_compiler.py:3204-3216 (in [setitem], a scalar for a whole column that exists): [olds] is
      [self.columns.difference([key])], which pandas sorts; the sorting is the parameter [sorted].
      [ModinDtypes(None)] is a TypeError (dtypes.py:746-756). *)
  Definition setitem (sorted : list H -> list H) (x : df) (c : H) (t : T) : res df :=
    let x := touch x in
    let cols := header (truth x) in
    if negb (has hdec c cols) then Err Unmodelled else
    match dcache x with
    | None => Err TypeError
    | Some m =>
        do old <- m_lazy_get hdec m (sorted (filter (fun c' => if hdec c c' then false else true) cols));
        do d <- init hdec (Some [(c, t)]) (Some []) None None None true None;
        do v <- unwrap (Some old);
        do d <- concat_dtypes hdec tdec [v; VDesc d];
        do new <- wrap hdec d;
        do new <- m_lazy_get hdec new cols;
        make (Frame true (replaced hdec (truth x) c t)) (Some new)
    end.

  (** dataframe.py:439-457: [dtypes], which stores what it computed. *)
  Definition get_dtypes (x : df) : res (df * list (H * T)) :=
    do s <- frame_get hdec (dframe x) (dcache x);
    Ok (Df (dframe x) (Some (MSeries s)), s).
  (** dataframe.py:459-470: [get_dtypes_set]. *)
  Definition get_types (x : df) : res (df * list T) :=
    match dcache x with
    | Some m => do mt <- m_dtypes_set hdec tdec m; Ok (Df (dframe x) (Some (fst mt)), snd mt)
    | None => do xs <- get_dtypes x; Ok (fst xs, nodup tdec (map snd (snd xs)))
    end.

  (** * Histories *)
  (** What an operation that makes a frame may already say about its dtypes: nothing, all of them, a function that
      will compute them, or a descriptor (dtypes.py:62-90) of some columns, or of one dtype for all columns
      (dataframe.py:3594-3596). *)
  Inductive source :=
  | SNone | SSeries | SCall
  | SDesc (kn : option (list (H * T))) (un : option (list H)) (know : bool)
  | SRem (t : T).
  Inductive op :=
  | New (mat : bool) (cs : list (H * T)) (src : source)
  | Take (i : nat) (ps : list nat)
  | Reorder (i : nat) (ps : list nat)
  | Rename (i : nat) (names : list H)
  | ConcatCols (is : list nat)
  | ConcatRows (is : list nat)
  | SetItem (i : nat) (sorted : list H -> list H) (c : H) (t : T)
  | Touch (i : nat)
  | Order (i : nat)
  | Dtypes (i : nat)
  | Types (i : nat).
  (** What the caller sees. *)
  Inductive obs := Done | Raised (e : err) | SawDtypes (i : nat) (s : list (H * T)) | SawTypes (i : nat) (ts : list T).

  Definition store := list df.
  Definition look (st : store) (i : nat) : res df := match nth_error st i with Some x => Ok x | None => Err IndexError end.
  Definition put (st : store) (i : nat) (x : df) : store := firstn i st ++ x :: skipn (S i) st.

  Definition source_cache (cs : list (H * T)) (s : source) : res (option mdtypes) :=
    match s with
    | SNone => Ok None
    | SSeries => Ok (Some (MSeries cs))
    | SCall => Ok (Some (MCall (Ok cs)))
    | SDesc kn un know => do d <- init hdec kn un None None None know None; do m <- wrap hdec d; Ok (Some m)
    | SRem t => do d <- init hdec None None (Some t) None None true None; do m <- wrap hdec d; Ok (Some m)
    end.

  (** One operation: the frames afterwards and what was seen.  [df.columns = names] changes the frame itself. *)
  Definition exec (st : store) (o : op) : res (store * obs) :=
    match o with
    | New mat cs src => do c <- source_cache cs src; do x <- make (Frame mat cs) c; Ok (st ++ [x], Done)
    | Take i ps => do x <- look st i; do y <- take_columns x ps; Ok (put st i (touch x) ++ [y], Done)
    | Reorder i ps => do x <- look st i; do y <- reorder_columns x ps; Ok (put st i (touch x) ++ [y], Done)
    | Rename i names => do x <- look st i; do y <- set_columns x names; Ok (put st i y, Done)
    | ConcatCols is => do xs <- rmap (look st) is; do y <- concat_columns xs; Ok (st ++ [y], Done)
    | ConcatRows is => do xs <- rmap (look st) is; do y <- concat_rows xs; Ok (st ++ [y], Done)
    | SetItem i sorted c t => do x <- look st i; do y <- setitem sorted x c t; Ok (put st i (touch x) ++ [y], Done)
    | Touch i => do x <- look st i; Ok (put st i (touch x), Done)
    | Order i => do x <- look st i; Ok (put st i (reorder x), Done)
    | Dtypes i => do x <- look st i; do ys <- get_dtypes x; Ok (put st i (fst ys), SawDtypes i (snd ys))
    | Types i => do x <- look st i; do ys <- get_types x; Ok (put st i (fst ys), SawTypes i (snd ys))
    end.
  Definition step (st : store) (o : op) : store * obs :=
    match exec st o with Ok r => r | Err e => (st, Raised e) end.
  Fixpoint run (st : store) (os : list op) : store * list obs :=
    match os with
    | [] => (st, [])
    | o :: os => let '(st, b) := step st o in let '(st, bs) := run st os in (st, b :: bs)
    end.
End Frames.
