(** Model of the cached axis labels of frames (class ModinIndex) and of the fast comparison of two frames' labels
    by the ids those caches carry.  One axis at a time: the code is the same for rows and columns. *)
From Verif Require Import Base.

Section Index.
  Context {X : Type}.
  Variable xeqb : X -> X -> bool.

  (** core/dataframe/pandas/metadata/index.py [ModinIndex] 24-70.  [_value]: labels, the default callable of
      a frame (93-106), or None.  The code passes no other callables, so [_is_default_callable] is
      "the value is [VFrame]"; [_axis] and [_dtypes] are left out.  [uuid.uuid4()] is modelled by a counter:
      ids never collide. *)
  Inductive value := VLabels (l : list X) | VFrame (f : nat) | VNone.
  Record ixobj := mkix { ival : value; ilens : option (list nat); iid : nat; lid : nat }.
  (** core/dataframe/pandas/dataframe/dataframe.py [PandasDataframe]: the labels its blocks carry, the true
      lengths of the blocks, the index cache (a reference), [_row_lengths_cache] *)
  Record fr := mkfr { fblock : list X; flens : list nat; fcache : nat; frl : option (list nat) }.
  Record state := mkst { heap : list ixobj; frames : list fr; fresh : nat }.
  Definition init : state := mkst [] [] 0.

  Definition upd {Y} (l : list Y) (i : nat) (y : Y) : list Y :=
    match nth_error l i with Some _ => firstn i l ++ y :: skipn (S i) l | None => l end.
  Definition obj (s : state) (r : nat) : res ixobj := match nth_error (heap s) r with Some o => Ok o | None => Err InternalBug end.
  Definition frame (s : state) (f : nat) : res fr := match nth_error (frames s) f with Some o => Ok o | None => Err InternalBug end.
  Definition put_obj (s : state) (r : nat) (o : ixobj) : state := mkst (upd (heap s) r o) (frames s) (fresh s).
  Definition put_frame (s : state) (f : nat) (x : fr) : state := mkst (heap s) (upd (frames s) f x) (fresh s).

  (** index.py [__init__] 47-70 *)
  Definition ix_new (s : state) (v : value) : nat * state :=
    (length (heap s), mkst (heap s ++ [mkix v None (fresh s) (S (fresh s))]) (frames s) (S (S (fresh s)))).

  (** index.py [copy] 347-370 *)
  Definition ix_copy (s : state) (r : nat) (copy_lengths : bool) : res (nat * state) :=
    do o <- obj s r;
    let '(r', s) := ix_new s (ival o) in
    do n <- obj s r';
    Ok (r', put_obj s r' (if copy_lengths then mkix (ival n) (ilens o) (iid o) (lid o)
                          else mkix (ival n) (ilens n) (iid o) (lid n))).

  (** index.py [maybe_specify_new_frame_ref] 108-143 *)
  Definition specify (s : state) (r f : nat) : res (nat * state) :=
    do o <- obj s r;
    match ival o with
    | VLabels _ => Ok (r, s)
    | _ =>
        do c <- ix_copy s r true;
        let '(r', s) := c in
        do n <- obj s r';
        Ok (r', put_obj s r' (mkix (VFrame f) (ilens n) (iid n) (lid n)))
    end.

  (** index.py [get] 177-205; the default callable is [_compute_axis_labels_and_lengths] of the frame
      (dataframe.py 838-863) *)
  Definition ix_get (s : state) (r : nat) : res (list X * option (list nat) * state) :=
    do o <- obj s r;
    match ival o with
    | VLabels l => Ok (l, ilens o, s)
    | VFrame f =>
        do x <- frame s f;
        Ok (fblock x, Some (flens x), put_obj s r (mkix (VLabels (fblock x)) (Some (flens x)) (iid o) (lid o)))
    | VNone => Err RuntimeError
    end.

  Definition is_materialized (o : ixobj) : bool := match ival o with VLabels _ => true | _ => false end.

  (** index.py [equals] 207-229 *)
  Definition ix_equals (s : state) (r1 r2 : nat) : res (bool * state) :=
    do o1 <- obj s r1;
    do o2 <- obj s r2;
    if iid o1 =? iid o2 then Ok (true, s)
    else
      do g1 <- ix_get s r1;
      let '(_, _, s) := g1 in
      do g2 <- ix_get s r2;
      let '(l2, _, s) := g2 in
      do o1 <- obj s r1;
      match ival o1 with VLabels l1 => Ok (list_eqb xeqb l1 l2, s) | _ => Err InternalBug end.

  Definition olens_eqb (a b : option (list nat)) : bool :=
    match a, b with Some a, Some b => list_eqb Nat.eqb a b | None, None => true | _, _ => false end.
  Definition can_extract (o : ixobj) : bool :=
    match ilens o with Some _ => true | None => match ival o with VFrame _ => true | _ => false end end.
  (** index.py [compare_partition_lengths_if_possible] 231-262 *)
  Definition compare_lengths (s : state) (r1 r2 : nat) : res (option bool * state) :=
    do o1 <- obj s r1;
    do o2 <- obj s r2;
    if lid o1 =? lid o2 then Ok (Some true, s)
    else if can_extract o1 && can_extract o2 then
      do g1 <- ix_get s r1;
      let '(_, n1, s) := g1 in
      do g2 <- ix_get s r2;
      let '(_, n2, s) := g2 in
      Ok (Some (olens_eqb n1 n2), s)
    else Ok (None, s).

  (** dataframe.py [set_index_cache] 517-531 / [set_columns_cache] 533-547 *)
  Inductive ixarg := ANone | AObj (r : nat) | ALabels (l : list X).
  Definition set_cache (s : state) (f : nat) (a : ixarg) : res state :=
    do rs <- match a with
             | ANone => Ok (ix_new s (VFrame f))
             | AObj r => specify s r f
             | ALabels l => Ok (ix_new s (VLabels l))
             end;
    let '(r, s) := rs in
    do x <- frame s f;
    Ok (put_frame s f (mkfr (fblock x) (flens x) r (frl x))).

  (** dataframe.py [_get_index] 726-742 (the cache is never None: [__init__] sets it) *)
  Definition get_index (s : state) (f : nat) : res (list X * state) :=
    do x <- frame s f;
    do g <- ix_get s (fcache x);
    let '(l, n, s) := g in
    Ok (l, match frl x with None => put_frame s f (mkfr (fblock x) (flens x) (fcache x) n) | Some _ => s end).

  (** dataframe.py [row_lengths] 242-257 *)
  Definition get_lengths (s : state) (f : nat) : res (list nat * state) :=
    do x <- frame s f;
    match frl x with
    | Some n => Ok (n, s)
    | None => Ok (flens x, put_frame s f (mkfr (fblock x) (flens x) (fcache x) (Some (flens x))))
    end.

  (** dataframe.py [_check_if_axes_identical] 3678-3707 *)
  Definition axes_identical_cached (s : state) (f g : nat) : res (bool * state) :=
    do x <- frame s f;
    do y <- frame s g;
    do e <- ix_equals s (fcache x) (fcache y);
    let '(eq_labels, s) := e in
    if eq_labels then
      do c <- compare_lengths s (fcache x) (fcache y);
      match c with
      | (Some b, s) => Ok (b, s)
      | (None, s) =>
          do a <- get_lengths s f;
          let '(n1, s) := a in
          do b <- get_lengths s g;
          let '(n2, s) := b in
          Ok (list_eqb Nat.eqb n1 n2, s)
      end
    else Ok (false, s).

  (** dataframe.py [__init__] 161-189 as far as this axis goes; [_filter_empties] is a separate step *)
  Definition construct_frame (s : state) (block : list X) (lens : list nat) (a : ixarg) (rl : option (list nat)) : res state :=
    let f := length (frames s) in
    set_cache (mkst (heap s) (frames s ++ [mkfr block lens 0 rl]) (fresh s)) f a.

  (** dataframe.py [_filter_empties] 865-914 on this axis.  [known], [empty]: whether the other axis' lengths
      are cached, and whether it has no labels.  Blocks are kept by the cached lengths. *)
  Definition filter_empties (s : state) (f : nat) (compute known empty : bool) : res state :=
    do x <- frame s f;
    if negb compute && (match frl x with None => true | _ => false end || negb known) then Ok s
    else
      do o <- obj s (fcache x);
      let no_labels := match ival o with VLabels [] => true | _ => false end in
      if no_labels || empty then Ok s
      else
        do a <- get_lengths s f;
        let '(rl, s) := a in
        if list_sum rl =? 0 then Ok s
        else
          do x <- frame s f;
          let kept := map snd (filter (fun p => negb (fst p =? 0)) (combine rl (flens x))) in
          let s := put_frame s f (mkfr (fblock x) kept (fcache x) (frl x)) in
          let new := filter (fun n => negb (n =? 0)) rl in
          do s <- (if list_eqb Nat.eqb new rl then Ok s
                   else do c <- ix_copy s (fcache x) false; let '(r, s) := c in set_cache s f (AObj r));
          do x <- frame s f;
          Ok (put_frame s f (mkfr (fblock x) (flens x) (fcache x) (Some new))).

  (** dataframe.py [_set_index] 762-774, [_set_columns] 776-810 (dtypes aside), [_validate_set_axis] 696-724.
      The labels inside the blocks stay until [_propagate_index_objs]. *)
  Definition set_labels (s : state) (cols : bool) (f : nat) (l : list X) : res state :=
    do x <- frame s f;
    do o <- obj s (fcache x);
    match ival o with
    | VLabels old =>
        if cols && list_eqb xeqb old l then Ok s
        else if length old =? length l then set_cache s f (ALabels l) else Err ValueError
    | _ => set_cache s f (ALabels l)
    end.

  (** dataframe.py [_propagate_index_objs] 934-1030: every block gets its labels *)
  Definition propagate (s : state) (f : nat) : res state :=
    do g <- get_index s f;
    let '(l, s) := g in
    do x <- frame s f;
    Ok (put_frame s f (mkfr l (flens x) (fcache x) (frl x))).

  (** What programs do to frames.
      [New]: a frame built from data; its labels are passed or left to be computed.
      [Derive f cl lens]: map, astype, copy, fold, filter along the other axis, ...: a frame with the labels of
        [f], constructed from [f.copy_index_cache(copy_lengths=cl)]; its blocks have the same lengths when
        [cl] (call sites: 1306, 1636, 1698, 1800, 2313, 2384, 2441, 2547, 2845, 3756, 3899, 3928, 3997, 4771 ...),
        otherwise [lens].
      [Share f]: a frame constructed from the index object of [f] itself (joined labels, 3896-3914).
      [SetLabels]: df.index = ..., df.columns = ...
      [Reload f]: pickling ([__reduce__] 280-303) keeps ids.
      [Read], [Lengths], [Compare], [Filter], [Propagate]: the methods above.
      [Repartition f lens]: df._repartition() along both axes (core/storage_formats/base/query_compiler.py
        7513-7545): first along this axis from [f.copy_index_cache()], giving blocks of lengths [lens], then along
        the other one, from [f]'s (not the new frame's) cache with copy_lengths=True. *)
  Inductive op :=
  | New (l : list X) (lens : list nat) (pass_labels pass_lengths : bool)
  | Derive (f : nat) (cl : bool) (lens : list nat)
  | Share (f : nat)
  | SetLabels (cols : bool) (f : nat) (l : list X)
  | Reload (f : nat)
  | Read (f : nat)
  | Lengths (f : nat)
  | Compare (f g : nat)
  | Filter (f : nat) (compute known empty : bool)
  | Propagate (f : nat)
  | Repartition (f : nat) (lens : list nat).

  Definition step (s : state) (o : op) : res state :=
    match o with
    | New l lens pl pn => construct_frame s l lens (if pl then ALabels l else ANone) (if pn then Some lens else None)
    | Derive f cl lens =>
        do x <- frame s f;
        do c <- ix_copy s (fcache x) cl;
        let '(r, s) := c in
        construct_frame s (fblock x) (if cl then flens x else lens) (AObj r) (if cl then frl x else None)
    | Share f =>
        do x <- frame s f;
        construct_frame s (fblock x) (flens x) (AObj (fcache x)) (frl x)
    | SetLabels cols f l => set_labels s cols f l
    | Reload f =>
        do x <- frame s f;
        do o <- obj s (fcache x);
        let '(r, s) := ix_new s (ival o) in
        let s := put_obj s r (mkix (ival o) (ilens o) (iid o) (lid o)) in
        construct_frame s (fblock x) (flens x) (AObj r) (frl x)
    | Read f => do g <- get_index s f; Ok (snd g)
    | Lengths f => do g <- get_lengths s f; Ok (snd g)
    | Compare f g => do e <- axes_identical_cached s f g; Ok (snd e)
    | Filter f c k e => filter_empties s f c k e
    | Propagate f => propagate s f
    | Repartition f lens =>
        do x <- frame s f;
        do c <- ix_copy s (fcache x) false;
        let '(r, s) := c in
        do s <- construct_frame s (fblock x) lens (AObj r) None;
        do c <- ix_copy s (fcache x) true;
        let '(r, s) := c in
        construct_frame s (fblock x) lens (AObj r) None
    end.

End Index.
Arguments init {X}.
