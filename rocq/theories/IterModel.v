(** pandas/iterator.py and pandas/dataframe.py [iterrows] (C88). *)
From Verif Require Import Base Table ChunkModel GridModel SelSpec SelModel.

Section Model.
  Context {L H A : Type}.
  Variable leqb : L -> L -> bool.
  Variable heqb : H -> H -> bool.
  Variables min_row min_col nparts : nat.
  Variables known_l known_w : nat -> nat -> bool.
  Variable argsort : list Z -> list nat.
  Variable big : bool.
  Notation pf := (@pframe L H A).
  (** the body of the loop replaces the frame behind the user's object *)
  Variable body : nat -> L * list A -> pf -> pf.

  (** iterator.py [PartitionIterator.__next__] 68-81: [self.df.iloc[key]] with the key (k, slice(None)) on the object as it is now;
      dataframe.py [iterrow_builder] 1193-1195: its name and itself.  The row of a one-row frame as a Series (dtypes aside). *)
  Definition next_row (k : nat) (f : pf) : res (L * list A) :=
    do v <- iloc_getitem leqb heqb min_row min_col nparts known_l known_w argsort big (LInt (Z.of_nat k)) (LSlice None None None) f;
    do d <- pf_to_pandas leqb heqb v;
    match dindex d, dcells d with
    | [x], [row] => Ok (x, row)
    | _, _ => Err InternalBug
    end.
  (** iterator.py [PartitionIterator.__init__] 41-56: as many keys as the frame has rows at the start; dataframe.py [iterrows] 1197-1199.
      Result: what the loop was given, and the frame after it or the exception that ended it. *)
  Fixpoint loop (keys : list nat) (f : pf) : list (L * list A) * res pf :=
    match keys with
    | [] => ([], Ok f)
    | k :: keys =>
        match next_row k f with
        | Err e => ([], Err e)
        | Ok x => let '(xs, e) := loop keys (body k x f) in (x :: xs, e)
        end
    end.
  Definition iterrows (f : pf) : list (L * list A) * res pf :=
    match pindex f with
    | Some index => loop (seq 0 (length index)) f
    | None => ([], Err Unmodelled)
    end.

  (** the same for [items], dataframe.py 1201-1212 (C89): the keys are (slice(None), k) for as many columns as there are at the start *)
  Variable items_body : nat -> H * list (L * A) -> pf -> pf.
  (** iterator.py [PartitionIterator.__next__] 68-81 with axis 1; dataframe.py [items_builder] 1206-1208.  The column of a one-column frame as
      a Series (dtypes aside). *)
  Definition next_column (k : nat) (f : pf) : res (H * list (L * A)) :=
    do v <- iloc_getitem leqb heqb min_row min_col nparts known_l known_w argsort big (LSlice None None None) (LInt (Z.of_nat k)) f;
    do d <- pf_to_pandas leqb heqb v;
    match dcols d with
    | [h] => Ok (h, combine (dindex d) (concat (dcells d)))
    | _ => Err InternalBug
    end.
  (** dataframe.py [items] 1210-1212 *)
  Fixpoint items_loop (keys : list nat) (f : pf) : list (H * list (L * A)) * res pf :=
    match keys with
    | [] => ([], Ok f)
    | k :: keys =>
        match next_column k f with
        | Err e => ([], Err e)
        | Ok x => let '(xs, e) := items_loop keys (items_body k x f) in (x :: xs, e)
        end
    end.
  (** iterator.py [PartitionIterator.__init__] 44-48 *)
  Definition items (f : pf) : list (H * list (L * A)) * res pf :=
    match pcols f with
    | Some columns => items_loop (seq 0 (length columns)) f
    | None => ([], Err Unmodelled)
    end.
End Model.
