(** pandas/base.py [take] 3240-3246 (C95). *)
From Verif Require Import Base Table ChunkModel GridModel SelSpec SelModel TakSpec.

Section Model.
  Context {L H A : Type}.
  Variable leqb : L -> L -> bool.
  Variable heqb : H -> H -> bool.
  Variables min_row min_col nparts : nat.
  Variables known_l known_w : nat -> nat -> bool.
  Variable argsort : list Z -> list nat.
  Variable big : bool.
  Notation pf := (@pframe L H A).
  Definition iloc2 (rows cols : locator) (f : pf) : res pf :=
    iloc_getitem leqb heqb min_row min_col nparts known_l known_w argsort big rows cols f.
  Definition all_ : locator := LSlice None None None.
  (** indexing.py 1200-1225: a locator that is no slice, scalar or range is a mask if it holds booleans, else an array of integers *)
  Definition locate_by (i : indices) : locator :=
    match i with Positions zs | Tuple zs => LList zs | Bools bs => LMask bs end.
  (** base.py 3244-3246; [iloc[key]] takes a tuple apart into the locators of the axes (indexing.py 373-383, 609-617: none, IndexError;
      more than two, IndexingError, here IndexError as well).  The one-cell frame stands for the cell.  Not modelled: a tuple of one
      (a Series), empty frames (they go to pandas) *)
  Definition take (columns : bool) (i : indices) (f : pf) : res pf :=
    if columns then iloc2 all_ (locate_by i) f
    else match i with
         | Tuple [] => Err IndexError
         | Tuple [_] => Err Unmodelled
         | Tuple [r; c] => iloc2 (LInt r) (LInt c) f
         | Tuple _ => Err IndexError
         | _ => iloc2 (locate_by i) all_ f
         end.
End Model.
