(** pandas/base.py [head] 1953-1957 and [tail] 3232-3238 (C94). *)
From Verif Require Import Base Table ChunkModel GridModel SelSpec SelModel.

Section Model.
  Context {L H A : Type}.
  Variable leqb : L -> L -> bool.
  Variable heqb : H -> H -> bool.
  Variables min_row min_col nparts : nat.
  Variables known_l known_w : nat -> nat -> bool.
  Variable argsort : list Z -> list nat.
  Variable big : bool.
  Notation pf := (@pframe L H A).
  (** [self.iloc[rows]] (indexing.py 609-617, 1093-1115: a lone locator is for the rows, all columns are kept; empty frames go to pandas instead, not modelled) *)
  Definition iloc_rows (rows : locator) (f : pf) : res pf :=
    iloc_getitem leqb heqb min_row min_col nparts known_l known_w argsort big rows (LSlice None None None) f.
  (** base.py 1957 *)
  Definition head (n : Z) (f : pf) : res pf := iloc_rows (LSlice None (Some n) None) f.
  (** base.py 3236-3238; [len(self)] is the length of the row labels *)
  Definition tail (n : Z) (f : pf) : res pf :=
    if negb (n =? 0)%Z then iloc_rows (LSlice (Some (- n)%Z) None None) f
    else do index <- labels (pindex f); iloc_rows (LSlice (Some (Z.of_nat (length index))) None None) f.
End Model.
