(** What [df.melt(id_vars, value_vars, var_name, value_name)] is to give.  Columns are given by their positions. *)
From Coq Require Import Permutation.
From Verif Require Import Base Table SelSpec.

(** The row of the long table for the cell in row [fst p] and column [snd p] of [d]: the identifiers of that row, the name
    of the column, the cell. *)
Definition long_row {L H A} (name : H -> A) (d : df L H A) (ids : list nat) (p : nat * nat) (r : list A) : Prop :=
  exists row, nth_error (dcells d) (fst p) = Some row
    /\ r = pick row ids ++ map name (pick (dcols d) [snd p]) ++ pick row [snd p].

(** [D] has one row for each row of [d] and each value column, numbered from 0; the order is free ("Order of rows could be
    different from pandas"), but the rows made from one column come in the order they have in [d]. *)
Definition melted {L H A} (name : H -> A) (num : nat -> L) (ids vals : list nat) (var value : H) (d D : df L H A) : Prop :=
  exists order,
    Permutation order (list_prod (seq 0 (nrows d)) vals)
    /\ (forall j, In j vals -> map fst (filter (fun p => snd p =? j) order) = seq 0 (nrows d))
    /\ dindex D = map num (seq 0 (nrows d * length vals))
    /\ dcols D = pick (dcols d) ids ++ [var; value]
    /\ Forall2 (long_row name d ids) order (dcells D).
