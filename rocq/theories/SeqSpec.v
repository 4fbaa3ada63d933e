(** C91: what [s.equals(t)] means for two Series. *)
From Verif Require Import Base Table.

(** Same row labels and same elements in the same order; the names do not matter.  (A Series is a table of one column, headed by its name.) *)
Definition same_series {L H A} (d e : df L H A) : Prop := dindex d = dindex e /\ dcells d = dcells e.
