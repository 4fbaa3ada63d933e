(** C90: what [df.equals(other)] means. *)
From Verif Require Import Base Table.

(** The two tables are the same: same row labels, same headers, same cells, in the same order.  (Equality of cells is that of pandas:
    missing values are equal to each other.) *)
Definition same_table {L H A} (d e : df L H A) : Prop := dindex d = dindex e /\ dcols d = dcols e /\ dcells d = dcells e.
