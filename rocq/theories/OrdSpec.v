(** C68, the specification: a table in the order of its labels, and its best rows.  Independent of the model. *)
From Verif Require Import Base Table SelSpec.

Section Ord.
  Context {L H A : Type}.
  (** the rows (columns) at these positions, each with its label *)
  Definition rows_at (ps : list nat) (d : df L H A) : df L H A := mkdf (pick (dindex d) ps) (dcols d) (pick (dcells d) ps).
  Definition columns_at (ps : list nat) (d : df L H A) : df L H A := mkdf (dindex d) (pick (dcols d) ps) (map (fun r => pick r ps) (dcells d)).
  (** the rows (columns) numbered from 0 *)
  Definition rows_numbered (num : nat -> L) (d : df L H A) : df L H A := mkdf (map num (seq 0 (nrows d))) (dcols d) (dcells d).
  Definition columns_numbered (num : nat -> H) (d : df L H A) : df L H A := mkdf (dindex d) (map num (seq 0 (ncols d))) (dcells d).
  (** the cells of the columns at these positions, row by row *)
  Definition cells_of (ps : list nat) (d : df L H A) : list (list A) := map (fun r => pick r ps) (dcells d).
End Ord.
