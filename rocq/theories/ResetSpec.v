(** C65, the specification: [reset_index] of a frame with a one-level index.  Independent of the model. *)
From Verif Require Import Base Table.

Section Reset.
  Context {L H A : Type}.
  Variable heqb : H -> H -> bool.
  (** the label i, a label as a cell, the headers "index" and "level_0" *)
  Variable num : nat -> L.
  Variable cell : L -> A.
  Variables hindex hlevel : H.

  Definition has (h : H) (cols : list H) : bool := existsb (heqb h) cols.
  (** the header of the new column: the name of the index if it has one *)
  Definition label_header (name : option H) (cols : list H) : H :=
    match name with Some h => h | None => if has hindex cols then hlevel else hindex end.
  Definition numbered (d : df L H A) : df L H A := mkdf (map num (seq 0 (nrows d))) (dcols d) (dcells d).
  Definition with_labels (h : H) (d : df L H A) : df L H A :=
    mkdf (dindex d) (h :: dcols d) (map (fun p => cell (fst p) :: snd p) (combine (dindex d) (dcells d))).
  (** pandas refuses to insert a column that is there already *)
  Definition reset (drop : bool) (name : option H) (d : df L H A) : res (df L H A) :=
    if drop then Ok (numbered d)
    else let h := label_header name (dcols d) in
         if has h (dcols d) then Err ValueError else Ok (numbered (with_labels h d)).
End Reset.
