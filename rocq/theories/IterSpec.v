(** What pandas yields for [df.iterrows()] when the body of the loop changes [df] in place (C88). *)
From Verif Require Import Base Table.

Section Iterate.
  Context {L H A : Type}.
  (** what the body does to the table [df] stands for, after it was given row number [k] *)
  Variable body : nat -> L * list A -> df L H A -> df L H A.
  Definition table_rows (d : df L H A) : list (L * list A) := combine (dindex d) (dcells d).
  Fixpoint run (k : nat) (given : list (L * list A)) (d : df L H A) : df L H A :=
    match given with
    | [] => d
    | x :: xs => run (S k) xs (body k x d)
    end.
  (** the rows the table had when the loop began, and the table after the loop.  (pandas takes the labels and the values once, at the
      start.  Cells overwritten in place in a frame of one dtype may still show through: such bodies are not meant here.) *)
  Definition p_iterrows (d : df L H A) : list (L * list A) * res (df L H A) := (table_rows d, Ok (run 0 (table_rows d) d)).
End Iterate.

(** What pandas yields for [df.items()]: the header the frame had at that position when the loop began, and the column that is at that
    position now; an IndexError if there is none any more. *)
Section Items.
  Context {L H A : Type}.
  Definition series := list (L * A).
  Variable body : nat -> H * series -> df L H A -> df L H A.
  Definition column (d : df L H A) (k : nat) : series :=
    combine (dindex d) (flat_map (fun r => match nth_error r k with Some a => [a] | None => [] end) (dcells d)).
  Fixpoint items_from (k : nat) (headers : list H) (d : df L H A) : list (H * series) * res (df L H A) :=
    match headers with
    | [] => ([], Ok d)
    | h :: hs =>
        if k <? ncols d
        then let x := (h, column d k) in let '(xs, e) := items_from (S k) hs (body k x d) in (x :: xs, e)
        else ([], Err IndexError)
    end.
  Definition p_items (d : df L H A) : list (H * series) * res (df L H A) := items_from 0 (dcols d) d.
End Items.
