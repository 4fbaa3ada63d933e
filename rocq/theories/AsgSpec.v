(** C96: what [df.assign] of several columns means: one after the other, from the left. *)
From Verif Require Import Base Table InsSpec ItmSpec.

(** the value for a column: one value for each row, a scalar for all rows, or a function of the table as it is when its turn comes *)
Inductive column_value (L H A : Type) := Values (l : list A) | Same (a : A) | Callable (g : df L H A -> list A).
Arguments Values {L H A} l.
Arguments Same {L H A} a.
Arguments Callable {L H A} g.

Section Assign.
  Context {L H A : Type}.
  Variable heqb : H -> H -> bool.
  Fixpoint place_of (c : H) (columns : list H) : option nat :=
    match columns with
    | [] => None
    | x :: columns => if heqb c x then Some 0 else option_map S (place_of c columns)
    end.
  (** the column [c] gets other values, or is added at the end *)
  Definition p_put (c : H) (vals : list A) (d : df L H A) : df L H A :=
    match place_of c (dcols d) with
    | Some p => replaced p vals d
    | None => with_column (ncols d) c vals d
    end.
  (** None: ValueError, some value has not one entry for each row *)
  Fixpoint p_assign (cols : list (H * column_value L H A)) (d : df L H A) : option (df L H A) :=
    match cols with
    | [] => Some d
    | (c, v) :: cols =>
        let vals := match v with Values l => l | Same a => repeat a (nrows d) | Callable g => g d end in
        if length vals =? nrows d then p_assign cols (p_put c vals d) else None
    end.
End Assign.
