(** Specification vocabulary for grid operations, independent of the model. *)
From Verif Require Import Base Table ChunkSpec.

Section Spec.
  Context {L H A L2 H2 B : Type}.

  (** Apply [f label header cell] to every cell and [g] to every column header; the row labels stay. *)
  Definition cellwise (f : L -> H -> A -> B) (g : H -> H2) (d : df L H A) : df L H2 B :=
    mkdf (dindex d) (map g (dcols d))
         (map2 (fun l row => map2 (f l) (dcols d) row) (dindex d) (dcells d)).

  (** A table function that works column by column: what it returns for a range of columns
      depends on those columns only.  It may change the rows at will. *)
  Definition column_wise (F : df L H A -> df L2 H2 B) : Prop :=
    forall d, wf d -> wf (F d) /\ ncols (F d) = ncols d
      /\ forall a b, F (iloc_cols d a b) = iloc_cols (F d) a b.

  (** Likewise row by row. *)
  Definition row_wise (F : df L H A -> df L2 H2 B) : Prop :=
    forall d, wf d -> wf (F d) /\ nrows (F d) = nrows d
      /\ forall a b, F (iloc_rows d a b) = iloc_rows (F d) a b.

  (** The columns of a table. *)
  Definition columns (d : df L H A) : list (list A) := transp (ncols d) (dcells d).
End Spec.

(** Whole-column and whole-row reductions: one value per column (row). *)
Definition reduce_columns {L H A B} (u : L) (agg : list A -> B) (d : df L H A) : df L H B :=
  mkdf [u] (dcols d) [map agg (columns d)].
Definition reduce_rows {L H A B} (u : H) (agg : list A -> B) (d : df L H A) : df L H B :=
  mkdf (dindex d) [u] (map (fun r => [agg r]) (dcells d)).

(** Aggregating pieces and then the partial results is aggregating the whole. *)
Definition tree_law {A M B} (magg : list A -> M) (ragg : list M -> B) (agg : list A -> B) : Prop :=
  forall pieces, pieces <> [] -> ragg (map magg pieces) = agg (concat pieces).

(** Entry (i,j) of a table. *)
Definition cell {L H A} (d : df L H A) (i j : nat) : option A :=
  match nth_error (dcells d) i with Some r => nth_error r j | None => None end.

(** The usual column statistics on cells that may be missing ([None]); missing values are
    skipped (skipna=True), as pandas does. *)
Definition values (l : list (option Z)) : list Z :=
  concat (map (fun o => match o with Some x => [x] | None => [] end) l).
Definition p_sum (l : list (option Z)) : option Z := Some (fold_right Z.add 0%Z (values l)).
Definition p_prod (l : list (option Z)) : option Z := Some (fold_right Z.mul 1%Z (values l)).
Definition p_count (l : list (option Z)) : option Z := Some (Z.of_nat (length (values l))).
Definition p_max (l : list (option Z)) : option Z :=
  match values l with [] => None | x :: xs => Some (fold_right Z.max x xs) end.
Definition p_min (l : list (option Z)) : option Z :=
  match values l with [] => None | x :: xs => Some (fold_right Z.min x xs) end.
(** truth values are the cells 0 and 1 *)
Definition p_any (l : list (option Z)) : option Z :=
  Some (if existsb (fun x => negb (x =? 0)%Z) (values l) then 1%Z else 0%Z).
Definition p_all (l : list (option Z)) : option Z :=
  Some (if forallb (fun x => negb (x =? 0)%Z) (values l) then 1%Z else 0%Z).
