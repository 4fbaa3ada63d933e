(** C60, C61, the specification: reindexing, and assignment by label.  Independent of the model. *)
From Verif Require Import Base Table GridSpec SelSpec SetSpec LocSpec.

Section Reindexed.
  Context {L H A : Type}.
  (** [d'] has the rows [labels]: each holds the row of [d] with that label, or [fill] if there is none. *)
  Definition reindexed_rows (fill : A) (labels : list L) (d d' : df L H A) : Prop :=
    wf d' /\ dindex d' = labels /\ dcols d' = dcols d
    /\ forall i l q, nth_error labels i = Some l -> q < ncols d ->
         (forall p, nth_error (dindex d) p = Some l -> cell d' i q = cell d p q)
         /\ (~ In l (dindex d) -> cell d' i q = Some fill).
  (** Likewise for columns. *)
  Definition reindexed_cols (fill : A) (labels : list H) (d d' : df L H A) : Prop :=
    wf d' /\ dindex d' = dindex d /\ dcols d' = labels
    /\ forall p j l, p < nrows d -> nth_error labels j = Some l ->
         (forall q, nth_error (dcols d) q = Some l -> cell d' p j = cell d p q)
         /\ (~ In l (dcols d) -> cell d' p j = Some fill).

  (** The table with one more row, or with more columns. *)
  Definition with_row (l : L) (row : list A) (d : df L H A) : df L H A :=
    mkdf (dindex d ++ [l]) (dcols d) (dcells d ++ [row]).
  Definition with_cols (fill : A) (new : list H) (d : df L H A) : df L H A :=
    mkdf (dindex d) (dcols d ++ new) (map (fun r => r ++ repeat fill (length new)) (dcells d)).
End Reindexed.

(** The labels a list of columns adds. *)
Definition added {H} (heqb : H -> H -> bool) (old ls : list H) : list H :=
  filter (fun l => negb (existsb (heqb l) old)) ls.
