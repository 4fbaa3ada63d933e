(** What aligning and concatenating tables should mean.  Independent of the model. *)
From Verif Require Import Base Table ChunkSpec.

Section Spec.
  Context {L H A B : Type}.
  Variable fill : A.
  Notation dframe := (df L H A).

  (** Rows (columns) of [d] at the given positions, [None] giving a missing row (column), under new labels. *)
  Definition pick_rows (labels : list L) (at_ : list (option nat)) (d : dframe) : dframe :=
    let missing := repeat fill (ncols d) in
    mkdf labels (dcols d) (map (fun o => match o with Some p => nth p (dcells d) missing | None => missing end) at_).
  Definition pick_cols (labels : list H) (at_ : list (option nat)) (d : dframe) : dframe :=
    mkdf (dindex d) labels
         (map (fun r => map (fun o => match o with Some p => nth p r fill | None => fill end) at_) (dcells d)).

  (** Tables below each other, and side by side. *)
  Definition stack (cols : list H) (ds : list dframe) : dframe :=
    mkdf (concat (map dindex ds)) cols (concat (map dcells ds)).
  Definition glue (idx : list L) (ds : list dframe) : dframe :=
    mkdf idx (concat (map dcols ds)) (fold_right zipapp (repeat [] (length idx)) (map dcells ds)).

  (** The same operation at every cell of two tables with equal labels. *)
  Definition zip_cells {A2} (f : A -> A2 -> B) (d : dframe) (e : df L H A2) : df L H B :=
    mkdf (dindex d) (dcols d) (map2 (map2 f) (dcells d) (dcells e)).
End Spec.

(** What pandas' index join gives: the joined labels and, for every operand, the position each joined label
    comes from ([None] if the operand does not have it); an operand that already has the joined labels is
    taken as it is. *)
Definition join_ok {X} (labels : list (list X)) (joined : list X) (at_ : list (list (option nat))) : Prop :=
  length at_ = length labels
  /\ forall i lab ix, nth_error labels i = Some lab -> nth_error at_ i = Some ix ->
       length ix = length joined
       /\ (forall k p, nth_error ix k = Some (Some p) -> p < length lab /\ nth_error lab p = nth_error joined k)
       /\ (forall k x, nth_error ix k = Some None -> nth_error joined k = Some x -> ~ In x lab)
       /\ (lab = joined -> ix = map Some (seq 0 (length lab))).

(** The last length that may be zero is at the end: no zero is followed by a positive length. *)
Fixpoint no_inner_zero (lens : list nat) : Prop :=
  match lens with
  | [] => True
  | n :: rest => (n = 0 -> list_sum rest = 0) /\ no_inner_zero rest
  end.

(** The position of a label; with unique labels this is pandas' [get_indexer], for any joined labels (inner,
    outer, left, right, sorted or not). *)
Fixpoint position {X} (eqb : X -> X -> bool) (x : X) (l : list X) : option nat :=
  match l with
  | [] => None
  | y :: l => if eqb x y then Some 0 else option_map S (position eqb x l)
  end.
Definition indexers {X} (eqb : X -> X -> bool) (joined : list X) (labels : list (list X)) : list (list (option nat)) :=
  map (fun lab => map (fun x => position eqb x lab) joined) labels.

(** The row of a table with the given label, and the column entry: by definition of labels, not of positions. *)
Definition row_is {L H A} (d : df L H A) (x : L) (r : list A) : Prop :=
  exists p, nth_error (dindex d) p = Some x /\ nth_error (dcells d) p = Some r.
