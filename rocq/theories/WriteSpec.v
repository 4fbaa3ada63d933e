(** Specification vocabulary for writing frames to files and databases, independent of the model. *)
From Verif Require Import Base Table ChunkSpec GridSpec.

(** States that can be reached by any number of steps. *)
Inductive reaches {S : Type} (step : S -> S -> Prop) (s : S) : S -> Prop :=
| reaches_here : reaches step s s
| reaches_step t u : reaches step s t -> step t u -> reaches step s u.

Definition is_prefix {A} (p l : list A) : Prop := exists r, l = p ++ r.

(** Text of a table when every row is written on its own: [head] the header text, [line] the text of one row. *)
Definition table_text {L H A C} (head : list H -> list C) (line : L -> list A -> list C)
    (with_header : bool) (d : df L H A) : list C :=
  (if with_header then head (dcols d) else [])
  ++ flat_map (fun p => line (fst p) (snd p)) (combine (dindex d) (dcells d)).

(** A writer of tables whose text comes row by row. *)
Definition row_local {L H A C} (render : bool -> df L H A -> list C) : Prop :=
  exists head line, forall h d, wf d -> render h d = table_text head line h d.

(** The rows of a table with their labels. *)
Definition rows_of {L H A} (d : df L H A) : list (L * list A) := combine (dindex d) (dcells d).
