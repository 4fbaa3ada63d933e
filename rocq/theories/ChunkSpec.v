(** Small vocabulary for stating facts about partitioned tables, independent of the model. *)
From Verif Require Import Base Table.

(** Consecutive half-open intervals of the given lengths: [bounds 0 [2;3] = [(0,2);(2,5)]]. *)
Fixpoint bounds (acc : nat) (lens : list nat) : list (nat * nat) :=
  match lens with
  | [] => []
  | n :: ns => (acc, acc + n) :: bounds (acc + n) ns
  end.

Section Spec.
  Context {L H A : Type}.
  (** The block of a table at a row interval and a column interval. *)
  Definition block (d : df L H A) (ri ci : nat * nat) : df L H A :=
    mkdf (slice (dindex d) (fst ri) (snd ri))
         (slice (dcols d) (fst ci) (snd ci))
         (map (fun r => slice r (fst ci) (snd ci)) (slice (dcells d) (fst ri) (snd ri))).

  (** A table cut at the given row lengths and column widths: any partitioning of it. *)
  Definition cut_table (rl cl : list nat) (d : df L H A) : list (list (df L H A)) :=
    map (fun ri => map (fun ci => block d ri ci) (bounds 0 cl)) (bounds 0 rl).
End Spec.
