(** C56, the specification: what reaches the workers of a distributed training. *)
From Coq Require Import Permutation.
From Verif Require Import Base.

Section XgbSpec.
  Context {IP R S N : Type}.
  (** features with their nodes, labels: in row partitions *)
  Definition dataset := (list (IP * list R) * list (list S))%type.
  (** the labelled rows of a data set: the rows of the features joined with the labels, by position *)
  Definition labelled (m : dataset) : list (R * S) := combine (concat (map snd (fst m))) (concat (snd m)).
  (** features and labels are cut at the same rows *)
  Definition cut_alike (m : dataset) : Prop := Forall2 (fun x y => length (snd x) = length y) (fst m) (snd m).
  (** The workers [w] have, together, the labelled rows of [m], each exactly once and with its label. *)
  Definition dealt (m : dataset) (w : list (list R * list S)) : Prop :=
    Permutation (concat (map (fun a => combine (fst a) (snd a)) w)) (labelled m)
    /\ Forall (fun a => length (fst a) = length (snd a)) w.
  (** the workers have the evaluation sets given, under their names and in the order given;
      [None] stands for the training set *)
  Definition evaluated (train : dataset) (evals : list (N * option dataset)) (got : list (N * list (list R * list S))) : Prop :=
    Forall2 (fun e g => fst e = fst g /\ dealt (match snd e with Some m => m | None => train end) (snd g)) evals got.
End XgbSpec.
