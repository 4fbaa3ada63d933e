(** What a parquet dataset, a table read from it, and SQL row windows mean.  Independent of the model. *)
From Coq Require Import ZArith.
From Verif Require Import Base Table.

(** The row groups of a dataset in file order: file [i] has [nth i counts] row groups. *)
Fixpoint groups_from (file : nat) (counts : list nat) : list (nat * nat) :=
  match counts with
  | [] => []
  | n :: rest => map (fun g => (file, g)) (seq 0 n) ++ groups_from (S file) rest
  end.
Definition all_groups (counts : list nat) : list (nat * nat) := groups_from 0 counts.

(** A request "row groups [start, stop) of a file" names these row groups. *)
Definition named (r : nat * nat * nat) : list (nat * nat) :=
  let '(file, start, stop) := r in map (fun g => (file, g)) (seq start (stop - start)).

Section Dataset.
  Context {L H A : Type}.
  (** A dataset: files, each a list of row groups, each a list of labelled rows. *)
  Definition dataset := list (list (list (L * list A))).
  Definition dataset_table (cols : list H) (files : dataset) : df L H A :=
    let rows := concat (concat files) in mkdf (map fst rows) cols (map snd rows).
End Dataset.

(** How many of the closed integer ranges contain a value. *)
Definition times_selected (ranges : list (Z * Z)) (v : Z) : nat :=
  length (filter (fun r => (fst r <=? v)%Z && (v <=? snd r)%Z) ranges).
