(** What pandas' groupby gives for categorical keys with observed=False; independent of the model. *)
From Verif Require Import Base.

Section Spec.
  Context {K R A : Type}.
  Variable kdec : forall a b : K, {a = b} + {a <> b}.
  Variable key : R -> option K.        (* the key of a row, [None] when it is missing *)
  Variable agg : list R -> list A.     (* the aggregates of one group of rows, one for each result column *)

  (** The rows of the group [k], in their order. *)
  Definition group (k : K) (rows : list R) : list R :=
    filter (fun r => match key r with Some k' => if kdec k k' then true else false | None => false end) rows.
  (** One result row for each possible key, in the order of the categories, whether it occurs or not. *)
  Definition groupby_all (complete : list K) (rows : list R) : list (K * list A) :=
    map (fun k => (k, agg (group k rows))) complete.
End Spec.
