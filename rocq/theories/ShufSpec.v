(** Specification vocabulary for sorting and for bringing equal keys together; independent of the model. *)
From Verif Require Import Base Table.
From Coq Require Import Permutation Sorted.

Section Rows.
  Context {L H A : Type}.

  (** A row of a table: its label and its cells. *)
  Definition row : Type := L * list A.
  Definition rows_of (d : df L H A) : list row := combine (dindex d) (dcells d).
  Definition of_rows (cols : list H) (rs : list row) : df L H A := mkdf (map fst rs) cols (map snd rs).
End Rows.

Section Sorting.
  Context {R : Type}.
  Variable le : R -> R -> bool.

  (** [l'] is [l] sorted: the same rows, in order. *)
  Definition sorts (l l' : list R) : Prop :=
    Permutation l l' /\ StronglySorted (fun x y => le x y = true) l'.
  (** ... and moreover rows that compare equal keep their relative order. *)
  Definition same (x y : R) : bool := le x y && le y x.
  Definition stably_sorts (l l' : list R) : Prop :=
    sorts l l' /\ forall x, filter (same x) l' = filter (same x) l.
End Sorting.

Section Order.
  Context {K R : Type}.
  Variable kle : K -> K -> bool.         (* the order of the key values *)

  (** How pandas compares two values of one sort column: missing values ([None]) go to the end chosen by
      [na_first] whatever the direction; the others are compared in the direction [ascending]. *)
  Definition value_le (na_first ascending : bool) (x y : option K) : bool :=
    match x, y with
    | None, None => true
    | None, Some _ => na_first
    | Some _, None => negb na_first
    | Some a, Some b => if ascending then kle a b else kle b a
    end.

  (** Two key values are the same key: both missing, or equal. *)
  Definition same_value (x y : option K) : bool :=
    match x, y with
    | None, None => true
    | Some a, Some b => kle a b && kle b a
    | _, _ => false
    end.

  Definition same_keys (keys : list (R -> option K)) (r s : R) : bool :=
    forallb (fun key => same_value (key r) (key s)) keys.

  (** Rows are compared by the first sort column; ties are decided by the next ones. *)
  Fixpoint lex_le (na_first : bool) (cols : list ((R -> option K) * bool)) (r s : R) : bool :=
    match cols with
    | [] => true
    | (key, ascending) :: cols =>
        if value_le na_first ascending (key r) (key s)
        then if value_le na_first ascending (key s) (key r) then lex_le na_first cols r s else true
        else false
    end.
End Order.

Section Groups.
  Context {R : Type}.
  Variable eqk : R -> R -> bool.         (* same key *)

  (** The rows [drop_duplicates] keeps: the first one of every key. *)
  Fixpoint firsts_from (seen l : list R) : list R :=
    match l with
    | [] => []
    | r :: l => if existsb (fun s => eqk s r) seen then firsts_from seen l else r :: firsts_from (r :: seen) l
    end.
  Definition firsts (l : list R) : list R := firsts_from [] l.
  (** The groups of a groupby: for every key, all rows with that key, in order. *)
  Definition groups (l : list R) : list (list R) := map (fun r => filter (eqk r) l) (firsts l).
End Groups.

(** A total preorder. *)
Definition total_preorder {X} (le : X -> X -> bool) : Prop :=
  (forall x y, le x y = true \/ le y x = true) /\
  (forall x y z, le x y = true -> le y z = true -> le x z = true).

Section Keys.
  Context {L H A : Type}.
  Notation dframe := (df L H A).

  (** [bins] are the rows of [d] distributed so that all rows with the same key are in one bin, in their
      original order. *)
  Definition gathers (same_key : @row L A -> @row L A -> bool) (d : dframe) (bins : list dframe) : Prop :=
    Forall (fun b => wf b /\ dcols b = dcols d) bins /\
    Permutation (concat (map rows_of bins)) (rows_of d) /\
    (forall b r, In b bins -> In r (rows_of b) ->
       filter (same_key r) (rows_of b) = filter (same_key r) (rows_of d)) /\
    (forall i j bi bj r s, nth_error bins i = Some bi -> nth_error bins j = Some bj ->
       In r (rows_of bi) -> In s (rows_of bj) -> same_key r s = true -> i = j).

  (** ... and a key of a later bin never belongs before a key of an earlier one. *)
  Definition ordered {K} (le : option K -> option K -> bool) (key : @row L A -> option K) (bins : list dframe) : Prop :=
    forall i j bi bj r s, i < j -> nth_error bins i = Some bi -> nth_error bins j = Some bj ->
      In r (rows_of bi) -> In s (rows_of bj) -> le (key s) (key r) = false.
End Keys.
