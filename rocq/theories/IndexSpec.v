(** What the labels of the frames are, from the program's point of view: a frame has the labels it was built
    with, or those of the frame it was derived from, until new ones are assigned to it. *)
From Verif Require Import Base IndexModel.

Definition replace_at {Y} (l : list Y) (i : nat) (y : Y) : list Y :=
  map (fun p => if fst p =? i then y else snd p) (combine (seq 0 (length l)) l).

Definition labels_after {X} (t : list (list X)) (o : op) : list (list X) :=
  match o with
  | New l _ _ _ => t ++ [l]
  | Derive f _ _ | Share f | Reload f => t ++ [nth f t []]
  | SetLabels _ f l => replace_at t f l
  | Repartition f _ => t ++ [nth f t []; nth f t []]
  | _ => t
  end.

(** A whole history: a step that raises changes nothing (in the model, no step has an effect before it
    raises). *)
Fixpoint play {X} (xeqb : X -> X -> bool) (st : state * list (list X)) (ops : list op) : state * list (list X) :=
  match ops with
  | [] => st
  | o :: ops => play xeqb (match step xeqb (fst st) o with Ok s => (s, labels_after (snd st) o) | Err _ => st end) ops
  end.

Definition repartitions_both {X} (o : @op X) : bool := match o with Repartition _ _ => true | _ => false end.
