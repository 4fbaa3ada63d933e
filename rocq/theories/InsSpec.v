(** What [DataFrame.insert] is to do. *)
From Verif Require Import Base Table JoinSpec.

(** [x] put before the item number [p] *)
Definition insert_at {X} (p : nat) (x : X) (l : list X) : list X := firstn p l ++ x :: skipn p l.

(** the table with a further column, called [c], before the column number [p] *)
Definition with_column {L H A} (p : nat) (c : H) (vals : list A) (d : df L H A) : df L H A :=
  mkdf (dindex d) (insert_at p c (dcols d)) (map (fun vr => insert_at p (fst vr) (snd vr)) (combine vals (dcells d))).

(** [vals] are the values of the one-column table [e], put in the order of the labels of [d]: at each label the
    value [e] has there, or a missing value if [e] does not have the label; if the labels are the same, the values as
    they are. *)
Definition aligned {L H A} (fill : A) (d e : df L H A) (vals : list A) : Prop :=
  length vals = nrows d
  /\ (dindex e = dindex d -> map (fun v => [v]) vals = dcells e)
  /\ (dindex e <> dindex d -> forall i x, nth_error (dindex d) i = Some x ->
       (forall v, row_is e x [v] -> nth_error vals i = Some v)
       /\ (~ In x (dindex e) -> nth_error vals i = Some fill)).
