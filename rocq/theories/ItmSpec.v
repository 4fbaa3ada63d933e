(** What [df[key] = value] is to do. *)
From Verif Require Import Base Table JoinSpec InsSpec.

(** the table with other values in the column number [p] *)
Definition replaced {L H A} (p : nat) (vals : list A) (d : df L H A) : df L H A :=
  mkdf (dindex d) (dcols d) (map (fun vr => firstn p (snd vr) ++ fst vr :: skipn (S p) (snd vr)) (combine vals (dcells d))).

(** the cell in row number [i] and column number [j] *)
Definition cell {L H A} (d : df L H A) (i j : nat) : option A :=
  match nth_error (dcells d) i with Some r => nth_error r j | None => None end.

(** [D] is [d] with the columns [keys] taken from [e]: the first key gets the first column of [e], and so on; every
    other cell is as it was. *)
Definition columns_from {L H A} (keys : list H) (d e D : df L H A) : Prop :=
  wf D /\ dindex D = dindex d /\ dcols D = dcols d
  /\ forall i j c, nth_error (dcols d) j = Some c ->
       (forall k, nth_error keys k = Some c -> cell D i j = cell e i k)
       /\ (~ In c keys -> cell D i j = cell d i j).

(** [e] put in the order of the labels of [d]: at each label the row [e] has there, or missing values if [e] does not
    have the label; if the labels are the same, the rows as they are. *)
Definition aligned_rows {L H A} (fill : A) (d e : df L H A) (rows : list (list A)) : Prop :=
  length rows = nrows d
  /\ (dindex e = dindex d -> rows = dcells e)
  /\ (dindex e <> dindex d -> forall i x, nth_error (dindex d) i = Some x ->
       (forall r, row_is e x r -> nth_error rows i = Some r)
       /\ (~ In x (dindex e) -> nth_error rows i = Some (repeat fill (ncols e)))).

(** the table with further columns at the end *)
Definition with_columns {L H A} (cs : list H) (rows : list (list A)) (d : df L H A) : df L H A :=
  mkdf (dindex d) (dcols d ++ cs) (map (fun rv => fst rv ++ snd rv) (combine (dcells d) rows)).
