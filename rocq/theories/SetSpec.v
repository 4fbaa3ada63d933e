(** What [df.iloc[rows, cols] = value] should mean.  Independent of the model. *)
From Verif Require Import Base Table GridSpec SelSpec.

(** The right-hand side: a scalar, a flat sequence, or a two-dimensional array, given by its lengths and
    its entries. *)
Inductive item (A : Type) :=
  | Scalar (a : A)
  | Vector (n : nat) (v : nat -> A)
  | Matrix (r c : nat) (v : nat -> nat -> A).
Arguments Scalar {A} a.
Arguments Vector {A} n v.
Arguments Matrix {A} r c v.

(** The value pandas writes at the i-th selected row and j-th selected column of a selection of [r] rows and
    [c] columns: a scalar everywhere; a flat sequence along the columns, or down the only column; an array
    entry by entry.  [None]: not covered (pandas raises, or repeats a one-row or one-column array). *)
Definition wanted {A} (r c : nat) (it : item A) : option (nat -> nat -> A) :=
  match it with
  | Scalar a => Some (fun _ _ => a)
  | Vector n v => if n =? c then Some (fun _ j => v j)
                  else if (c =? 1) && (n =? r) then Some (fun i _ => v i)
                  else None
  | Matrix r0 c0 v => if (r0 =? r) && (c0 =? c) then Some v else None
  end.

(** Position [i] of [l] is the last one holding [p]. *)
Definition last_at (l : list nat) (i p : nat) : Prop :=
  nth_error l i = Some p /\ forall k, i < k -> nth_error l k <> Some p.

Section Assigned.
  Context {L H A : Type}.
  (** [d'] is [d] with the cells at [rows] x [cols] replaced: the labels stay, the table stays rectangular,
      every cell outside stays, and the cell at row [rows[i]] and column [cols[j]] holds [v i j] (if a row or
      a column is named several times, its last mention counts). *)
  Definition assigned (rows cols : list nat) (v : nat -> nat -> A) (d d' : df L H A) : Prop :=
    wf d' /\ dindex d' = dindex d /\ dcols d' = dcols d
    /\ (forall p q, ~ (In p rows /\ In q cols) -> cell d' p q = cell d p q)
    /\ (forall i j p q, last_at rows i p -> last_at cols j q -> p < nrows d -> q < ncols d ->
          cell d' p q = Some (v i j)).
End Assigned.

(** Vocabulary for the conditions of the theorems. *)

(** The selection is a slice or a range that walks upwards. *)
Definition upwards (loc : locator) : Prop :=
  match loc with
  | LSlice _ _ None => True
  | LSlice _ _ (Some s) => (0 < s)%Z
  | LRange _ _ s => (0 < s)%Z
  | _ => False
  end.
(** The selection is a slice or a range of step one. *)
Definition unit_step (loc : locator) : Prop :=
  match loc with
  | LSlice _ _ None => True
  | LSlice _ _ (Some s) => s = 1%Z
  | LRange _ _ s => s = 1%Z
  | _ => False
  end.
(** All blocks are as long as the first one, the last one possibly shorter. *)
Definition uniform (lens : list nat) : Prop :=
  forall i, i < length lens -> nth i lens 0 <= hd 0 lens /\ (S i < length lens -> nth i lens 0 = hd 0 lens).
(** A slice of step one starts in the first block, or the blocks are uniform. *)
Definition aligned (lens : list nat) (loc : locator) (ps : list nat) : Prop :=
  unit_step loc -> uniform lens \/ forall p, hd_error ps = Some p -> p < hd 0 lens.
(** A flat sequence needs its columns in order, and rows that are a slice, or are as many as the values
    (and in order unless there is one column). *)
Definition orderly {A} (row_loc : locator) (rows cols : list nat) (it : item A) : Prop :=
  match it with
  | Vector n _ => Sorted le cols
      /\ (upwards row_loc \/ length cols = 1 /\ n = length rows \/ Sorted le rows /\ n = length rows)
  | _ => True
  end.
