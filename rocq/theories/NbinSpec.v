(** NumPy's rules for binary operations on arrays of one or two dimensions.  Independent of the model. *)
From Verif Require Import Base Table SelSpec ArrSpec.

Section Broadcast.
  Context {A B : Type}.

  (** the array as rows: a vector is one row *)
  Definition rows_of (v : nd A) : list (list A) := match v with Vec l => [l] | Mat _ rows => rows end.
  Definition width_of (v : nd A) : nat := match v with Vec l => length l | Mat w _ => w end.

  (** the common size of one axis: equal, or one of them is 1; None: NumPy raises *)
  Definition agree (n m : nat) : option nat :=
    if n =? m then Some n else if n =? 1 then Some m else if m =? 1 then Some n else None.

  (** an axis of length 1 is repeated *)
  Definition stretch {X} (n : nat) (l : list X) : list X := match l with [x] => repeat x n | _ => l end.
  Definition spread (n w : nat) (v : nd A) : list (list A) := stretch n (map (stretch w) (rows_of v)).
End Broadcast.

(** [op] of two arrays, element by element after broadcasting; None: NumPy raises *)
Definition np_binary {A B} (op : A -> A -> B) (v w : nd A) : option (nd B) :=
  match agree (length (rows_of v)) (length (rows_of w)), agree (width_of v) (width_of w) with
  | Some n, Some m =>
      let cells := map2 (map2 op) (spread n m v) (spread n m w) in
      match v, w with
      | Vec _, Vec _ => Some (Vec (concat cells))
      | _, _ => Some (Mat m cells)
      end
  | _, _ => None
  end.

Definition nd_map {A B} (g : A -> B) (v : nd A) : nd B :=
  match v with Vec l => Vec (map g l) | Mat w rows => Mat w (map (map g) rows) end.
