(** NumPy's reductions of arrays of one or two dimensions.  Independent of the model. *)
From Coq Require Import Permutation.
From Verif Require Import Base Table GridSpec ArrSpec.

(** the axis a number stands for in an array of [n] dimensions; None: AxisError *)
Definition axis_of (n : nat) (z : Z) : option nat :=
  if ((- Z.of_nat n <=? z) && (z <? Z.of_nat n))%Z then Some (Z.to_nat (if (z <? 0)%Z then z + Z.of_nat n else z)) else None.

Section Reduce.
  Context {A B : Type}.

  (** all elements, row by row *)
  Definition flat (v : nd A) : list A := match v with Vec l => l | Mat _ rows => concat rows end.

  (** one value for the whole array; [keepdims] keeps the number of dimensions *)
  Definition whole (agg : list A -> B) (v : nd A) (keep : bool) : value B :=
    if keep then Array (match v with Vec _ => Vec [agg (flat v)] | Mat _ _ => Mat 1 [[agg (flat v)]] end) else Scalar (agg (flat v)).

  (** [np.f(v, axis=axis, keepdims=keep)] where [agg] is [f] of a list; None: NumPy raises.  Axis 0 goes down the columns, axis 1 along the rows. *)
  Definition np_reduce (agg : list A -> B) (v : nd A) (axis : option Z) (keep : bool) : option (value B) :=
    match axis with
    | None => Some (whole agg v keep)
    | Some z =>
        match axis_of (ndim v) z, v with
        | None, _ => None
        | Some _, Vec _ => Some (whole agg v keep)
        | Some 0, Mat w rows => let c := map agg (transp w rows) in Some (Array (if keep then Mat w [c] else Vec c))
        | Some _, Mat w rows => let c := map agg rows in Some (Array (if keep then Mat 1 (map (fun a => [a]) c) else Vec c))
        end
    end.

  (** the position of the first element that no element beats *)
  Definition arg_best (better : A -> A -> bool) (l : list A) : nat :=
    let fix go l' i := match l' with
                       | [] => 0
                       | a :: l' => if forallb (fun b => negb (better b a)) l then i else go l' (S i)
                       end in go l 0.
End Reduce.

(** Sums, products, extremes and truth of numbers; None is NaN, which NumPy lets through.  NaN counts as true. *)
Definition nan_or (f : list (option Z) -> option Z) (l : list (option Z)) : option Z :=
  if existsb (fun o => match o with None => true | Some _ => false end) l then None else f l.
Definition n_sum := nan_or p_sum.
Definition n_prod := nan_or p_prod.
Definition n_max := nan_or p_max.
Definition n_min := nan_or p_min.
Definition n_any (l : list (option Z)) : option Z :=
  Some (if existsb (fun o => match o with None => true | Some z => negb (z =? 0)%Z end) l then 1%Z else 0%Z).
Definition n_all (l : list (option Z)) : option Z :=
  Some (if forallb (fun o => match o with None => true | Some z => negb (z =? 0)%Z end) l then 1%Z else 0%Z).
