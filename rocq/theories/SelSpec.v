(** Selecting rows and columns of a table by position: what [df.iloc[rows, cols]] means in pandas.
    Independent of the model. *)
From Verif Require Import Base Table.

(** The elements of [l] at the given positions, in the given order, repetitions included. *)
Definition pick {X} (l : list X) (ps : list nat) : list X :=
  concat (map (fun p => match nth_error l p with Some x => [x] | None => [] end) ps).

Section Take.
  Context {L H A : Type}.
  (** The table whose i-th row (column) is row (column) number [rows[i]] ([cols[i]]) of [d]. *)
  Definition take2d (rows cols : list nat) (d : df L H A) : df L H A :=
    mkdf (pick (dindex d) rows) (pick (dcols d) cols)
         (map (fun r => pick r cols) (pick (dcells d) rows)).
End Take.

(** Python's [range(start, stop, step)] as a list. *)
Definition range_len (start stop step : Z) : nat :=
  (if step >? 0 then Z.to_nat ((stop - start + step - 1) / step)
   else if step <? 0 then Z.to_nat ((start - stop - step - 1) / - step)
   else 0%nat)%Z.
Definition py_range (start stop step : Z) : list Z :=
  map (fun k => start + Z.of_nat k * step)%Z (seq 0 (range_len start stop step)).

(** Python's [slice(start, stop, step).indices(n)] *)
Definition slice_indices (n : nat) (start stop step : option Z) : option (Z * Z * Z) :=
  let st := match step with Some s => s | None => 1%Z end in
  let n := Z.of_nat n in
  if (st =? 0)%Z then None
  else
    let lower := if (st <? 0)%Z then (-1)%Z else 0%Z in
    let upper := if (st <? 0)%Z then (n - 1)%Z else n in
    let clip z := if (z <? 0)%Z then Z.max (z + n) lower else Z.min z upper in
    let a := match start with
             | None => if (st <? 0)%Z then upper else lower
             | Some z => clip z
             end in
    let b := match stop with
             | None => if (st <? 0)%Z then lower else upper
             | Some z => clip z
             end in
    Some (a, b, st).

(** A position counted from the end when negative; None when out of bounds. *)
Definition wrap (n : nat) (z : Z) : option nat :=
  if ((0 <=? z) && (z <? Z.of_nat n))%Z then Some (Z.to_nat z)
  else if ((- Z.of_nat n <=? z) && (z <? 0))%Z then Some (Z.to_nat (z + Z.of_nat n))
  else None.

Fixpoint wrap_all (n : nat) (zs : list Z) : option (list nat) :=
  match zs with
  | [] => Some []
  | z :: zs => match wrap n z, wrap_all n zs with
               | Some p, Some ps => Some (p :: ps)
               | _, _ => None
               end
  end.

(** What one may write inside [df.iloc[ ]] for one axis. *)
Inductive locator :=
  | LInt (z : Z)
  | LSlice (start stop step : option Z)
  | LRange (start stop step : Z)      (* a Python range or a pandas RangeIndex *)
  | LMask (mask : list bool)
  | LList (zs : list Z).

(** The positions pandas selects on an axis of length [n]; None means pandas raises. *)
Definition positions (n : nat) (loc : locator) : option (list nat) :=
  match loc with
  | LInt z => wrap_all n [z]
  | LSlice a b s =>
      match slice_indices n a b s with
      | Some (x, y, st) => wrap_all n (py_range x y st)
      | None => None
      end
  | LRange x y st => if (st =? 0)%Z then None else wrap_all n (py_range x y st)
  | LMask m => if length m =? n
               then Some (map fst (filter (fun p => snd p) (combine (seq 0 n) m)))
               else None
  | LList zs => wrap_all n zs
  end.

(** [ix] sorts [l]: a permutation of the positions of [l] that lists it in increasing order.
    NumPy's default [argsort] promises this and nothing about ties. *)
Definition sorts (l : list Z) (ix : list nat) : Prop :=
  Permutation ix (seq 0 (length l)) /\ Sorted Z.le (pick l ix).
