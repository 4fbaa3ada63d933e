(** NumPy arrays of one or two dimensions as values, indexing and splitting by NumPy's rules.  Independent of the model. *)
From Verif Require Import Base Table SelSpec.

Section Nd.
  Context {A : Type}.

  Inductive nd := Vec (l : list A) | Mat (width : nat) (rows : list (list A)).
  Inductive value := Scalar (a : A) | Array (v : nd).

  Definition shape (v : nd) : list nat :=
    match v with Vec l => [length l] | Mat w rows => [length rows; w] end.

  (** the table an array is kept in: rows and columns numbered from 0; a vector is one column *)
  Definition table_of (v : nd) : df nat nat A :=
    match v with
    | Vec l => mkdf (seq 0 (length l)) [0] (map (fun a => [a]) l)
    | Mat w rows => mkdf (seq 0 (length rows)) (seq 0 w) rows
    end.
  Definition ndim (v : nd) : nat := match v with Vec _ => 1 | Mat _ _ => 2 end.

  (** the cells in the rows [ps] and the columns [qs] *)
  Definition cross (rows : list (list A)) (ps qs : list nat) : list (list A) := map (fun r => pick r qs) (pick rows ps).

  Definition is_int (k : locator) : bool := match k with LInt _ => true | _ => false end.
  Definition is_slice (k : locator) : bool := match k with LSlice _ _ _ => true | _ => false end.

  (** [a[rk, ck]] of a 2-D array; None: NumPy raises.  A number drops its axis.  Two lists (masks, ranges) are read together,
      element by element, not as a cross product. *)
  Definition np_get2 (w : nat) (rows : list (list A)) (rk ck : locator) : option value :=
    match positions (length rows) rk, positions w ck with
    | Some ps, Some qs =>
        if is_int rk && is_int ck then match concat (cross rows ps qs) with [a] => Some (Scalar a) | _ => None end
        else if is_int rk || is_int ck then Some (Array (Vec (concat (cross rows ps qs))))
        else if is_slice rk || is_slice ck then Some (Array (Mat (length qs) (cross rows ps qs)))
        else if (length ps =? 1) || (length qs =? 1) then Some (Array (Vec (concat (cross rows ps qs))))
        else if length ps =? length qs
             then Some (Array (Vec (flat_map (fun pq => concat (cross rows [fst pq] [snd pq])) (combine ps qs))))
             else None
    | _, _ => None
    end.

  (** [a[rk]] ([ck = None]) or [a[rk, ck]] *)
  Definition np_get (v : nd) (rk : locator) (ck : option locator) : option value :=
    match v, ck with
    | Vec l, None =>
        match positions (length l) rk with
        | Some ps => if is_int rk then match pick l ps with [a] => Some (Scalar a) | _ => None end
                     else Some (Array (Vec (pick l ps)))
        | None => None
        end
    | Vec _, Some _ => None
    | Mat w rows, None => np_get2 w rows rk (LSlice None None None)
    | Mat w rows, Some ck => np_get2 w rows rk ck
    end.

  (** the part of [v] between the positions [a] and [b] of an axis ([axis = true]: columns) *)
  Definition part (axis : bool) (v : nd) (a b : nat) : nd :=
    match v with
    | Vec l => Vec (slice l a b)
    | Mat w rows => if axis then Mat (length (slice (seq 0 w) a b)) (map (fun r => slice r a b) rows) else Mat w (slice rows a b)
    end.
  Definition axis_len (axis : bool) (v : nd) : nat :=
    match v with Vec l => length l | Mat w rows => if axis then w else length rows end.

  (** a bound of a Python slice *)
  Definition bound (n : nat) (z : Z) : nat :=
    if (z <? 0)%Z then Z.to_nat (z + Z.of_nat n) else Nat.min (Z.to_nat z) n.

  (** [np.split(v, idx, axis)]: [v[0:i1]], [v[i1:i2]], ..., [v[ik:]] *)
  Fixpoint pieces (axis : bool) (v : nd) (from : nat) (idx : list Z) : list nd :=
    match idx with
    | [] => [part axis v from (axis_len axis v)]
    | z :: idx => part axis v from (bound (axis_len axis v) z) :: pieces axis v (bound (axis_len axis v) z) idx
    end.
  Definition np_split (axis : bool) (v : nd) (idx : list Z) : list nd := pieces axis v 0 idx.

  (** [np.split(v, k, axis)]: [k] equal parts *)
  Definition np_split_even (axis : bool) (v : nd) (k : nat) : list nd :=
    map (fun i => part axis v (i * (axis_len axis v / k)) (S i * (axis_len axis v / k))) (seq 0 k).
End Nd.
Arguments nd A : clear implicits.
Arguments value A : clear implicits.
