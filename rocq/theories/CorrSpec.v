(** C58, the specification: the pairwise statistics of the columns of a table.  A cell is a number or missing. *)
From Verif Require Import Base Table GroupSpec.
From Coq Require Import QArith Qcanon.
Open Scope nat_scope.

(** The columns of a table. *)
Definition columns_of {L H A} (d : df L H A) : list (list A) := transp (ncols d) (dcells d).

(** The rows where both columns have a number. *)
Definition both (x y : list (option Qc)) : list (Qc * Qc) :=
  concat (map (fun p => match p with (Some a, Some b) => [(a, b)] | _ => [] end) (combine x y)).

(** The sum over the rows of (a - mean of the a's) * (b - mean of the b's). *)
Definition deviations (ps : list (Qc * Qc)) : Qc :=
  let ma := (qsum (map fst ps) / qlen ps)%Qc in
  let mb := (qsum (map snd ps) / qlen ps)%Qc in
  qsum (map (fun p => ((fst p - ma) * (snd p - mb))%Qc) ps).

Section Statistics.
  Variable root : Qc -> Qc.   (* the square root *)

  (** Pearson's correlation of two columns over the rows where both are present; missing when there are fewer
      than [min_periods] such rows, or when one of the two does not vary. *)
  Definition correlation (min_periods : nat) (x y : list (option Qc)) : option Qc :=
    let ps := both x y in
    let down := (root (deviations (map (fun p => (fst p, fst p)) ps)) * root (deviations (map (fun p => (snd p, snd p)) ps)))%Qc in
    if length ps <? min_periods then None
    else if Qc_eq_dec down (Q2Qc 0) then None
    else Some (deviations ps / down)%Qc.

  Definition correlations {L} (min_periods : nat) (d : df L L (option Qc)) : df L L (option Qc) :=
    mkdf (dcols d) (dcols d) (map (fun x => map (correlation min_periods x) (columns_of d)) (columns_of d)).
End Statistics.

(** [pandas.DataFrame.cov]: with missing cells, the covariance of the rows where both are present, divided by
    their number minus one; without, the covariance of all rows divided by their number minus [ddof].  Missing
    when the divisor is not positive (numpy then divides by zero). *)
Definition whole (d : list (list (option Qc))) : bool :=
  forallb (forallb (fun o => match o with Some _ => true | None => false end)) d.
Definition qz (n : Z) : Qc := Q2Qc (inject_Z n).
Definition covariance (complete : bool) (min_periods : option nat) (ddof : Z) (x y : list (option Qc)) : option Qc :=
  let ps := both x y in
  let least := match min_periods with Some n => n | None => if complete then 0 else 1 end in
  let divisor := (Z.of_nat (length ps) - (if complete then ddof else 1))%Z in
  if length ps <? least then None
  else if complete && (divisor <=? 0)%Z then None
  else if (divisor =? 0)%Z then None
  else Some (deviations ps / qz divisor)%Qc.
Definition covariances {L} (min_periods : option nat) (ddof : Z) (d : df L L (option Qc)) : df L L (option Qc) :=
  mkdf (dcols d) (dcols d)
    (map (fun x => map (covariance (whole (dcells d)) min_periods ddof x) (columns_of d)) (columns_of d)).
