(** C95: what [df.take(indices, axis)] means. *)
From Verif Require Import Base Table SelSpec.

(** the indices as the user writes them: a list or array of integers, a tuple of integers, a list or array of booleans *)
Inductive indices := Positions (zs : list Z) | Tuple (zs : list Z) | Bools (bs : list bool).
(** pandas makes an array of integers of them all: False is 0, True is 1 *)
Definition as_ints (i : indices) : list Z :=
  match i with Positions zs | Tuple zs => zs | Bools bs => map (fun b : bool => if b then 1%Z else 0%Z) bs end.
(** the i-th item of the result is the row (column) at the i-th position asked for, counted from the end if negative;
    None: IndexError *)
Definition p_take {L H A} (columns : bool) (i : indices) (d : df L H A) : option (df L H A) :=
  let inside n := forallb (fun z => (- Z.of_nat n <=? z) && (z <? Z.of_nat n))%Z (as_ints i) in
  let places n := map (fun z => Z.to_nat (if (z <? 0)%Z then z + Z.of_nat n else z)%Z) (as_ints i) in
  if columns
  then if inside (ncols d) then Some (mkdf (dindex d) (pick (dcols d) (places (ncols d))) (map (fun r => pick r (places (ncols d))) (dcells d))) else None
  else if inside (nrows d) then Some (mkdf (pick (dindex d) (places (nrows d))) (dcols d) (pick (dcells d) (places (nrows d)))) else None.
(** no row (column) is asked for twice, also not once from the front and once from the end *)
Definition distinct (n : nat) (i : indices) : Prop := NoDup (map (fun z => if (z <? 0)%Z then z + Z.of_nat n else z)%Z (as_ints i)).
