(** C94: what [df.head(n)] and [df.tail(n)] mean. *)
From Verif Require Import Base Table.

Section Head.
  Context {L H A : Type}.
  (** the first n rows, all of them if there are fewer; for negative n all rows but the last -n *)
  Definition p_head (n : Z) (d : df L H A) : df L H A :=
    let k := if (0 <=? n)%Z then Z.to_nat n else nrows d - Z.to_nat (- n) in mkdf (firstn k (dindex d)) (dcols d) (firstn k (dcells d)).
  (** the last n rows, all of them if there are fewer; for negative n all rows but the first -n *)
  Definition p_tail (n : Z) (d : df L H A) : df L H A :=
    let k := if (0 <=? n)%Z then nrows d - Z.to_nat n else Z.to_nat (- n) in mkdf (skipn k (dindex d)) (dcols d) (skipn k (dcells d)).
End Head.
