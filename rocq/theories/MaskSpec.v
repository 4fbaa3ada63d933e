(** C64, the specification: selecting rows with a mask ([df[mask]], [series[mask]]).  Independent of the model. *)
From Verif Require Import Base Table RemSpec.

Section Mask.
  Context {L : Type}.
  Variable eqb : L -> L -> bool.
  (** what the mask says about the label [l] *)
  Fixpoint given (l : L) (labels : list L) (m : list bool) : option bool :=
    match labels, m with
    | x :: xs, b :: bs => if eqb l x then Some b else given l xs bs
    | _, _ => None
    end.
  Fixpoint all_given (index labels : list L) (m : list bool) : option (list bool) :=
    match index with
    | [] => Some []
    | l :: ls => match given l labels m, all_given ls labels m with Some b, Some bs => Some (b :: bs) | _, _ => None end
    end.
  (** A boolean Series with labels [labels] and values [m] as a mask for rows labelled [index]: the same labels are
      matched one by one, otherwise every row takes the value under its label; pandas raises if there is none. *)
  Definition aligned (index labels : list L) (m : list bool) : option (list bool) :=
    if list_eqb eqb index labels then Some m else all_given index labels m.
End Mask.
