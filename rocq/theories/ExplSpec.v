(** What pandas' [explode] returns: an independent description, on a whole table. *)
From Verif Require Import Base Table.

Section Spec.
  Context {L H A : Type}.
  Variable heqb : H -> H -> bool.
  (** the elements of a cell: those of a list, NaN for an empty list, the cell itself otherwise *)
  Variable elements : A -> list A.
  Variable num : nat -> L.

  Fixpoint twice (hs : list H) : bool :=
    match hs with
    | [] => false
    | h :: rest => existsb (heqb h) rest || twice rest
    end.

  Definition all_same (ns : list nat) : bool := match ns with [] => true | n :: rest => forallb (Nat.eqb n) rest end.

  (** A row and which of its cells are exploded: as many rows as these cells have elements. *)
  Definition explode_row (marks : list bool) (row : list A) : res (list (list A)) :=
    let lists := map (fun p => elements (snd p)) (filter fst (combine marks row)) in
    if all_same (map (@length A) lists) then
      Ok (map (fun k => map (fun p : bool * A => if fst p then nth k (elements (snd p)) (snd p) else snd p) (combine marks row))
              (seq 0 (length (hd [] lists))))
    else Err ValueError.

  (** The labels must be known and distinct, and those of the frame too. *)
  Definition allowed (columns cols : list H) : res unit :=
    if twice cols then Err ValueError
    else if match columns with [] => true | _ => twice columns end then Err ValueError
    else if forallb (fun c => existsb (heqb c) cols) columns then Ok tt else Err KeyError.

  (** [df.explode(columns, ignore_index=)]: the label of a row is repeated for each of its elements. *)
  Definition p_explode (columns : list H) (ignore_index : bool) (d : df L H A) : res (df L H A) :=
    do _ <- allowed columns (dcols d);
    do pieces <- rmap (explode_row (map (fun h => existsb (heqb h) columns) (dcols d))) (dcells d);
    let index := concat (map (fun p => repeat (fst p) (length (snd p))) (combine (dindex d) pieces)) in
    Ok (mkdf (if ignore_index then map num (seq 0 (length index)) else index) (dcols d) (concat pieces)).
End Spec.
