(** What pandas returns for [left.join(right, on=key, how=...)] (C86): the cells of one column of [left] are looked up among the
    row labels of [right].  pandas numbers nothing anew: rows keep the labels of [left].
    A column [on] that occurs twice is a ValueError.  This is pandas' result only if [on] is not a header of [right]: then pandas has
    further rules for a key column that was renamed. *)
From Verif Require Import Base Table GroupSpec MergeSpec.

Section Join.
  Context {L H A : Type}.
  Variable heqb : H -> H -> bool.
  Variable nan : A.
  (** the cell is the label; the label as a cell; the label of a row without a left row *)
  Variable is_label : A -> L -> bool.
  Variable label_cell : L -> A.
  Variable nolabel : L.
  (** the headers of the result from those of both sides, with suffixes; ValueError if they overlap and there are none *)
  Variable names : list H -> list H -> res (list H).
  Definition rows (d : df L H A) : list (L * list A) := combine (dindex d) (dcells d).
  (** the key of a row: its cell in the column [on] *)
  Definition key (cols : list H) (on : H) (row : list A) : A := hd nan (keepl (heqb on) cols row).

  Definition left_rows (inner : bool) (lcols : list H) (on : H) (r : df L H A) (x : L * list A) : list (L * list A) :=
    match filter (fun y => is_label (key lcols on (snd x)) (fst y)) (rows r) with
    | [] => if inner then [] else [(fst x, snd x ++ repeat nan (ncols r))]
    | ys => map (fun y => (fst x, snd x ++ snd y)) ys
    end.
  (** a right row without partner: NaN as label (its own label if [left] has no rows), its label in the column [on] *)
  Definition right_rows (l : df L H A) (on : H) (y : L * list A) : list (L * list A) :=
    match filter (fun x => is_label (key (dcols l) on (snd x)) (fst y)) (rows l) with
    | [] => [(match rows l with [] => fst y | _ => nolabel end, map (fun h => if heqb on h then label_cell (fst y) else nan) (dcols l) ++ snd y)]
    | xs => map (fun x => (fst x, snd x ++ snd y)) xs
    end.
  (** how="left": every left row with every right row of its key, alone if there is none; "inner": only those with a partner;
      "right": every right row with every left row of its key *)
  Definition joined (h : how) (on : H) (l r : df L H A) : list (L * list A) :=
    match h with
    | HLeft => flat_map (left_rows false (dcols l) on r) (rows l)
    | HInner => flat_map (left_rows true (dcols l) on r) (rows l)
    | HRight => flat_map (right_rows l on) (rows r)
    end.
  Definition p_join (h : how) (on : H) (l r : df L H A) : res (df L H A) :=
    match filter (heqb on) (dcols l) with
    | [] => Err KeyError
    | [_] => do c <- names (dcols l) (dcols r);
             Ok (mkdf (map fst (joined h on l r)) c (map snd (joined h on l r)))
    | _ => Err ValueError
    end.
End Join.
