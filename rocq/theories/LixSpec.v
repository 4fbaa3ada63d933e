(** What pandas returns for [left.join(right, how=...)] without [on] (C87): rows are matched by their labels. *)
From Verif Require Import Base Table MergeSpec.

Section LabelJoin.
  Context {L H A : Type}.
  Variable leqb : L -> L -> bool.
  Variable nan : A.
  (** the headers of the result, with suffixes; ValueError if they overlap and there are none *)
  Variable names : list H -> list H -> res (list H).

  (** the rows of [d] with the label [x] *)
  Definition labelled (d : df L H A) (x : L) : list (L * list A) :=
    filter (fun y => leqb x (fst y)) (combine (dindex d) (dcells d)).
  (** every left row with every right row of its label; if there is none, padded or dropped *)
  Definition from_left (inner : bool) (r : df L H A) (x : L * list A) : list (L * list A) :=
    match labelled r (fst x) with
    | [] => if inner then [] else [(fst x, snd x ++ repeat nan (ncols r))]
    | ys => map (fun y => (fst x, snd x ++ snd y)) ys
    end.
  (** every right row with every left row of its label *)
  Definition from_right (l : df L H A) (y : L * list A) : list (L * list A) :=
    match labelled l (fst y) with
    | [] => [(fst y, repeat nan (ncols l) ++ snd y)]
    | xs => map (fun x => (fst y, snd x ++ snd y)) xs
    end.
  Definition matched (h : how) (l r : df L H A) : list (L * list A) :=
    match h with
    | HLeft => flat_map (from_left false r) (combine (dindex l) (dcells l))
    | HInner => flat_map (from_left true r) (combine (dindex l) (dcells l))
    | HRight => flat_map (from_right l) (combine (dindex r) (dcells r))
    end.
  Definition p_label_join (h : how) (l r : df L H A) : res (df L H A) :=
    do c <- names (dcols l) (dcols r);
    Ok (mkdf (map fst (matched h l r)) c (map snd (matched h l r))).
End LabelJoin.
