(** C92: what pandas' [df.filter] gives along the columns. *)
From Verif Require Import Base Table.

Section Filter.
  Context {L H A : Type}.
  (** [like], [regex]: all columns whose header passes the test, in order (also if headers repeat) *)
  Definition p_filter (test : H -> bool) (d : df L H A) : df L H A :=
    mkdf (dindex d) (filter test (dcols d)) (map (fun r => map snd (filter (fun hx => test (fst hx)) (combine (dcols d) r))) (dcells d)).

  Variable heqb : H -> H -> bool.
  Definition mem (h : H) (hs : list H) : bool := existsb (heqb h) hs.
  (** the first occurrence of every item *)
  Fixpoint once (seen items : list H) : list H :=
    match items with [] => [] | h :: items => if mem h seen then once seen items else h :: once (h :: seen) items end.
  Definition under (cols : list H) (r : list A) (h : H) : list A :=
    match find (fun hx => heqb (fst hx) h) (combine cols r) with Some hx => [snd hx] | None => [] end.
  (** [items]: the columns named by an item, in the order of the items, each once *)
  Definition p_filter_items (items : list H) (d : df L H A) : df L H A :=
    let hs := filter (fun h => mem h (dcols d)) (once [] items) in
    mkdf (dindex d) hs (map (fun r => flat_map (under (dcols d) r) hs) (dcells d)).
End Filter.
