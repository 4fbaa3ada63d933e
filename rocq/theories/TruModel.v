(** pandas/base.py [truncate] 3694-3712 (C93). *)
From Verif Require Import Base Table ChunkModel GridModel SelSpec SelModel TruSpec.

Section Model.
  Context {L H A : Type}.
  Variable leqb : L -> L -> bool.
  Variable heqb : H -> H -> bool.
  Variable leb : L -> L -> bool.
  Variable hleb : H -> H -> bool.
  Variables min_row min_col nparts : nat.
  Variables known_l known_w : nat -> nat -> bool.
  Variable argsort : list Z -> list nat.
  Variable big : bool.
  Notation pf := (@pframe L H A).

  Definition count {X} (p : X -> bool) (l : list X) : nat := length (filter p l).
  (** pandas' [Index.slice_locs(before, after)] on monotonic labels: for increasing labels the number of labels less than [before] and of
      labels up to [after]; for decreasing labels the number of labels greater than [before] and of labels from [after] on *)
  Definition slice_locs {X} (leb : X -> X -> bool) (before after : option X) (index : list X) : nat * nat :=
    let inc := increasing leb index in
    (match before with None => 0 | Some b => count (fun x => negb (if inc then leb b x else leb x b)) index end,
     match after with None => length index | Some a => count (fun x => if inc then leb x a else leb a x) index end).

  (** base.py 3700-3712 with axis=0 *)
  Definition truncate (before after : option L) (f : pf) : res pf :=
    do index <- labels (pindex f);
    if negb (increasing leb index) && negb (decreasing leb index) then Err ValueError
    else if match before, after with Some b, Some a => negb (leb b a) | _, _ => false end then Err ValueError
    else
      let s := slice_locs leb before after index in
      iloc_getitem leqb heqb min_row min_col nparts known_l known_w argsort big
        (LSlice (Some (Z.of_nat (fst s))) (Some (Z.of_nat (snd s))) None) (LSlice None None None) f.

  (** base.py 3700-3712 with axis=1 *)
  Definition truncate_cols (before after : option H) (f : pf) : res pf :=
    do columns <- labels (pcols f);
    if negb (increasing hleb columns) && negb (decreasing hleb columns) then Err ValueError
    else if match before, after with Some b, Some a => negb (hleb b a) | _, _ => false end then Err ValueError
    else
      let s := slice_locs hleb before after columns in
      iloc_getitem leqb heqb min_row min_col nparts known_l known_w argsort big
        (LSlice None None None) (LSlice (Some (Z.of_nat (fst s))) (Some (Z.of_nat (snd s))) None) f.
End Model.
