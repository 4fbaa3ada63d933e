(** C93: what [df.truncate(before, after)] means on sorted row labels. *)
From Verif Require Import Base Table.

Section Truncate.
  Context {L H A : Type}.
  Variable leb : L -> L -> bool.
  Variables before after : option L.
  Definition between (x : L) : bool :=
    match before with Some b => leb b x | None => true end && match after with Some a => leb x a | None => true end.
  (** the rows whose label is neither before [before] nor after [after], in order *)
  Definition p_truncate (d : df L H A) : df L H A :=
    let rows := filter (fun r => between (fst r)) (combine (dindex d) (dcells d)) in mkdf (map fst rows) (dcols d) (map snd rows).
  (** labels in increasing or decreasing order *)
  Fixpoint increasing (l : list L) : bool :=
    match l with x :: ((y :: _) as t) => leb x y && increasing t | _ => true end.
  Fixpoint decreasing (l : list L) : bool :=
    match l with x :: ((y :: _) as t) => leb y x && decreasing t | _ => true end.
End Truncate.

(** [df.truncate(before, after, axis=1)]: the columns whose header lies between the bounds, whole and in order *)
Definition p_truncate_cols {L H A} (leb : H -> H -> bool) (before after : option H) (d : df L H A) : df L H A :=
  mkdf (dindex d) (filter (between leb before after) (dcols d))
    (map (fun r => map snd (filter (fun c => between leb before after (fst c)) (combine (dcols d) r))) (dcells d)).
