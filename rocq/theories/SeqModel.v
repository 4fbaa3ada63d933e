(** pandas/series.py [equals] (C91). *)
From Verif Require Import Base Table ChunkModel GridModel JoinModel SelModel InsModel EquModel.

Section Model.
  Context {L H A : Type}.
  Variable leqb : L -> L -> bool.
  Variable heqb : H -> H -> bool.
  Variable aeqb : A -> A -> bool.
  Variable fill : A.
  Variables nparts min_row min_col : nat.
  (** the name "temp_name_for_equals_op" *)
  Variable temp : H.
  Notation pf := (@pframe L H A).
  (** the frames behind the user's Series, by number; two variables may be the same Series *)
  Notation heap := (nat -> pf).

  (** series.py [_get_name] 186-197 (the label that stands for None is one of the names here) *)
  Definition get_name (h : heap) (k : nat) : res H := match col_labels (h k) with n :: _ => Ok n | [] => Err IndexError end.
  (** series.py [_set_name] 199-214: the frame itself gets new headers.  The labels are put into the blocks here and now and the cached lengths
      are left out, as in [InsModel.set_columns]. *)
  Definition set_name (h : heap) (k : nat) (n : H) : res heap :=
    do f <- set_columns heqb [n] (h k); Ok (fun m => if m =? k then f else h m).

  (** series.py [equals] 1138-1161: both Series are renamed, compared and given their names back, also after an exception of the comparison.
      Exceptions of the renaming itself end the call here.  Result: the answer, and the Series after the call. *)
  Definition s_equals (h : heap) (i j : nat) : res (res bool * heap) :=
    if negb (list_eqb leqb (row_labels (h i)) (row_labels (h j))) then Ok (Ok false, h)
    else
      do old_self <- get_name h i;
      do old_other <- get_name h j;
      do h1 <- set_name h i temp;
      do h2 <- set_name h1 j temp;
      let answers := qc_equals leqb heqb aeqb fill nparts min_row min_col (labelled (h2 i)) (labelled (h2 j)) in
      do h3 <- set_name h2 i old_self;
      do h4 <- set_name h3 j old_other;
      Ok (do a <- answers; Ok (forallb (forallb (fun b => b)) a), h4).
End Model.
