(** What pandas' [dot] returns: an independent description, on whole tables.
    Labels of rows and columns have one type [L]; [num] is the label a new range of labels has;
    [inner] is the product of two lines of numbers, [union] pandas' [Index.union]. *)
From Verif Require Import Base Table.

Section Spec.
  Context {L A : Type}.
  Variable leqb : L -> L -> bool.
  Variables (nan : A) (inner : list A -> list A -> A).
  Variables (num : nat -> L) (union : list L -> list L -> list L).

  (** What a frame or a Series can be multiplied by. *)
  Inductive other :=
  | OFrame (t : df L L A)
  | OSeries (index : list L) (vals : list A)
  | OMatrix (width : nat) (rows : list (list A))
  | OVector (vals : list A).

  (** What comes out.  [AArray0] is an array without dimensions. *)
  Inductive answer :=
  | AFrame (t : df L L A)
  | ASeries (name : option L) (index : list L) (vals : list A)
  | AScalar (v : A)
  | AArray (vals : list A)
  | AArray0 (v : A).

  Fixpoint repeats (ls : list L) : bool :=
    match ls with
    | [] => false
    | l :: rest => existsb (leqb l) rest || repeats rest
    end.

  (** [reindex]: labels that repeat cannot be rearranged. *)
  Definition rearrangeable (ls target : list L) : bool := list_eqb leqb ls target || negb (repeats ls).

  Fixpoint value_at {X} (dflt : X) (ls : list L) (vs : list X) (l : L) : X :=
    match ls, vs with
    | k :: ls', v :: vs' => if leqb k l then v else value_at dflt ls' vs' l
    | _, _ => dflt
    end.
  Definition arrange {X} (dflt : X) (ls : list L) (vs : list X) (target : list L) : list X :=
    if list_eqb leqb ls target then vs else map (value_at dflt ls vs) target.

  (** The columns of a matrix of the given width. *)
  Definition lines (width : nat) (rows : list (list A)) : list (list A) :=
    map (fun j => map (fun r => nth j r nan) rows) (seq 0 width).

  (** The labels [mine] can be matched with the labels [theirs] of the other operand. *)
  Definition matching (mine theirs : list L) : bool :=
    let common := union mine theirs in
    (length common <=? length mine) && (length common <=? length theirs)
    && rearrangeable mine common && rearrangeable theirs common.

  (** pandas [DataFrame.dot] *)
  Definition p_dot (d : df L L A) (o : other) : res answer :=
    match o with
    | OFrame t =>
        let common := union (dcols d) (dindex t) in
        if matching (dcols d) (dindex t) then
          Ok (AFrame (mkdf (dindex d) (dcols t)
                (map (fun r => map (inner (arrange nan (dcols d) r common))
                                   (lines (ncols t) (arrange (repeat nan (ncols t)) (dindex t) (dcells t) common)))
                     (dcells d))))
        else Err ValueError
    | OSeries ix vs =>
        let common := union (dcols d) ix in
        if matching (dcols d) ix then
          Ok (ASeries None (dindex d)
                (map (fun r => inner (arrange nan (dcols d) r common) (arrange nan ix vs common)) (dcells d)))
        else Err ValueError
    | OMatrix w rows =>
        if ncols d =? length rows then
          Ok (AFrame (mkdf (dindex d) (map num (seq 0 w)) (map (fun r => map (inner r) (lines w rows)) (dcells d))))
        else Err ValueError
    | OVector vs =>
        if ncols d =? length vs then Ok (ASeries None (dindex d) (map (fun r => inner r vs) (dcells d)))
        else Err ValueError
    end.

  (** pandas [Series.dot] of a Series with the given name, labels and values *)
  Definition p_sdot (name : option L) (index : list L) (vals : list A) (o : other) : res answer :=
    match o with
    | OFrame t =>
        let common := union index (dindex t) in
        if matching index (dindex t) then
          Ok (ASeries name (dcols t)
                (map (inner (arrange nan index vals common))
                     (lines (ncols t) (arrange (repeat nan (ncols t)) (dindex t) (dcells t) common))))
        else Err ValueError
    | OSeries ix vs =>
        let common := union index ix in
        if matching index ix then Ok (AScalar (inner (arrange nan index vals common) (arrange nan ix vs common)))
        else Err ValueError
    | OMatrix w rows =>
        if length index =? length rows then Ok (AArray (map (inner vals) (lines w rows))) else Err ValueError
    | OVector vs =>
        if length index =? length vs then Ok (AScalar (inner vals vs)) else Err ValueError
    end.

  (** The numbers agree, whatever the labels. *)
  Definition same_values (a b : answer) : Prop :=
    match a, b with
    | AFrame t, AFrame u => dcells t = dcells u
    | ASeries _ _ v, ASeries _ _ w => v = w
    | AScalar v, AScalar w => v = w
    | AArray v, AArray w => v = w
    | _, _ => False
    end.
End Spec.
Arguments other : clear implicits.
Arguments answer : clear implicits.
