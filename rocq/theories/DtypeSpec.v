(** Specification for the dtypes metadata, independent of the model: what the columns of a frame really are,
    and how selecting, renaming and gluing frames changes them. *)
From Verif Require Import Base.

Section Spec.
  Context {H T : Type}.
  Variable hdec : forall a b : H, {a = b} + {a <> b}.

  (** The truth about a frame: its column names in order, each with the dtype its values have. *)
  Definition header (cs : list (H * T)) : list H := map fst cs.

  Fixpoint dtype_of (c : H) (cs : list (H * T)) : option T :=
    match cs with
    | [] => None
    | (c', t) :: cs => if hdec c c' then Some t else dtype_of c cs
    end.

  (** [df[ids]]: the columns called [ids], in that order. *)
  Definition selected (cs : list (H * T)) (ids : list H) : list (H * T) :=
    flat_map (fun c => match dtype_of c cs with Some t => [(c, t)] | None => [] end) ids.

  (** [df.iloc[:, ps]]: the columns at positions [ps]. *)
  Definition selected_at (cs : list (H * T)) (ps : list nat) : list (H * T) :=
    flat_map (fun p => match nth_error cs p with Some ct => [ct] | None => [] end) ps.

  (** [df.columns = names]: the same columns, other names. *)
  Definition renamed (cs : list (H * T)) (names : list H) : list (H * T) := combine names (map snd cs).

  (** Names in order of first appearance. *)
  Fixpoint appearing (ns : list H) : list H :=
    match ns with
    | [] => []
    | c :: ns => c :: filter (fun x => if hdec c x then false else true) (appearing ns)
    end.

  (** [pandas.concat(frames, axis=0, join="outer", sort=False)]: a column that a frame lacks is filled with
      missing values (floats); [common] is pandas' common dtype of a list of dtypes. *)
  Definition stacked (common : list T -> T) (tfloat : T) (css : list (list (H * T))) : list (H * T) :=
    map (fun c => (c, common (map (fun cs => match dtype_of c cs with Some t => t | None => tfloat end) css)))
        (appearing (concat (map header css))).

  (** [df[c] = value]: the column [c] gets the dtype of the value. *)
  Definition replaced (cs : list (H * T)) (c : H) (t : T) : list (H * T) :=
    map (fun ct => if hdec c (fst ct) then (c, t) else ct) cs.
End Spec.
