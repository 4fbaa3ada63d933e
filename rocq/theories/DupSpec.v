(** C66, the specification: [duplicated] and [drop_duplicates].  Independent of the model. *)
From Verif Require Import Base Table RemSpec.

Inductive keeping := KFirst | KLast | KNone.

Section Repeated.
  Context {X : Type}.
  Variable same : X -> X -> bool.
  (** an element counts as repeated if the same one stands before it (keep="first"), after it ("last") or anywhere
      else (False) *)
  Fixpoint repeated_from (k : keeping) (before l : list X) : list bool :=
    match l with
    | [] => []
    | x :: t => match k with
                | KFirst => existsb (same x) before
                | KLast => existsb (same x) t
                | KNone => existsb (same x) before || existsb (same x) t
                end :: repeated_from k (before ++ [x]) t
    end.
  Definition repeated (k : keeping) (l : list X) : list bool := repeated_from k [] l.
End Repeated.

Section Tables.
  Context {L H A : Type}.
  Variable heqb : H -> H -> bool.
  Variable same : A -> A -> bool.
  (** rows are the same if all their cells are *)
  Fixpoint same_row (r s : list A) : bool :=
    match r, s with
    | [], [] => true
    | x :: r, y :: s => same x y && same_row r s
    | _, _ => false
    end.
  (** [text] tells the rows of a table apart just as [same] does *)
  Definition faithful {T} (text : list A -> T) (teqb : T -> T -> bool) (d : df L H A) : Prop :=
    forall r s, In r (dcells d) -> In s (dcells d) -> teqb (text r) (text s) = same_row r s.
  (** the columns looked at *)
  Definition looked_at (subset : option (list H)) (d : df L H A) : df L H A :=
    match subset with None => d | Some hs => keep_columns (map (fun h => existsb (heqb h) hs) (dcols d)) d end.
  (** [df.duplicated(keep=k)], as a table of one column *)
  Definition duplicated (name : H) (ofbool : bool -> A) (k : keeping) (d : df L H A) : df L H A :=
    mkdf (dindex d) [name] (map (fun b => [ofbool b]) (repeated same_row k (dcells d))).
  (** [df.drop_duplicates(subset=, keep=k, ignore_index=)]; [num i] is the label i *)
  Definition drop_duplicates (num : nat -> L) (subset : option (list H)) (k : keeping) (ignore : bool) (d : df L H A) : df L H A :=
    let r := keep_rows (map negb (repeated same_row k (dcells (looked_at subset d)))) d in
    if ignore then mkdf (map num (seq 0 (nrows r))) (dcols r) (dcells r) else r.
End Tables.
