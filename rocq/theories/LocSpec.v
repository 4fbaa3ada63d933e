(** C59, the specification: selecting by label ([df.loc]).  Independent of the model. *)
From Verif Require Import Base Table SelSpec.

(** What one may write inside [df.loc[ ]] for one axis. *)
Inductive key (L : Type) :=
  | KLabel (l : L)
  | KList (ls : list L)                            (* a list of labels *)
  | KIndex (ls : list L)                           (* a pandas.Index of labels *)
  | KSlice (a b : option L) (step : option Z)      (* a:b:step *)
  | KRange (x y s : Z)                             (* a Python range *)
  | KRangeIndex (x y s : Z)                        (* a pandas.RangeIndex *)
  | KMask (m : list bool).
Arguments KLabel {L} l.
Arguments KList {L} ls.
Arguments KIndex {L} ls.
Arguments KSlice {L} a b step.
Arguments KRange {L} x y s.
Arguments KRangeIndex {L} x y s.
Arguments KMask {L} m.
Definition KAll {L} : key L := KSlice None None None.

Section Located.
  Context {L : Type}.
  Variables eqb leb : L -> L -> bool.        (* equality and order of labels *)
  Variable of_Z : Z -> L.                    (* integers as labels *)

  (** The positions of a label. *)
  Definition everywhere (labels : list L) (l : L) : list nat :=
    map fst (filter (fun p => eqb (snd p) l) (combine (seq 0 (length labels)) labels)).

  (** All positions of every label asked for, in the order asked for; None when one is absent. *)
  Fixpoint all_of (labels : list L) (ls : list L) : option (list nat) :=
    match ls with
    | [] => Some []
    | l :: ls => match everywhere labels l, all_of labels ls with
                 | p :: ps, Some qs => Some ((p :: ps) ++ qs)
                 | _, _ => None
                 end
    end.

  (** Where a slice starting (ending) at a label starts (ends): before the first (after the last) position of
      the label, whose positions must be next to each other; if it is absent, where it would be inserted, the
      labels being in order.  None: pandas raises (or the labels are in decreasing order). *)
  Definition less (x y : L) : bool := leb x y && negb (eqb x y).
  Fixpoint in_order (labels : list L) : bool :=
    match labels with
    | x :: (y :: _) as tl => leb x y && in_order tl
    | _ => true
    end.
  Definition place (labels : list L) (l : L) : option (nat * nat) :=
    match everywhere labels l with
    | p :: ps => if list_eqb Nat.eqb (p :: ps) (seq p (S (length ps))) then Some (p, p + S (length ps)) else None
    | [] => if in_order labels then let n := length (filter (fun x => less x l) labels) in Some (n, n) else None
    end.
  Definition first_of (labels : list L) (l : option L) : option nat :=
    match l with None => Some 0 | Some l => option_map fst (place labels l) end.
  Definition past_of (labels : list L) (l : option L) : option nat :=
    match l with None => Some (length labels) | Some l => option_map snd (place labels l) end.

  (** a:b:step takes both ends.  Going down, it runs from the last position of [a] to the first of [b]. *)
  Definition sliced (labels : list L) (a b : option L) (step : option Z) : option (list Z) :=
    let st := match step with Some s => s | None => 1%Z end in
    if (st =? 0)%Z then None
    else if (0 <? st)%Z
    then match first_of labels a, past_of labels b with
         | Some lo, Some hi => Some (py_range (Z.of_nat lo) (Z.of_nat hi) st)
         | _, _ => None
         end
    else match past_of labels a, first_of labels b with
         | Some hi, Some lo => Some (py_range (Z.of_nat hi - 1) (Z.of_nat lo - 1) st)
         | _, _ => None
         end.

  (** The positions pandas selects on an axis with these labels; None: pandas raises. *)
  Definition located (labels : list L) (k : key L) : option (list nat) :=
    match k with
    | KLabel l => all_of labels [l]
    | KList ls | KIndex ls => all_of labels ls
    | KRange x y s | KRangeIndex x y s => if (s =? 0)%Z then None else all_of labels (map of_Z (py_range x y s))
    | KSlice a b s => option_map (map Z.to_nat) (sliced labels a b s)
    | KMask m => if length m =? length labels
                 then Some (map fst (filter (fun p => snd p) (combine (seq 0 (length labels)) m)))
                 else None
    end.
End Located.

(** Vocabulary for the conditions of the theorems: the keys for which the current code follows pandas. *)
Section Plain.
  Context {L : Type}.
  Variables eqb leb : L -> L -> bool.
  Variable of_Z : Z -> L.
  Variable num : L -> option Z.             (* the value of an integer label *)
  Variable coerce : L -> res L.             (* conversion to the dtype of the axis labels *)
  (** 0, 1, 2, ... *)
  Definition default_labels (labels : list L) : Prop := labels = map of_Z (map Z.of_nat (seq 0 (length labels))).
  Definition plain (labels : list L) (k : key L) : Prop :=
    match k with
    | KLabel _ | KIndex _ | KMask _ => True
    | KList ls => Forall (fun l => coerce l = Ok l) ls
    | KSlice a b s =>
        (forall l, b = Some l -> s = None \/ num l = None)
        /\ (forall lo hi, match s with Some s => s = 1%Z | None => True end ->
              first_of eqb leb labels a = Some lo -> past_of eqb leb labels b = Some hi -> lo <= hi)
    | KRange x y s => default_labels labels /\ s = 1%Z /\ (0 <= x <= y)%Z /\ (y <= Z.of_nat (length labels))%Z
    | KRangeIndex x y s => default_labels labels /\ (s > 0 -> 0 <= x /\ 0 <= y)%Z /\ (s = 1 -> x <= y)%Z
    end.
End Plain.
