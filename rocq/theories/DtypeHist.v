(** Specification of histories of dtypes: which operations are meant, and what should be seen. *)
From Verif Require Import Base DtypeSpec DtypeModel DtypeFrames.

Section Hist.
  Context {H T : Type}.
  Variable hdec : forall a b : H, {a = b} + {a <> b}.
  Variable tdec : forall a b : T, {a = b} + {a <> b}.
  Variable common : list T -> T.
  Variable tfloat : T.
  Notation df := (@df H T).
  Notation op := (@op H T).
  Notation step := (step hdec tdec common tfloat).

  (** The dtypes of all frames after an operation that succeeds, in terms of pandas. *)
  Definition at_ (ts : list (list (H * T))) (i : nat) : list (H * T) := nth i ts [].
  Definition truths (ts : list (list (H * T))) (o : op) : list (list (H * T)) :=
    match o with
    | New _ cs _ => ts ++ [cs]
    | Take i ps | Reorder i ps => ts ++ [selected_at (at_ ts i) ps]
    | Rename i names => firstn i ts ++ renamed (at_ ts i) names :: skipn (S i) ts
    | ConcatCols is => ts ++ [concat (map (at_ ts) is)]
    | ConcatRows is => ts ++ [stacked hdec common tfloat (map (at_ ts) is)]
    | SetItem i _ c t => ts ++ [replaced hdec (at_ ts i) c t]
    | Touch _ | Order _ | Dtypes _ | Types _ => ts
    end.

  (** What is said about the dtypes of a new frame is true, and in the order of its columns. *)
  Definition honest (cs : list (H * T)) (s : @source H T) : Prop :=
    match s with
    | SNone | SSeries | SCall => True
    | SRem t => forall ct, In ct cs -> snd ct = t
    | SDesc kn un know =>
        let k := match kn with Some k => k | None => [] end in
        let u := match un with Some u => u | None => [] end in
        (exists p, k = filter p cs) /\ incl u (header cs) /\ (forall c, In c (map fst k) -> ~ In c u) /\
        (know = true -> incl (header cs) (map fst k ++ u))
    end.

  (** Operations on frames with unique column names. *)
  Definition admissible (st : list df) (o : op) : Prop :=
    match o with
    | New _ cs s => NoDup (header cs) /\ honest cs s
    | Take _ ps | Reorder _ ps => NoDup ps
    | Rename _ names => NoDup names
    | ConcatCols is => forall xs, rmap (look st) is = Ok xs -> NoDup (header (concat (map truth xs)))
    | SetItem _ sorted _ _ => forall l, Permutation (sorted l) l
    | _ => True
    end.

  (** Every operation of the list meets [P] in the state in which it is executed. *)
  Fixpoint follows (P : list df -> op -> Prop) (st : list df) (os : list op) : Prop :=
    match os with [] => True | o :: os => P st o /\ follows P (fst (step st o)) os end.

  (** The remaining dtype, if the cache still has one. *)
  Definition spare (x : df) : list T :=
    match dcache x with Some (MDesc d) => match remaining d with Some r => [r] | None => [] end | _ => [] end.
  (** [df.dtypes] are the dtypes of the columns in the order of the columns; the set of dtypes has each of them once
      and no other, except perhaps the remaining dtype. *)
  Definition right (st : list df) (b : @obs H T) : Prop :=
    match b with
    | SawDtypes i s => exists x, nth_error st i = Some x /\ s = truth x
    | SawTypes i ts => exists x, nth_error st i = Some x /\
        NoDup ts /\ incl (map snd (truth x)) ts /\ incl ts (map snd (truth x) ++ spare x)
    | Done | Raised _ => True
    end.
  (** What the cache of a frame says now. *)
  Definition claims (x : df) : list (H * T) :=
    match dcache x with
    | Some (MSeries s) => s
    | Some (MCall (Ok s)) => s
    | Some (MDesc d) => known d
    | _ => []
    end.
  Definition true_claims (st : list df) : Prop := forall x, In x st -> incl (claims x) (truth x).

  (** Histories in which the column names of a frame made from outside are known, no dtype is announced for "all
      remaining columns", and the set of dtypes is not asked for. *)
  Definition named (o : op) : Prop :=
    match o with
    | New mat _ s => mat = true /\ match s with SRem _ => False | _ => True end
    | Types _ => False
    | _ => True
    end.
End Hist.
