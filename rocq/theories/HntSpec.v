(** What pandas does when a frame is made in different ways and then asked which cells are members of something
    (C83).  An object is a DataFrame or a Series together with its table; a Series has one column. *)
From Verif Require Import Base Table GridSpec FilSpec.

Inductive kind := KFrame | KSeries.

Section Kinds.
  Context {L H V : Type}.
  Variables (leqb : L -> L -> bool) (heqb : H -> H -> bool) (veqb : V -> V -> bool).
  (** a column label as a value *)
  Variable as_cell : H -> option V.
  Notation cell := (option V).
  Notation dframe := (df L H cell).
  Notation object := (kind * dframe)%type.

  (** Series.isin: membership in the elements of the argument.  The elements of a dict are its keys, those of a
      DataFrame its column labels, those of a Series its values. *)
  Definition elements (w : @values_in L H V) : list cell :=
    match w with
    | AnyOf vs => vs
    | PerColumn vs => map (fun kv => as_cell (fst kv)) vs
    | PerRow s => map snd s
    | PerCell d => map as_cell (dcols d)
    end.
  Definition s_isin (w : @values_in L H V) (d : dframe) : df L H bool :=
    cellwise (fun _ _ c => existsb (same veqb c) (elements w)) (fun h => h) d.
  Definition o_isin (w : @values_in L H V) (o : object) : res (df L H bool) :=
    match fst o with KFrame => p_isin leqb heqb veqb w (snd o) | KSeries => Ok (s_isin w (snd o)) end.

  (** The calls of a history; [o] is the number of an earlier object. *)
  Inductive call :=
  | Make (k : kind) (d : dframe)            (* pd.DataFrame(data) or pd.Series(data, name=...) *)
  | Select (o : nat) (cs : list H)          (* df[[...]] *)
  | GetColumn (o : nat) (c : H)             (* df[c] *)
  | Squeeze (o : nat)                       (* df.squeeze(axis=1) *)
  | ToFrame (o : nat)                       (* s.to_frame() *)
  | Copy (o : nat)                          (* x.copy() *)
  | Each (o : nat) (g : cell -> cell)       (* an element-wise method: x.abs() *)
  | WithScalar (o : nat) (g : cell -> cell) (* an operator with a scalar: x * 2 *).

  Definition object_at {X} (xs : list X) (o : nat) : res X := match nth_error xs o with Some x => Ok x | None => Err IndexError end.
  Definition select (cs : list H) (d : dframe) : dframe :=
    mkdf (dindex d) cs
      (map (fun row => flat_map (fun c => match lookup_by heqb c (combine (dcols d) row) with Some x => [x] | None => [] end) cs) (dcells d)).
  Definition well_formed (d : dframe) : bool :=
    (length (dcells d) =? length (dindex d)) && forallb (fun r => length r =? length (dcols d)) (dcells d)
    && (0 <? length (dindex d)) && (0 <? length (dcols d)).
  Definition selectable (cs : list H) (d : dframe) : bool :=
    distinct heqb (dcols d) && distinct heqb cs && forallb (fun c => existsb (heqb c) (dcols d)) cs.
  (** Calls outside the scope (repeated labels, a Series where a frame is needed, no such object) are errors. *)
  Definition p_call (objs : list object) (a : call) : res (list object) :=
    match a with
    | Make k d =>
        if well_formed d && match k with KFrame => true | KSeries => ncols d =? 1 end then Ok (objs ++ [(k, d)]) else Err ValueError
    | Select o cs =>
        do x <- object_at objs o;
        match fst x with
        | KFrame => if selectable cs (snd x) then Ok (objs ++ [(KFrame, select cs (snd x))]) else Err KeyError
        | KSeries => Err Unmodelled
        end
    | GetColumn o c =>
        do x <- object_at objs o;
        match fst x with
        | KFrame => if selectable [c] (snd x) then Ok (objs ++ [(KSeries, select [c] (snd x))]) else Err KeyError
        | KSeries => Err Unmodelled
        end
    | Squeeze o =>
        do x <- object_at objs o;
        match fst x with
        | KFrame => Ok (objs ++ [((if ncols (snd x) =? 1 then KSeries else KFrame), snd x)])
        | KSeries => Err Unmodelled
        end
    | ToFrame o =>
        do x <- object_at objs o;
        match fst x with KSeries => Ok (objs ++ [(KFrame, snd x)]) | KFrame => Err AttributeError end
    | Copy o => do x <- object_at objs o; Ok (objs ++ [x])
    | Each o g | WithScalar o g =>
        do x <- object_at objs o; Ok (objs ++ [(fst x, cellwise (fun _ _ c => g c) (fun h => h) (snd x))])
    end.
  Fixpoint p_calls (objs : list object) (l : list call) : res (list object) :=
    match l with [] => Ok objs | a :: l => do objs <- p_call objs a; p_calls objs l end.
  (** calls that do not make a one-column frame out of another object *)
  Definition plain (a : call) : bool :=
    match a with
    | Select _ cs => negb (length cs =? 1)
    | Squeeze _ | ToFrame _ | WithScalar _ _ => false
    | _ => true
    end.
End Kinds.
