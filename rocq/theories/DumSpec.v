(** [pandas.get_dummies] on a table whose columns have different labels. *)
From Verif Require Import Base Table JoinSpec RemSpec.

(** [prefix=]: none (the column's own label), one text, one text per encoded column, a dictionary *)
Inductive prefix (H P : Type) := PNone | PText (p : P) | PList (ps : list P) | PDict (kv : list (H * P)).
Arguments PNone {H P}.
Arguments PText {H P} p.
Arguments PList {H P} ps.
Arguments PDict {H P} kv.

Section Dummies.
  Context {L H A P : Type}.
  Variable heqb : H -> H -> bool.
  Variable own : H -> P.                     (* the label of a column used as a prefix *)
  Variable label : P -> A -> H.              (* prefix, separator and value put together *)
  Variable levels : list A -> list A.        (* the categories of a column: its different values, sorted *)
  Variable same : A -> A -> bool.            (* the value belongs to the category *)
  Variables (missing one zero : A).
  Variables (dummy_na drop_first : bool).
  Notation dframe := (df L H A).

  (** one column: a category is a column; 1 in the rows that have the value *)
  Definition dummies (ix : list L) (p : P) (values : list A) : dframe :=
    let cats := levels values ++ (if dummy_na then [missing] else []) in
    let cats := if drop_first then tl cats else cats in
    mkdf ix (map (label p) cats) (map (fun x => map (fun c => if same c x then one else zero) cats) values).

  Definition column_of (d : dframe) (h : H) : res (list A) :=
    match find (fun c => heqb (fst c) h) (combine (dcols d) (transp (ncols d) (dcells d))) with
    | Some c => Ok (snd c)
    | None => Err KeyError
    end.

  (** a list or a dictionary must be as long as the list of encoded columns *)
  Definition prefixes (pre : prefix H P) (cs : list H) : res (list P) :=
    match pre with
    | PNone => Ok (map own cs)
    | PText p => Ok (map (fun _ => p) cs)
    | PList ps => if length ps =? length cs then Ok ps else Err ValueError
    | PDict kv =>
        if length kv =? length cs
        then rmap (fun h => match find (fun e => heqb (fst e) h) kv with Some e => Ok (snd e) | None => Err KeyError end) cs
        else Err ValueError
    end.

  (** [columns=cs]: the other columns first, then the dummies in the order of [cs] *)
  Definition get_dummies (cs : list H) (pre : prefix H P) (d : dframe) : res dframe :=
    do chosen <- rmap (column_of d) cs;
    do ps <- prefixes pre cs;
    Ok (glue (dindex d) (keep_columns (map (fun c => negb (existsb (heqb c) cs)) (dcols d)) d
                         :: map (fun pv => dummies (dindex d) (fst pv) (snd pv)) (combine ps chosen))).

  (** [columns=None]: the columns whose dtype is object, string or category *)
  Definition encoded (categorical : H -> bool) (columns : option (list H)) (d : dframe) : list H :=
    match columns with Some cs => cs | None => filter categorical (dcols d) end.
End Dummies.
