(** pandas/base.py [quantile] with a list, [rank]; query_compiler.py [quantile_for_list_of_values], [rank] (C84). *)
From Verif Require Import Base Table GridSpec ChunkModel GridModel SelModel RemSpec RemModel ItmModel FilSpec QntSpec.

Section Model.
  Context {L A B : Type}.
  Variable leqb : L -> L -> bool.
  Variable order : list L -> list L.
  Variables min_row min_col nparts : nat.
  Variables known_l known_w : nat -> nat -> bool.
  Variable argsort : list Z -> list nat.
  Variable qs : list L.
  Variable quants : list A -> list B.
  Notation pf := (@pframe L L A).
  Notation getitem_columns := (getitem_columns leqb leqb min_row min_col nparts known_l known_w argsort).
  Notation drop := (drop leqb order min_row min_col nparts known_l known_w argsort).

  Definition dtype_eqb (a b : dtype) : bool :=
    match a, b with Num m, Num n => m =? n | Date, Date => true | Other, Other => true | _, _ => false end.
  (** base.py 2422-2431: neighbours are compared *)
  Fixpoint neighbours_equal (ts : list dtype) : bool :=
    match ts with
    | a :: (b :: _) as ts' => dtype_eqb a b && neighbours_equal ts'
    | _ => true
    end.
  (** base.py 2435, [is_numeric_dtype(self.dtypes[i])]: for a repeated label [self.dtypes[i]] is a Series of
      objects, which is not numeric *)
  Definition label_numeric (cols : list L) (ts : list dtype) (l : L) : bool :=
    match filter (fun ct => leqb l (fst ct)) (combine cols ts) with
    | [ct] => is_num (snd ct)
    | _ => false
    end.

  (** query_compiler.py [quantile_builder] 2835-2837: pandas' quantile on a block, transposed for axis=1 *)
  Definition quantile_builder (axis : bool) (t : df L L A) : res (df L L B) :=
    Ok (if axis then mkdf (dindex t) qs (map quants (dcells t)) else mkdf qs (dcols t) (transp (length qs) (map quants (columns t)))).
  (** query_compiler.py [quantile_for_list_of_values] 2815-2860, numeric_only=False *)
  Definition quantile_for_list_of_values (axis : bool) (ts : list dtype) (f : pf) : res (@pframe L L B) :=
    do cols <- labels (pcols f);
    let new_columns := kept (map ordered ts) cols in
    if axis then
      do qc <- getitem_columns new_columns f;
      do index <- labels (pindex f);
      do x <- apply_full_axis leqb leqb nparts min_row min_col true (quantile_builder true) (Some index) (Some qs) true None qc;
      transpose x
    else apply_full_axis leqb leqb nparts min_row min_col false (quantile_builder false) (Some qs) (Some new_columns) true None f.
  (** base.py [quantile] 2403-2452, [q] a list of numbers between 0 and 1 *)
  Definition api_quantile (axis numeric_only : bool) (ts : list dtype) (f : pf) : res (@pframe L L B) :=
    if numeric_only then
      do cols <- labels (pcols f);
      let to_drop := filter (fun l => negb (label_numeric cols ts l)) cols in
      do f' <- drop false true None (Some (DMany to_drop)) f;
      quantile_for_list_of_values axis (kept (without leqb cols to_drop) ts) f'
    else if (if axis then neighbours_equal ts else forallb ordered ts) then quantile_for_list_of_values axis ts f else Err TypeError.

  (** base.py [rank] 2469-2492, query_compiler.py [rank] 2862-2877, numeric_only=False.  [ranks]: the ranks of a line *)
  Definition api_rank (ranks : list A -> list B) (axis : bool) (f : pf) : res (@pframe L L B) :=
    apply_full_axis leqb leqb nparts min_row min_col axis (fun t => Ok (along axis ranks t)) (pindex f)
      (if axis then None else pcols f) true None f.
End Model.
