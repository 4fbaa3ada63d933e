(** general.py [get_dummies] 638-682 and query_compiler.py [get_dummies] 4643-4680.  A column's dtype is given by its label
    ([categorical]: object, string or category; [numeric]: what is_numeric_dtype says); the dtype cache of the result
    (dtypes=bool) is not modelled. *)
From Verif Require Import Base Table GridModel SelModel LocModel JoinSpec JoinModel RemSpec RemModel InsModel DumSpec.

Section Model.
  Context {L H A P : Type}.
  Variables (leqb : L -> L -> bool) (heqb : H -> H -> bool).
  Variable own : H -> P.
  Variable label : P -> A -> H.
  Variable levels : list A -> list A.
  Variable same : A -> A -> bool.
  Variables (missing one zero fill : A).
  Variables (dummy_na drop_first : bool).
  Variable order : list H -> list H.                                      (* [Index.difference] sorts *)
  Variable left : list (list L) -> list L * list (list (option nat)).     (* [_join_index_objects], how="left" *)
  Variables min_row min_col nparts : nat.
  Variables known_l known_w : nat -> nat -> bool.
  Variable argsort : list Z -> list nat.
  Notation pf := (@pframe L H A).
  Notation dframe := (df L H A).
  Notation take cols f := (take_2d_positional leqb heqb min_row min_col nparts known_l known_w argsort false None (Some (IList cols)) f).

  (** 4655-4657: [cols_to_encode = df.columns.intersection(columns)], in the order of the block's columns *)
  Definition map_fn (columns : list H) (pre : prefix H P) (t : dframe) : res dframe :=
    get_dummies heqb own label levels same missing one zero dummy_na drop_first
      (filter (fun c => existsb (heqb c) columns) (dcols t)) pre t.

  (** dataframe.py [_get_columns] 662-690: the labels are read from the blocks when they are asked for *)
  Definition with_columns (f : pf) : pf := mkpf (pgrid f) (pindex f) (Some (col_labels f)) (prl f) (pcl f).

  (** 4643-4680.  [is_list_like] has been applied: [columns] is a list of labels or None. *)
  Definition qc_get_dummies (numeric : H -> bool) (first_known : bool) (columns : option (list H)) (pre : prefix H P) (f : pf) : res pf :=
    do all <- labels (pcols f);
    do index <- labels (pindex f);
    let cs := match columns with Some cs => cs | None => filter (fun c => negb (numeric c)) all end in
    if match columns with None => length cs =? 0 | Some _ => false end then Ok f
    else if length cs =? length all then
      apply_full_axis leqb heqb nparts min_row min_col false (map_fn cs pre) (Some index) None true None f
    else
      do chosen <- take (get_indexer heqb all cs) f;
      do encoded <- apply_full_axis leqb heqb nparts min_row min_col false (map_fn cs pre) (Some index) None true None chosen;
      do untouched <- take (np_sort (get_indexer heqb all (difference heqb order all cs))) f;
      concat_frames_cols leqb heqb fill left nparts min_row first_known untouched [with_columns encoded].

  (** general.py 638-682 for a DataFrame *)
  Definition api_get_dummies (sparse : bool) (numeric : H -> bool) (first_known : bool) (columns : option (list H)) (pre : prefix H P)
      (f : pf) : res pf :=
    if sparse then Err NotImplementedErr else qc_get_dummies numeric first_known columns pre f.
End Model.
