(** What pandas returns for DataFrame.quantile with a list of quantiles, and for DataFrame.rank (C84).
    Row labels, column labels and quantiles are of one type [L]. *)
From Verif Require Import Base Table GridSpec RemSpec FilSpec.

(** the dtype of a column: some numeric dtype, dates or timedeltas, anything else *)
Inductive dtype := Num (n : nat) | Date | Other.
Definition is_num (t : dtype) : bool := match t with Num _ => true | _ => false end.
Definition is_date (t : dtype) : bool := match t with Date => true | _ => false end.
Definition ordered (t : dtype) : bool := is_num t || is_date t.

Section Quantiles.
  Context {L A B : Type}.
  Variable qs : list L.
  (** the quantiles [qs] of a line of cells *)
  Variable quants : list A -> list B.
  (** one row for each quantile; axis=0: of each column, axis=1: of each row *)
  Definition quantile_table (axis : bool) (d : df L L A) : df L L B :=
    if axis then mkdf qs (dindex d) (transp (length qs) (map quants (dcells d)))
    else mkdf qs (dcols d) (transp (length qs) (map quants (columns d))).
  (** [ts]: the dtypes of the columns.  Over rows the columns need a common type, which all numeric dtypes have. *)
  Definition p_quantile (axis numeric_only : bool) (ts : list dtype) (d : df L L A) : res (df L L B) :=
    let d' := if numeric_only then keep_columns (map is_num ts) d else d in
    let ts' := if numeric_only then filter is_num ts else ts in
    if (if axis then forallb is_num ts' || forallb is_date ts' else forallb ordered ts') then Ok (quantile_table axis d') else Err TypeError.
End Quantiles.
