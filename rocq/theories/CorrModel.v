(** core/storage_formats/pandas/aggregations.py ([DataFrame.corr]) and query_compiler.py [_nancorr]
    ([DataFrame.cov]).

    Numbers are exact rationals: rounding is not modelled.  NaN is [None]; a division by zero gives NaN
    (infinities are not modelled: the numerator is zero too unless the numbers are inconsistent). *)
From Verif Require Import Base Table GridModel LabSpec LabModel GroupSpec CorrSpec.
From Coq Require Import QArith Qcanon.
Open Scope nat_scope.

Definition nan2 (f : Qc -> Qc -> Qc) (x y : option Qc) : option Qc :=
  match x, y with Some a, Some b => Some (f a b) | _, _ => None end.
Definition nadd := nan2 Qcplus.
Definition nsub := nan2 Qcminus.
Definition nmul := nan2 Qcmult.
Definition ndiv (x y : option Qc) : option Qc :=
  match x, y with
  | Some a, Some b => if Qc_eq_dec b (Q2Qc 0) then None else Some (a / b)%Qc
  | _, _ => None
  end.
Definition qltb (x y : Qc) : bool := if Qclt_le_dec x y then true else false.

(** the two column levels of the aggregations (217-222); the second is [None] for [MODIN_UNNAMED_SERIES_LABEL] *)
Inductive akind := Mul | Sum | Pow2 | Cnt.
Definition akind_eqb (a b : akind) : bool :=
  match a, b with Mul, Mul | Sum, Sum | Pow2, Pow2 | Cnt, Cnt => true | _, _ => false end.

Section CorrModel.
  Context {L : Type}.
  Variable leqb leb : L -> L -> bool.      (* equality and order of labels *)
  Variable root : Qc -> Qc.                (* numpy.sqrt *)
  Variable shared : bool.                  (* [df.values] is a writable view of the stored partition *)
  Notation num := (option Qc).
  Notation dframe := (df L L num).
  Notation acol := (akind * option L)%type.
  Notation aframe := (df L acol num).
  Notation lframe := (@lframe L num).

  Definition acol_eqb (x y : acol) : bool :=
    akind_eqb (fst x) (fst y) &&
    match snd x, snd y with Some a, Some b => leqb a b | None, None => true | _, _ => false end.

  Definition is_nan (o : num) : bool := match o with None => true | _ => false end.
  Definition zero_nan (o : num) : Qc := match o with Some q => q | None => Q2Qc 0 end.
  Definition dot (x y : list Qc) : Qc := qsum (map2 Qcmult x y).
  (** [np.putmask(x, m, values=0)] *)
  Definition putmask (x : list Qc) (m : list bool) : list Qc := map2 (fun q (b : bool) => if b then Q2Qc 0 else q) x m.
  Definition square (x : list Qc) : list Qc := map (fun q => (q * q)%Qc) x.

  (** aggregations.py [_compute_non_nan_aggs] 226-249: one column each *)
  Definition non_nan_aggs (rows : nat) (raw : list (list Qc)) : list (list num) :=
    map (fun x => [Some (qsum x); Some (qsum (square x)); Some (qlen (repeat tt rows))]) raw.

  (** aggregations.py [_compute_nan_aggs] 251-320: a matrix each; column [i] holds, in row [j], the aggregate of
      column [i] of the data where column [j] is present.  The columns are collected in dicts (289-314), so the
      labels are taken to be distinct. *)
  Definition nan_aggs (rows : nat) (raw : list (list Qc)) (nan_mask : list (list bool)) : list (list num) :=
    let n := length raw in
    let sums := map (fun x => map (fun m => Some (qsum (putmask x m))) nan_mask) raw in
    let squares := map (fun x => map (fun m => Some (qsum (square (putmask x m)))) nan_mask) raw in
    let counts := map (fun mi => map (fun m =>
                    Some (qz (Z.of_nat rows - Z.of_nat (length (filter (fun b => b) (map2 orb m mi)))))) nan_mask) nan_mask in
    map2 (@app num) (map2 (@app num) (transp n sums) (transp n squares)) (transp n counts).

  (** aggregations.py [_CorrCovKernels.map] 154-224 with [numeric_only=False]: the aggregations, and the
      partition after the call (184-200: NaNs are overwritten in the array itself when it can be written). *)
  Definition kernel_map (d : dframe) : aframe * dframe :=
    let cols := dcols d in
    let values := columns_of d in
    let nan_mask := map (map is_nan) values in
    let has_nans := existsb (existsb (fun b => b)) nan_mask in
    let raw := map (map zero_nan) values in
    let muls := map (fun x => map (fun y => Some (dot x y)) raw) raw in
    let mul_cols := map (fun c => (Mul, Some c)) cols in
    let aggs :=
      if has_nans
      then mkdf cols (mul_cols ++ map (fun c => (Sum, Some c)) cols ++ map (fun c => (Pow2, Some c)) cols ++ map (fun c => (Cnt, Some c)) cols)
             (map2 (@app num) muls (nan_aggs (nrows d) raw nan_mask))
      else mkdf cols (mul_cols ++ [(Sum, None); (Pow2, None); (Cnt, None)])
             (map2 (@app num) muls (non_nan_aggs (nrows d) raw)) in
    (aggs, if has_nans && shared then mkdf (dindex d) cols (map (map (fun o => Some (zero_nan o))) (dcells d)) else d).

  (** the cell of a row (its columns given) under a column; NaN when there is none (reindexing) *)
  Fixpoint at_col (c : acol) (cols : list acol) (row : list num) : num :=
    match cols, row with
    | x :: cols, v :: row => if acol_eqb x c then v else at_col c cols row
    | _, _ => None
    end.
  (** [pandas.concat(parts, axis=0)] of axis_partition.py [deploy_axis_func] 449: the columns in order of first
      appearance (MultiIndex union, sort=False), cells of absent columns NaN *)
  Fixpoint union_cols (acc : list acol) (ds : list aframe) : list acol :=
    match ds with
    | [] => acc
    | d :: ds => union_cols (acc ++ filter (fun c => negb (existsb (acol_eqb c) acc)) (dcols d)) ds
    end.
  Definition concat_outer (ds : list aframe) : aframe :=
    let cols := union_cols [] ds in
    mkdf (concat (map dindex ds)) cols
      (concat (map (fun d => map (fun row => map (fun c => at_col c (dcols d) row) cols) (dcells d)) ds)).

  (** [df.groupby(level=0).sum()] (359): the labels sorted; NaN counts as zero *)
  Fixpoint insert_label (k : L) (l : list L) : list L :=
    match l with
    | [] => [k]
    | x :: l' => if leqb k x then l else if leb k x then k :: l else x :: insert_label k l'
    end.
  Definition sorted_labels (l : list L) : list L := fold_right insert_label [] l.
  Definition sum_by_label (d : aframe) : aframe :=
    let labels := sorted_labels (dindex d) in
    mkdf labels (dcols d)
      (map (fun l => map (fun c => Some (qsum (present
                         (map (fun p => at_col c (dcols d) (snd p)) (filter (fun p => leqb (fst p) l) (combine (dindex d) (dcells d)))))))
                      (dcols d)) labels).

  Definition of_kind (k : akind) (c : acol) : bool := akind_eqb (fst c) k.
  Definition unnamed_col (c : acol) : bool := match snd c with None => true | _ => false end.
  (** the columns that [na_agg_idxs] points at (447-463) *)
  Definition na_col (c : acol) : bool := negb (of_kind Mul c) && negb (unnamed_col c).
  (** numpy: [a.reshape((n, m), order="F")] of an array given by its columns; ValueError when the sizes differ *)
  Fixpoint pieces_of {X} (n m : nat) (l : list X) : list (list X) :=
    match m with 0 => [] | Datatypes.S m => firstn n l :: pieces_of n m (skipn n l) end.
  Definition reshape_F (n m : nat) (columns : list (list num)) : res (list (list num)) :=
    let l := concat columns in
    if length l =? n * m then Ok (transp n (pieces_of n m l)) else Err ValueError.
  (** [row] with the entries of the [na_col] columns replaced *)
  Fixpoint put_na (cols : list acol) (row new : list num) : list num :=
    match cols, row with
    | c :: cols, v :: row => if na_col c then match new with w :: new => w :: put_na cols row new | [] => v :: put_na cols row [] end
                             else v :: put_na cols row new
    | _, _ => []
    end.
  (** aggregations.py [_maybe_combine_nan_and_non_nan_aggs] 400-510.  [total_agg.values] is one float array, so
      that writing to it changes [total_agg] (508). *)
  Definition maybe_combine (t : aframe) : res aframe :=
    if (1 <? length (filter (of_kind Sum) (dcols t))) && existsb (acol_eqb (Sum, None)) (dcols t)
    then
      let with_nans := map (keepl na_col (dcols t)) (dcells t) in
      let n := length with_nans in
      let m := length (filter na_col (dcols t)) in
      let without_nans := map (fun k => flat_map (fun row => repeat (at_col (k, None) (dcols t) row) n) (dcells t)) [Sum; Pow2; Cnt] in
      do aligned <- reshape_F n m without_nans;
      Ok (mkdf (dindex t) (dcols t)
            (map2 (put_na (dcols t)) (dcells t) (map2 (map2 nadd) with_nans aligned)))
    else Ok t.

  (** [t.loc[l][c]] *)
  Fixpoint row_at {X} (l : L) (idx : list L) (rows : list X) : option X :=
    match idx, rows with
    | x :: idx, r :: rows => if leqb x l then Some r else row_at l idx rows
    | _, _ => None
    end.
  Definition loc (t : aframe) (l : L) (c : acol) : num :=
    match row_at l (dindex t) (dcells t) with Some row => at_col c (dcols t) row | None => None end.
  Definition two : num := Some (Q2Qc 2).

  (** 385 *)
  Definition std_of (mean sum pow2 count : num) : num :=
    option_map root (nadd (nsub pow2 (nmul (nmul two mean) sum)) (nmul count (nmul mean mean))).
  (** 544-551, 586-593 *)
  Definition corr_of (mul sum_a mean_b mean_a sum_b count std_a std_b : num) : num :=
    ndiv (nadd (nsub (nsub mul (nmul sum_a mean_b)) (nmul mean_a sum_b)) (nmul (nmul count mean_a) mean_b)) (nmul std_a std_b).

  Definition named (t : aframe) : list L :=
    flat_map (fun c => if of_kind Mul c then match snd c with Some l => [l] | None => [] end else []) (dcols t).
  Definition first_col (k : akind) (t : aframe) : option acol := hd_error (filter (of_kind k) (dcols t)).

  (** aggregations.py [reduce] 362-398, [_build_corr_table_nan] 512-555, [_build_corr_table_non_nan] 557-595 *)
  Definition corr_table (min_periods : nat) (t : aframe) : res dframe :=
    let cols := named t in
    if 1 <? length (filter (of_kind Sum) (dcols t))
    then
      let sum r c := loc t r (Sum, Some c) in
      let count r c := loc t r (Cnt, Some c) in
      let mean r c := ndiv (sum r c) (count r c) in
      let std r c := std_of (mean r c) (sum r c) (loc t r (Pow2, Some c)) (count r c) in
      Ok (mkdf cols cols
            (map (fun a => map (fun b =>
               match count a b with
               | Some n => if qltb n (qlen (repeat tt min_periods)) then None
                           else corr_of (loc t a (Mul, Some b)) (sum a b) (mean b a) (mean a b) (sum b a) (count a b) (std a b) (std b a)
               | None => corr_of (loc t a (Mul, Some b)) (sum a b) (mean b a) (mean a b) (sum b a) (count a b) (std a b) (std b a)
               end) cols) cols))
    else
      match first_col Sum t, first_col Pow2 t, first_col Cnt t, dindex t with
      | Some cs, Some cp, Some cc, l0 :: _ =>
          let count := loc t l0 cc in
          let sum r := loc t r cs in
          let mean r := ndiv (sum r) count in
          let std r := std_of (mean r) (sum r) (loc t r cp) count in
          Ok (mkdf cols cols
                (map (fun a => map (fun b =>
                   match count with
                   | Some n => if qltb n (qlen (repeat tt min_periods)) then None
                               else corr_of (loc t a (Mul, Some b)) (sum a) (mean b) (mean a) (sum b) count (std a) (std b)
                   | None => None
                   end) cols) cols))
      | _, _, _, _ => Err IndexError
      end.
  (** aggregations.py [reduce] 322-360 *)
  Definition kernel_reduce (min_periods : nat) (df : aframe) : res dframe :=
    do t <- maybe_combine (sum_by_label df); corr_table min_periods t.

  (** the data of the row (column) partitions of a frame whose labels are in its blocks *)
  Definition row_parts (x : lframe) : res (list dframe) := rmap (concat_axis leqb leqb true) (pgrid (lf x)).
  Definition col_parts (x : lframe) : res (list dframe) :=
    rmap (concat_axis leqb leqb false) (transp (grid_width (pgrid (lf x))) (pgrid (lf x))).

  (** aggregations.py [build_corr_method] 40-102 (method "pearson"; the labels of the result are the columns),
      dataframe.py [combine_and_apply] 2518-2560.  The aggregations of a row partition are cut into blocks and
      glued again; that this loses nothing is C03, and is left out.  The result and the row partitions after
      the call. *)
  Definition corr (min_periods : nat) (x : lframe) : res (dframe * list dframe) :=
    do x' <- before MBoth x;
    do ps <- row_parts x';
    let mapped := map kernel_map ps in
    do r <- kernel_reduce min_periods (concat_outer (map fst mapped));
    Ok (r, map snd mapped).

  (** query_compiler.py [_nancorr] 2462-2544 with [cov=True]: [xs] are the rows of one row partition of the
      transposed frame, [others] the columns of the whole frame.  A cell that is not finite is [None]. *)
  Definition nancov (min_periods : nat) (ddof : Z) (others : list (list num)) (xs : list (list num)) : list (list num) :=
    map (fun x => map (fun y =>
      let valid := map2 (fun a b => negb (is_nan a) && negb (is_nan b)) x y in
      let vx := map zero_nan (map fst (filter snd (combine x valid))) in
      let vy := map zero_nan (map fst (filter snd (combine y valid))) in
      let nobs := length vx in
      if nobs <? min_periods then None
      else
        let mx := (qsum vx / qlen vx)%Qc in
        let my := (qsum vy / qlen vy)%Qc in
        let sumxy := qsum (map2 Qcmult (map (fun a => (a - mx)%Qc) vx) (map (fun b => (b - my)%Qc) vy)) in
        let denom := (Z.of_nat nobs - ddof)%Z in
        if (denom =? 0)%Z then None else Some (sumxy / qz denom)%Qc) others) xs.

  Variable of_pos : nat -> L.
  (** pandas/dataframe.py [DataFrame.cov] 766-789, query_compiler.py [cov] 2456-2460 *)
  Definition cov (min_periods : option nat) (ddof : Z) (x : lframe) : res dframe :=
    do x' <- before MBoth x;
    do ps <- col_parts x';
    do d <- concat_axis leqb leqb true ps;
    let few := match min_periods with Some n => nrows d <? n | None => false end in
    if few
    then let labels := map of_pos (seq 0 (ncols d)) in
         Ok (mkdf labels labels (repeat (repeat None (ncols d)) (ncols d)))
    else
      let least := match min_periods with Some n => n | None => 1 end in
      Ok (mkdf (dcols d) (dcols d)
            (concat (map (fun p => nancov least ddof (columns_of d) (columns_of p)) ps))).
End CorrModel.
