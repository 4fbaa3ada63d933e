(** modin/numpy/arr.py: sum, prod, max, min, any, all, mean, argmax, argmin and norm without [out] and [where].  Dtypes appear only
    where they change values. *)
From Verif Require Import Base Table ChunkModel GridSpec GridModel SelSpec SelModel ArrSpec ArrModel NredSpec.

Section Nred.
  Variables min_row min_col nparts cpus : nat.
  Variable dynamic : bool.
  (** "__reduced__" *)
  Variable unnamed : nat.
  Variables known_l known_w : nat -> nat -> bool.
  Variable argsort : list Z -> list nat.
  Variable big : bool.
  Notation pf A := (@pframe nat nat A).

  (** the tree reductions (query_compiler.py 976-1095) and full-axis reductions (1101-1102); [axis = true]: along the rows *)
  Definition red {A M B} (axis : bool) (magg : list A -> M) (ragg : list M -> B) (f : pf A) : res (pf B) :=
    do idx <- labels (pindex f);
    do cols <- labels (pcols f);
    tree_reduce Nat.eqb Nat.eqb unnamed unnamed dynamic cpus nparts min_row min_col axis magg ragg f idx cols.
  Definition full_red {A B} (axis : bool) (agg : list A -> B) (f : pf A) : res (pf B) :=
    do idx <- labels (pindex f);
    do cols <- labels (pcols f);
    reduce Nat.eqb Nat.eqb unnamed unnamed nparts min_row min_col axis agg f idx cols.
  (** an elementwise operation with a scalar *)
  Definition each {A B} (g : A -> B) (f : pf A) : res (pf B) :=
    frame_map Nat.eqb Nat.eqb dynamic cpus nparts min_row min_col (fun t => Ok (cellwise (fun _ _ a => g a) (fun h => h) t)) None f.
  (** [to_numpy()[0, 0]] *)
  Definition item {A} (f : pf A) : res A :=
    do d <- pf_to_pandas Nat.eqb Nat.eqb f;
    match dcells d with
    | (a :: _) :: _ => Ok a
    | _ => Err IndexError
    end.
  (** [array(numpy.array([[a]]))] *)
  Definition of_cell {A} (a : A) : res (@arr A) :=
    np_array (mkpf [[mkdf [0] [0] [[a]]]] (Some [0]) (Some [0]) None None) 2.
  Definition garr {A} (r : res (@arr A)) : res (@got A) := do x <- r; Ok (GArr x).

  (** arr.py [_validate_axis] 289-315; AxisError is a ValueError *)
  Definition validate_axis (n : nat) (axis : option Z) : res (option Z) :=
    match axis with
    | Some z =>
        if (z <? 0)%Z then
          let z := (z + Z.of_nat n)%Z in
          if (n =? 1) && negb (z =? 0)%Z then Err ValueError
          else if (n =? 2) && negb ((z =? 0) || (z =? 1))%Z then Err ValueError
          else Ok (Some z)
        else Ok (Some z)
    | None => Ok None
    end.
  Definition is_one (axis : option Z) : bool := match axis with Some z => (z =? 1)%Z | None => false end.

  (** arr.py 2056-2068: the result of a reduction of a 2-D array along an axis *)
  Definition shaped {A} (axis keep : bool) (f : pf A) : res (@arr A) :=
    if keep then np_array f 2
    else do t <- (if axis then Ok f else transpose f); np_array t 1.

  Section Same.
    Context {A : Type}.

    Definition apply_initial (init : option (A -> A)) (f : pf A) : res (pf A) :=
      match init with Some g => each g f | None => Ok f end.
    Definition initial_cell (init : option (A -> A)) (a : A) : A := match init with Some g => g a | None => a end.

    (** arr.py [sum] 1976-2073, [prod] 1680-1790.  [init]: adding (multiplying by) [initial]; [to_dtype]: the cast to the array's own dtype at 2039, 1743 *)
    Definition np_total (agg : list A -> A) (init : option (A -> A)) (to_dtype : A -> A) (x : @arr A) (axis : option Z) (keep : bool) : res (@got A) :=
      do ax <- validate_axis (andim x) axis;
      if andim x =? 1 then
        if is_one ax then Err ValueError
        else
          do r <- red false agg agg (aqc x);
          do r <- apply_initial init r;
          if keep then garr (np_array r 1) else do a <- item r; Ok (GScalar a)
      else
        match ax with
        | None =>
            do r <- red true agg agg (aqc x);
            do r <- red false agg agg r;
            do a <- item r;
            let a := initial_cell init a in
            if keep then garr (of_cell (to_dtype a)) else Ok (GScalar a)
        | Some z =>
            if (1 <? z)%Z then Err ValueError
            else
              do r <- red (z =? 1)%Z agg agg (aqc x);
              do r <- apply_initial init r;
              garr (shaped (z =? 1)%Z keep r)
        end.

    (** arr.py [max] 529-616, [min] 618-705.  [over]: Python's [max]; [beats]: [>].  The test [result.lt(initial).any()] at 545 and 634 asks a query
        compiler for its truth value, which is always true. *)
    Definition np_extreme (agg : list A -> A) (over : A -> A -> A) (beats : A -> A -> bool) (initial : option A) (x : @arr A) (axis : option Z) (keep : bool)
      : res (@got A) :=
      let best := match initial with Some i => fun a => over a i | None => fun a => a end in
      do ax <- validate_axis (andim x) axis;
      if andim x =? 1 then
        if is_one ax then Err ValueError
        else
          do r <- red false agg agg (aqc x);
          if keep then
            match initial with
            | Some i => garr (np_array (mkpf [[mkdf [0] [0] [[i]]]] (Some [0]) (Some [0]) None None) 1)
            | None => garr (np_array r 1)
            end
          else do a <- item r; Ok (GScalar (best a))
      else
        match axis with
        | None =>
            do r <- red false agg agg (aqc x);
            do r <- red true agg agg r;
            do a <- item r;
            if keep then garr (of_cell (best a)) else Ok (GScalar (best a))
        | Some _ =>
            match ax with
            | Some z =>
                if (1 <? z)%Z then Err ValueError
                else
                  do r <- red (z =? 1)%Z agg agg (aqc x);
                  do y <- shaped (z =? 1)%Z keep r;
                  match initial with
                  | Some i => do f <- each (fun a => if beats a i then a else i) (aqc y); Ok (GArr (mka f (andim y)))
                  | None => Ok (GArr y)
                  end
            | None => Err TypeError
            end
        end.

    (** arr.py [all] 2075-2128, [any] 2132-2185.  [truth]: what [numpy.array([[result]], dtype=bool)] at 2105 and 2162 makes of a query compiler *)
    Definition np_truth (agg : list A -> A) (truth : A) (x : @arr A) (axis : option Z) (keep : bool) : res (@got A) :=
      do ax <- validate_axis (andim x) axis;
      if andim x =? 1 then
        if is_one ax then Err ValueError
        else
          do r <- red false agg agg (aqc x);
          if keep then garr (np_array r 1) else do a <- item r; Ok (GScalar a)
      else
        match ax with
        | None =>
            do r <- red true agg agg (aqc x);
            do r <- red false agg agg r;
            if keep then garr (of_cell truth) else do a <- item r; Ok (GScalar a)
        | Some z =>
            if (1 <? z)%Z then Err ValueError
            else do r <- red (z =? 1)%Z agg agg (aqc x); garr (shaped (z =? 1)%Z keep r)
        end.

    (** query_compiler.py [mean] 1037-1095, skipna=False: sums and counts of the blocks, then their quotient.  [sum] does not skip NaN, [count] does. *)
    Definition mean_map (sum : list A -> A) (isna : A -> bool) (l : list A) : A * nat := (sum l, length (filter (fun a => negb (isna a)) l)).
    Definition mean_reduce (sum : list A -> A) (div : A -> nat -> A) (ps : list (A * nat)) : A := div (sum (map fst ps)) (list_sum (map snd ps)).

    (** arr.py [mean] 1405-1540.  [skip_sum]: the sum of 1472, which skips NaN; [to_dtype]: the casts to the array's own dtype at 1473 and 1489 *)
    Definition np_mean (sum skip_sum : list A -> A) (div : A -> nat -> A) (isna : A -> bool) (nan : A) (to_dtype : A -> A) (x : @arr A)
        (axis : option Z) (keep : bool) : res (@got A) :=
      do ax <- validate_axis (andim x) axis;
      if andim x =? 1 then
        if is_one ax then Err ValueError
        else
          do r <- red false (mean_map sum isna) (mean_reduce sum div) (aqc x);
          if keep then garr (np_array r 1) else do a <- item r; Ok (GScalar a)
      else
        match ax with
        | None =>
            do n <- each isna (aqc x);
            do r <- red true (existsb (fun b : bool => b)) (existsb (fun b => b)) n;
            do r <- red false (existsb (fun b : bool => b)) (existsb (fun b => b)) r;
            do b <- item r;
            if b : bool then Ok (GScalar nan)
            else
              do n <- each (fun a => if isna a then 1 else 0) (aqc x);
              do r <- red true list_sum list_sum n;
              do r <- red false list_sum list_sum r;
              do nas <- item r;
              do sh <- get_shape x;
              do r <- red true skip_sum skip_sum (aqc x);
              do r <- red false skip_sum skip_sum r;
              do s <- item r;
              let m := div (to_dtype s) (fold_right Nat.mul 1 sh - nas) in
              if keep then garr (of_cell (to_dtype m)) else Ok (GScalar m)
        | Some z =>
            if (1 <? z)%Z then Err ValueError
            else do r <- red (z =? 1)%Z (mean_map sum isna) (mean_reduce sum div) (aqc x); garr (shaped (z =? 1)%Z keep r)
        end.

    (** arr.py [_norm] 1849-1875; [sum] skips NaN *)
    Definition np_norm (sq : A -> A) (sum : list A -> A) (root : A -> A) (x : @arr A) (axis : option Z) : res (@got A) :=
      let n := Z.of_nat (andim x) in
      let k := match axis with Some z => if (z <? 0)%Z then (n + z)%Z else z | None => 0%Z end in
      if ((n <=? k) || (k <? 0))%Z then Err ValueError
      else
        do f <- each sq (aqc x);
        do r <- (if andim x =? 2 then
                   do r <- red (k =? 1)%Z sum sum f;
                   match axis with None => red (negb (k =? 1)%Z) sum sum r | Some _ => Ok r end
                 else red false sum sum f);
        do r <- each root r;
        match axis with
        | None => do a <- item r; Ok (GScalar a)
        | Some _ =>
            do idx <- labels (pindex r);
            do t <- (if length idx =? 1 then Ok r else transpose r);
            garr (np_array t 1)
        end.

    (** arr.py [argmax] 2189-2250, [argmin] 2252-2313 for arrays without NaN.  pandas' [idxmax] is [arg_best]: the labels are the positions. *)
    Definition np_arg (better : A -> A -> bool) (best : list A -> A) (x : @arr A) (axis : option Z) (keep : bool) : res (@got nat) :=
      do ax <- validate_axis (andim x) axis;
      if andim x =? 1 then
        if is_one ax then Err ValueError
        else
          do r <- full_red false (arg_best better) (aqc x);
          if keep then garr (np_array r 1) else do a <- item r; Ok (GScalar a)
      else
        match ax with
        | None =>
            do inner <- full_red true (arg_best better) (aqc x);
            do m <- red true best best (aqc x);
            do fin <- full_red false (arg_best better) m;
            do p <- item fin;
            do t <- take_2d_positional Nat.eqb Nat.eqb min_row min_col nparts known_l known_w argsort big (Some (IList [Z.of_nat p])) (Some (IList [0%Z])) inner;
            do c <- item t;
            do cols <- labels (pcols (aqc x));
            let result := length cols * p + c in
            if keep then garr (of_cell (if result =? 0 then 0 else 1)) else Ok (GScalar result)
        | Some z =>
            if (1 <? z)%Z then Err ValueError
            else do r <- full_red (z =? 1)%Z (arg_best better) (aqc x); garr (shaped (z =? 1)%Z keep r)
        end.
  End Same.
End Nred.
