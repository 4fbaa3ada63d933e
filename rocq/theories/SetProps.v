(** C10: [df.iloc[rows, cols] = value].

    [shows f d rl cl] (SelProofs5.v): the frame [f] stands for the table [d], its blocks are cut at row
    lengths [rl] and column widths [cl] (whose caches are known or not), and its labels are materialised.
    [positions n loc] (SelSpec.v): what pandas selects.  [wanted r c value] (SetSpec.v): the value pandas writes
    at each selected place.  [assigned rows cols v d d'] (SetSpec.v): exactly those cells changed. *)
From Verif Require Import Base Table ChunkModel ChunkSpec GridModel GridSpec FrameSpec GridProofs GridProofs2 GridProofs3 GridProofs5 SelSpec SelModel
  SelProofs SelProofs2 SelProofs3 SelProofs4 SelProofs5 SelProofs6 SelProofs7
  SetSpec SetModel SetProofs SetProofs2 SetProofs3 SetProofs4 SetProofs5 SetProofs6 SetProofs7 SetProofs8.

Definition an_int (loc : locator) : Prop := exists z, loc = LInt z.

Lemma an_int_iff loc : is_int loc = true <-> an_int loc.
Proof. destruct loc; cbn; split; try discriminate; try (intros [z E]; discriminate E); try reflexivity. intros _. eexists. reflexivity. Qed.

Lemma no_axis n m r c rloc cloc :
  (n = 1 /\ m = 1 -> (an_int rloc <-> an_int cloc)) ->
  r = 1 /\ c = 1 \/ ~ (r = n /\ c = 1) /\ ~ (c = m /\ r = 1) ->
  determine_setitem_axis n m r c (is_int rloc) (is_int cloc) = None.
Proof.
  intros H1 H2. unfold determine_setitem_axis.
  destruct (Nat.eqb_spec n 1) as [En|En], (Nat.eqb_spec m 1) as [Em|Em]; cbn [andb].
  { specialize (H1 (conj En Em)). rewrite <- !an_int_iff in H1. destruct (is_int rloc), (is_int cloc); try reflexivity; exfalso; intuition discriminate. }
  all: destruct (Nat.eqb_spec c 1) as [Ec|Ec], (Nat.eqb_spec r 1) as [Er|Er]; cbn [andb]; try reflexivity;
    destruct (Nat.eqb_spec r n) as [Ern|Ern], (Nat.eqb_spec c m) as [Ecm|Ecm]; cbn [andb]; try reflexivity; exfalso; lia.
Qed.

(** C10, cells (partial): a selection that is neither a whole column nor a whole row (or is one cell): a scalar
    goes through whatever the selection; an array of the shape of the selection goes through for any order and
    any repetition of the rows and columns; a flat sequence needs [orderly].  A slice of step one needs [aligned].
    Missing, because the code is wrong there (theorems [_refuted] below): the cases these exclude. *)
Theorem C10_cells_partial :
  forall (L H A : Type) (leqb : L -> L -> bool) (heqb : H -> H -> bool),
    (forall x y, leqb x y = true <-> x = y) -> (forall x y, heqb x y = true <-> x = y) ->
    forall (min_row min_col nparts : nat) (known_l known_w : nat -> nat -> bool) (argsort : list Z -> list nat)
      (fill : A) (join : list (list L) -> list L * list (list (option nat))) (first_known : bool)
      (f : pframe) (d : df L H A) (rl cl : list nat) (row_loc col_loc : locator) (rows cols : list nat)
      (value : item A) (v : nat -> nat -> A),
      shows f d rl cl ->
      positions (nrows d) row_loc = Some rows -> positions (ncols d) col_loc = Some cols ->
      supported (nrows d) row_loc -> supported (ncols d) col_loc ->
      (nrows d = 1 /\ ncols d = 1 -> (an_int row_loc <-> an_int col_loc)) ->
      length rows = 1 /\ length cols = 1
        \/ ~ (length rows = nrows d /\ length cols = 1) /\ ~ (length cols = ncols d /\ length rows = 1) ->
      wanted (length rows) (length cols) value = Some v ->
      orderly row_loc rows cols value ->
      ((forall a, value <> Scalar a) -> aligned rl row_loc rows /\ aligned cl col_loc cols) ->
      exists f' d', iloc_setitem leqb heqb min_row min_col nparts known_l known_w argsort fill join first_known
                      row_loc col_loc value f = Ok f'
        /\ pf_to_pandas leqb heqb f' = Ok d' /\ assigned rows cols v d d'.
Proof.
  intros L H A leqb heqb Hl Hh mr mc np kl kw ag fill jn fk f d rl cl rloc cloc rows cols it v Sh Pr Pc Sr Sc H1 H2 Wt Od Al.
  assert (W : wf d) by apply Sh.
  destruct (@iloc_cells L H A leqb heqb mr mc np kl kw ag fill jn fk f d rl cl rloc cloc rows cols it v) as (f' & rl' & cl' & E & Sh'); auto.
  { now apply no_axis. }
  destruct (@finish L H A leqb heqb Hl Hh f' rows cols v d rl' cl' W Sh') as (d' & E' & As). eauto.
Qed.
Print Assumptions C10_cells_partial.

Section Axes.
  Context {L H A : Type}.
  Variable leqb : L -> L -> bool.
  Variable heqb : H -> H -> bool.
  Hypothesis leqb_ok : forall x y, leqb x y = true <-> x = y.
  Hypothesis heqb_ok : forall x y, heqb x y = true <-> x = y.
  Variables min_row min_col nparts : nat.
  Hypothesis mr : 0 < min_row.
  Hypothesis mc : 0 < min_col.
  Hypothesis np : 0 < nparts.
  Variables known_l known_w : nat -> nat -> bool.
  Variable argsort : list Z -> list nat.
  Hypothesis argsort_ok : forall l, sorts l (argsort l).
  Variable fill : A.
  Variable join : list (list L) -> list L * list (list (option nat)).
  Notation iset := (iloc_setitem leqb heqb min_row min_col nparts known_l known_w argsort fill join).

  (** C10, a whole column: one value for all its rows, named in any order.  The header of the column must be
      its own (refuted below otherwise). *)
  Theorem C10_column_scalar_partial (fk : bool) (f : pframe) (d : df L H A) rl cl row_loc col_loc rows q key a :
    shows f d rl cl ->
    positions (nrows d) row_loc = Some rows -> positions (ncols d) col_loc = Some [q] ->
    supported (nrows d) row_loc -> supported (ncols d) col_loc ->
    1 < nrows d -> length rows = nrows d -> NoDup rows ->
    nth_error (dcols d) q = Some key -> (forall k, nth_error (dcols d) k = Some key -> k = q) ->
    exists f' d', iset fk row_loc col_loc (Scalar a) f = Ok f'
      /\ pf_to_pandas leqb heqb f' = Ok d' /\ assigned rows [q] (fun _ _ => a) d d'.
  Proof.
    intros Sh Pr Pc Sr Sc Hn Hl ND Hk Hu. assert (W : wf d) by apply Sh.
    destruct (@iloc_column_scalar L H A leqb heqb heqb_ok min_row min_col nparts mr mc np known_l known_w argsort fill join fk f d rl cl row_loc col_loc rows q key a)
      as (f' & rl' & cl' & E & Sh'); auto.
    { unfold determine_setitem_axis. rewrite Hl. replace (nrows d =? 1) with false by (symmetry; apply Nat.eqb_neq; lia).
      rewrite (Nat.eqb_refl (nrows d)). reflexivity. }
    destruct (@finish L H A leqb heqb leqb_ok heqb_ok f' rows [q] _ d rl' cl' W Sh') as (d' & E' & As). eauto.
  Qed.

  (** C10, a whole column: a value for each row, the rows in order. *)
  Theorem C10_column_values_partial (fk : bool) (f : pframe) (d : df L H A) rl cl row_loc col_loc q key value v :
    shows f d rl cl ->
    positions (nrows d) row_loc = Some (seq 0 (nrows d)) -> positions (ncols d) col_loc = Some [q] ->
    supported (nrows d) row_loc -> supported (ncols d) col_loc ->
    1 < nrows d -> wanted (nrows d) 1 value = Some v ->
    match value with Vector n _ => n = nrows d | Matrix _ _ _ => True | Scalar _ => False end ->
    nth_error (dcols d) q = Some key -> (forall k, nth_error (dcols d) k = Some key -> k = q) ->
    exists f' d', iset fk row_loc col_loc value f = Ok f'
      /\ pf_to_pandas leqb heqb f' = Ok d' /\ assigned (seq 0 (nrows d)) [q] v d d'.
  Proof.
    intros Sh Pr Pc Sr Sc Hn Wt Hv Hk Hu. assert (W : wf d) by apply Sh.
    destruct (@iloc_column_list L H A leqb heqb leqb_ok heqb_ok min_row min_col nparts mr mc np known_l known_w argsort argsort_ok fill join fk f d rl cl row_loc col_loc q key value v)
      as (f' & rl' & cl' & E & Sh'); auto; try lia.
    { unfold determine_setitem_axis. replace (nrows d =? 1) with false by (symmetry; apply Nat.eqb_neq; lia). rewrite (Nat.eqb_refl (nrows d)). reflexivity. }
    destruct (@finish L H A leqb heqb leqb_ok heqb_ok f' (seq 0 (nrows d)) [q] v d rl' cl' W Sh') as (d' & E' & As). eauto.
  Qed.

  (** C10, a whole row: one value for all its columns, named in any order. *)
  Theorem C10_row_scalar_partial (fk : bool) (f : pframe) (d : df L H A) rl cl row_loc col_loc cols p key a :
    shows f d rl cl ->
    positions (nrows d) row_loc = Some [p] -> positions (ncols d) col_loc = Some cols ->
    supported (nrows d) row_loc -> supported (ncols d) col_loc ->
    1 < ncols d -> length cols = ncols d -> NoDup cols ->
    nth_error (dindex d) p = Some key -> (forall k, nth_error (dindex d) k = Some key -> k = p) ->
    exists f' d', iset fk row_loc col_loc (Scalar a) f = Ok f'
      /\ pf_to_pandas leqb heqb f' = Ok d' /\ assigned [p] cols (fun _ _ => a) d d'.
  Proof.
    intros Sh Pr Pc Sr Sc Hn Hl ND Hk Hu. assert (W : wf d) by apply Sh.
    destruct (@iloc_row_scalar L H A leqb heqb leqb_ok min_row min_col nparts mr mc np known_l known_w argsort fill join fk f d rl cl row_loc col_loc cols p key a)
      as (f' & rl' & cl' & E & Sh'); auto.
    { unfold determine_setitem_axis. rewrite Hl. replace (ncols d =? 1) with false by (symmetry; apply Nat.eqb_neq; lia).
      rewrite !andb_false_r, (Nat.eqb_refl (ncols d)). reflexivity. }
    destruct (@finish L H A leqb heqb leqb_ok heqb_ok f' [p] cols _ d rl' cl' W Sh') as (d' & E' & As). eauto.
  Qed.

  (** C10, a whole row: a value for each column, the columns in order. *)
  Theorem C10_row_values_partial (fk : bool) (f : pframe) (d : df L H A) rl cl row_loc col_loc p key value v :
    shows f d rl cl ->
    positions (nrows d) row_loc = Some [p] -> positions (ncols d) col_loc = Some (seq 0 (ncols d)) ->
    supported (nrows d) row_loc -> supported (ncols d) col_loc ->
    1 < ncols d -> wanted 1 (ncols d) value = Some v -> (forall a, value <> Scalar a) ->
    nth_error (dindex d) p = Some key -> (forall k, nth_error (dindex d) k = Some key -> k = p) ->
    exists f' d', iset fk row_loc col_loc value f = Ok f'
      /\ pf_to_pandas leqb heqb f' = Ok d' /\ assigned [p] (seq 0 (ncols d)) v d d'.
  Proof.
    intros Sh Pr Pc Sr Sc Hn Wt Hv Hk Hu. assert (W : wf d) by apply Sh.
    destruct (@iloc_row_list L H A leqb heqb leqb_ok min_row min_col nparts mr mc np known_l known_w argsort fill join fk f d rl cl row_loc col_loc p key value v)
      as (f' & rl' & cl' & E & Sh'); auto.
    { unfold determine_setitem_axis. replace (ncols d =? 1) with false by (symmetry; apply Nat.eqb_neq; lia).
      rewrite !andb_false_r, (Nat.eqb_refl (ncols d)). reflexivity. }
    destruct (@finish L H A leqb heqb leqb_ok heqb_ok f' [p] (seq 0 (ncols d)) v d rl' cl' W Sh') as (d' & E' & As). eauto.
  Qed.
End Axes.
Print Assumptions C10_column_scalar_partial.
Print Assumptions C10_column_values_partial.
Print Assumptions C10_row_scalar_partial.
Print Assumptions C10_row_values_partial.

(** What [assigned] fixes: with the rows and columns in range it leaves no freedom. *)
Theorem C10_assigned_unique :
  forall (L H A : Type) (d d1 d2 : df L H A) rows cols v, wf d ->
    assigned rows cols v d d1 -> assigned rows cols v d d2 -> d1 = d2.
Proof.
  intros L H A d d1 d2 rows cols v W (W1 & I1 & C1 & O1 & S1) (W2 & I2 & C2 & O2 & S2).
  apply cells_ext; auto; try congruence. intros p q Hp Hq.
  assert (Hp' : p < nrows d) by (unfold nrows in *; congruence). assert (Hq' : q < ncols d) by (unfold ncols in *; congruence).
  destruct (last_index rows p) as [i|] eqn:Ei.
  - destruct (last_index cols q) as [j|] eqn:Ej.
    + apply last_index_spec in Ei, Ej. rewrite (S1 i j p q), (S2 i j p q); auto.
    + apply last_index_none in Ej. rewrite O1, O2 by tauto. reflexivity.
  - apply last_index_none in Ei. rewrite O1, O2 by tauto. reflexivity.
Qed.
Print Assumptions C10_assigned_unique.

(** ** Where the full statement fails *)
Section Refuted.
  Definition demo (rl cl : list nat) (d : df nat nat nat) : pframe :=
    mkpf (cut_table rl cl d) (Some (dindex d)) (Some (dcols d)) (Some rl) (Some cl).
  Definition run (rl cl : list nat) (d : df nat nat nat) row_loc col_loc value : res (df nat nat nat) :=
    do f <- iloc_setitem Nat.eqb Nat.eqb 1 1 2 (fun _ _ => true) (fun _ _ => true) zargsort 0
              (fun ls => (nth 0 ls [], [])) true row_loc col_loc value (demo rl cl d);
    pf_to_pandas Nat.eqb Nat.eqb f.
  (** Cell (i,j) holds 100 + 10 i + j. *)
  Definition tab (n m : nat) : df nat nat nat :=
    mkdf (seq 0 n) (seq 0 m) (map (fun i => map (fun j => 100 + 10 * i + j) (seq 0 m)) (seq 0 n)).
  Definition vec (l : list nat) : item nat := Vector (length l) (fun i => nth i l 0).
  Definition mat (l : list (list nat)) : item nat := Matrix (length l) (length (hd [] l)) (fun i j => nth j (nth i l []) 0).
  Definition between (a b : Z) : locator := LSlice (Some a) (Some b) None.

  (** The assignment [df.iloc[row_loc, col_loc] = value] on the table [d] in blocks [rl] x [cl] is one pandas
      performs, and the outcome is not the table pandas leaves. *)
  Definition misses (rl cl : list nat) (d : df nat nat nat) row_loc col_loc value : Prop :=
    shows (demo rl cl d) d rl cl
    /\ exists rows cols v, positions (nrows d) row_loc = Some rows /\ positions (ncols d) col_loc = Some cols
         /\ wanted (length rows) (length cols) value = Some v
         /\ forall d', run rl cl d row_loc col_loc value = Ok d' -> ~ assigned rows cols v d d'.

  Lemma demo_shows rl cl d : wf d -> list_sum rl = nrows d -> list_sum cl = ncols d -> rl <> [] -> cl <> [] ->
    shows (demo rl cl d) d rl cl.
  Proof. intros W Hr Hc Nr Nc. split; [|auto]. apply holds_intro; cbn; auto. Qed.

  Lemma misses_intro rl cl d row_loc col_loc value rows cols v :
    shows (demo rl cl d) d rl cl -> positions (nrows d) row_loc = Some rows -> positions (ncols d) col_loc = Some cols ->
    wanted (length rows) (length cols) value = Some v -> wf d ->
    (run rl cl d row_loc col_loc value <> Ok (put rows cols v d)) ->
    misses rl cl d row_loc col_loc value.
  Proof.
    intros Sh Pr Pc Wt W N. split; [exact Sh|]. exists rows, cols, v. repeat (split; [assumption|]). intros d' E As. apply N. rewrite E. f_equal.
    eapply C10_assigned_unique; [exact W|exact As|]. now apply assigned_put.
  Qed.

  Ltac miss := eapply misses_intro;
    [apply demo_shows; [split; [reflexivity|repeat constructor]|reflexivity|reflexivity|discriminate|discriminate]
    |vm_compute; reflexivity|vm_compute; reflexivity|vm_compute; reflexivity|split; [reflexivity|repeat constructor]|vm_compute; discriminate].

  (** Four rows in blocks of one and three: [df.iloc[1:4, [0, 1]] = [[1, 2], [3, 4], [5, 6]]] cuts the array by the
      length of block number 0, so rows 1 to 3 all become 1, 2. *)
  Theorem C10_uneven_blocks_refuted :
    misses [1;3] [2] (tab 4 2) (between 1 4) (LList [0;1]%Z) (mat [[1;2];[3;4];[5;6]])
    /\ run [1;3] [2] (tab 4 2) (between 1 4) (LList [0;1]%Z) (mat [[1;2];[3;4];[5;6]])
       = Ok (mkdf (seq 0 4) (seq 0 2) [[100;101];[1;2];[1;2];[1;2]]).
  Proof. split; [miss|vm_compute; reflexivity]. Qed.

  (** [df.iloc[[1, 0], [0, 1]] = [7, 8]] on three columns: the row order permutes the values meant for the columns. *)
  Theorem C10_row_order_refuted :
    misses [3] [3] (tab 3 3) (LList [1;0]%Z) (LList [0;1]%Z) (vec [7;8])
    /\ run [3] [3] (tab 3 3) (LList [1;0]%Z) (LList [0;1]%Z) (vec [7;8])
       = Ok (mkdf (seq 0 3) (seq 0 3) [[8;7;102];[8;7;112];[120;121;122]]).
  Proof. split; [miss|vm_compute; reflexivity]. Qed.

  (** [df.iloc[3, [0, 1]] = [7, 8]] on three columns writes 7 into both cells. *)
  Theorem C10_cells_of_one_row_refuted :
    misses [4] [3] (tab 4 3) (LInt 3) (LList [0;1]%Z) (vec [7;8])
    /\ run [4] [3] (tab 4 3) (LInt 3) (LList [0;1]%Z) (vec [7;8])
       = Ok (mkdf (seq 0 4) (seq 0 3) [[100;101;102];[110;111;112];[120;121;122];[7;7;132]]).
  Proof. split; [miss|vm_compute; reflexivity]. Qed.

  (** [df.iloc[0:2, [1, 0]] = [7, 8]] ignores the order of the columns. *)
  Theorem C10_column_order_refuted : misses [4] [3] (tab 4 3) (between 0 2) (LList [1;0]%Z) (vec [7;8]).
  Proof. miss. Qed.

  (** [df.iloc[[2, 1, 0], 0] = [7, 8, 9]] on three rows ignores the order of the rows. *)
  Theorem C10_whole_column_order_refuted :
    misses [3] [2] (tab 3 2) (LList [2;1;0]%Z) (LInt 0) (vec [7;8;9])
    /\ run [3] [2] (tab 3 2) (LList [2;1;0]%Z) (LInt 0) (vec [7;8;9])
       = Ok (mkdf (seq 0 3) (seq 0 2) [[7;101];[8;111];[9;121]]).
  Proof. split; [miss|vm_compute; reflexivity]. Qed.

  (** [df.iloc[0, [2, 1, 0]] = [7, 8, 9]] on three columns ignores the order of the columns. *)
  Theorem C10_whole_row_order_refuted : misses [3] [3] (tab 3 3) (LInt 0) (LList [2;1;0]%Z) (vec [7;8;9]).
  Proof. miss. Qed.

  (** [df.iloc[[0, 0, 1], 0] = 5] on three rows sets the whole column. *)
  Theorem C10_repeated_rows_refuted :
    misses [3] [2] (tab 3 2) (LList [0;0;1]%Z) (LInt 0) (Scalar 5)
    /\ run [3] [2] (tab 3 2) (LList [0;0;1]%Z) (LInt 0) (Scalar 5)
       = Ok (mkdf (seq 0 3) (seq 0 2) [[5;101];[5;111];[5;121]]).
  Proof. split; [miss|vm_compute; reflexivity]. Qed.

  (** Two columns of the same name: [df.iloc[:, 1] = 5] sets both, [df.iloc[:, 1] = [8, 9]] sets the first. *)
  Theorem C10_same_header_refuted :
    let d := mkdf [0;1] [0;0] [[1;2];[3;4]] in
    misses [2] [2] d (LSlice None None None) (LInt 1) (Scalar 5)
    /\ run [2] [2] d (LSlice None None None) (LInt 1) (Scalar 5) = Ok (mkdf [0;1] [0;0] [[5;5];[5;5]])
    /\ misses [2] [2] d (LSlice None None None) (LInt 1) (vec [8;9])
    /\ run [2] [2] d (LSlice None None None) (LInt 1) (vec [8;9]) = Ok (mkdf [0;1] [0;0] [[8;2];[9;4]]).
  Proof. cbv zeta. split; [miss|]. split; [vm_compute; reflexivity|]. split; [miss|vm_compute; reflexivity]. Qed.

  (** Two rows of the same label: [df.iloc[1] = 5] sets both. *)
  Theorem C10_same_label_refuted :
    let d := mkdf [0;0;1] [0;1] [[1;2];[3;4];[5;6]] in
    misses [3] [2] d (LInt 1) (LSlice None None None) (Scalar 9)
    /\ run [3] [2] d (LInt 1) (LSlice None None None) (Scalar 9) = Ok (mkdf [0;0;1] [0;1] [[9;9];[9;9];[5;6]]).
  Proof. cbv zeta. split; [miss|vm_compute; reflexivity]. Qed.

  (** [df.iloc[5:1, [0]] = 9] selects nothing; with rows in blocks of two and four it writes rows 0 and 5. *)
  Theorem C10_backward_slice_refuted :
    misses [2;4] [2] (tab 6 2) (between 5 1) (LList [0]%Z) (Scalar 9)
    /\ run [2;4] [2] (tab 6 2) (between 5 1) (LList [0]%Z) (Scalar 9)
       = Ok (mkdf (seq 0 6) (seq 0 2) [[9;101];[110;111];[120;121];[130;131];[140;141];[9;151]]).
  Proof. split; [miss|vm_compute; reflexivity]. Qed.

  (** A frame of one cell: [df.iloc[0, []] = 9] selects nothing and sets the cell. *)
  Theorem C10_nothing_selected_refuted :
    misses [1] [1] (tab 1 1) (LInt 0) (LList []) (Scalar 9)
    /\ run [1] [1] (tab 1 1) (LInt 0) (LList []) (Scalar 9) = Ok (mkdf [0] [0] [[9]]).
  Proof. split; [miss|vm_compute; reflexivity]. Qed.

  (** [df.iloc[:, [0]] = [9]]: pandas writes 9 everywhere in the column; here a ValueError. *)
  Theorem C10_one_value_refuted :
    misses [3] [2] (tab 3 2) (LSlice None None None) (LList [0]%Z) (vec [9])
    /\ run [3] [2] (tab 3 2) (LSlice None None None) (LList [0]%Z) (vec [9]) = Err ValueError.
  Proof. split; [miss|vm_compute; reflexivity]. Qed.

  (** [df.iloc[[0, 2], [0, 1]] = [[7, 8]]]: pandas repeats the row (not covered by [wanted]); here an IndexError. *)
  Theorem C10_one_row_array_refuted :
    run [3] [3] (tab 3 3) (LList [0;2]%Z) (LList [0;1]%Z) (mat [[7;8]]) = Err IndexError.
  Proof. vm_compute. reflexivity. Qed.
End Refuted.
Print Assumptions C10_uneven_blocks_refuted.
Print Assumptions C10_row_order_refuted.
Print Assumptions C10_cells_of_one_row_refuted.
Print Assumptions C10_column_order_refuted.
Print Assumptions C10_whole_column_order_refuted.
Print Assumptions C10_whole_row_order_refuted.
Print Assumptions C10_repeated_rows_refuted.
Print Assumptions C10_same_header_refuted.
Print Assumptions C10_same_label_refuted.
Print Assumptions C10_backward_slice_refuted.
Print Assumptions C10_nothing_selected_refuted.
Print Assumptions C10_one_value_refuted.
Print Assumptions C10_one_row_array_refuted.

(** ** Ordinary cases meet the hypotheses *)
Section Examples.
  (** Five rows in blocks 2+2+1, three columns in blocks 2+1: [df.iloc[[4, 0, -3], [2, 0]] = array]. *)
  Example set_ex_cells :
    shows (demo [2;2;1] [2;1] (tab 5 3)) (tab 5 3) [2;2;1] [2;1]
    /\ positions 5 (LList [4;0;-3]%Z) = Some [4;0;2] /\ positions 3 (LList [2;0]%Z) = Some [2;0]
    /\ wanted 3 2 (mat [[1;2];[3;4];[5;6]]) <> None
    /\ orderly (LList [4;0;-3]%Z) [4;0;2] [2;0] (mat [[1;2];[3;4];[5;6]])
    /\ aligned [2;2;1] (LList [4;0;-3]%Z) [4;0;2] /\ aligned [2;1] (LList [2;0]%Z) [2;0]
    /\ run [2;2;1] [2;1] (tab 5 3) (LList [4;0;-3]%Z) (LList [2;0]%Z) (mat [[1;2];[3;4];[5;6]])
       = Ok (mkdf (seq 0 5) (seq 0 3) [[4;101;3];[110;111;112];[6;121;5];[130;131;132];[2;141;1]]).
  Proof.
    split; [apply demo_shows; [split; [reflexivity|repeat constructor]|reflexivity|reflexivity|discriminate|discriminate]|].
    split; [reflexivity|]. split; [reflexivity|]. split; [discriminate|]. split; [exact I|]. split; [intros []|]. split; [intros []|].
    vm_compute. reflexivity.
  Qed.
  (** Repeated positions: the last one counts.  [df.iloc[[1, 1], [0, 2]] = [[1, 2], [3, 4]]]. *)
  Example set_ex_repeated :
    run [2;2;1] [2;1] (tab 5 3) (LList [1;1]%Z) (LList [0;2]%Z) (mat [[1;2];[3;4]])
    = Ok (mkdf (seq 0 5) (seq 0 3) [[100;101;102];[3;111;4];[120;121;122];[130;131;132];[140;141;142]]).
  Proof. vm_compute. reflexivity. Qed.
  (** Even blocks and a slice in the middle: [df.iloc[1:4, 1:3] = array]. *)
  Example set_ex_slice :
    aligned [2;2;1] (between 1 4) [1;2;3] /\ orderly (between 1 4) [1;2;3] [1;2] (vec [7;8])
    /\ run [2;2;1] [2;1] (tab 5 3) (between 1 4) (between 1 3) (vec [7;8])
       = Ok (mkdf (seq 0 5) (seq 0 3) [[100;101;102];[110;7;8];[120;7;8];[130;7;8];[140;141;142]]).
  Proof.
    split; [|split].
    - intros _. right. intros p [= <-]. cbn. lia.
    - split; [repeat constructor|]. left. exact I.
    - vm_compute. reflexivity.
  Qed.
  Example set_ex_uniform : uniform [2;2;1].
  Proof. intros i Hi. do 3 (destruct i; [cbn; lia|]). cbn in Hi. lia. Qed.
  (** [df.iloc[:, -2] = [1, 2, 3, 4, 5]] *)
  Example set_ex_column :
    positions 5 (LSlice None None None) = Some (seq 0 5) /\ positions 3 (LInt (-2)) = Some [1]
    /\ wanted 5 1 (vec [1;2;3;4;5]) <> None
    /\ (forall k, nth_error (dcols (tab 5 3)) k = Some 1 -> k = 1)
    /\ run [2;2;1] [2;1] (tab 5 3) (LSlice None None None) (LInt (-2)) (vec [1;2;3;4;5])
       = Ok (mkdf (seq 0 5) (seq 0 3) [[100;1;102];[110;2;112];[120;3;122];[130;4;132];[140;5;142]]).
  Proof.
    split; [reflexivity|]. split; [reflexivity|]. split; [discriminate|]. split.
    - intros k Hk. do 3 (destruct k; cbn in Hk; try discriminate; try reflexivity). destruct k; discriminate.
    - vm_compute. reflexivity.
  Qed.
  (** [df.iloc[3] = [7, 8, 9]] *)
  Example set_ex_row :
    run [2;2;1] [2;1] (tab 5 3) (LInt 3) (LSlice None None None) (vec [7;8;9])
    = Ok (mkdf (seq 0 5) (seq 0 3) [[100;101;102];[110;111;112];[120;121;122];[7;8;9];[140;141;142]]).
  Proof. vm_compute. reflexivity. Qed.
End Examples.
