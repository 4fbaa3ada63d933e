(** C79: matrix products, [df.dot(other)] and [series.dot(other)] for a DataFrame, a Series, a 2-d array or a 1-d array.
    [shows f d rl cl]: the frame [f] displays the table [d] and its blocks are [d] cut into [rl] rows and [cl] columns.
    A Series is a frame with one column, whose label is [reduced] if it has no name. *)
From Coq Require Import ZArith.
From Verif Require Import Base Table ChunkSpec ChunkModel ChunkProofs GridModel GridSpec FrameSpec GridProofs SelProofs5 RemModel
  DotSpec DotModel DotProofs2 DotProofs3.

Section Props.
  Context {L A : Type}.
  Variable leqb : L -> L -> bool.
  Hypothesis leqb_ok : forall x y, leqb x y = true <-> x = y.
  Variables (nan : A) (inner : list A -> list A -> A).
  Variables (num : nat -> L) (union : list L -> list L -> list L).
  (** all that is used about [Index.union] *)
  Hypothesis union_again : forall a b, union a (union a b) = union a b.
  Variable reduced : L.
  Variables nparts min_row min_col : nat.
  Hypothesis (nparts_pos : 0 < nparts) (min_row_pos : 0 < min_row) (min_col_pos : 0 < min_col).
  Notation pf := (@pframe L L A).
  Notation dot := (api_dot leqb nan inner num union reduced nparts min_row min_col).
  Notation sdot := (api_sdot leqb nan inner num union reduced nparts min_row min_col).
  Notation pdot := (p_dot leqb nan inner num union).
  Notation psdot := (p_sdot leqb nan inner union).

  (** How many columns the other operand has. *)
  Definition width (o : other L A) : nat :=
    match o with OFrame t => ncols t | OSeries _ _ | OVector _ => 1 | OMatrix w _ => w end.
  Definition two_dimensional (o : other L A) : Prop :=
    match o with OFrame _ | OMatrix _ _ => True | _ => False end.

  (** The numbers of df.dot(other) are pandas', and it raises where pandas raises, for every operand, however the frame is
      split (a frame with one column has no empty column block). *)
  Theorem C79_dot_values (o : other L A) (f : pf) d rl cl : shows f d rl cl -> (ncols d = 1 -> Forall (fun c => 0 < c) cl) ->
    match pdot d o with
    | Ok a => exists b, dot o f = Ok b /\ same_values a b
    | Err _ => exists e, dot o f = Err e
    end.
  Proof. intros S P. assert (X := @api_dot_ok L A leqb leqb_ok nan inner num union union_again reduced nparts min_row min_col nparts_pos min_row_pos min_col_pos o f d rl cl S P).
    destruct (pdot d o) as [a|e] eqn:Ep; [|exact X]. rewrite X. eexists. split; [reflexivity|].
    assert (W : wf d) by apply S.
    destruct o as [t|ix vs|w rows|vs]; cbn [p_dot api_finish num_cols] in Ep |- *.
    - destruct (matching _ _ _ _); [|discriminate]. injection Ep as <-. cbn [to_frame same_values dcells]. unfold with_index, with_columns.
      destruct (ncols d =? 1); [destruct (_ && _)|destruct (_ =? 1)]; reflexivity.
    - destruct (matching _ _ _ _); [|discriminate]. injection Ep as <-. cbn [to_frame]. unfold with_index, with_columns. cbn [Nat.eqb].
      match goal with |- same_values (ASeries _ _ ?v) _ => set (us := v) end.
      assert (Lu : length us = length (dindex d)) by (unfold us; rewrite map_length; apply W).
      destruct (ncols d =? 1); [destruct (Nat.eqb_spec (nrows d) 1) as [E1|E1]|]; cbn [andb dindex dcols dcells].
      + destruct (@series_of_column L A leqb leqb_ok nan reduced [reduced] (num 0) us) as (n & j & -> & _); [unfold nrows in *; cbn; congruence|reflexivity].
      + destruct (@series_of_column L A leqb leqb_ok nan reduced (dindex d) (num 0) us) as (n & j & -> & _); auto; reflexivity.
      + destruct (@series_of_column L A leqb leqb_ok nan reduced (dindex d) reduced us) as (n & j & -> & _); auto; reflexivity.
    - destruct (_ =? _) eqn:E; [|discriminate]. injection Ep as <-. cbn [to_frame same_values dcells]. unfold with_index, with_columns.
      destruct (ncols d =? 1); [destruct (_ && _)|destruct (_ =? 1)]; reflexivity.
    - destruct (ncols d =? length vs) eqn:E; [|discriminate]. injection Ep as <-. cbn [to_frame]. unfold with_index, with_columns. cbn [Nat.eqb].
      match goal with |- same_values (ASeries _ _ ?v) _ => set (us := v) end.
      assert (Lu : length us = length (dindex d)) by (unfold us; rewrite map_length; apply W).
      destruct (ncols d =? 1); [destruct (Nat.eqb_spec (nrows d) 1) as [E1|E1]|]; cbn [andb dindex dcols dcells].
      + destruct (@series_of_column L A leqb leqb_ok nan reduced [reduced] (num 0) us) as (n & j & -> & _); [unfold nrows in *; cbn; congruence|reflexivity].
      + destruct (@series_of_column L A leqb leqb_ok nan reduced (dindex d) (num 0) us) as (n & j & -> & _); auto; reflexivity.
      + destruct (@series_of_column L A leqb leqb_ok nan reduced (dindex d) reduced us) as (n & j & -> & _); auto; reflexivity. Qed.

  (** df.dot(other) is exactly pandas' result, labels included.  Missing: other DataFrames and arrays with one column, except for
      a frame with one column and not one row; Series and 1-d arrays for a frame with one column (see the refuted cases). *)
  Theorem C79_dot_partial (o : other L A) (f : pf) d rl cl a : shows f d rl cl -> (ncols d = 1 -> Forall (fun c => 0 < c) cl) ->
    (two_dimensional o -> width o = 1 -> ncols d = 1 /\ nrows d <> 1) ->
    (~ two_dimensional o -> ncols d <> 1) ->
    pdot d o = Ok a -> dot o f = Ok a.
  Proof. intros S P K1 K2 Ep. assert (X := @api_dot_ok L A leqb leqb_ok nan inner num union union_again reduced nparts min_row min_col nparts_pos min_row_pos min_col_pos o f d rl cl S P).
    rewrite Ep in X. rewrite X. f_equal. assert (W : wf d) by apply S.
    destruct o as [t|ix vs|w rows|vs]; cbn [p_dot api_finish num_cols two_dimensional width] in *.
    - destruct (matching _ _ _ _); [|discriminate]. injection Ep as <-. cbn [to_frame]. unfold with_index, with_columns.
      destruct (Nat.eqb_spec (ncols t) 1) as [E|E]; [destruct (K1 I E) as [-> N]; apply Nat.eqb_neq in N; now rewrite N|].
      rewrite andb_false_r. now destruct (ncols d =? 1).
    - destruct (matching _ _ _ _); [|discriminate]. injection Ep as <-. cbn [to_frame Nat.eqb]. assert (N := K2 (fun x => x)). apply Nat.eqb_neq in N. rewrite N.
      unfold with_columns. cbn [dindex dcells].
      match goal with |- _ = ASeries _ _ ?v => destruct (@series_of_column L A leqb leqb_ok nan reduced (dindex d) reduced v) as (n & j & -> & Z & _); [rewrite map_length; apply W|] end.
      now destruct (Z eq_refl) as [-> ->].
    - destruct (ncols d =? length rows); [|discriminate]. injection Ep as <-. cbn [to_frame]. unfold with_index, with_columns.
      destruct (Nat.eqb_spec w 1) as [E|E]; [destruct (K1 I E) as [-> N]; apply Nat.eqb_neq in N; now rewrite N|].
      rewrite andb_false_r. now destruct (ncols d =? 1).
    - destruct (ncols d =? length vs); [|discriminate]. injection Ep as <-. cbn [to_frame Nat.eqb]. assert (N := K2 (fun x => x)). apply Nat.eqb_neq in N. rewrite N.
      unfold with_columns. cbn [dindex dcells].
      match goal with |- _ = ASeries _ _ ?v => destruct (@series_of_column L A leqb leqb_ok nan reduced (dindex d) reduced v) as (n & j & -> & Z & _); [rewrite map_length; apply W|] end.
      now destruct (Z eq_refl) as [-> ->]. Qed.

  (** series.dot(other) is exactly pandas' result, and it raises where pandas raises.  Missing: DataFrames and 2-d arrays with one
      column (see the refuted cases). *)
  Theorem C79_series_dot_partial (o : other L A) (f : pf) d rl cl : shows f d rl cl -> ncols d = 1 -> Forall (fun c => 0 < c) cl ->
    (two_dimensional o -> width o <> 1) ->
    match psdot (name_of leqb reduced (hd reduced (dcols d))) (dindex d) (map (hd nan) (dcells d)) o with
    | Ok a => sdot o f = Ok a
    | Err _ => exists e, sdot o f = Err e
    end.
  Proof. intros S N1 P K. assert (X := @api_sdot_ok L A leqb leqb_ok nan inner num union union_again reduced nparts min_row min_col nparts_pos min_row_pos min_col_pos o f d rl cl S N1 P).
    assert (Y := @psdot_name L A leqb nan inner union (Some (hd reduced (dcols d))) (name_of leqb reduced (hd reduced (dcols d))) (dindex d) (squeezed nan d) o).
    fold (squeezed nan d). destruct (psdot (Some _) _ _ o) as [a|e] eqn:Ep; destruct (psdot (name_of _ _ _) _ _ o) as [b|e'] eqn:Eq; try easy.
    destruct (@psdot_frame L A leqb nan inner num union _ _ _ _ _ Ep) as (ix' & c & vs & Et & L1 & L2 & Z). rewrite X, Et.
    destruct o as [t|jx us|w rows|us]; cbn [sfinish num_cols two_dimensional width] in *.
    - destruct Y as (jx & us & Ya & ->). destruct Z as (Za & ->). rewrite Ya in Za. injection Za as -> ->. f_equal.
      specialize (K I). apply Nat.eqb_neq in K as K'. rewrite K'. cbn [with_index with_columns].
      destruct (@series_of_column L A leqb leqb_ok nan reduced ix' (hd reduced (dcols d)) vs) as (n & j & -> & _ & Q); [congruence|].
      destruct Q as [-> ->]; [congruence|]. reflexivity.
    - destruct Z as (v & -> & ->). now subst b.
    - subst a b. specialize (K I). apply Nat.eqb_neq in K as K'. rewrite K'. cbn [with_index with_columns]. unfold array_of, ncols. cbn [dcols length Nat.eqb dcells].
      unfold squeezed. cbn [dcells]. rewrite map_map. cbn [hd]. rewrite map_id. destruct vs as [|v [|v' vs]]; auto. cbn in L1. congruence.
    - destruct Z as (v & -> & ->). now subst b. Qed.

  (** the values of series.dot(frame) are pandas' in all cases *)
  Theorem C79_series_dot_values t (f : pf) d rl cl a : shows f d rl cl -> ncols d = 1 -> Forall (fun c => 0 < c) cl ->
    psdot (name_of leqb reduced (hd reduced (dcols d))) (dindex d) (map (hd nan) (dcells d)) (OFrame t) = Ok a ->
    exists b, sdot (OFrame t) f = Ok b /\ same_values a b.
  Proof. intros S N1 P Eq. assert (X := @api_sdot_ok L A leqb leqb_ok nan inner num union union_again reduced nparts min_row min_col nparts_pos min_row_pos min_col_pos (OFrame t) f d rl cl S N1 P).
    assert (Y := @psdot_name L A leqb nan inner union (Some (hd reduced (dcols d))) (name_of leqb reduced (hd reduced (dcols d))) (dindex d) (squeezed nan d) (OFrame t)).
    fold (squeezed nan d) in Eq. rewrite Eq in Y. destruct (psdot (Some _) _ _ _) as [a'|e] eqn:Ep; [|easy].
    destruct (@psdot_frame L A leqb nan inner num union _ _ _ _ _ Ep) as (ix' & c & vs & Et & L1 & L2 & Za & ->). rewrite X, Et.
    destruct Y as (jx & us & Ya & ->). rewrite Ya in Za. injection Za as -> ->. cbn [sfinish num_cols] in *. eexists. split; [reflexivity|].
    unfold with_index, with_columns. destruct (Nat.eqb_spec (ncols t) 1) as [E|E]; cbn [dindex dcols dcells].
    - destruct (@series_of_column L A leqb leqb_ok nan reduced [reduced] reduced vs) as (n & j & -> & _); [cbn; congruence|reflexivity].
    - destruct (@series_of_column L A leqb leqb_ok nan reduced ix' (hd reduced (dcols d)) vs) as (n & j & -> & _); [congruence|reflexivity]. Qed.
End Props.
Print Assumptions C79_dot_values.
Print Assumptions C79_dot_partial.
Print Assumptions C79_series_dot_partial.
Print Assumptions C79_series_dot_values.

(** Concrete frames *)
Inductive dot_label := Row (n : nat) | Col (n : nat) | Num (n : nat) | Reduced.
Definition dot_eqb (x y : dot_label) : bool :=
  match x, y with
  | Row a, Row b | Col a, Col b | Num a, Num b => a =? b
  | Reduced, Reduced => true
  | _, _ => false
  end.
Lemma dot_eqb_ok x y : dot_eqb x y = true <-> x = y.
Proof. destruct x, y; cbn; try (split; congruence); rewrite Nat.eqb_eq; split; congruence. Qed.
(** the union of two Indexes that cannot be sorted *)
Definition dot_union (a b : list dot_label) : list dot_label := a ++ filter (fun x => negb (existsb (dot_eqb x) a)) b.
Lemma dot_union_again a b : dot_union a (dot_union a b) = dot_union a b.
Proof. unfold dot_union. f_equal. rewrite filter_app.
  assert (F : forall l, (forall x, In x l -> In x a) -> filter (fun x => negb (existsb (dot_eqb x) a)) l = []).
  { intros l. induction l as [|x l IH]; intros Hl; auto. cbn [filter]. replace (existsb (dot_eqb x) a) with true; cbn [negb].
    - apply IH. intros y Hy. apply Hl. now right.
    - symmetry. apply existsb_exists. exists x. split; [apply Hl; now left|now apply dot_eqb_ok]. }
  rewrite F by auto. cbn [app]. induction b as [|x b IH]; auto. cbn [filter]. destruct (negb (existsb (dot_eqb x) a)) eqn:E; auto. cbn [filter]. now rewrite E, IH. Qed.
Section DotConcrete.
  Open Scope Z_scope.
  Definition dot_inner (x y : list Z) : Z := fold_right Z.add 0 (map (fun p => fst p * snd p) (combine x y)).
  Notation table := (df dot_label dot_label Z).
  Definition dot_cut (rl cl : list nat) (d : table) : @pframe dot_label dot_label Z := mkpf (cut_table rl cl d) (Some (dindex d)) (Some (dcols d)) (Some rl) (Some cl).
  Definition dot_pdot := p_dot dot_eqb 0 dot_inner Num dot_union.
  Definition dot_psdot := p_sdot dot_eqb 0 dot_inner dot_union.
  Definition dot_dot := api_dot dot_eqb 0 dot_inner Num dot_union Reduced 2 1 1.
  Definition dot_sdot := api_sdot dot_eqb 0 dot_inner Num dot_union Reduced 2 1 1.
  Definition dot_d : table := mkdf [Row 5;Row 6;Row 7] [Col 1;Col 2] [[1;2];[3;4];[5;6]].
  Definition dot_f := dot_cut [2;1]%nat [1;1]%nat dot_d.
  Lemma dot_shows : shows dot_f dot_d [2;1]%nat [1;1]%nat.
  Proof. unfold shows, holds, gridded. cbn. repeat split; auto; try discriminate; try congruence; repeat constructor; intros ? [= <-]; reflexivity. Qed.

  (** the labels of the other operand in another order: its rows are rearranged *)
  Definition dot_t : table := mkdf [Col 2;Col 1] [Col 8;Col 9] [[10;20];[1;0]].
  Example C79_dot_case : dot_dot (OFrame dot_t) dot_f = Ok (AFrame (mkdf [Row 5;Row 6;Row 7] [Col 8;Col 9] [[21;40];[43;80];[65;120]])).
  Proof. vm_compute. reflexivity. Qed.
  Example C79_dot_hypotheses : dot_dot (OFrame dot_t) dot_f = Ok (AFrame (mkdf [Row 5;Row 6;Row 7] [Col 8;Col 9] [[21;40];[43;80];[65;120]])).
  Proof. apply (@C79_dot_partial dot_label Z dot_eqb dot_eqb_ok 0 dot_inner Num dot_union dot_union_again Reduced 2 1 1 Nat.lt_0_2 Nat.lt_0_1 Nat.lt_0_1 (OFrame dot_t) dot_f dot_d _ _ _ dot_shows); cbn; try discriminate; tauto. Qed.
  Example C79_dot_series_case : dot_dot (OSeries [Col 1;Col 2] [1;10]) dot_f = Ok (ASeries None [Row 5;Row 6;Row 7] [21;43;65]).
  Proof. vm_compute. reflexivity. Qed.
  Example C79_dot_mismatch_case : dot_dot (OSeries [Col 1;Col 3] [1;10]) dot_f = Err ValueError /\ dot_pdot dot_d (OSeries [Col 1;Col 3] [1;10]) = Err ValueError.
  Proof. split; vm_compute; reflexivity. Qed.
  (** labels that repeat can be multiplied if they are the same on both sides, in this order *)
  Example C79_dot_repeated_case :
    dot_dot (OSeries [Col 1;Col 1] [1;10]) (dot_cut [2;1]%nat [1;1]%nat (mkdf [Row 5;Row 6;Row 7] [Col 1;Col 1] [[1;2];[3;4];[5;6]])) = Ok (ASeries None [Row 5;Row 6;Row 7] [21;43;65]).
  Proof. vm_compute. reflexivity. Qed.

  Definition dot_s : table := mkdf [Row 5;Row 6;Row 7] [Col 4] [[1];[10];[100]].
  Definition dot_sf := dot_cut [1;2]%nat [1]%nat dot_s.
  Lemma dot_s_shows : shows dot_sf dot_s [1;2]%nat [1]%nat.
  Proof. unfold shows, holds, gridded. cbn. repeat split; auto; try discriminate; try congruence; repeat constructor; intros ? [= <-]; reflexivity. Qed.
  Definition dot_u : table := mkdf [Row 5;Row 6;Row 7] [Col 1;Col 2] [[1;2];[3;4];[5;6]].
  Example C79_series_dot_case : dot_sdot (OFrame dot_u) dot_sf = Ok (ASeries (Some (Col 4)) [Col 1;Col 2] [531;642])
    /\ dot_sdot (OSeries [Row 7;Row 5;Row 6] [3;1;2]) dot_sf = Ok (AScalar 321) /\ dot_sdot (OMatrix 2 [[1;2];[3;4];[5;6]]) dot_sf = Ok (AArray [531;642]).
  Proof. repeat split; vm_compute; reflexivity. Qed.
  Example C79_series_dot_hypotheses : dot_sdot (OFrame dot_u) dot_sf = Ok (ASeries (Some (Col 4)) [Col 1;Col 2] [531;642]).
  Proof. refine (@C79_series_dot_partial dot_label Z dot_eqb dot_eqb_ok 0 dot_inner Num dot_union dot_union_again Reduced 2 1 1 Nat.lt_0_2 Nat.lt_0_1 Nat.lt_0_1 (OFrame dot_u) dot_sf dot_s _ _ dot_s_shows eq_refl _ _); [repeat constructor|discriminate]. Qed.

  (** another operand with one column: its label is replaced by '__reduced__' *)
  Definition dot_v : table := mkdf [Col 1;Col 2] [Col 9] [[1];[10]].
  Theorem C79_one_column_label_refuted :
    dot_pdot dot_d (OFrame dot_v) = Ok (AFrame (mkdf [Row 5;Row 6;Row 7] [Col 9] [[21];[43];[65]]))
    /\ dot_dot (OFrame dot_v) dot_f = Ok (AFrame (mkdf [Row 5;Row 6;Row 7] [Reduced] [[21];[43];[65]]))
    /\ dot_pdot dot_d (OMatrix 1 [[1];[10]]) = Ok (AFrame (mkdf [Row 5;Row 6;Row 7] [Num 0] [[21];[43];[65]]))
    /\ dot_dot (OMatrix 1 [[1];[10]]) dot_f = Ok (AFrame (mkdf [Row 5;Row 6;Row 7] [Reduced] [[21];[43];[65]])).
  Proof. repeat split; vm_compute; reflexivity. Qed.
  Print Assumptions C79_one_column_label_refuted.
  (** a frame with one row and one column: the label of the row is replaced *)
  Definition dot_11 : table := mkdf [Row 5] [Col 4] [[3]].
  Theorem C79_one_cell_label_refuted :
    dot_pdot dot_11 (OFrame (mkdf [Col 4] [Col 9] [[7]])) = Ok (AFrame (mkdf [Row 5] [Col 9] [[21]]))
    /\ dot_dot (OFrame (mkdf [Col 4] [Col 9] [[7]])) (dot_cut [1]%nat [1]%nat dot_11) = Ok (AFrame (mkdf [Reduced] [Col 9] [[21]])).
  Proof. repeat split; vm_compute; reflexivity. Qed.
  Print Assumptions C79_one_cell_label_refuted.
  (** a frame with one column and a Series or a 1-d array: the Series that comes out is named 0; with one row, its label is 0 *)
  Theorem C79_one_column_name_refuted :
    dot_pdot dot_s (OVector [7]) = Ok (ASeries None [Row 5;Row 6;Row 7] [7;70;700])
    /\ dot_dot (OVector [7]) dot_sf = Ok (ASeries (Some (Num 0)) [Row 5;Row 6;Row 7] [7;70;700])
    /\ dot_pdot dot_11 (OSeries [Col 4] [7]) = Ok (ASeries None [Row 5] [21])
    /\ dot_dot (OSeries [Col 4] [7]) (dot_cut [1]%nat [1]%nat dot_11) = Ok (ASeries None [Num 0] [21]).
  Proof. repeat split; vm_compute; reflexivity. Qed.
  Print Assumptions C79_one_column_name_refuted.
  (** a Series and a DataFrame with one column: both the name of the Series and the label of the column are lost *)
  Theorem C79_series_label_refuted :
    dot_psdot (Some (Col 4)) [Row 5;Row 6;Row 7] [1;10;100] (OFrame (mkdf [Row 5;Row 6;Row 7] [Col 9] [[1];[2];[3]])) = Ok (ASeries (Some (Col 4)) [Col 9] [321])
    /\ dot_sdot (OFrame (mkdf [Row 5;Row 6;Row 7] [Col 9] [[1];[2];[3]])) dot_sf = Ok (ASeries None [Reduced] [321]).
  Proof. repeat split; vm_compute; reflexivity. Qed.
  Print Assumptions C79_series_label_refuted.
  (** a Series and an array with one column: an array without dimensions instead of one of length 1 *)
  Theorem C79_series_array_refuted :
    dot_psdot (Some (Col 4)) [Row 5;Row 6;Row 7] [1;10;100] (OMatrix 1 [[1];[2];[3]]) = Ok (AArray [321])
    /\ dot_sdot (OMatrix 1 [[1];[2];[3]]) dot_sf = Ok (AArray0 321).
  Proof. repeat split; vm_compute; reflexivity. Qed.
  Print Assumptions C79_series_array_refuted.
End DotConcrete.
