(** C84: quantiles and ranks.
    [p_quantile] and [quantile_table] (QntSpec.v) and [along] (FilSpec.v) say what pandas returns; [api_quantile] and [api_rank]
    (QntModel.v) are the code.  [shows f d rl cl] (SelProofs5.v): the frame [f] holds the table [d], its blocks cut at row lengths
    [rl] and column widths [cl].  [quants] and [ranks], what pandas computes for one line of cells, are arbitrary. *)
From Verif Require Import Base Table GridSpec ChunkModel ChunkSpec FrameSpec GridModel GridProofs3 GridProofs5 SelSpec SelModel SelProofs SelProofs5 SelProofs7 RemSpec RemModel RemProofs ItmModel FilSpec FilProofs FilProofs2 FilProps QntSpec QntModel QntProofs.

Section C84.
  Context {L A B : Type}.
  Variable leqb : L -> L -> bool.
  Hypothesis leqb_ok : forall x y, leqb x y = true <-> x = y.
  Variable order : list L -> list L.
  Hypothesis order_ok : forall l, Permutation (order l) l.
  Variables min_row min_col nparts : nat.
  Hypothesis min_row_pos : 0 < min_row.
  Hypothesis min_col_pos : 0 < min_col.
  Hypothesis nparts_pos : 0 < nparts.
  Variables known_l known_w : nat -> nat -> bool.
  Variable argsort : list Z -> list nat.
  Hypothesis argsort_ok : forall l, sorts l (argsort l).
  Variable qs : list L.
  Variable quants : list A -> list B.
  Hypothesis quants_length : forall l, length (quants l) = length qs.
  Notation api_quantile := (api_quantile leqb order min_row min_col nparts known_l known_w argsort qs quants).

  (** C84 (partial): [df.quantile(qs, axis=, numeric_only=)] shows pandas' result, or raises the same TypeError, whatever the
      blocks.  Missing: repeated column labels with axis=1 or numeric_only (refuted); axis=1 without numeric_only over columns of several dtypes (refuted). *)
  Theorem C84_quantile_partial :
    forall (axis numeric_only : bool) (ts : list dtype) (f : @pframe L L A) d rl cl,
      shows f d rl cl -> 0 < nrows d -> (axis = true \/ numeric_only = true -> NoDup (dcols d)) -> length ts = ncols d ->
      (axis = true -> numeric_only = false -> exists t, ordered t = true /\ Forall (eq t) ts) ->
      match p_quantile qs quants axis numeric_only ts d with
      | Ok D => returns leqb leqb (api_quantile axis numeric_only ts f) D
      | Err e => api_quantile axis numeric_only ts f = Err e
      end.
  Proof.
    intros axis numeric_only ts f d rl cl S N D Lt Same. unfold p_quantile, QntModel.api_quantile.
    destruct numeric_only.
    - specialize (D (or_intror eq_refl)). assert (F : Forall (fun t => is_num t = true) (filter is_num ts)) by (apply Forall_forall; intros t I; now apply filter_In in I).
      assert (F1 : forallb is_num (filter is_num ts) = true) by (apply forallb_forall; now apply Forall_forall).
      assert (F2 : forallb ordered (filter is_num ts) = true).
      { apply forallb_forall. intros t I. rewrite Forall_forall in F. unfold ordered. now rewrite (F t I). }
      rewrite F1, F2. cbn [orb]. replace (if axis then true else true) with true by now destruct axis.
      apply (returns_intro leqb leqb leqb_ok leqb_ok). assert (S' := S). destruct S' as (Hh & Hr & Hc & Hi & Hcol). rewrite Hcol. cbn [labels rbind].
      set (ls := filter (fun l => negb (label_numeric leqb (dcols d) ts l)) (dcols d)).
      destruct (@drop_ok L A leqb leqb_ok order order_ok min_row min_col nparts min_row_pos min_col_pos nparts_pos known_l known_w argsort argsort_ok ls f d rl cl S N) as (g & rl1 & cl1 & E1 & S1).
      { intros l I. now apply filter_In in I. }
      rewrite E1. cbn [rbind]. unfold ls in *. rewrite (dropped_flags leqb leqb_ok ts D Lt) in *. rewrite kept_filter.
      apply (@quantile_for_ok L A B leqb leqb_ok min_row min_col nparts min_row_pos min_col_pos nparts_pos known_l known_w argsort argsort_ok qs quants quants_length axis _ g _ rl1 cl1 S1 N); cbn [dcols keep_columns ncols].
      + intros _. now apply kept_nodup.
      + now apply kept_num_length.
      + exact F2.
    - destruct axis.
      + destruct (Same eq_refl eq_refl) as (t & Ot & Ft).
        replace (forallb is_num ts || forallb is_date ts) with true.
        2: { symmetry. apply orb_true_iff. rewrite !forallb_forall. rewrite Forall_forall in Ft. destruct t; [left|right|discriminate]; intros x I; now rewrite <- (Ft x I). }
        replace (neighbours_equal ts) with true.
        2: { symmetry. clear - Ft. induction ts as [|a ts IH]; [reflexivity|]. inversion Ft as [|? ? E F]; subst. specialize (IH F). destruct ts as [|b ts]; [reflexivity|].
             inversion F; subst. change (neighbours_equal (b :: b :: ts)) with (dtype_eqb b b && neighbours_equal (b :: ts)). rewrite IH. destruct b; cbn; now rewrite ?Nat.eqb_refl. }
        apply (returns_intro leqb leqb leqb_ok leqb_ok).
        apply (@quantile_for_ok L A B leqb leqb_ok min_row min_col nparts min_row_pos min_col_pos nparts_pos known_l known_w argsort argsort_ok qs quants quants_length true _ f _ rl cl S N (fun e => D (or_introl e)) Lt).
        apply forallb_forall. rewrite Forall_forall in Ft. intros x I. now rewrite <- (Ft x I).
      + destruct (forallb ordered ts) eqn:O; [|reflexivity]. apply (returns_intro leqb leqb leqb_ok leqb_ok).
        now apply (@quantile_for_ok L A B leqb leqb_ok min_row min_col nparts min_row_pos min_col_pos nparts_pos known_l known_w argsort argsort_ok qs quants quants_length false _ f _ rl cl S N (fun e => D (or_introl e)) Lt).
  Qed.

  (** C84, ranks: [df.rank(axis=)] shows the ranks within each column or within each row, under the labels of [df] *)
  Theorem C84_rank :
    forall (ranks : list A -> list B) (axis : bool) (f : @pframe L L A) d rl cl,
      (forall l, length (ranks l) = length l) -> shows f d rl cl -> 0 < nrows d -> 0 < ncols d ->
      exists f', api_rank leqb min_row min_col nparts ranks axis f = Ok f' /\ pf_to_pandas leqb leqb f' = Ok (along axis ranks d).
  Proof.
    intros ranks axis f d rl cl Lr S Pr Pc. assert (S' := S). destruct S' as (Hh & Hr & Hc & Hi & Hcol). unfold api_rank. rewrite Hi, Hcol.
    assert (G : exists x rl' cl', apply_full_axis leqb leqb nparts min_row min_col axis (fun t => Ok (along axis ranks t)) (Some (dindex d)) (if axis then None else Some (dcols d)) true None f = Ok x
      /\ gridded x (along axis ranks d) rl' cl' /\ rl' <> [] /\ cl' <> [] /\ pindex x = Some (dindex d) /\ pcols x = if axis then None else Some (dcols d)).
    { destruct axis.
      - apply (@apply_full_axis_rows L L A L L B leqb leqb leqb_ok (along true ranks) (by_rows_rw (fun _ => ranks) (fun _ => Lr)) nparts min_row min_col _ None true None f d rl cl (proj1 Hh)); try easy.
        intros i [= <-]. reflexivity.
      - apply (@apply_full_axis_columns L L A L L B leqb leqb leqb_ok (along false ranks) (by_columns_cw (fun _ => ranks) (fun _ => Lr)) nparts min_row min_col _ _ true None f d rl cl (proj1 Hh)); try easy.
        + intros i [= <-]. reflexivity.
        + intros i [= <-]. reflexivity. }
    destruct G as (x & rl' & cl' & E & G & Hr' & Hc' & I' & C'). exists x. split; [exact E|].
    apply (@pf_to_pandas_holds L L B leqb leqb leqb_ok leqb_ok x _ rl' cl').
    - split; [exact G|]. rewrite I', C'. split; [right; now destruct axis|]. destruct axis; [now left|now right].
    - replace (nrows (along axis ranks d)) with (nrows d) by now destruct axis. replace (ncols (along axis ranks d)) with (ncols d) by now destruct axis. lia.
  Qed.
End C84.
Print Assumptions C84_quantile_partial.
Print Assumptions C84_rank.

(** three columns 1, 2 and 3 of dtypes 0 (say int64), 1 (float64) and 0; the quantiles with interpolation="lower", in percent *)
Definition qnt_qs : list nat := [25;100].
Definition qnt_quants (l : list Z) : list Z := map (fun q => nth ((length l - 1) * q / 100) (np_sort l) 0%Z) qnt_qs.
Definition qnt_d (cols : list nat) : df nat nat Z := mkdf [10;20] cols [[1;2;0];[9;8;7]]%Z.
Definition qnt_f cols : @pframe nat nat Z := mkpf (cut_table [1;1] [2;1] (qnt_d cols)) (Some [10;20]) (Some cols) (Some [1;1]) (Some [2;1]).
Definition qnt_run axis num ts cols := do f <- api_quantile Nat.eqb (@id (list nat)) 1 1 2 (fun _ _ => true) (fun _ _ => true) zargsort qnt_qs qnt_quants axis num ts (qnt_f cols); pf_to_pandas Nat.eqb Nat.eqb f.
Lemma qnt_shows cols : length cols = 3 -> shows (qnt_f cols) (qnt_d cols) [1;1] [2;1].
Proof. intros E. unfold shows. split; [|now repeat split]. apply holds_intro; cbn; auto. split; cbn; [reflexivity|]. unfold ncols; cbn. rewrite E. now repeat constructor. Qed.
Example C84_quantile_case : p_quantile qnt_qs qnt_quants true true [Num 0; Other; Num 1] (qnt_d [1;2;3]) = Ok (mkdf [25;100] [10;20] [[0;7];[1;9]]%Z)
  /\ returns Nat.eqb Nat.eqb (api_quantile Nat.eqb (@id (list nat)) 1 1 2 (fun _ _ => true) (fun _ _ => true) zargsort qnt_qs qnt_quants true true [Num 0; Other; Num 1] (qnt_f [1;2;3])) (mkdf [25;100] [10;20] [[0;7];[1;9]]%Z).
Proof. split; [vm_compute; reflexivity|].
  refine (@C84_quantile_partial nat Z Z Nat.eqb Nat.eqb_eq (@id _) (fun l => Permutation_refl l) 1 1 2 ltac:(lia) ltac:(lia) ltac:(lia) (fun _ _ => true) (fun _ _ => true) zargsort zargsort_ok
    qnt_qs qnt_quants (fun l => eq_refl) true true [Num 0; Other; Num 1] (qnt_f [1;2;3]) (qnt_d [1;2;3]) [1;1] [2;1] (qnt_shows [1;2;3] eq_refl) _ _ eq_refl _).
  - cbn; lia.
  - intros _. repeat constructor; cbn; lia.
  - discriminate. Qed.

(** C84 refuted: [df.quantile([...], axis=1)] over an int64 and a float64 column raises TypeError; pandas answers *)
Theorem C84_mixed_refuted : qnt_run true false [Num 0; Num 1; Num 0] [1;2;3] = Err TypeError
  /\ p_quantile qnt_qs qnt_quants true false [Num 0; Num 1; Num 0] (qnt_d [1;2;3]) = Ok (mkdf [25;100] [10;20] [[0;7];[2;9]]%Z).
Proof. split; vm_compute; reflexivity. Qed.
(** C84 refuted: with numeric_only=True numeric columns that share their label are left out; pandas has their quantiles *)
Theorem C84_repeated_refuted : qnt_run false true [Num 0; Num 0; Num 0] [1;1;3] = Ok (mkdf [25;100] [3] [[0];[7]]%Z)
  /\ p_quantile qnt_qs qnt_quants false true [Num 0; Num 0; Num 0] (qnt_d [1;1;3]) = Ok (mkdf [25;100] [1;1;3] [[1;2;0];[9;8;7]]%Z).
Proof. split; vm_compute; reflexivity. Qed.
(** C84 refuted: with axis=1 a column whose label is repeated counts several times in the quantiles of the rows *)
Theorem C84_repeated_rows_refuted : qnt_run true false [Num 0; Num 0; Num 0] [1;1;3] = Ok (mkdf [25;100] [10;20] [[1;8];[2;9]]%Z)
  /\ p_quantile qnt_qs qnt_quants true false [Num 0; Num 0; Num 0] (qnt_d [1;1;3]) = Ok (mkdf [25;100] [10;20] [[0;7];[2;9]]%Z).
Proof. split; vm_compute; reflexivity. Qed.
Print Assumptions C84_mixed_refuted.
Print Assumptions C84_repeated_refuted.
Print Assumptions C84_repeated_rows_refuted.
