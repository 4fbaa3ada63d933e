(** The steps the reductions are made of. *)
From Verif Require Import Base Table ChunkModel ChunkSpec GridSpec GridModel FrameSpec GridProofs GridProofs2 GridProofs3 GridProofs4 GridProofs5
  SelSpec SelModel SelProofs SelProofs4 SelProofs5 SelProofs6 LabProofs ArrSpec ArrModel ArrProofs NbinProofs NbinProofs2 NbinProofs3 NredSpec NredModel.

Definition got_is {A} (g : @got A) (r : value A) : Prop :=
  match g, r with GScalar a, Scalar b => a = b | GArr x, Array v => stands x v | _, _ => False end.

Section Steps.
  Variables min_row min_col nparts cpus : nat.
  Variable dynamic : bool.
  Hypothesis mr : 0 < min_row.
  Hypothesis mc : 0 < min_col.
  Hypothesis np : 0 < nparts.
  Variable unnamed : nat.
  Notation pf A := (@pframe nat nat A).
  Notation red := (red min_row min_col nparts cpus dynamic unnamed).
  Notation full_red := (full_red min_row min_col nparts unnamed).
  Notation each := (each min_row min_col nparts cpus dynamic).

  Definition reduced {A B} (axis : bool) (agg : list A -> B) (d : df nat nat A) : df nat nat B :=
    if axis then reduce_rows unnamed agg d else reduce_columns unnamed agg d.

  Lemma shows_of_holds {A} (f : pf A) d rl cl : holds f d rl cl -> rl <> [] -> cl <> [] -> pindex f <> None -> pcols f <> None -> shows f d rl cl.
  Proof. clear. intros H N1 N2 P1 P2. split; [exact H|]. split; [exact N1|]. split; [exact N2|]. destruct H as (_ & H1 & H2).
    destruct (pindex f) as [i|]; [|easy]. destruct (pcols f) as [c|]; [|easy]. destruct H1 as [H1|H1]; destruct H2 as [H2|H2]; try discriminate.
    now rewrite H1, H2. Qed.

  Lemma red_ok {A M B} (axis : bool) (magg : list A -> M) (ragg : list M -> B) agg (f : pf A) d rl cl :
    tree_law magg ragg agg -> shows f d rl cl -> 0 < nrows d -> 0 < ncols d ->
    exists f' rl' cl', red axis magg ragg f = Ok f' /\ shows f' (reduced axis agg d) rl' cl'.
  Proof. intros Law ((G & _) & Nr & Nc & Pi & Pc) Pn Pm. unfold NredModel.red. rewrite Pi, Pc. cbn [labels rbind].
    assert (Hcell : nat -> A).
    { clear - G Pn Pm. destruct G as ((W1 & W2) & _). unfold nrows, ncols in *. intros _. destruct (dcells d) as [|[|a r] g]; [|exfalso|exact a].
      - exfalso. cbn in W1. lia.
      - inversion W2; subst. cbn in *. lia. }
    destruct (@tree_reduce_grid nat A Nat.eqb Nat.eqb_eq) with (unnamed := unnamed) (min_row := min_row) (min_col := min_col) (nparts := nparts) (cpus := cpus) (dynamic := dynamic) (M := M) (B := B) (axis := axis) (magg := magg) (ragg := ragg) (agg := agg)
      (f := f) (d := d) (rl := rl) (cl := cl) (idx := dindex d) (cols := dcols d) as (f' & rl' & cl' & E & N1 & N2 & P1 & P2 & Hh); auto.
    all: try solve [destruct axis; reflexivity].
    exists f', rl', cl'. split; [exact E|]. apply shows_of_holds; auto. Qed.

  Lemma full_red_ok {A B} (axis : bool) (agg : list A -> B) (f : pf A) d rl cl : shows f d rl cl -> 0 < nrows d -> 0 < ncols d ->
    exists f' rl' cl', full_red axis agg f = Ok f' /\ shows f' (reduced axis agg d) rl' cl'.
  Proof.
    intros ((G & HL) & Nr & Nc & Pi & Pc) Pn Pm. assert (Hh : holds f d rl cl) by (split; assumption).
    unfold NredModel.full_red. rewrite Pi, Pc. cbn [labels rbind].
    destruct G as (W & Hsr & Hsc & Hg & _). unfold reduce. rewrite Hg. unfold reduced. destruct axis.
    - change (build_treereduce_func unnamed unnamed true agg) with (fun d => Ok (@reduce_rows nat nat A B unnamed agg d)).
      destruct (map_axis_row_wise Nat.eqb Nat.eqb Nat.eqb_eq (@reduce_rows_rw nat nat A B unnamed agg) (d:=d) (rl:=rl) (cl:=cl)
                  (nparts:=nparts) (m:=min_col) (keep:=false) (num_splits:=None) (lengths:=None))
            as (cl' & E1 & _ & _ & _ & _ & _ & E2); auto; try discriminate.
      rewrite E1. cbn [rbind]. specialize (E2 eq_refl eq_refl). cbn beta iota in E2. change (ncols _) with 1 in E2.
      destruct (get_length_list_unit np mc) as (rest & E3 & E4). rewrite E3 in E2. injection E2 as <-.
      destruct (@finish_rows nat nat Nat.eqb Nat.eqb Nat.eqb_eq Nat.eqb_eq A B f d (reduce_rows unnamed agg d) rl cl rest unnamed unnamed) as (f' & Q1 & Q2 & Q3 & Q4 & Q5); auto.
      { destruct (@reduce_rows_rw nat nat A B unnamed agg d W) as (Wx & _). exact Wx. }
      exists f', (nonzero rl), [1]. split; [exact Q1|]. apply shows_of_holds; [auto| |easy|now rewrite Q3|now rewrite Q4].
      destruct (Q5 Pn) as ((_ & Z & _) & _). intros Z0. rewrite Z0 in Z. change (list_sum []) with 0 in Z. unfold reduce_rows, nrows in Z; cbn [dindex] in Z. unfold nrows in Pn. lia.
    - change (build_treereduce_func unnamed unnamed false agg) with (fun d => Ok (@reduce_columns nat nat A B unnamed agg d)).
      destruct (map_axis_column_wise Nat.eqb Nat.eqb Nat.eqb_eq (@reduce_columns_cw nat nat A B unnamed agg) (d:=d)
                  (rl:=rl) (cl:=cl)
                  (nparts:=nparts) (m:=min_row) (keep:=false) (num_splits:=None) (lengths:=None))
            as (rl' & E1 & _ & _ & _ & _ & _ & E2); auto; try discriminate.
      rewrite E1. cbn [rbind]. specialize (E2 eq_refl eq_refl). cbn beta iota in E2. change (nrows _) with 1 in E2.
      destruct (get_length_list_unit np mr) as (rest & E3 & E4). rewrite E3 in E2. injection E2 as <-.
      destruct (@finish_columns nat nat Nat.eqb Nat.eqb Nat.eqb_eq Nat.eqb_eq A B f d (reduce_columns unnamed agg d) rl cl rest unnamed unnamed) as (f' & Q1 & Q2 & Q3 & Q4 & Q5); auto.
      { destruct (@reduce_columns_cw nat nat A B unnamed agg d W) as (Wx & _). exact Wx. }
      exists f', [1], (nonzero cl). split; [exact Q1|]. apply shows_of_holds; [auto|easy| |now rewrite Q3|now rewrite Q4].
      destruct (Q5 Pm) as ((_ & _ & Z & _) & _). intros Z0. rewrite Z0 in Z. change (list_sum []) with 0 in Z. unfold reduce_columns, ncols in Z; cbn [dcols] in Z. unfold ncols in Pm. lia.
  Qed.

  Lemma each_ok {A B} (g : A -> B) (f : pf A) d rl cl : shows f d rl cl ->
    exists f' rl' cl', each g f = Ok f' /\ shows f' (mkdf (dindex d) (dcols d) (map (map g) (dcells d))) rl' cl'.
  Proof.
    intros ((G & _) & Nr & Nc & Pi & Pc). unfold NredModel.each.
    destruct (@frame_map_ok nat nat A Nat.eqb Nat.eqb Nat.eqb_eq Nat.eqb_eq B (fun _ _ a => g a) dynamic cpus nparts min_row min_col None f _ rl cl G Nr Nc np mr mc) as (f' & rl' & cl' & E1 & G1 & N1 & N2 & Q1 & Q2); [discriminate|].
    rewrite E1. exists f', rl', cl'. split; [reflexivity|]. assert (W : wf d) by apply G.
    assert (Ec : cellwise (fun _ _ a => g a) (fun h => h) d = mkdf (dindex d) (dcols d) (map (map g) (dcells d))).
    { unfold cellwise. rewrite map_id. f_equal. destruct W as (W1 & W2). revert W1 W2. generalize (dindex d). unfold ncols. generalize (dcols d). intros cs is. clear. revert is.
      generalize (dcells d). intros h. unfold map2. induction h as [|r h IH]; intros [|i is] W1 W2; try discriminate; [reflexivity|]. cbn. inversion W2; subst. f_equal; [|apply IH; auto].
      clear - H1. revert cs H1. induction r as [|a r IH]; intros [|c cs] E; try discriminate; [reflexivity|]. cbn. f_equal. apply IH. now injection E. }
    rewrite Ec in G1. unfold shows, holds. cbn [dindex dcols]. rewrite Q1, Q2, Pi, Pc. repeat split; auto; apply G1. Qed.

  Lemma transposed {A} (f : pf A) d rl cl : shows f d rl cl -> exists f' rl' cl', transpose f = Ok f' /\ shows f' (df_T d) rl' cl'.
  Proof. clear. intros (H & N1 & N2 & P1 & P2). destruct (transpose_holds H N1 N2) as (f' & rl' & cl' & E & H' & M1 & M2 & Q1 & Q2).
    exists f', cl', rl'. split; [exact E|]. split; [exact H'|]. rewrite Q1, Q2. repeat split; auto. Qed.

  Lemma item_ok {A} (f : pf A) d rl cl a r g : shows f d rl cl -> dcells d = (a :: r) :: g -> item f = Ok a.
  Proof. clear. intros (H & N1 & N2 & P1 & P2) E. unfold item.
    rewrite (@pf_to_pandas_holds nat nat A Nat.eqb Nat.eqb Nat.eqb_eq Nat.eqb_eq f d rl cl) by (auto; now rewrite ?P1, ?P2). cbn [rbind]. now rewrite E. Qed.

  Lemma one_cell_shows {A} (a : A) : shows (mkpf [[mkdf [0] [0] [[a]]]] (Some [0]) (Some [0]) None None : pf A) (mkdf [0] [0] [[a]]) [1] [1].
  Proof. clear. split; [|repeat split; easy]. apply holds_intro; cbn; auto. repeat constructor. Qed.

  Lemma of_cell_ok {A} (a : A) : exists x, of_cell a = Ok x /\ stands x (Mat 1 [[a]]).
  Proof. clear. apply (@finish A _ _ [1] [1] (Mat 1 [[a]]) (one_cell_shows a)); try reflexivity. discriminate. Qed.
End Steps.
