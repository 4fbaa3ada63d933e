(** Proofs about maps and folds that fill, cut and test cells (C78). *)
From Verif Require Import Base Table GridSpec ChunkSpec ChunkModel ChunkProofs GridModel FrameSpec GridProofs GridProofs2 GridProofs3 GridProofs4 GridProofs5 SelProofs5
  RemSpec RemModel FilSpec FilModel.

Section Ext.
  Context {L H A L2 H2 B : Type}.
  Variables (leqb : L -> L -> bool) (heqb : H -> H -> bool).
  Variables (g g' : df L H A -> res (df L2 H2 B)).
  Hypothesis E : forall t, g t = g' t.

  Lemma deploy_ext axis ns keep parts m lens manual :
    deploy_axis_func leqb heqb axis g ns keep parts m lens manual = deploy_axis_func leqb heqb axis g' ns keep parts m lens manual.
  Proof. unfold deploy_axis_func. destruct (concat_axis leqb heqb axis parts); auto. cbn [rbind]. now rewrite E. Qed.
  Lemma map_axis_ext nparts m axis grid keep ns lens :
    map_axis_partitions leqb heqb nparts m axis grid g keep ns lens = map_axis_partitions leqb heqb nparts m axis grid g' keep ns lens.
  Proof. unfold map_axis_partitions. destruct (keep && _); auto. f_equal. apply rmap_ext. intros. apply deploy_ext. Qed.
  Lemma map_partitions_ext dynamic cpus nparts mr mc grid :
    map_partitions leqb heqb dynamic cpus nparts mr mc grid g = map_partitions leqb heqb dynamic cpus nparts mr mc grid g'.
  Proof. unfold map_partitions. destruct dynamic; cbn [negb].
    - destruct grid; auto. destruct (_ =? 0); auto. destruct (negb _ && _); [|apply map_axis_ext].
      unfold map_partitions_joined_by_column. destruct (_ <? 1); auto. f_equal. apply rmap_ext. intros i. f_equal. apply rmap_ext. intros. apply deploy_ext.
    - unfold base_map_partitions. apply rmap_ext. intros. now apply rmap_ext. Qed.
End Ext.

Section ExtErr.
  Context {L H A L2 H2 B : Type}.
  Variables (leqb : L -> L -> bool) (heqb : H -> H -> bool) (e : err).
  Lemma rmap_err {X Y} (l : list X) : l <> [] -> rmap (fun _ => @Err Y e) l = Err e.
  Proof. now destruct l. Qed.
End ExtErr.

Lemma map_const_length {X Y} (l : list X) (y : Y) n : length l = n -> map (fun _ => y) l = repeat y n.
Proof. intros <-. induction l; cbn; congruence. Qed.

Section Wise.
  Context {L H A B : Type}.
  Lemma by_columns_cw (g : H -> list A -> list B) : (forall h c, length (g h c) = length c) -> column_wise (@by_columns L H A B g).
  Proof. intros Lg d W.
    assert (LC := columns_length W). assert (RC := columns_rows W).
    assert (Rows : Forall (fun c => length c = nrows d) (map2 g (dcols d) (columns d))).
    { apply Forall_forall. intros c I. unfold map2 in I. apply in_map_iff in I as ([h col] & <- & I). rewrite Lg. cbn.
      apply in_combine_r in I. rewrite Forall_forall in RC. now apply RC. }
    split; [|split; [reflexivity|]].
    - split; cbn; [now rewrite transp_length|]. pose proof (transp_rows Rows) as T. rewrite map2_length, LC in T.
      unfold ncols in T. rewrite Nat.min_id in T. exact T.
    - intros a b. unfold by_columns, iloc_cols; cbn. f_equal.
      rewrite <- transp_slice by exact Rows. rewrite slice_map2. f_equal. f_equal.
      unfold columns, ncols; cbn. rewrite slice_length, transp_map_slice. reflexivity. Qed.
  Lemma by_rows_rw (g : L -> list A -> list B) : (forall l r, length (g l r) = length r) -> row_wise (@by_rows L H A B g).
  Proof. intros Lg d [W1 W2]. split; [|split; [reflexivity|]].
    - split; cbn; [rewrite map2_length; lia|]. apply Forall_forall. intros r I. unfold map2 in I. apply in_map_iff in I as ([l row] & <- & I).
      rewrite Lg. cbn. apply in_combine_r in I. rewrite Forall_forall in W2. now apply W2.
    - intros a b. unfold by_rows, iloc_rows; cbn. now rewrite slice_map2. Qed.
End Wise.

Section Folding.
  Context {L H A : Type}.
  Variables (leqb : L -> L -> bool) (heqb : H -> H -> bool).
  Hypothesis leqb_ok : forall x y, leqb x y = true <-> x = y.
  Hypothesis heqb_ok : forall x y, heqb x y = true <-> x = y.
  Variables (nparts min_row min_col : nat).
  Hypothesis (nparts_pos : 0 < nparts) (min_row_pos : 0 < min_row) (min_col_pos : 0 < min_col).

  Lemma shown_pandas {B} (f : @pframe L H B) d rl cl : shows f d rl cl -> pf_to_pandas leqb heqb f = Ok d.
  Proof. intros (Hh & _ & _ & I & C). apply (@pf_to_pandas_holds L H B leqb heqb leqb_ok heqb_ok f d rl cl Hh).
    intros _. rewrite I, C. split; discriminate. Qed.

  (** a new table with the labels of the old one, whatever the caches of lengths *)
  Lemma constructed {B} (f : @pframe L H A) d rl cl (D : df L H B) : shows f d rl cl -> wf D -> dindex D = dindex d -> dcols D = dcols d ->
    exists f' rl' cl', construct (mkpf (cut_table rl cl D) (pindex f) (pcols f) (prl f) (pcl f)) = Ok f' /\ shows f' D rl' cl'.
  Proof. intros (((W & Sr & Sc & Gr & Li & Lc & Cr & Cc) & _) & Nr & Nc & I & C) WD EI EC.
    destruct (@construct_gridded L H B (mkpf (cut_table rl cl D) (pindex f) (pcols f) (prl f) (pcl f)) D rl cl) as (f' & rl' & cl' & E1 & G1 & N1 & N2 & I1 & C1); auto.
    { unfold gridded, nrows, ncols in *. cbn. rewrite EI, EC. repeat split; auto; try apply WD. }
    exists f', rl', cl'. split; auto. cbn in I1, C1. rewrite I in I1. rewrite C in C1. rewrite <- EI in I1. rewrite <- EC in C1.
    split; [|auto]. split; [exact G1|]. auto. Qed.

  Lemma fold_ok {B} (axis : bool) (F : df L H A -> df L H B) (f : @pframe L H A) d rl cl : shows f d rl cl ->
    (if axis then row_wise F else column_wise F) -> dindex (F d) = dindex d -> dcols (F d) = dcols d ->
    exists f' rl' cl', fold leqb heqb nparts min_row min_col axis (fun t => Ok (F t)) None None true f = Ok f' /\ shows f' (F d) rl' cl'.
  Proof. intros S FW EI EC. assert (S' := S). destruct S' as (((W & Sr & Sc & Gr & _) & _) & Nr & Nc & I & C). unfold fold. rewrite Gr. destruct axis.
    - destruct (map_axis_row_wise leqb heqb leqb_ok FW (d:=d) (rl:=rl) (cl:=cl) (nparts:=nparts) (m:=min_col) (keep:=true) (num_splits:=None) (lengths:=None))
        as (cl' & E1 & E2 & E3 & E4 & _); auto; try discriminate.
      rewrite E1. cbn [rbind]. rewrite (E4 eq_refl eq_refl) by (unfold ncols; now rewrite EC). apply (constructed S); auto. apply FW, W.
    - destruct (map_axis_column_wise leqb heqb heqb_ok FW (d:=d) (rl:=rl) (cl:=cl) (nparts:=nparts) (m:=min_row) (keep:=true) (num_splits:=None) (lengths:=None))
        as (rl' & E1 & E2 & E3 & E4 & _); auto; try discriminate.
      rewrite E1. cbn [rbind]. rewrite (E4 eq_refl eq_refl) by (unfold nrows; now rewrite EI). apply (constructed S); auto. apply FW, W. Qed.

  Lemma map_ok {B} (g : L -> H -> A -> B) dynamic cpus (f : @pframe L H A) d rl cl : shows f d rl cl ->
    exists f' rl' cl', frame_map leqb heqb dynamic cpus nparts min_row min_col (fun t => Ok (cellwise g (fun h => h) t)) None f = Ok f'
      /\ shows f' (cellwise g (fun h => h) d) rl' cl'.
  Proof. intros ((G & _) & Nr & Nc & I & C).
    destruct (@frame_map_ok L H A leqb heqb leqb_ok heqb_ok B g dynamic cpus nparts min_row min_col None f d rl cl) as (f' & rl' & cl' & E & G' & N1 & N2 & I' & C'); auto; try discriminate.
    exists f', rl', cl'. split; auto. rewrite I in I'. rewrite C in C'. cbn in *.
    assert (X : map (fun h : H => h) (dcols d) = dcols d) by apply map_id.
    split; [split; [exact G'|]|]; cbn; rewrite X; auto. Qed.
End Folding.

(** ** Filling *)
Section Filling.
  Context {L H V : Type}.
  Variables (leqb : L -> L -> bool) (heqb : H -> H -> bool).
  Notation cell := (option V).

  Lemma fill_first_length k (v : cell) l : length (fill_first k v l) = length l.
  Proof. revert k. induction l as [|[x|] l IH]; intros k; cbn; auto; destruct k; cbn; now rewrite ?IH. Qed.
  Lemma fill_line_length limit (v : cell) l : length (fill_line limit v l) = length l.
  Proof. destruct limit; cbn; [apply fill_first_length | apply map_length]. Qed.
  Lemma carry_length limit (last : cell) done l : length (carry limit last done l) = length l.
  Proof. revert last done. induction l as [|[x|] l IH]; intros; cbn; auto. Qed.
  Lemma forward_length limit (l : list cell) : length (forward limit l) = length l.
  Proof. apply carry_length. Qed.
  Lemma backward_length limit (l : list cell) : length (backward limit l) = length l.
  Proof. unfold backward. now rewrite rev_length, carry_length, rev_length. Qed.
  Lemma fill_column_length limit items h (col : list cell) : length (fill_column heqb limit items h col) = length col.
  Proof. unfold fill_column. revert col. induction items as [|kv items IH]; intros col; cbn; auto. rewrite IH. destruct (heqb _ _); auto. apply fill_line_length. Qed.

  (** the cell-wise forms agree with the line-wise ones on tables *)
  Lemma by_columns_cells (g : H -> cell -> cell) (d : df L H cell) : wf d ->
    by_columns (fun h => map (g h)) d = cellwise (fun _ h c => g h c) (fun h => h) d.
  Proof. intros W. assert (LC := columns_length W). assert (RC := columns_rows W). destruct W as [W1 W2]. unfold by_columns, cellwise. rewrite map_id. f_equal.
    apply nth_error_ext. intros i.
    assert (Rows : Forall (fun c => length c = nrows d) (map2 (fun h => map (g h)) (dcols d) (columns d))).
    { apply Forall_forall. intros c I. unfold map2 in I. apply in_map_iff in I as ([h col] & <- & I). cbn. rewrite map_length.
      apply in_combine_r in I. rewrite Forall_forall in RC. now apply RC. }
    assert (T := transp_rows Rows). rewrite map2_length, LC in T. unfold ncols in T. rewrite Nat.min_id in T.
    destruct (Nat.lt_ge_cases i (nrows d)) as [Hi|Hi].
    2:{ rewrite !(proj2 (nth_error_None _ _)); auto. - rewrite map2_length. unfold nrows in Hi. lia. - now rewrite transp_length. }
    destruct (nth_error (transp (nrows d) (map2 (fun h => map (g h)) (dcols d) (columns d))) i) as [r|] eqn:E.
    2:{ apply nth_error_None in E. rewrite transp_length in E by exact Rows. lia. }
    rewrite nth_error_map2. destruct (nth_error (dindex d) i) as [l|] eqn:E1; [|apply nth_error_None in E1; unfold nrows in Hi; lia].
    destruct (nth_error (dcells d) i) as [row|] eqn:E2; [|apply nth_error_None in E2; unfold nrows in Hi; lia].
    f_equal. apply nth_error_ext. intros j.
    pose proof (transp_nth_error j Rows Hi) as T1. rewrite E in T1. rewrite T1, !nth_error_map2.
    destruct (nth_error (dcols d) j) as [h|] eqn:Eh; auto.
    assert (Hj : j < ncols d) by (unfold ncols; apply nth_error_Some; congruence).
    pose proof (transp_nth_error i W2 Hj) as T2. rewrite E2 in T2. unfold columns, ncols in *.
    destruct (nth_error (transp (length (dcols d)) (dcells d)) j) as [col|] eqn:Ec.
    - rewrite nth_error_map, T2. now destruct (nth_error row j).
    - now rewrite <- T2. Qed.
End Filling.
