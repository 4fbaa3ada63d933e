From Verif Require Import Base Table ChunkModel ChunkSpec ChunkProofs GridModel GridSpec FrameSpec
  GridProofs GridProofs2 GridProofs3 GridProofs4 GridProofs5 ShufProofs2 ShufProofs4 JoinModel JoinProofs3 RemModel RemProofs2 FilProofs2 SelProofs5 DotSpec DotModel.

Lemma rmap_map_ext {X Y Z} (f f' : Y -> res Z) (g : X -> Y) l : (forall x, f (g x) = f' (g x)) -> rmap f (map g l) = rmap f' (map g l).
Proof. intros E. induction l as [|x l IH]; [reflexivity|]. cbn [map rmap]. now rewrite E, IH. Qed.

Section Axis.
  Context {L H A : Type}.
  Variables (leqb : L -> L -> bool) (heqb : H -> H -> bool).
  Hypothesis leqb_ok : forall x y, leqb x y = true <-> x = y.
  Hypothesis heqb_ok : forall x y, heqb x y = true <-> x = y.
  Notation dframe := (df L H A).
  Notation pf := (@pframe L H A).

  (** what the function does on other tables than the bands of [d] is irrelevant *)
  Lemma rows_congr (func func' : dframe -> res dframe) nparts min_row min_col ni nc (f : pf) d rl cl :
    gridded f d rl cl -> cl <> [] -> (forall a b, func (iloc_rows d a b) = func' (iloc_rows d a b)) ->
    apply_full_axis leqb heqb nparts min_row min_col true func ni nc true None f
    = apply_full_axis leqb heqb nparts min_row min_col true func' ni nc true None f.
  Proof. intros (W & Hr & Hc & Hg & _) Nc E. unfold apply_full_axis.
    replace (map_axis_partitions leqb heqb nparts min_col true (pgrid f) func true None None)
      with (map_axis_partitions leqb heqb nparts min_col true (pgrid f) func' true None None); [reflexivity|].
    unfold map_axis_partitions. cbn [andb]. f_equal. rewrite Hg. unfold cut_table at 2 4.
    apply rmap_map_ext. intros ri. unfold deploy_axis_func.
    rewrite (concat_cols_blocks_bounds leqb heqb leqb_ok) by assumption. cbn [rbind]. rewrite Nat.add_0_l, Hc, block_cols_full by assumption.
    now rewrite E. Qed.

  Lemma rows_fail (func : dframe -> res dframe) e nparts min_row min_col ni nc (f : pf) d rl cl :
    gridded f d rl cl -> rl <> [] -> cl <> [] -> (forall a b, func (iloc_rows d a b) = Err e) ->
    exists e', apply_full_axis leqb heqb nparts min_row min_col true func ni nc true None f = Err e'.
  Proof. intros G Nr Nc E. rewrite (@rows_congr func (fun _ => Err e) nparts min_row min_col ni nc f d rl cl G Nc E).
    destruct G as (_ & _ & _ & Hg & _). unfold apply_full_axis. rewrite Hg.
    destruct (cut_nonempty d Nr Nc) as [G1 G2].
    destruct (@map_axis_fails L H A L H A leqb heqb (fun _ => Err e) (fun t => ex_intro _ e eq_refl) nparts min_col true (cut_table rl cl d) true None None G1 G2) as (e' & ->).
    cbn. eauto. Qed.

  Lemma one_column (func : dframe -> res dframe) nparts min_row min_col ni nc (f : pf) d rl R : 0 < min_row -> rl <> [] ->
    gridded f d rl [ncols d] -> func d = Ok R -> wf R -> (ni = None \/ ni = Some (dindex R)) -> (nc = None \/ nc = Some (dcols R)) ->
    exists f' rl' cl', apply_full_axis leqb heqb nparts min_row min_col false func ni nc true None f = Ok f'
      /\ holds f' R rl' cl' /\ rl' <> [] /\ cl' <> [].
  Proof. intros Hm Hrn (W & Hr & _ & Hg & Hi & Hcc & Hrl & Hcl) Ef WR Ni Nc.
    assert (E1 : concat_axis leqb heqb false (map (fun ri => block d ri (0, ncols d)) (bounds 0 rl)) = Ok d).
    { rewrite (concat_rows_blocks leqb heqb heqb_ok) by assumption. cbn [Nat.add]. rewrite Hr, block_rows_full by assumption.
      cbn [fst snd]. now rewrite iloc_cols_full. }
    assert (Et : transp (grid_width (cut_table rl [ncols d] d)) (cut_table rl [ncols d] d)
                 = [map (fun ri => block d ri (0, ncols d)) (bounds 0 rl)]).
    { rewrite cut_table_width by assumption. unfold cut_table. cbn [bounds map Nat.add length].
      exact (transp_fun (fun ri ci => block d ri ci) (bounds 0 rl) [(0, ncols d)]). }
    unfold apply_full_axis, map_axis_partitions. rewrite Hg, Et, cut_table_length. cbn [andb rmap].
    destruct (@deploy_whole L H A leqb heqb false func (length rl) true
                (map (fun ri => block d ri (0, ncols d)) (bounds 0 rl)) min_row d R E1 Ef WR) as (lens & -> & S1 & S2 & S3);
      [destruct rl; [easy|cbn; lia]|assumption|]. cbn [rbind]. unfold axis_size in S1.
    assert (Ln : lens <> []) by (intros ->; destruct rl; [easy|discriminate]).
    assert (Hold : map (axis_size false) (map (fun ri => block d ri (0, ncols d)) (bounds 0 rl)) = rl).
    { rewrite map_map. cbn [axis_size]. unfold nrows in *. cbn.
      rewrite <- (@bounds_sizes (length (dindex d)) 0 rl) at 2 by lia.
      apply map_ext. intros iv. now rewrite slice_length. }
    rewrite Hold, map_length, bounds_length in S3. unfold axis_size in S3.
    replace (transp _ _) with (cut_table lens [ncols R] R).
    2:{ cbn [grid_width]. unfold cut_table. cbn [bounds map Nat.add]. rewrite transp_one_row.
        rewrite map_map. apply map_ext. intros ri. f_equal. now apply block_cols_full. }
    rewrite cut_table_width by assumption. cbn [length Nat.eqb negb].
    set (rows := match prl f with Some _ => _ | None => _ end).
    assert (Hrows : rows = None \/ rows = Some lens).
    { unfold rows. destruct (prl f) as [l|]; [|auto]. destruct ni as [i|]; [|auto].
      destruct Hrl as [Hrl|Hrl]; [discriminate|]. injection Hrl as ->.
      destruct (Nat.eqb_spec (length i) (list_sum rl)) as [El|]; cbn [andb]; [|auto].
      destruct (forallb _ rl); [|auto]. right. rewrite S3; auto.
      destruct Ni as [|Ni]; [discriminate|]. injection Ni as ->. unfold nrows in *. congruence. }
    clearbody rows.
    set (g := mkpf _ _ _ _ _).
    assert (G : gridded g R lens [ncols R]).
    { unfold g, gridded. cbn [pgrid pindex pcols prl pcl]. split; [exact WR|]. split; [exact S1|]. split; [lsum; lia|]. split; [reflexivity|].
      split; [intros i ->; destruct Ni as [|Ni]; [discriminate|]; now injection Ni as ->|].
      split; [intros c ->; destruct Nc as [|Nc]; [discriminate|]; now injection Nc as ->|].
      split; [exact Hrows|]. destruct Nc as [-> | ->]; auto. }
    destruct (construct_gridded G Ln ltac:(discriminate)) as (f' & rl' & cl' & Ec & Gf & R1 & C1 & I1 & I2).
    exists f', rl', cl'. rewrite Ec. split; [reflexivity|]. split; [|auto]. split; [exact Gf|].
    rewrite I1, I2. unfold g. cbn [pindex pcols]. auto. Qed.

  Lemma one_column_fails (func : dframe -> res dframe) e nparts min_row min_col ni nc (f : pf) d rl : rl <> [] ->
    gridded f d rl [ncols d] -> func d = Err e ->
    apply_full_axis leqb heqb nparts min_row min_col false func ni nc true None f = Err e.
  Proof. intros Hrn (W & Hr & _ & Hg & Hi & Hcc & Hrl & Hcl) Ef.
    assert (E1 : concat_axis leqb heqb false (map (fun ri => block d ri (0, ncols d)) (bounds 0 rl)) = Ok d).
    { rewrite (concat_rows_blocks leqb heqb heqb_ok) by assumption. cbn [Nat.add]. rewrite Hr, block_rows_full by assumption.
      cbn [fst snd]. now rewrite iloc_cols_full. }
    assert (Et : transp (grid_width (cut_table rl [ncols d] d)) (cut_table rl [ncols d] d)
                 = [map (fun ri => block d ri (0, ncols d)) (bounds 0 rl)]).
    { rewrite cut_table_width by assumption. unfold cut_table. cbn [bounds map Nat.add length].
      exact (transp_fun (fun ri ci => block d ri ci) (bounds 0 rl) [(0, ncols d)]). }
    unfold apply_full_axis, map_axis_partitions. rewrite Hg, Et, cut_table_length. cbn [andb rmap].
    unfold deploy_axis_func. rewrite E1. cbn [rbind]. now rewrite Ef. Qed.
End Axis.
