(** Proofs for C57. *)
From Verif Require Import Base Table ChunkModel ChunkSpec ChunkProofs GridSpec GridModel FrameSpec
  GridProofs GridProofs2 GridProofs3 GridProofs4 GridProofs5 JoinSpec JoinModel JoinProofs4 ReadProofs2 ReadProofs3 LabSpec LabModel LabProofs PartSpec PartModel.

Section PartProofs.
  Context {L A : Type}.
  Variable leqb : L -> L -> bool.
  Hypothesis leqb_ok : forall x y, leqb x y = true <-> x = y.
  Notation dframe := (df L L A).
  Notation lframe := (@lframe L A).

  Lemma rows_of_cut (d : dframe) rl : wf d -> rl <> [] -> list_sum rl = nrows d ->
    pieces (Rows (map (fun ri => iloc_rows d (fst ri) (snd ri)) (bounds 0 rl))) d.
  Proof.
    intros W Hr Hs. cbn [pieces]. split; [|split].
    - destruct rl; [easy|discriminate].
    - apply Forall_map, Forall_forall. intros ri _. split; [|reflexivity].
      rewrite <- (block_cols_full ri W). now apply wf_block.
    - unfold stack. rewrite !map_map. cbn [dindex dcells iloc_rows].
      apply df_eta; cbn [dindex dcols dcells]; [|reflexivity|].
      + rewrite (concat_bounds (dindex d) 0 rl). cbn. rewrite Hs. symmetry. now apply slice_full.
      + rewrite (concat_bounds (dcells d) 0 rl). cbn. rewrite Hs. destruct W as [W _]. unfold nrows. rewrite <- W. symmetry. now apply slice_full.
  Qed.

  Lemma cols_of_cut (d : dframe) cl : wf d -> cl <> [] -> list_sum cl = ncols d ->
    pieces (Cols (map (fun ci => iloc_cols d (fst ci) (snd ci)) (bounds 0 cl))) d.
  Proof.
    intros W Hr Hs. cbn [pieces]. split; [|split].
    - destruct cl; [easy|discriminate].
    - apply Forall_map, Forall_forall. intros ci _. split; [|reflexivity].
      rewrite <- (block_rows_full ci W). now apply wf_block.
    - unfold glue. rewrite !map_map. cbn [dcols dcells iloc_cols].
      apply df_eta; cbn [dindex dcols dcells]; [reflexivity| |].
      + rewrite (concat_bounds (dcols d) 0 cl). cbn. rewrite Hs. symmetry. now apply slice_full.
      + destruct W as [W1 W2]. rewrite <- W1.
        pose proof (fold_zipapp_map (map (fun (x : nat * nat) (r : list A) => slice r (fst x) (snd x)) (bounds 0 cl)) (dcells d)) as E.
        rewrite map_map in E. rewrite E. rewrite (map_ext_in _ (fun r => r)); [now rewrite map_id|].
        intros r Hin. rewrite map_map, concat_bounds. cbn. rewrite Forall_forall in W2. specialize (W2 r Hin).
        rewrite Hs. unfold ncols. rewrite <- W2. now apply slice_full.
  Qed.

  Lemma unwrap_ok axis (x : lframe) d : sees x d -> exists x' p, unwrap leqb axis x = Ok (x', p)
    /\ kind p = axis /\ pieces p d /\ sees x' d
    /\ (axis = Some false -> exists rl, p = Rows (map (fun ri => iloc_rows d (fst ri) (snd ri)) (bounds 0 rl))
         /\ rl <> [] /\ list_sum rl = nrows d /\ row_lengths (lf x') = rl /\ pindex (lf x') = Some (dindex d)).
  Proof.
    intros Sx. destruct (propagate_sees None Sx) as (x' & E & S' & F1 & F2). unfold unwrap. rewrite E. cbn [rbind].
    destruct (sees_holds S' F1 F2) as (rl & cl & Hh & N1 & N2). pose proof (sees_wf S') as W.
    assert (G : gridded (lf x') d rl cl) by apply Hh. destruct G as (_ & S1 & S2 & Hg & _).
    assert (Pi : pindex (lf x') = Some (dindex d)) by (destruct S' as (? & ? & ? & ? & ? & ? & ? & ? & ? & Pi & _); exact Pi).
    cbn zeta. rewrite Hg. destruct axis as [[|]|].
    - exists x', (Cols (map (fun ci => iloc_cols d (fst ci) (snd ci)) (bounds 0 cl))).
      rewrite cut_table_width by exact N1. rewrite <- (bounds_length 0 cl) at 1. unfold cut_table. rewrite transp_fun.
      rewrite (rmap_map_ok _ _ (fun ci => iloc_cols d (fst ci) (snd ci))).
      2:{ intros ci _. rewrite (concat_rows_blocks leqb leqb leqb_ok); auto. rewrite Nat.add_0_l, S1. f_equal. now apply block_rows_full. }
      split; [reflexivity|]. split; [reflexivity|]. split; [now apply cols_of_cut|]. split; [exact S'|discriminate].
    - exists x', (Rows (map (fun ri => iloc_rows d (fst ri) (snd ri)) (bounds 0 rl))).
      unfold cut_table. rewrite (rmap_map_ok _ _ (fun ri => iloc_rows d (fst ri) (snd ri))).
      2:{ intros ri _. rewrite (concat_cols_blocks_bounds leqb leqb leqb_ok); auto. rewrite Nat.add_0_l, S2. f_equal. now apply block_cols_full. }
      split; [reflexivity|]. split; [reflexivity|]. split; [now apply rows_of_cut|]. split; [exact S'|].
      intros _. exists rl. repeat split; auto. apply (gridded_row_lengths (proj1 Hh) N2).
    - exists x', (Blocks (cut_table rl cl d)). split.
      { destruct rl as [|r rl]; [easy|]. destruct cl as [|c cl]; [easy|]. reflexivity. }
      split; [reflexivity|]. split; [|split; [exact S'|discriminate]]. split; [exact W|]. exists rl, cl. auto.
  Qed.

  Lemma sees_reads (x : lframe) d : sees x d -> exists x', read leqb x = Ok (x', d).
  Proof. intros S. destruct (before_both S) as (x' & B & S' & F1 & F2). exists x'. unfold read. rewrite B. cbn [rbind].
    destruct (sees_holds S' F1 F2) as (rl & cl & Hh & _). destruct S' as (_ & _ & _ & _ & _ & _ & _ & _ & _ & Pi & Pc & _).
    assert (Q : pf_to_pandas leqb leqb (lf x') = Ok d). { eapply pf_to_pandas_holds; eauto. intros _. rewrite Pi, Pc. easy. }
    rewrite Q. reflexivity. Qed.

  (** the grid that is made of the pieces *)
  Lemma place_ok p (d : dframe) : pieces p d -> exists rl cl, rl <> [] /\ cl <> [] /\ list_sum rl = nrows d /\ list_sum cl = ncols d /\ wf d
    /\ place p = Ok (cut_table rl cl d)
    /\ match p with Rows ps => rl = map nrows ps /\ cl = [ncols d] | Cols ps => rl = [nrows d] /\ cl = map ncols ps | _ => True end.
  Proof.
    destruct p as [g|ps|ps]; cbn [pieces].
    - intros (W & rl & cl & N1 & N2 & S1 & S2 & ->). exists rl, cl. repeat (split; [assumption|]). split; [|exact Logic.I].
      destruct rl as [|r rl]; [easy|]. destruct cl as [|c cl]; [easy|]. reflexivity.
    - intros (N & F & E). assert (W : wf d) by (rewrite E; now apply stack_wf).
      exists (map nrows ps), [ncols d]. split; [destruct ps; easy|]. split; [easy|].
      destruct (@cut_stack L L A (dcols d) [ncols d] (map (fun q => ([nrows q], q)) ps)) as [C1 C2].
      { now apply Forall_map. }
      { apply Forall_map, Forall_forall. intros q _. cbn [fst snd]. lsum; lia. }
      assert (Es : map snd (map (fun q : dframe => ([nrows q], q)) ps) = ps) by (rewrite map_map; apply map_id).
      rewrite Es, <- E in C1, C2. repeat rewrite map_map in C1. repeat rewrite map_map in C2. cbn [fst snd] in C1, C2.
      assert (Ec : concat (map (fun q : dframe => [nrows q]) ps) = map nrows ps) by (clear; induction ps; cbn; congruence).
      rewrite Ec in C1, C2. split; [exact C2|]. split; [lsum; lia|]. split; [exact W|]. split; [|auto].
      rewrite <- C1. destruct ps as [|q ps]; [easy|]. unfold place. f_equal. clear - F leqb.
      induction F as [|q' qs [W C] F IH]; [reflexivity|]. cbn [map concat]. rewrite IH.
      unfold cut_table at 2. cbn [bounds map app]. do 2 f_equal.
      rewrite Nat.add_0_l. unfold ncols. rewrite <- C. change (q' = block q' (0, nrows q') (0, ncols q')). rewrite block_cols_full by exact W.
      cbn [fst snd]. unfold iloc_rows, nrows. rewrite slice_full by auto. destruct W as [W _]. rewrite <- W, slice_full by auto. now destruct q'.
    - intros (N & F & E). assert (W : wf d) by (rewrite E; now apply glue_wf).
      exists [nrows d], (map ncols ps). split; [easy|]. split; [destruct ps; easy|].
      destruct (@cut_glue L L A (dindex d) [nrows d] (map (fun q => ([ncols q], q)) ps)) as [C1 C2].
      { now apply Forall_map. }
      { apply Forall_map, Forall_forall. intros q _. cbn [fst snd]. lsum; lia. }
      assert (Es : map snd (map (fun q : dframe => ([ncols q], q)) ps) = ps) by (rewrite map_map; apply map_id).
      rewrite Es, <- E in C1, C2. repeat rewrite map_map in C1. repeat rewrite map_map in C2. cbn [fst snd] in C1, C2.
      assert (Ec : concat (map (fun q : dframe => [ncols q]) ps) = map ncols ps) by (clear; induction ps; cbn; congruence).
      rewrite Ec in C1, C2. split; [lsum; lia|]. split; [exact C2|]. split; [exact W|]. split; [|auto].
      rewrite <- C1. destruct ps as [|q ps]; [easy|]. unfold place. f_equal. clear - F leqb.
      assert (G : forall qs, Forall (fun q => wf q /\ dindex q = dindex d) qs ->
                [qs] = fold_right zipapp (repeat [] (length [nrows d])) (map (fun x : dframe => cut_table [nrows d] [ncols x] x) qs)); [|now apply G].
      clear. induction 1 as [|q' qs [W C] F IH]; [reflexivity|]. cbn [map fold_right]. rewrite <- IH.
      unfold cut_table. cbn [bounds map]. unfold zipapp. cbn [combine map fst snd app]. do 2 f_equal.
      rewrite !Nat.add_0_l. unfold nrows. rewrite <- C. change (q' = block q' (0, nrows q') (0, ncols q')). rewrite block_cols_full by exact W.
      cbn [fst snd]. unfold iloc_rows, nrows. rewrite slice_full by auto. destruct W as [W _]. rewrite <- W, slice_full by auto. now destruct q'.
  Qed.

  Lemma get_columns_cut rl cl (d : dframe) : rl <> [] -> list_sum cl = ncols d ->
    concat (get_columns (cut_table rl cl d)) = dcols d /\ map (@length L) (get_columns (cut_table rl cl d)) = cl.
  Proof. intros Hr Hs. destruct rl as [|r rl]; [easy|]. unfold get_columns, cut_table. cbn [bounds map]. rewrite map_map.
    change (map (fun x => dcols (block d (0, 0 + r) x)) (bounds 0 cl)) with (map (fun x => slice (dcols d) (fst x) (snd x)) (bounds 0 cl)).
    split.
    - rewrite concat_bounds. cbn. rewrite Hs. now apply slice_full.
    - rewrite slices_bounds. cbn [skipn]. apply cut_lengths. unfold ncols in Hs. lia. Qed.

  Lemma from_ok p (d : dframe) index columns rl cl : pieces p d ->
    (forall i, index = Some i -> length i = nrows d) -> (forall c, columns = Some c -> length c = ncols d) ->
    (rl = None \/ exists g, place p = Ok g /\ rl = Some (map (@length L) (get_index g))) ->
    (cl = None \/ exists g, place p = Ok g /\ cl = Some (map (@length L) (get_columns g))) ->
    exists x, from_partitions p index columns rl cl = Ok x
      /\ sees x (mkdf (match index with Some i => i | None => dindex d end)
                      (match columns with Some c => c | None => dcols d end) (dcells d)).
  Proof.
    intros Hp Hi Hc Hrl Hcl. destruct (place_ok _ _ Hp) as (rs & cs & N1 & N2 & S1 & S2 & W & E & _).
    unfold from_partitions. rewrite E. cbn [rbind]. rewrite E in Hrl, Hcl.
    destruct (@get_columns_cut rs cs d N1 S2) as [C1 C2].
    assert (I1 : concat (get_index (cut_table rs cs d)) = dindex d) by (apply first_blocks_index; auto).
    assert (I2 : map (@length L) (get_index (cut_table rs cs d)) = rs).
    { unfold get_index. rewrite map_map. rewrite <- (first_blocks_lens _ N2 W S1) at 2. apply map_ext. now intros [|b r]. }
    set (rl' := match index, rl with None, None => _ | _, _ => _ end).
    set (cl' := match columns, cl with None, None => _ | _, _ => _ end).
    set (idx := match index with Some i => i | None => _ end). set (cols := match columns with Some c => c | None => _ end).
    assert (R1 : rl' = None \/ rl' = Some rs).
    { unfold rl'. rewrite I2. destruct Hrl as [->|(g & Eg & ->)]; [destruct index; auto|]. injection Eg as <-. rewrite I2. destruct index; auto. }
    assert (R2 : cl' = None \/ cl' = Some cs).
    { unfold cl'. rewrite C2. destruct Hcl as [->|(g & Eg & ->)]; [destruct columns; auto|]. injection Eg as <-. rewrite C2. destruct columns; auto. }
    assert (Li : length idx = nrows d) by (unfold idx; rewrite I1; destruct index; auto).
    assert (Lc : length cols = ncols d) by (unfold cols; rewrite C1; destruct columns; auto).
    destruct (@construct_gridded L L A (mkpf (cut_table rs cs d) (Some idx) (Some cols) rl' cl') d rs cs) as (f & rs' & cs' & Ef & G & M1 & M2 & Q1 & Q2); auto.
    { unfold gridded. cbn [pgrid pindex pcols prl pcl]. repeat (split; [assumption || reflexivity|]). split; [intros ? [= <-]; exact Li|]. split; [intros ? [= <-]; exact Lc|]. auto. }
    rewrite Ef. cbn [rbind]. eexists. split; [reflexivity|].
    exists d, rs', cs'. cbn [lf defi defc dindex dcols dcells]. cbn [pindex pcols] in Q1, Q2.
    split; [exact G|]. split; [exact M1|]. split; [exact M2|]. split; [reflexivity|].
    assert (X1 : idx = match index with Some i => i | None => dindex d end) by (unfold idx; destruct index; auto).
    assert (X2 : cols = match columns with Some c => c | None => dcols d end) by (unfold cols; destruct columns; auto).
    rewrite <- X1, <- X2. unfold nrows, ncols in *. rewrite Li, Lc, Q1, Q2. repeat (split; [reflexivity|]).
    split; intros D; [destruct index; [discriminate|now rewrite X1]|destruct columns; [discriminate|now rewrite X2]].
  Qed.

  Lemma predict_ok (values : dframe -> list (list A)) (value : list A -> list A) columns (x : lframe) d : sees x d ->
    (forall t : dframe, dcols t = dcols d -> wf t -> values t = map value (dcells t)) ->
    (forall r, In r (dcells d) -> length (value r) = length columns) ->
    exists y, predict leqb values columns x = Ok y /\ sees y (mkdf (dindex d) columns (map value (dcells d))).
  Proof.
    intros Sx Hv Hw. destruct (unwrap_ok (Some false) Sx) as (x' & p & E & _ & _ & S' & R).
    destruct (R eq_refl) as (rl & -> & N & S1 & Erl & Pi). clear R. unfold predict. rewrite E. cbn [rbind fst snd]. rewrite Pi, Erl.
    pose proof (sees_wf Sx) as W. set (e := mkdf (dindex d) columns (map value (dcells d))).
    assert (We : wf e). { destruct W as [W1 W2]. split; cbn; [now rewrite map_length|]. apply Forall_map, Forall_forall. exact Hw. }
    rewrite map_map.
    assert (Em : map (fun ri => mkdf (dindex (iloc_rows d (fst ri) (snd ri))) columns (values (iloc_rows d (fst ri) (snd ri)))) (bounds 0 rl)
                 = map (fun ri => iloc_rows e (fst ri) (snd ri)) (bounds 0 rl)).
    { apply map_ext_in. intros ri _. rewrite Hv; [|reflexivity|rewrite <- (block_cols_full ri W); now apply wf_block].
      unfold iloc_rows. cbn [dindex dcols dcells e]. now rewrite slice_map. }
    rewrite Em. pose proof (rows_of_cut We N S1) as Hp.
    destruct (place_ok _ _ Hp) as (rs & cs & _ & N2 & T1 & T2 & _ & Ep & Q1 & Q2).
    assert (Er : rs = rl).
    { rewrite Q1, map_map. unfold iloc_rows, nrows. cbn [dindex]. 
      rewrite <- (map_map (fun ri => slice (dindex e) (fst ri) (snd ri)) (@length L)), slices_bounds. cbn [skipn]. apply cut_lengths. cbn. unfold nrows in S1. lia. }
    subst rs. 
    destruct (@from_ok _ e (Some (dindex d)) (Some columns) (Some rl) (Some [length columns]) Hp) as (y & Ey & Sy).
    - intros i [= <-]. reflexivity.
    - intros c [= <-]. reflexivity.
    - right. eexists. split; [exact Ep|]. f_equal. rewrite Er. unfold get_index. rewrite map_map.
      rewrite <- (first_blocks_lens _ N2 We S1) at 1. apply map_ext. now intros [|b r].
    - right. eexists. split; [exact Ep|]. f_equal. rewrite Er. destruct (@get_columns_cut rl cs e N T2) as [_ ->]. now rewrite Q2.
    - exists y. split; [exact Ey|exact Sy].
  Qed.
End PartProofs.
