From Verif Require Import Base Table ChunkModel ChunkSpec ChunkProofs GridSpec GridModel FrameSpec GridProofs GridProofs2.

Lemma map2_map_r {A B C D} (f : A -> C -> D) (g : B -> C) xs ys :
  map2 f xs (map g ys) = map2 (fun x y => f x (g y)) xs ys.
Proof. revert ys; induction xs as [|x xs IH]; intros [|y ys]; auto. cbn [map]. rewrite !map2_cons. now rewrite IH. Qed.

Section Local.
  Context {L H A H2 B : Type}.
  Variable leqb : L -> L -> bool.
  Variable heqb : H -> H -> bool.
  Hypothesis leqb_ok : forall x y, leqb x y = true <-> x = y.
  Hypothesis heqb_ok : forall x y, heqb x y = true <-> x = y.
  Variable f : L -> H -> A -> B.
  Variable g : H -> H2.
  Notation F := (cellwise f g).

  Lemma cellwise_wf d : wf d -> wf (F d).
  Proof. intros [W1 W2]. split; cbn.
    - rewrite map2_length. lia.
    - rewrite map_length. apply Forall_forall. intros r Hr. unfold map2 in Hr at 1.
      apply in_map_iff in Hr as ([l row] & <- & Hi). cbn. rewrite map2_length.
      apply in_combine_r in Hi. rewrite Forall_forall in W2. rewrite W2 by assumption. lia. Qed.

  Lemma cellwise_block d ri ci : F (block d ri ci) = block (F d) ri ci.
  Proof. unfold cellwise, block; cbn. f_equal.
    - now rewrite slice_map.
    - rewrite slice_map2, map_map2, map2_map_r. apply map2_ext_r. intros l row _. now rewrite slice_map2. Qed.

  Lemma cellwise_row_wise : row_wise F.
  Proof. intros d W. split; [now apply cellwise_wf|]. split; [reflexivity|].
    intros a b. pose proof (block_cols_full (a, b) W) as E. cbn [fst snd] in E. rewrite <- E, cellwise_block.
    replace (ncols d) with (ncols (F d)) by (unfold ncols; cbn; now rewrite map_length).
    now rewrite (block_cols_full (a, b)) by now apply cellwise_wf. Qed.

  Lemma cellwise_column_wise : column_wise F.
  Proof. intros d W. split; [now apply cellwise_wf|].
    split; [unfold ncols; cbn; now rewrite map_length|].
    intros a b. pose proof (block_rows_full (a, b) W) as E. cbn [fst snd] in E. rewrite <- E, cellwise_block.
    change (nrows d) with (nrows (F d)).
    now rewrite (block_rows_full (a, b)) by now apply cellwise_wf. Qed.

  Lemma map_partitions_cellwise dynamic cpus nparts min_row min_col d rl cl :
    wf d -> rl <> [] -> cl <> [] -> list_sum rl = nrows d -> list_sum cl = ncols d ->
    0 < nparts -> 0 < min_row -> 0 < min_col ->
    map_partitions leqb heqb dynamic cpus nparts min_row min_col (cut_table rl cl d) (fun d => Ok (F d))
    = Ok (cut_table rl cl (F d)).
  Proof.
    intros W Hr Hc Hsr Hsc Hp Hmr Hmc.
    assert (GM : grid_map F (bounds 0 rl) (bounds 0 cl) d = cut_table rl cl (F d)).
    { unfold grid_map, cut_table. apply map_ext. intros ri. apply map_ext. intros ci. apply cellwise_block. }
    unfold map_partitions. destruct dynamic; cbn [negb].
    2:{ unfold cut_table at 1. fold (grid_iv (bounds 0 rl) (bounds 0 cl) d).
        rewrite base_map_ok. now rewrite GM. }
    destruct (cut_table rl cl d) as [|r0 rs] eqn:E.
    { unfold cut_table in E. apply map_eq_nil in E. apply bounds_nil_iff in E. easy. }
    rewrite <- E. rewrite cut_table_width by assumption.
    destruct (Nat.eqb_spec (length cl) 0) as [Z|_]; [destruct cl; easy|].
    destruct (negb _ && _) eqn:Em.
    - apply andb_true_iff in Em as [_ Em]. apply Nat.ltb_lt in Em.
      rewrite (joined_rowwise _ _ heqb_ok cellwise_row_wise) by (auto; lia). now rewrite GM.
    - destruct (absdiff _ _ <? absdiff _ _).
      + destruct (map_axis_row_wise leqb heqb leqb_ok cellwise_row_wise (d:=d) (rl:=rl) (cl:=cl)
                    (nparts:=nparts) (m:=min_col) (keep:=true) (num_splits:=None) (lengths:=None)) as (cl' & E1 & _ & _ & E2 & _); auto; try discriminate.
        rewrite E1. rewrite E2; auto. unfold ncols; cbn. now rewrite map_length.
      + destruct (map_axis_column_wise leqb heqb heqb_ok cellwise_column_wise (d:=d) (rl:=rl) (cl:=cl)
                    (nparts:=nparts) (m:=min_row) (keep:=true) (num_splits:=None) (lengths:=None)) as (rl' & E1 & _ & _ & E2 & _); auto; try discriminate.
        rewrite E1. rewrite E2; auto.
  Qed.
End Local.

(** * Dropping empty blocks *)
Lemma keep_nonzero_bounds {X} (h : nat * nat -> X) a lens extra :
  keep_nonzero lens (map h (bounds a (lens ++ extra))) = map h (bounds a (nonzero lens)).
Proof. revert a; induction lens as [|n ns IH]; intros a; cbn [app bounds map].
  - unfold keep_nonzero. now rewrite combine_nil.
  - unfold keep_nonzero in *. cbn [combine filter snd nonzero].
    destruct (Nat.eqb_spec n 0) as [->|Hn]; cbn [negb].
    + rewrite Nat.add_0_r. apply IH.
    + cbn [map fst bounds]. f_equal. apply IH. Qed.

Lemma keep_nonzero_bounds' {X} (h : nat * nat -> X) a lens :
  keep_nonzero lens (map h (bounds a lens)) = map h (bounds a (nonzero lens)).
Proof. rewrite <- (app_nil_r lens) at 2. apply keep_nonzero_bounds. Qed.

Lemma list_sum_nonzero lens : list_sum (nonzero lens) = list_sum lens.
Proof. unfold nonzero. induction lens as [|n ns IH]; cbn [filter]; [reflexivity|].
  destruct (Nat.eqb_spec n 0) as [->|]; cbn [negb]; lsum; lia. Qed.

Lemma nonzero_pos lens : Forall (fun n => 0 < n) (nonzero lens).
Proof. apply Forall_forall. intros n Hn. apply filter_In in Hn as [_ Hn].
  apply negb_true_iff, Nat.eqb_neq in Hn. lia. Qed.

Section Filter.
  Context {L H A : Type}.
  Variable leqb : L -> L -> bool.
  Variable heqb : H -> H -> bool.
  Hypothesis leqb_ok : forall x y, leqb x y = true <-> x = y.
  Hypothesis heqb_ok : forall x y, heqb x y = true <-> x = y.
  Notation dframe := (df L H A).
  Notation pf := (@pframe L H A).

  Lemma holds_intro (f : pf) (d : dframe) rl cl :
    wf d -> list_sum rl = nrows d -> list_sum cl = ncols d -> pgrid f = cut_table rl cl d ->
    (pindex f = None \/ pindex f = Some (dindex d)) -> (pcols f = None \/ pcols f = Some (dcols d)) ->
    (prl f = None \/ prl f = Some rl) -> (pcl f = None \/ pcl f = Some cl) -> holds f d rl cl.
  Proof. intros W Hr Hc Hg Hi Hcc Hrl Hcl. unfold holds, gridded. repeat split; auto; try apply W.
    - intros i Ei. destruct Hi as [Hi|Hi]; rewrite Hi in Ei; [discriminate|injection Ei as <-; reflexivity].
    - intros i Ei. destruct Hcc as [Hi'|Hi']; rewrite Hi' in Ei; [discriminate|injection Ei as <-; reflexivity]. Qed.

  Lemma gridded_row_lengths (f : pf) (d : dframe) rl cl : gridded f d rl cl -> cl <> [] -> row_lengths f = rl.
  Proof. intros (W & Hr & Hc & Hg & _ & _ & Hrl & _) Hne. unfold row_lengths.
    destruct Hrl as [-> | ->]; [|reflexivity]. rewrite Hg. unfold cut_table.
    rewrite filter_all_true.
    - rewrite map_map. transitivity (map (fun iv : nat * nat => Nat.min (snd iv - fst iv) (nrows d - fst iv)) (bounds 0 rl)).
      + apply map_ext. intros ri. destruct cl as [|c cs]; [easy|]. cbn. unfold nrows; cbn. now rewrite slice_length.
      + apply bounds_sizes. lia.
    - apply forallb_forall. intros row Hi. apply in_map_iff in Hi as (ri & <- & _).
      rewrite map_length, bounds_length. destruct cl; [easy|reflexivity]. Qed.

  Lemma gridded_column_widths (f : pf) (d : dframe) rl cl : gridded f d rl cl -> rl <> [] -> column_widths f = cl.
  Proof. intros (W & Hr & Hc & Hg & _ & _ & _ & Hcl) Hne. unfold column_widths.
    destruct Hcl as [-> | ->]; [|reflexivity]. rewrite Hg. unfold cut_table.
    destruct rl as [|r rs]; [easy|]. cbn [bounds map].
    rewrite map_map. transitivity (map (fun iv : nat * nat => Nat.min (snd iv - fst iv) (ncols d - fst iv)) (bounds 0 cl)).
    - apply map_ext. intros ci. unfold ncols; cbn. now rewrite slice_length.
    - apply bounds_sizes. lia. Qed.

  Lemma filter_empties_gridded cm (f : pf) (d : dframe) rl cl :
    gridded f d rl cl -> rl <> [] -> cl <> [] ->
    exists rl' cl',
      gridded (filter_empties cm f) d rl' cl'
      /\ pindex (filter_empties cm f) = pindex f /\ pcols (filter_empties cm f) = pcols f
      /\ ((filter_empties cm f = f /\ cm = false /\ (prl f = None \/ pcl f = None) /\ rl' = rl /\ cl' = cl)
          \/ (nrows d = 0 \/ ncols d = 0) /\ rl' = rl /\ cl' = cl
             /\ prl (filter_empties cm f) = Some rl /\ pcl (filter_empties cm f) = Some cl
          \/ 0 < nrows d /\ 0 < ncols d /\ rl' = nonzero rl /\ cl' = nonzero cl
             /\ prl (filter_empties cm f) = Some rl' /\ pcl (filter_empties cm f) = Some cl').
  Proof.
    intros Hh Hr Hc. assert (Hh' := Hh). destruct Hh' as (W & Hsr & Hsc & Hg & Hi & Hcc & Hrl & Hcl).
    unfold filter_empties. rewrite (gridded_row_lengths Hh Hc), (gridded_column_widths Hh Hr).
    destruct (negb cm && _) eqn:E1.
    { exists rl, cl. apply andb_true_iff in E1 as [Ecm E1]. apply negb_true_iff in Ecm.
      split; [exact Hh|]. split; [auto|]. split; [auto|]. left. repeat split; auto.
      apply orb_true_iff in E1 as [E1|E1]; [left; destruct (prl f); easy|right; destruct (pcl f); easy]. }
    destruct (is_empty_list (pindex f) || is_empty_list (pcols f) || (list_sum rl =? 0) || (list_sum cl =? 0)) eqn:E2.
    - exists rl, cl. cbn [pindex pcols prl pcl]. split; [|split; [auto|split; [auto|]]].
      + unfold gridded; cbn. tauto.
      + right; left. split; [|tauto].
        apply orb_true_iff in E2 as [E2|E2]; [|right; apply Nat.eqb_eq in E2; lia].
        apply orb_true_iff in E2 as [E2|E2]; [|left; apply Nat.eqb_eq in E2; lia].
        apply orb_true_iff in E2 as [E2|E2].
        * left. destruct (pindex f) as [[|]|]; try discriminate. symmetry. exact (Hi [] eq_refl).
        * right. destruct (pcols f) as [[|]|]; try discriminate. symmetry. exact (Hcc [] eq_refl).
    - apply orb_false_iff in E2 as [E2 Ec]. apply orb_false_iff in E2 as [_ Er].
      apply Nat.eqb_neq in Ec, Er.
      exists (nonzero rl), (nonzero cl). cbn [pindex pcols prl pcl]. split; [|split; [auto|split; [auto|]]].
      + unfold gridded; cbn. rewrite !list_sum_nonzero. repeat split; auto; try tauto.
        1,2: apply W.
        rewrite Hg. unfold cut_table. rewrite map_map.
        rewrite keep_nonzero_bounds'. apply map_ext. intros ri. apply keep_nonzero_bounds'.
      + right; right. repeat split; auto; lia.
  Qed.

  Lemma gridded_ne (f : pf) (d : dframe) rl cl rl' cl' :
    gridded f d rl' cl' -> rl <> [] -> cl <> [] ->
    (rl' = rl /\ cl' = cl) \/ (0 < nrows d /\ 0 < ncols d) -> rl' <> [] /\ cl' <> [].
  Proof. intros (W & Hr & Hc & _) H1 H2 [[-> ->]|[Hn Hm]]; [auto|].
    split; intros ->; cbn in *; lsum; lia. Qed.

  Lemma filter_empties_holds cm (f : pf) (d : dframe) rl cl :
    holds f d rl cl -> rl <> [] -> cl <> [] ->
    exists rl' cl',
      holds (filter_empties cm f) d rl' cl' /\ rl' <> [] /\ cl' <> []
      /\ pindex (filter_empties cm f) = pindex f /\ pcols (filter_empties cm f) = pcols f
      /\ (cm = true \/ (prl f <> None /\ pcl f <> None) -> 0 < nrows d -> 0 < ncols d ->
          Forall (fun n => 0 < n) rl' /\ Forall (fun n => 0 < n) cl').
  Proof.
    intros [Hg [Hi Hc']] Hr Hc.
    destruct (filter_empties_gridded cm Hg Hr Hc) as (rl' & cl' & G1 & G2 & G3 & G4).
    exists rl', cl'. split; [split; [exact G1|]; now rewrite G2, G3|].
    assert (X : rl' <> [] /\ cl' <> []).
    { apply (gridded_ne G1 Hr Hc). destruct G4 as [G4|[G4|G4]]; tauto. }
    destruct X as [X1 X2]. split; [exact X1|]. split; [exact X2|]. split; [exact G2|]. split; [exact G3|].
    intros K Kn Km. destruct G4 as [(_ & G4 & G5 & _)|[(G4 & _)|(_ & _ & -> & -> & _)]].
    - exfalso. destruct K as [->|[K1 K2]]; [discriminate|]. tauto.
    - lia.
    - split; apply nonzero_pos.
  Qed.

  Lemma pf_to_pandas_holds (f : pf) (d : dframe) rl cl :
    holds f d rl cl -> (nrows d = 0 \/ ncols d = 0 -> pindex f <> None /\ pcols f <> None) ->
    pf_to_pandas leqb heqb f = Ok d.
  Proof.
    intros [(W & Hsr & Hsc & Hg & _) [Hi Hc]] He.
    assert (RT : to_pandas leqb heqb (mkframe (pgrid f) (dindex d) (dcols d) [] []) = Ok d).
    { eapply cut_table_round_trip; eauto. }
    unfold to_pandas in RT. cbn [fgrid findex fcols] in RT.
    unfold pf_to_pandas.
    destruct (create_pandas_df_from_partitions leqb heqb (pgrid f)) as [d'|]; [|discriminate].
    cbn [rbind] in *.
    destruct (df_empty d') eqn:Ed.
    - injection RT as RT.
      assert (Hz : nrows d = 0 \/ ncols d = 0).
      { destruct (nrows d) eqn:N; [auto|]. destruct (ncols d) eqn:Nc; [auto|]. exfalso.
        rewrite <- RT in W, N, Nc. unfold nrows, ncols in N, Nc. cbn in N, Nc.
        destruct W as [W _]. cbn in W. destruct (dcols d); [discriminate|]. cbn in W. lia. }
      destruct (He Hz) as [Hi' Hc']. destruct Hi as [| ->]; [easy|]. destruct Hc as [| ->]; [easy|].
      now rewrite RT.
    - destruct (list_eqb leqb (dindex d') (dindex d)) eqn:E1; [|discriminate].
      destruct (list_eqb heqb (dcols d') (dcols d)) eqn:E2; [|discriminate].
      cbn in RT. apply (list_eqb_spec _ leqb_ok) in E1. apply (list_eqb_spec _ heqb_ok) in E2.
      destruct Hi as [-> | ->].
      + cbn [rbind]. destruct Hc as [-> | ->].
        * f_equal. injection RT as RT. rewrite <- RT. now apply df_eq.
        * rewrite E2, list_eqb_refl by assumption. f_equal. injection RT as RT. rewrite <- RT. now apply df_eq.
      + rewrite E1, list_eqb_refl by assumption. cbn [rbind dindex dcols dcells].
        destruct Hc as [-> | ->].
        * f_equal. injection RT as RT. rewrite <- RT. now apply df_eq.
        * rewrite E2, list_eqb_refl by assumption. congruence.
  Qed.
End Filter.

(** * Label propagation *)
Section Propagate.
  Context {L H A : Type}.
  Variable leqb : L -> L -> bool.
  Variable heqb : H -> H -> bool.
  Notation dframe := (df L H A).
  Notation pf := (@pframe L H A).

  Lemma combine_seq_bounds {X} (h : nat * nat -> X) a lens k :
    combine (seq k (length (map h (bounds a lens)))) (map h (bounds a lens))
    = map (fun p => (fst p, h (snd p))) (combine (seq k (length lens)) (bounds a lens)).
  Proof. revert a k; induction lens as [|n ns IH]; intros a k; cbn; [reflexivity|]. now rewrite IH. Qed.

  Lemma in_combine_bounds i iv lens :
    In (i, iv) (combine (seq 0 (length lens)) (bounds 0 lens)) ->
    iv = (nth i (cumsum0 lens) 0, nth (S i) (cumsum0 lens) 0).
  Proof. intros Hin. rewrite <- bounds_cumsum_from in Hin. rewrite cumsum_from_length in Hin.
    replace (S (length lens) - 1) with (length lens) in Hin by lia.
    apply In_nth_error in Hin as (k & Hk).
    revert Hk. generalize (length lens). intros n. 
    assert (G : forall n s k (h : nat -> nat * nat), nth_error (combine (seq s n) (map h (seq s n))) k = Some (i, iv) -> iv = h i).
    { clear. induction n as [|n IH]; intros s k h; [destruct k; discriminate|].
      destruct k; cbn; [now intros [= -> ->]|]. apply IH. }
    intros Hk. now apply G in Hk. Qed.

  Lemma map_snd_combine_seq {X Y} (h : X -> Y) (l : list X) k :
    map (fun p => h (snd p)) (combine (seq k (length l)) l) = map h l.
  Proof. revert k; induction l as [|x l IH]; intros k; cbn; [reflexivity|]. now rewrite IH. Qed.

  Lemma propagate_ok_ne axis (f : pf) d rl cl idx cols :
    gridded f d rl cl -> rl <> [] -> cl <> [] ->
    pindex f = Some idx -> pcols f = Some cols ->
    exists rl' cl', rl' <> [] /\ cl' <> [] /\ list_sum rl' = nrows d /\ list_sum cl' = ncols d
      /\ propagate_index_objs axis f = Ok (cut_table rl' cl' (relabel axis idx cols d)).
  Proof.
    intros Hh Hr Hc Hi Hcc.
    destruct (filter_empties_gridded false Hh Hr Hc) as (rl' & cl' & G1 & G2 & G3 & G4).
    assert (X : rl' <> [] /\ cl' <> []).
    { apply (gridded_ne G1 Hr Hc). destruct G4 as [G4|[G4|G4]]; tauto. }
    destruct X as [X1 X2]. exists rl', cl'. split; [exact X1|]. split; [exact X2|].
    unfold propagate_index_objs.
    rewrite (gridded_row_lengths G1 X2), (gridded_column_widths G1 X1), G2, G3, Hi, Hcc.
    destruct G1 as (W & Hr' & Hc' & Hg & Hli & Hlc & _). split; [exact Hr'|]. split; [exact Hc'|].
    specialize (Hli idx). rewrite G2 in Hli. specialize (Hli Hi).
    specialize (Hlc cols). rewrite G3 in Hlc. specialize (Hlc Hcc).
    rewrite Hg. clear G4 G2 G3.
    unfold cut_table at 1 2. rewrite combine_seq_bounds. unfold relabel.
    set (D := mkdf _ _ (dcells d)).
    rewrite (rmap_map_ok _ _ (fun p => map (fun ci => block D (snd p) ci) (bounds 0 cl'))).
    { f_equal. rewrite <- (bounds_length 0 rl') at 1. apply (map_snd_combine_seq (fun ri => map (fun ci => block D ri ci) (bounds 0 cl'))) with (k := 0). }
    intros [i ri] Hin. cbn [fst snd].
    pose proof (in_combine_bounds _ _ _ Hin) as Eri.
    rewrite combine_seq_bounds.
    rewrite (rmap_map_ok _ _ (fun p => block D ri (snd p))).
    { f_equal. rewrite <- (bounds_length 0 cl') at 1. apply (map_snd_combine_seq (fun ci => block D ri ci)) with (k := 0). }
    intros [j ci] Hjn. cbn [fst snd].
    pose proof (in_combine_bounds _ _ _ Hjn) as Eci.
    unfold set_index_labels, set_col_labels, nrows, ncols.
    assert (S1 : length (slice idx (nth i (cumsum0 rl') 0) (nth (S i) (cumsum0 rl') 0)) = length (dindex (block d ri ci))).
    { rewrite Eri. cbn. rewrite !slice_length. unfold nrows in Hli. lia. }
    assert (S2 : length (slice cols (nth j (cumsum0 cl') 0) (nth (S j) (cumsum0 cl') 0)) = length (dcols (block d ri ci))).
    { rewrite Eci. cbn. rewrite !slice_length. unfold ncols in Hlc. lia. }
    assert (R1 : slice idx (nth i (cumsum0 rl') 0) (nth (S i) (cumsum0 rl') 0) = slice idx (fst ri) (snd ri)) by now rewrite Eri.
    assert (R2 : slice cols (nth j (cumsum0 cl') 0) (nth (S j) (cumsum0 cl') 0) = slice cols (fst ci) (snd ci)) by now rewrite Eci.
    destruct axis as [[|]|]; cbn [rbind].
    - rewrite S2, Nat.eqb_refl, R2. reflexivity.
    - rewrite S1, Nat.eqb_refl, R1. reflexivity.
    - rewrite S1, Nat.eqb_refl. cbn [rbind dcols dindex dcells]. rewrite S2, Nat.eqb_refl, R1, R2. reflexivity.
  Qed.

  Lemma propagate_ok axis (f : pf) d rl cl idx cols :
    gridded f d rl cl -> rl <> [] -> cl <> [] ->
    pindex f = Some idx -> pcols f = Some cols ->
    exists rl' cl', list_sum rl' = nrows d /\ list_sum cl' = ncols d
      /\ propagate_index_objs axis f = Ok (cut_table rl' cl' (relabel axis idx cols d)).
  Proof. intros G Hr Hc Hi Hcc. destruct (propagate_ok_ne axis G Hr Hc Hi Hcc) as (rl' & cl' & _ & _ & X). eauto. Qed.
End Propagate.

(** * Transpose *)
Section Transp.
  Context {L A : Type}.
  Notation dframe := (df L L A).

  Lemma df_T_wf (d : dframe) : wf d -> wf (df_T d).
  Proof. intros [W1 W2]. split; cbn.
    - now apply transp_length.
    - rewrite <- W1. now apply transp_rows. Qed.

  Lemma df_T_involutive (d : dframe) : wf d -> df_T (df_T d) = d.
  Proof. intros [W1 W2]. destruct d as [i c t]; unfold df_T, ncols; cbn in *. f_equal.
    rewrite <- W1. now apply transp_involutive. Qed.

  Lemma df_T_block (d : dframe) ri ci : wf d -> df_T (block d ri ci) = block (df_T d) ci ri.
  Proof. intros [W1 W2]. unfold df_T, block; cbn. f_equal.
    unfold ncols; cbn. rewrite slice_length.
    rewrite transp_map_slice. rewrite transp_slice by assumption. unfold ncols. apply slice_map. Qed.

  Lemma transpose_grid (d : dframe) rl cl : wf d -> rl <> [] ->
    transp (grid_width (cut_table rl cl d)) (map (map df_T) (cut_table rl cl d)) = cut_table cl rl (df_T d).
  Proof.
    intros W Hr. rewrite cut_table_width by assumption. unfold cut_table. rewrite map_map.
    rewrite (map_ext _ (fun ri => map (fun ci => block (df_T d) ci ri) (bounds 0 cl))).
    - rewrite <- (bounds_length 0 cl).
      exact (transp_fun (fun ri ci => block (df_T d) ci ri) (bounds 0 rl) (bounds 0 cl)).
    - intros ri. rewrite map_map. apply map_ext. intros ci. now apply df_T_block. Qed.

  Lemma cell_T (d : dframe) i j : wf d -> cell (df_T d) j i = cell d i j.
  Proof. intros [W1 W2]. unfold cell, df_T, ncols; cbn.
    destruct (Nat.lt_ge_cases j (length (dcols d))) as [Hj|Hj].
    - now apply transp_nth_error.
    - assert (N : nth_error (transp (length (dcols d)) (dcells d)) j = None).
      { apply nth_error_None. rewrite transp_length; auto. }
      rewrite N. destruct (nth_error (dcells d) i) as [r|] eqn:E; [|reflexivity].
      symmetry. apply nth_error_None. apply nth_error_In in E. rewrite Forall_forall in W2.
      rewrite W2; auto. Qed.

  Lemma transpose_holds (f : pframe) (d : dframe) rl cl :
    holds f d rl cl -> rl <> [] -> cl <> [] ->
    exists f' rl' cl', transpose f = Ok f' /\ holds f' (df_T d) cl' rl'
      /\ rl' <> [] /\ cl' <> []
      /\ pindex f' = pcols f /\ pcols f' = pindex f.
  Proof.
    intros [Hh [Hi Hcc]] Hr Hc. assert (Hh' := Hh). destruct Hh' as (W & Hsr & Hsc & Hg & _ & _ & Hrl & Hcl).
    unfold transpose. rewrite Hg, transpose_grid by assumption.
    set (f0 := mkpf _ _ _ _ _).
    assert (H0 : holds f0 (df_T d) cl rl).
    { apply holds_intro; unfold f0; cbn; auto; try tauto. now apply df_T_wf. }
    unfold construct. replace (validate_axes_lengths f0) with true.
    - destruct (filter_empties_holds false H0 Hc Hr) as (cl' & rl' & H1 & H2 & H3 & H4 & H5 & _).
      exists (filter_empties false f0), rl', cl'. auto 10.
    - symmetry. unfold validate_axes_lengths, f0; cbn. apply andb_true_iff. split.
      + destruct Hcl as [-> | ->]; [reflexivity|].
        destruct Hcc as [-> | ->]; [reflexivity|]. unfold ncols in Hsc.
        destruct (dcols d); [reflexivity|]. rewrite Hsc. cbn. apply Nat.eqb_refl.
      + destruct Hrl as [-> | ->]; [reflexivity|].
        destruct Hi as [-> | ->]; [reflexivity|]. unfold nrows in Hsr.
        destruct (dindex d); [reflexivity|]. rewrite Hsr. cbn. apply Nat.eqb_refl.
  Qed.
End Transp.
