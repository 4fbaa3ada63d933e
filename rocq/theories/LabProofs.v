(** Proofs for C55. *)
From Verif Require Import Base Table ChunkModel ChunkSpec ChunkProofs GridSpec GridModel FrameSpec
  GridProofs GridProofs2 GridProofs3 GridProofs4 GridProofs5 LabSpec LabModel.

Section Sees.
  Context {L A : Type}.
  Notation dframe := (df L L A).
  Notation pf := (@pframe L L A).
  Notation lframe := (@lframe L A).

  Lemma propagate_at axis (f : pf) (d : dframe) rl' cl' idx cols :
    gridded (filter_empties false f) d rl' cl' -> rl' <> [] -> cl' <> [] ->
    pindex (filter_empties false f) = Some idx -> pcols (filter_empties false f) = Some cols ->
    propagate_index_objs axis f = Ok (cut_table rl' cl' (relabel axis idx cols d)).
  Proof.
    intros G1 N1 N2 Hi Hcc.
    unfold propagate_index_objs.
    rewrite (gridded_row_lengths G1 N2), (gridded_column_widths G1 N1), Hi, Hcc.
    destruct G1 as (W & Hr' & Hc' & Hg & Hli & Hlc & _).
    specialize (Hli idx Hi). specialize (Hlc cols Hcc).
    rewrite Hg.
    unfold cut_table at 1 2. rewrite combine_seq_bounds. unfold relabel.
    set (D := mkdf _ _ (dcells d)).
    rewrite (rmap_map_ok _ _ (fun p => map (fun ci => block D (snd p) ci) (bounds 0 cl'))).
    { f_equal. rewrite <- (bounds_length 0 rl') at 1. apply (map_snd_combine_seq (fun ri => map (fun ci => block D ri ci) (bounds 0 cl'))) with (k := 0). }
    intros [i ri] Hin. cbn [fst snd].
    pose proof (in_combine_bounds _ _ _ Hin) as Eri.
    rewrite combine_seq_bounds.
    rewrite (rmap_map_ok _ _ (fun p => block D ri (snd p))).
    { f_equal. rewrite <- (bounds_length 0 cl') at 1. apply (map_snd_combine_seq (fun ci => block D ri ci)) with (k := 0). }
    intros [j ci] Hjn. cbn [fst snd].
    pose proof (in_combine_bounds _ _ _ Hjn) as Eci.
    unfold set_index_labels, set_col_labels, nrows, ncols.
    assert (S1 : length (slice idx (nth i (cumsum0 rl') 0) (nth (S i) (cumsum0 rl') 0)) = length (dindex (block d ri ci))).
    { rewrite Eri. cbn. rewrite !slice_length. unfold nrows in Hli. lia. }
    assert (S2 : length (slice cols (nth j (cumsum0 cl') 0) (nth (S j) (cumsum0 cl') 0)) = length (dcols (block d ri ci))).
    { rewrite Eci. cbn. rewrite !slice_length. unfold ncols in Hlc. lia. }
    assert (R1 : slice idx (nth i (cumsum0 rl') 0) (nth (S i) (cumsum0 rl') 0) = slice idx (fst ri) (snd ri)) by now rewrite Eri.
    assert (R2 : slice cols (nth j (cumsum0 cl') 0) (nth (S j) (cumsum0 cl') 0) = slice cols (fst ci) (snd ci)) by now rewrite Eci.
    destruct axis as [[|]|]; cbn [rbind].
    - rewrite S2, Nat.eqb_refl, R2. reflexivity.
    - rewrite S1, Nat.eqb_refl, R1. reflexivity.
    - rewrite S1, Nat.eqb_refl. cbn [rbind dcols dindex dcells]. rewrite S2, Nat.eqb_refl, R1, R2. reflexivity.
  Qed.

  (** The frame stands for [d]; an axis whose flag is clear has the right labels in the blocks. *)
  Definition sees (x : lframe) (d : dframe) : Prop :=
    exists d0 rl cl, gridded (lf x) d0 rl cl /\ rl <> [] /\ cl <> [] /\ dcells d0 = dcells d
      /\ length (dindex d0) = length (dindex d) /\ length (dcols d0) = length (dcols d)
      /\ pindex (lf x) = Some (dindex d) /\ pcols (lf x) = Some (dcols d)
      /\ (defi x = false -> dindex d0 = dindex d) /\ (defc x = false -> dcols d0 = dcols d).

  Lemma sees_wf x d : sees x d -> wf d.
  Proof. intros (d0 & rl & cl & ([W1 W2] & _) & _ & _ & E & E1 & E2 & _). split; rewrite <- E; [|rewrite <- E2]; [rewrite <- E1|]; auto. Qed.

  Lemma propagate_sees axis x d : sees x d -> exists x', propagate axis x = Ok x' /\ sees x' d
    /\ defi x' = (match axis with Some true => defi x | _ => false end)
    /\ defc x' = (match axis with Some false => defc x | _ => false end).
  Proof.
    intros (d0 & rl & cl & G & Hr & Hc & E & E1 & E2 & Pi & Pc & Di & Dc).
    destruct (filter_empties_gridded false G Hr Hc) as (rl' & cl' & G1 & G2 & G3 & G4).
    assert (X : rl' <> [] /\ cl' <> []).
    { apply (gridded_ne G1 Hr Hc). destruct G4 as [G4|[G4|G4]]; tauto. }
    destruct X as [N1 N2]. clear G4. rewrite Pi in G2. rewrite Pc in G3.
    unfold propagate. rewrite (@propagate_at axis (lf x) d0 rl' cl' _ _ G1 N1 N2 G2 G3). cbn [rbind].
    rewrite (gridded_row_lengths G1 N2), (gridded_column_widths G1 N1), G2, G3.
    eexists. split; [reflexivity|]. split; [|destruct axis as [[|]|]; auto].
    destruct G1 as ((W1 & W2) & S1 & S2 & _ & _ & _ & C1 & C2).
    exists (relabel axis (dindex d) (dcols d) d0), rl', cl'.
    assert (Y1 : length (dindex (relabel axis (dindex d) (dcols d) d0)) = nrows d0) by (destruct axis as [[|]|]; cbn; auto).
    assert (Y2 : length (dcols (relabel axis (dindex d) (dcols d) d0)) = ncols d0) by (destruct axis as [[|]|]; cbn; auto).
    split.
    { unfold gridded, nrows, ncols; cbn [lf pgrid pindex pcols prl pcl]. rewrite Y1, Y2.
      split. { split; [rewrite Y1; exact W1|rewrite Y2; exact W2]. }
      split; [exact S1|]. split; [exact S2|]. split; [reflexivity|].
      split; [intros i Ei; injection Ei as <-; symmetry; exact E1|].
      split; [intros i Ei; injection Ei as <-; symmetry; exact E2|].
      split; destruct axis as [[|]|]; auto. }
    split; [exact N1|]. split; [exact N2|]. split; [exact E|].
    split; [rewrite Y1; exact E1|]. split; [rewrite Y2; exact E2|]. cbn [lf pindex pcols defi defc].
    split; [reflexivity|]. split; [reflexivity|].
    destruct axis as [[|]|]; cbn [relabel dindex dcols]; auto.
  Qed.

  Lemma before_both x d : sees x d -> exists x', before MBoth x = Ok x' /\ sees x' d /\ defi x' = false /\ defc x' = false.
  Proof. intros S. cbn [before]. destruct (defi x) eqn:D1, (defc x) eqn:D2; cbn [andb].
    - destruct (propagate_sees None S) as (x' & X); eauto.
    - destruct (propagate_sees (Some false) S) as (x' & X & Y & Z1 & Z2). exists x'. rewrite D2 in Z2. auto.
    - destruct (propagate_sees (Some true) S) as (x' & X & Y & Z1 & Z2). exists x'. rewrite D1 in Z1. auto.
    - eauto. Qed.

End Sees.

Section LabProofs.
  Context {L A : Type}.
  Variable leqb : L -> L -> bool.
  Hypothesis leqb_ok : forall x y, leqb x y = true <-> x = y.
  Variable of_pos : nat -> L.
  Variable cell_of : L -> A.
  Variable unnamed : L.
  Variable dynamic : bool.
  Variables cpus nparts min_row min_col : nat.
  Hypothesis np : 0 < nparts.
  Hypothesis mr : 0 < min_row.
  Hypothesis mc : 0 < min_col.
  Notation dframe := (df L L A).
  Notation pf := (@pframe L L A).
  Notation lframe := (@lframe L A).

  Implicit Types (x : lframe) (d : dframe).

  Lemma df_eta (d e : dframe) : dindex d = dindex e -> dcols d = dcols e -> dcells d = dcells e -> d = e.
  Proof. destruct d, e; cbn; intros -> -> ->; reflexivity. Qed.

  (** With both flags clear the frame stands for the table in the usual sense. *)
  Lemma sees_holds x d : sees x d -> defi x = false -> defc x = false ->
    exists rl cl, holds (lf x) d rl cl /\ rl <> [] /\ cl <> [].
  Proof. intros (d0 & rl & cl & G & Hr & Hc & E & E1 & E2 & Pi & Pc & Di & Dc) F1 F2.
    exists rl, cl. assert (d0 = d) as -> by (apply df_eta; auto). split; [|auto]. split; [exact G|]. rewrite Pi, Pc. auto. Qed.

  Lemma read_sees x d : sees x d -> exists x', read leqb x = Ok (x', d) /\ sees x' d /\ defi x' = false /\ defc x' = false.
  Proof. intros S. destruct (before_both S) as (x' & B & S' & F1 & F2). exists x'. split; [|auto]. unfold read. rewrite B. cbn [rbind].
    destruct (sees_holds S' F1 F2) as (rl & cl & Hh & _). destruct S' as (_ & _ & _ & _ & _ & _ & _ & _ & _ & Pi & Pc & _).
    assert (Q : pf_to_pandas leqb leqb (lf x') = Ok d). { eapply pf_to_pandas_holds; eauto. intros _. rewrite Pi, Pc. easy. }
    rewrite Q. reflexivity. Qed.

  Lemma set_index_sees l x d : sees x d -> length l = nrows d -> exists x', set_index l x = Ok x' /\ sees x' (mkdf l (dcols d) (dcells d)).
  Proof. intros (d0 & rl & cl & G & Hr & Hc & E & E1 & E2 & Pi & Pc & Di & Dc) Hl.
    unfold set_index. rewrite Pi. unfold nrows in Hl. rewrite <- Hl, Nat.eqb_refl. eexists. split; [reflexivity|].
    exists d0, rl, cl. destruct G as (W & S1 & S2 & Hg & Hi & Hcc & C1 & C2).
    split. { unfold gridded. cbn [lf pgrid pindex pcols prl pcl]. repeat (split; [assumption|]). split; [|auto]. intros i Ei. injection Ei as <-. unfold nrows. congruence. }
    cbn [lf pindex pcols dindex dcols dcells defi defc]. do 7 (split; [assumption || congruence|]). split; [discriminate|auto]. Qed.

  Lemma set_columns_sees l x d : sees x d -> length l = ncols d -> exists x', set_columns leqb l x = Ok x' /\ sees x' (mkdf (dindex d) l (dcells d)).
  Proof. intros S Hl. assert (S' := S). destruct S' as (d0 & rl & cl & G & Hr & Hc & E & E1 & E2 & Pi & Pc & Di & Dc).
    unfold set_columns. rewrite Pc. destruct (list_eqb leqb (dcols d) l) eqn:El.
    { apply (list_eqb_spec leqb leqb_ok) in El. subst l. exists x. split; [reflexivity|]. now destruct d. }
    unfold ncols in Hl. rewrite <- Hl, Nat.eqb_refl. eexists. split; [reflexivity|].
    exists d0, rl, cl. destruct G as (W & S1 & S2 & Hg & Hi & Hcc & C1 & C2).
    split. { unfold gridded. cbn [lf pgrid pindex pcols prl pcl]. repeat (split; [assumption|]). split; [|auto]. intros i Ei. injection Ei as <-. unfold ncols. congruence. }
    cbn [lf pindex pcols dindex dcols dcells defi defc]. do 7 (split; [assumption || congruence|]). split; [auto|discriminate]. Qed.

  Lemma set_index_bad l x d : sees x d -> length l <> nrows d -> set_index l x = Err ValueError.
  Proof. intros (d0 & rl & cl & G & Hr & Hc & E & E1 & E2 & Pi & Pc & Di & Dc) Hl. unfold set_index. rewrite Pi.
    destruct (Nat.eqb_spec (length (dindex d)) (length l)); [|reflexivity]. unfold nrows in Hl. congruence. Qed.
  Lemma set_columns_bad l x d : sees x d -> length l <> ncols d -> set_columns leqb l x = Err ValueError.
  Proof. intros (d0 & rl & cl & G & Hr & Hc & E & E1 & E2 & Pi & Pc & Di & Dc) Hl. unfold set_columns. rewrite Pc.
    destruct (list_eqb leqb (dcols d) l) eqn:El. { apply (list_eqb_spec leqb leqb_ok) in El. subst l. unfold ncols in Hl. congruence. }
    destruct (Nat.eqb_spec (length (dcols d)) (length l)); [|reflexivity]. unfold ncols in Hl. congruence. Qed.

  Lemma copy_sees x d : sees x d -> exists y, lazy MNone (fun f => fresh (construct f)) x = Ok (x, y) /\ sees y d /\ defi y = defi x /\ defc y = defc x.
  Proof. intros (d0 & rl & cl & G & Hr & Hc & E & E1 & E2 & Pi & Pc & Di & Dc).
    destruct (construct_gridded G Hr Hc) as (f' & rl' & cl' & C & G' & N1 & N2 & Q1 & Q2).
    unfold lazy, fresh. cbn [before rbind]. rewrite C. cbn [rbind after lf]. eexists. split; [reflexivity|]. split; [|auto].
    exists d0, rl', cl'. cbn [lf defi defc]. rewrite Q1, Q2. auto 12. Qed.

  Lemma map_sees g x d : (forall l h l' h' c, g l h c = g l' h' c :> A) -> sees x d ->
    exists y, lazy MNone (fun f => fresh (frame_map leqb leqb dynamic cpus nparts min_row min_col
                                              (fun t => Ok (cellwise g (fun h => h) t)) None f)) x = Ok (x, y)
      /\ sees y (cellwise g (fun h => h) d) /\ defi y = defi x /\ defc y = defc x.
  Proof. intros B (d0 & rl & cl & G & Hr & Hc & E & E1 & E2 & Pi & Pc & Di & Dc).
    destruct (frame_map_ok leqb leqb leqb_ok leqb_ok g dynamic cpus (nc := None) G Hr Hc np mr mc) as (f' & rl' & cl' & C & G' & N1 & N2 & Q1 & Q2); [discriminate|].
    unfold lazy, fresh. cbn [before rbind]. rewrite C. cbn [rbind after lf]. eexists. split; [reflexivity|]. split; [|auto].
    exists (cellwise g (fun h => h) d0), rl', cl'. cbn [lf defi defc cellwise dindex dcols dcells]. rewrite !map_id, Q1, Q2.
    split; [exact G'|]. split; [exact N1|]. split; [exact N2|]. split; [|auto 12]. rewrite E.
    assert (BB : forall l1 l2 c1 c2 (m : list (list A)), length l1 = length l2 -> length c1 = length c2 ->
       map2 (fun l row => map2 (g l) c1 row) l1 m = map2 (fun l row => map2 (g l) c2 row) l2 m).
    { clear - B. induction l1 as [|a l1 IH]; intros [|b l2] c1 c2 [|r m] H1 H2; try discriminate; try reflexivity.
      rewrite !map2_cons. apply f_equal2; [|apply IH; auto]. clear IH m. revert c2 r H2. induction c1 as [|x c1 IHc]; intros [|y c2] [|v r] H2; try discriminate; try reflexivity. rewrite !map2_cons.
      apply f_equal2; [apply B|]. apply IHc. auto. }
    apply BB; auto. Qed.

  (** Right after a read, a function that looks at the labels sees the right ones. *)
  Lemma map_labels_sees g x d : sees x d -> defi x = false -> defc x = false ->
    exists y, lazy MNone (fun f => fresh (frame_map leqb leqb dynamic cpus nparts min_row min_col
                                              (fun t => Ok (cellwise g (fun h => h) t)) None f)) x = Ok (x, y)
      /\ sees y (cellwise g (fun h => h) d) /\ defi y = defi x /\ defc y = defc x.
  Proof. intros S F1 F2. destruct S as (d0 & rl & cl & G & Hr & Hc & E & E1 & E2 & Pi & Pc & Di & Dc).
    assert (d0 = d) as -> by (apply df_eta; auto).
    destruct (frame_map_ok leqb leqb leqb_ok leqb_ok g dynamic cpus (nc := None) G Hr Hc np mr mc) as (f' & rl' & cl' & C & G' & N1 & N2 & Q1 & Q2); [discriminate|].
    unfold lazy, fresh. cbn [before rbind]. rewrite C. cbn [rbind after lf]. eexists. split; [reflexivity|]. split; [|auto].
    exists (cellwise g (fun h => h) d), rl', cl'. cbn [lf defi defc cellwise dindex dcols dcells]. rewrite !map_id, Q1, Q2. auto 12. Qed.

  Lemma flip_T (d : dframe) : flip d = df_T d. Proof. reflexivity. Qed.

  Lemma transpose_sees x d : sees x d -> exists y, lazy MTranspose (fun f => fresh (transpose f)) x = Ok (x, y) /\ sees y (flip d) /\ defi y = defc x /\ defc y = defi x.
  Proof. intros S. pose proof (sees_wf S) as Wd. destruct S as (d0 & rl & cl & G & Hr & Hc & E & E1 & E2 & Pi & Pc & Di & Dc).
    destruct G as (W & S1 & S2 & Hg & Hi & Hcc & C1 & C2).
    set (f0 := mkpf (cut_table cl rl (df_T d0)) (pcols (lf x)) (pindex (lf x)) (pcl (lf x)) (prl (lf x))).
    assert (G0 : gridded f0 (df_T d0) cl rl).
    { unfold gridded, f0; cbn [pgrid pindex pcols prl pcl]. repeat split; auto; try now apply df_T_wf. }
    destruct (construct_gridded G0 Hc Hr) as (f' & cl' & rl' & C & G' & N1 & N2 & Q1 & Q2).
    unfold lazy, fresh. cbn [before rbind]. unfold transpose. rewrite Hg, transpose_grid by assumption. fold f0. rewrite C. cbn [rbind after lf].
    eexists. split; [reflexivity|]. split; [|auto]. exists (df_T d0), cl', rl'. cbn [lf defi defc]. rewrite Q1, Q2. unfold f0; cbn [pindex pcols].
    split; [exact G'|]. split; [exact N1|]. split; [exact N2|]. split.
    { cbn [flip df_T dcells]. unfold columns, ncols. rewrite E, E2. reflexivity. }
    cbn [flip df_T dindex dcols]. auto 12. Qed.

  Lemma fold_sees (axis : bool) (F : dframe -> dframe) x d :
    (if axis then row_wise F else column_wise F : Prop) -> (forall t, dindex (F t) = dindex t) -> (forall t, dcols (F t) = dcols t) ->
    sees x d ->
    exists x' y, lazy MBoth (fun f => fresh (fold leqb leqb nparts min_row min_col axis (fun t => Ok (F t)) None None true f)) x = Ok (x', y)
      /\ (sees x' d /\ defi x' = false /\ defc x' = false) /\ sees y (F d) /\ defi y = false /\ defc y = false.
  Proof.
    intros Wise Fi Fc S. destruct (before_both S) as (x' & B & S' & F1 & F2).
    destruct S' as (d0 & rl & cl & G & Hr & Hc & E & E1 & E2 & Pi & Pc & Di & Dc).
    assert (d0 = d) as -> by (apply df_eta; auto).
    assert (S2 : sees x' d) by (exists d, rl, cl; auto 12).
    pose proof (sees_wf S2) as Wd. assert (G' := G). destruct G' as (W & Hsr & Hsc & Hg & Hi & Hcc & C1 & C2).
    assert (WF : wf (F d)) by (destruct axis; apply (Wise d Wd)).
    assert (Nr : nrows (F d) = nrows d) by (unfold nrows; now rewrite Fi).
    assert (Nc : ncols (F d) = ncols d) by (unfold ncols; now rewrite Fc).
    unfold lazy. rewrite B. cbn [rbind]. unfold fold. rewrite Hg.
    assert (M : map_axis_partitions leqb leqb nparts (if axis then min_col else min_row) axis (cut_table rl cl d) (fun t => Ok (F t)) true None None
                = Ok (cut_table rl cl (F d))).
    { destruct axis.
      - destruct (map_axis_row_wise leqb leqb leqb_ok Wise (d:=d) (rl:=rl) (cl:=cl) (nparts:=nparts) (m:=min_col) (keep:=true) (num_splits:=None) (lengths:=None))
          as (cl' & M1 & _ & _ & M4 & _); auto; try discriminate. rewrite M1, M4; auto.
      - destruct (map_axis_column_wise leqb leqb leqb_ok Wise (d:=d) (rl:=rl) (cl:=cl) (nparts:=nparts) (m:=min_row) (keep:=true) (num_splits:=None) (lengths:=None))
          as (rl' & M1 & _ & _ & M4 & _); auto; try discriminate. rewrite M1, M4; auto. }
    rewrite M. cbn [rbind].
    set (f0 := mkpf _ _ _ _ _).
    assert (G0 : gridded f0 (F d) rl cl).
    { unfold gridded, f0; cbn [pgrid pindex pcols prl pcl]. rewrite Nr, Nc. auto 12. }
    destruct (construct_gridded G0 Hr Hc) as (f' & rl' & cl' & C & G' & N1 & N2 & Q1 & Q2).
    unfold fresh. rewrite C. cbn [rbind after]. eexists x', _. split; [reflexivity|]. split; [auto|]. split; [|auto].
    exists (F d), rl', cl'. cbn [lf defi defc]. rewrite Q1, Q2, Fi, Fc. auto 12.
  Qed.

  Lemma before_opposite (axis : bool) x d : sees x d -> exists x', before (MOpposite axis) x = Ok x' /\ sees x' d
    /\ (if axis then defi x' else defc x') = false /\ (defi x = false -> defi x' = false) /\ (defc x = false -> defc x' = false).
  Proof. intros S. cbn [before]. destruct axis; cbn [negb andb].
    - destruct (defi x) eqn:D; [|eauto 10]. destruct (propagate_sees (Some false) S) as (x' & X & Y & Z1 & Z2). exists x'. rewrite Z2. auto.
    - destruct (defc x) eqn:D; [|eauto 10]. destruct (propagate_sees (Some true) S) as (x' & X & Y & Z1 & Z2). exists x'. rewrite Z1. auto. Qed.

  Lemma tree_reduce_grid {M B} (axis : bool) (magg : list A -> M) (ragg : list M -> B) agg (f : pf) (d : dframe) rl cl idx cols :
    tree_law magg ragg agg -> gridded f d rl cl -> rl <> [] -> cl <> [] -> 0 < nrows d -> 0 < ncols d ->
    (if axis then idx = dindex d else cols = dcols d) ->
    exists f' rl' cl', tree_reduce leqb leqb unnamed unnamed dynamic cpus nparts min_row min_col axis magg ragg f idx cols = Ok f'
      /\ rl' <> [] /\ cl' <> [] /\ pindex f' <> None /\ pcols f' <> None
      /\ holds f' (if axis then reduce_rows unnamed agg d else reduce_columns unnamed agg d) rl' cl'.
  Proof.
    intros Law G Hr Hc Pn Pm Hl. set (f1 := mkpf (pgrid f) None None (prl f) (pcl f)).
    assert (Hh : holds f1 d rl cl). { destruct G as (W & Hsr & Hsc & Hg & _ & _ & C1 & C2). apply holds_intro; auto. }
    assert (Eq : tree_reduce leqb leqb unnamed unnamed dynamic cpus nparts min_row min_col axis magg ragg f idx cols
               = tree_reduce leqb leqb unnamed unnamed dynamic cpus nparts min_row min_col axis magg ragg f1 (dindex d) (dcols d)).
    { unfold tree_reduce, compute_tree_reduce_metadata. destruct axis; rewrite Hl; reflexivity. }
    rewrite Eq. clear Eq Hl. assert (Hh' := Hh). destruct Hh' as [(W & Hsr & Hsc & Hg & _) _].
    unfold tree_reduce. rewrite Hg. destruct axis.
    - change (build_treereduce_func unnamed unnamed true magg) with (fun t => Ok (@reduce_rows L L A M unnamed magg t)).
      change (build_treereduce_func unnamed unnamed true ragg) with (fun t => Ok (@reduce_rows L L M B unnamed ragg t)).
      destruct (@tree_map_phase1 L L A leqb leqb leqb_ok leqb_ok M unnamed magg d rl cl dynamic cpus nparts min_row min_col) as (cl2 & gs & G1 & G2 & G3 & G4 & G5); auto.
      rewrite G5. cbn [rbind].
      destruct (map_axis_row_wise leqb leqb leqb_ok (@reduce_rows_rw L L M B unnamed ragg) (d:=partials1 unnamed magg d gs) (rl:=rl) (cl:=cl2)
                  (nparts:=nparts) (m:=min_col) (keep:=false) (num_splits:=None) (lengths:=None))
            as (cl' & E1 & _ & _ & _ & _ & _ & E2); auto; try discriminate.
      { now apply partials1_wf. }
      { unfold ncols, partials1; cbn. now rewrite repeat_length. }
      rewrite E1. cbn [rbind]. specialize (E2 eq_refl eq_refl). cbn beta iota in E2. change (ncols _) with 1 in E2.
      destruct (get_length_list_unit np mc) as (rest & E3 & E4). rewrite E3 in E2. injection E2 as <-.
      rewrite (reduce_partials1 unnamed Law W G2 G3).
      destruct (@finish_rows L L leqb leqb leqb_ok leqb_ok A B f1 d (reduce_rows unnamed agg d) rl cl rest unnamed unnamed) as (f' & Q1 & Q2 & Q3 & Q4 & Q5); auto.
      { destruct (@reduce_rows_rw L L A B unnamed agg d W) as (Wx & _). exact Wx. }
      exists f', (nonzero rl), [1]. split; [exact Q1|]. split; [|split; [easy|]].
      + destruct (Q5 Pn) as ((_ & Z & _) & _). intros Z0. rewrite Z0 in Z. change (list_sum []) with 0 in Z. unfold reduce_rows, nrows in Z; cbn [dindex] in Z. unfold nrows in Pn. lia.
      + rewrite Q3, Q4. split; [easy|]. split; [easy|]. auto.
    - change (build_treereduce_func unnamed unnamed false magg) with (fun t => Ok (@reduce_columns L L A M unnamed magg t)).
      change (build_treereduce_func unnamed unnamed false ragg) with (fun t => Ok (@reduce_columns L L M B unnamed ragg t)).
      destruct (@tree_map_phase L L A leqb leqb leqb_ok leqb_ok M unnamed magg d rl cl dynamic cpus nparts min_row min_col) as (gs & G1 & G2 & G3 & G4); auto.
      rewrite G4. cbn [rbind].
      assert (Hsum : list_sum (concat (map fst gs)) = length gs).
      { clear - G3. induction G3 as [|x xs [_ E] _ IHf]; [reflexivity|]. cbn [map concat length].
        rewrite list_sum_app, E, IHf. reflexivity. }
      destruct (map_axis_column_wise leqb leqb leqb_ok (@reduce_columns_cw L L M B unnamed ragg) (d:=partials unnamed magg d (map snd gs))
                  (rl:=concat (map fst gs)) (cl:=cl)
                  (nparts:=nparts) (m:=min_row) (keep:=false) (num_splits:=None) (lengths:=None))
            as (rl' & E1 & _ & _ & _ & _ & _ & E2); auto; try discriminate.
      { now apply partials_wf. }
      { intros E. destruct gs; [easy|]. rewrite E in Hsum. discriminate. }
      { unfold nrows, partials; cbn. now rewrite repeat_length, map_length. }
      rewrite E1. cbn [rbind]. specialize (E2 eq_refl eq_refl). cbn beta iota in E2. change (nrows _) with 1 in E2.
      destruct (get_length_list_unit np mr) as (rest & E3 & E4). rewrite E3 in E2. injection E2 as <-.
      rewrite (reduce_partials unnamed Law W); [|destruct gs; easy|assumption].
      destruct (@finish_columns L L leqb leqb leqb_ok leqb_ok A B f1 d (reduce_columns unnamed agg d) rl cl rest unnamed unnamed) as (f' & Q1 & Q2 & Q3 & Q4 & Q5); auto.
      { destruct (@reduce_columns_cw L L A B unnamed agg d W) as (Wx & _). exact Wx. }
      exists f', [1], (nonzero cl). split; [exact Q1|]. split; [easy|]. split.
      + destruct (Q5 Pm) as ((_ & _ & Z & _) & _). intros Z0. rewrite Z0 in Z. change (list_sum []) with 0 in Z. unfold reduce_columns, ncols in Z; cbn [dcols] in Z. unfold ncols in Pm. lia.
      + rewrite Q3, Q4. split; [easy|]. split; [easy|]. auto.
  Qed.

  Lemma reduced_sees (axis : bool) (magg ragg agg : list A -> A) x d : tree_law magg ragg agg -> 0 < nrows d -> 0 < ncols d -> sees x d ->
    exists x', reduced leqb unnamed dynamic cpus nparts min_row min_col axis magg ragg x
               = Ok (x', if axis then reduce_rows unnamed agg d else reduce_columns unnamed agg d)
      /\ sees x' d /\ (defi x = false -> defi x' = false) /\ (defc x = false -> defc x' = false).
  Proof.
    intros Law Pn Pm S. destruct (before_opposite axis S) as (x' & B & S' & Fl & Fd). exists x'. split; [|split; [exact S'|exact Fd]]. clear Fd.
    unfold reduced, lazy. rewrite B. cbn [rbind].
    destruct S' as (d0 & rl & cl & G & Hr & Hc & E & E1 & E2 & Pi & Pc & Di & Dc). rewrite Pi, Pc.
    destruct (@tree_reduce_grid A A axis magg ragg agg (lf x') d0 rl cl (dindex d) (dcols d) Law G Hr Hc) as (f' & rl' & cl' & T & N1 & N2 & P1 & P2 & Hh).
    { unfold nrows in *. lia. } { unfold ncols in *. lia. } { destruct axis; symmetry; auto. }
    unfold fresh. rewrite T. cbn [rbind].
    set (D := if axis then reduce_rows unnamed agg d else reduce_columns unnamed agg d).
    assert (ED : (if axis then reduce_rows unnamed agg d0 else reduce_columns unnamed agg d0) = D).
    { unfold D. destruct axis.
      - unfold reduce_rows. now rewrite (Di Fl), E.
      - unfold reduce_columns, columns, ncols. now rewrite (Dc Fl), E. }
    rewrite ED in Hh. destruct Hh as (Hg & Hi & Hcc).
    assert (SD : forall a b, sees (mklf f' a b) D).
    { intros a b. exists D, rl', cl'. cbn [lf]. destruct Hi as [Hi|Hi]; [contradiction|]. destruct Hcc as [Hcc|Hcc]; [contradiction|]. auto 12. }
    match goal with |- context[read leqb ?z] => assert (SZ : sees z D) end.
    { cbn [snd after]. destruct axis; apply SD. }
    destruct (read_sees SZ) as (z' & R & _). cbn [snd fst] in *. rewrite R. reflexivity.
  Qed.

  Lemma slice_0_cons {X} (x : X) l n : slice (x :: l) 0 (S n) = x :: slice l 0 n.
  Proof. unfold slice. rewrite !Nat.sub_0_r. reflexivity. Qed.
  Lemma combine_map_r {X Y Z} (g : Y -> Z) (l : list X) m : combine l (map g m) = map (fun p => (fst p, g (snd p))) (combine l m).
  Proof. revert m. induction l as [|x l IH]; intros [|y m]; cbn; auto. now rewrite IH. Qed.
  Lemma map_snd_combine {X Y} (l : list X) (m : list Y) : length l = length m -> map snd (combine l m) = m.
  Proof. revert m. induction l as [|x l IH]; intros [|y m] H; cbn in *; try discriminate; auto. f_equal. auto. Qed.

  Lemma map_fst_combine {X Y} (l : list X) (m : list Y) : length l = length m -> map fst (combine l m) = l.
  Proof. revert m. induction l as [|x l IH]; intros [|y m] H; cbn in *; try discriminate; auto. f_equal. auto. Qed.

  Lemma reset_grid name rl w ws (d : dframe) : wf d -> list_sum rl = nrows d ->
    map (fun row => match row with
                    | b :: rest => mkdf (dindex b) (name :: dcols b) (map2 (fun l r => cell_of l :: r) (dindex b) (dcells b)) :: rest
                    | [] => []
                    end) (cut_table rl (w :: ws) d)
    = cut_table rl (S w :: ws) (mkdf (dindex d) (name :: dcols d) (map2 (fun l r => cell_of l :: r) (dindex d) (dcells d))).
  Proof.
    intros W Hs. unfold cut_table. rewrite map_map. apply map_ext. intros ri. cbn [bounds map]. rewrite !Nat.add_0_l. f_equal.
    - unfold block; cbn [dindex dcols dcells fst snd]. f_equal; [now rewrite !slice_0_cons|].
      rewrite slice_map2, map_map2. unfold map2. rewrite combine_map_r, !map_map. apply map_ext. intros [l r]. cbn [fst snd].
      now rewrite slice_0_cons.
    - change (S w) with (1 + w). rewrite <- (bounds_shift w ws), <- (bounds_shift (1 + w) ws), !map_map. apply map_ext. intros ci.
      unfold block; cbn [dindex dcols dcells fst snd]. f_equal.
      rewrite slice_map2, map_map2. unfold map2.
      change (fun p : L * list A => slice (cell_of (fst p) :: snd p) (1 + w + fst ci) (1 + w + snd ci))
        with (fun p : L * list A => slice (snd p) (w + fst ci) (w + snd ci)).
      rewrite <- (map_map snd (fun r => slice r (w + fst ci) (w + snd ci))), map_snd_combine; [reflexivity|].
      destruct W as [W1 _]. rewrite !slice_length. unfold nrows in *. rewrite W1. reflexivity.
  Qed.

  Lemma from_labels_sees name x d : sees x d ->
    exists x' y, lazy MRows (from_labels of_pos cell_of name) x = Ok (x', y) /\ sees x' d /\ sees y (reset of_pos cell_of name d)
      /\ (defi x = false -> defi x' = false) /\ (defc x = false -> defc x' = false).
  Proof.
    intros S. destruct (propagate_sees (Some false) S) as (x' & B & S' & F1 & F2). cbn iota in F1, F2.
    assert (S2 := S'). destruct S2 as (d0 & rl & cl & G & Hr & Hc & E & E1 & E2 & Pi & Pc & Di & Dc). specialize (Di F1).
    unfold lazy. cbn [before]. rewrite B. cbn [rbind]. unfold from_labels. rewrite Pi, Pc, (gridded_column_widths G Hr).
    destruct G as (W & Hsr & Hsc & Hg & Hi & Hcc & C1 & C2). destruct cl as [|w ws]; [easy|]. rewrite Hg, reset_grid by assumption.
    set (d1 := mkdf (dindex d0) _ _). set (f0 := mkpf _ _ _ _ _).
    assert (W1 : wf d1).
    { destruct W as [Wa Wb]. split; unfold d1; cbn [dindex dcols dcells].
      - rewrite map2_length, Wa. apply Nat.min_id.
      - unfold map2. apply Forall_forall. intros r I. apply in_map_iff in I as ((l & r') & <- & I). apply in_combine_r in I. rewrite Forall_forall in Wb. cbn. f_equal. now apply Wb. }
    assert (G0 : gridded f0 d1 rl (1 + w :: ws)).
    { unfold gridded, f0, d1, nrows, ncols; cbn [pgrid pindex pcols prl pcl dindex dcols dcells length]. split; [exact W1|].
      split; [exact Hsr|]. split. { rewrite list_sum_cons in *. unfold ncols in Hsc. lia. } split; [reflexivity|].
      split. { intros i Ei. injection Ei as <-. rewrite map_length, seq_length. congruence. }
      split. { intros i Ei. injection Ei as <-. cbn. f_equal. congruence. }
      auto. }
    destruct (construct_gridded G0 Hr) as (f' & rl' & cl' & C & G' & N1 & N2 & Q1 & Q2); [easy|].
    rewrite C. cbn [rbind after lf defi]. eexists x', _. split; [reflexivity|]. split; [exact S'|]. split; [|rewrite F2; auto].
    exists d1, rl', cl'. cbn [lf defi defc]. rewrite Q1, Q2. split; [exact G'|]. split; [exact N1|]. split; [exact N2|].
    unfold d1, f0, reset, nrows; cbn [dindex dcols dcells pindex pcols length].
    split; [now rewrite E, Di|]. split; [rewrite map_length, seq_length; congruence|]. split; [congruence|].
    split; [reflexivity|]. split; [reflexivity|]. split; [discriminate|]. intros F. f_equal. auto.
  Qed.

  (** One action. *)
  Notation modin := (modin_act leqb of_pos cell_of unnamed dynamic cpus nparts min_row min_col).
  Notation pandas := (pandas_act leqb of_pos cell_of unnamed).
  Definition good (x : lframe) (db : dframe * bool) : Prop :=
    sees x (fst db) /\ (snd db = true -> defi x = false /\ defc x = false).

  Lemma act_sees a x d b : good x (d, b) -> act_ok a d b ->
    match pandas a d with
    | Err e => modin a x = Err e
    | Ok (d', new, o) => exists x' new', modin a x = Ok (x', new', o) /\ good x' (d', fst (settle a b))
                          /\ Forall2 good new' (combine new (snd (settle a b)))
    end.
  Proof.
    intros [S Hb] Ok_. cbn [fst snd] in S, Hb. unfold good. destruct a; cbn [pandas_act modin_act act_ok settle fst snd combine] in *.
    - destruct (Nat.eqb_spec (length l) (nrows d)) as [H|H].
      + destruct (set_index_sees l S H) as (x' & R & S'). rewrite R. cbn [rbind]. exists x', []. split; [reflexivity|]. split; [split; [exact S'|discriminate]|constructor].
      + now rewrite (set_index_bad l S H).
    - destruct (Nat.eqb_spec (length l) (ncols d)) as [H|H].
      + destruct (set_columns_sees l S H) as (x' & R & S'). rewrite R. cbn [rbind]. exists x', []. split; [reflexivity|]. split; [split; [exact S'|discriminate]|constructor].
      + now rewrite (set_columns_bad l S H).
    - destruct (copy_sees S) as (y & R & S' & Q1 & Q2). rewrite R. cbn [rbind fst snd]. exists x, [y]. split; [reflexivity|]. split; [auto|].
      constructor; [|constructor]. cbn [fst snd]. rewrite Q1, Q2. auto.
    - destruct (transpose_sees S) as (y & R & S' & Q1 & Q2). rewrite R. cbn [rbind fst snd]. exists x, [y]. split; [reflexivity|]. split; [auto|].
      constructor; [|constructor]. cbn [fst snd]. rewrite Q1, Q2. split; [exact S'|tauto].
    - assert (M : exists y, lazy MNone (fun f0 => fresh (frame_map leqb leqb dynamic cpus nparts min_row min_col
                                              (fun t => Ok (cellwise f (fun h => h) t)) None f0)) x = Ok (x, y)
        /\ sees y (cellwise f (fun h => h) d) /\ defi y = defi x /\ defc y = defc x).
      { destruct Ok_ as [->|O]; [destruct (Hb eq_refl) as [F1 F2]; exact (map_labels_sees f S F1 F2)|exact (map_sees f O S)]. }
      destruct M as (y & R & S' & Q1 & Q2). rewrite R. cbn [rbind fst snd]. exists x, [y]. split; [reflexivity|]. split; [auto|].
      constructor; [|constructor]. cbn [fst snd]. rewrite Q1, Q2. auto.
    - destruct Ok_ as (O1 & O2 & O3). destruct (fold_sees axis F O1 O2 O3 S) as (x' & y & R & (S1 & P1) & S2 & P2). rewrite R. cbn [rbind fst snd]. exists x', [y].
      split; [reflexivity|]. split; [auto|]. constructor; [|constructor]. cbn [fst snd]. auto.
    - destruct Ok_ as (O1 & O2 & O3). destruct (reduced_sees axis O1 O2 O3 S) as (x' & R & S1 & P1 & P2). rewrite R. cbn [rbind fst snd]. exists x', [].
      split; [reflexivity|]. split; [|constructor]. split; [exact S1|]. intros Eb. destruct (Hb Eb). auto.
    - destruct (existsb (leqb name) (dcols d)) eqn:Ex.
      { apply existsb_exists in Ex as (c & I & Q). apply leqb_ok in Q. subst c. contradiction. }
      destruct (from_labels_sees name S) as (x' & y & R & S1 & S2 & P1 & P2). rewrite R. cbn [rbind fst snd]. exists x', [y].
      split; [reflexivity|]. split. { split; [exact S1|]. intros Eb. destruct (Hb Eb). auto. }
      constructor; [|constructor]. cbn [fst snd]. split; [exact S2|discriminate].
    - destruct (read_sees S) as (x' & R & S1 & P). rewrite R. cbn [rbind fst snd]. exists x', []. auto.
  Qed.

  Lemma Forall2_replace_nth {X Y} (R : X -> Y -> Prop) k (x : X) (d : Y) s t : Forall2 R s t -> R x d -> Forall2 R (replace_nth k x s) (replace_nth k d t).
  Proof. intros F. revert k. induction F as [|y e s t H F IH]; intros [|k] S; cbn; auto. Qed.

  Lemma map_replace_nth {X Y} (g : X -> Y) k (x : X) s : map g (replace_nth k x s) = replace_nth k (g x) (map g s).
  Proof. revert k. induction s as [|y s IH]; intros [|k]; cbn; auto. now rewrite IH. Qed.

  Lemma settle_length a b d d' new o : pandas a d = Ok (d', new, o) -> length new = length (snd (settle a b)).
  Proof. destruct a; cbn [pandas_act settle]; try (destruct (_ =? _)); try (destruct (existsb _ _)); intros H; inversion H; reflexivity. Qed.

  Lemma session_sees p : forall s t, Forall2 good s t -> session_ok leqb of_pos cell_of unnamed t p -> session modin s p = session pandas (map fst t) p.
  Proof.
    induction p as [|[k a] p IH]; intros s t F Hok; [reflexivity|]. cbn [session session_ok] in *.
    assert (N : match nth_error s k, nth_error t k with Some x, Some d => good x d | None, None => True | _, _ => False end).
    { clear - F. revert k. induction F as [|y e s t H F IHf]; intros [|k]; cbn; auto. apply IHf. }
    rewrite nth_error_map. destruct (nth_error s k) as [x|], (nth_error t k) as [[d b]|]; try contradiction; cbn [option_map fst].
    - destruct Hok as [O1 O2]. pose proof (@act_sees a x d b N O1) as Q. pose proof (@settle_length a b d) as LL.
      destruct (pandas a d) as [[[d' new] o]|e].
      + destruct Q as (x' & new' & R & S1 & S2). rewrite R. f_equal.
        assert (E : replace_nth k d' (map fst t) ++ new = map fst (replace_nth k (d', fst (settle a b)) t ++ combine new (snd (settle a b)))).
        { rewrite map_app, map_replace_nth, map_fst_combine by (eapply LL; reflexivity). reflexivity. }
        rewrite E. apply IH; [|exact O2]. apply Forall2_app; [|exact S2]. now apply Forall2_replace_nth.
      + rewrite Q. f_equal. now apply IH.
    - f_equal. now apply IH.
  Qed.
End LabProofs.
