From Verif Require Import Base Table ChunkModel ChunkSpec ChunkProofs GridModel GridSpec FrameSpec GridProofs GridProofs2 GridProofs3 GridProofs5 SelSpec SelModel SelProofs SelProofs2 SelProofs3 SelProofs4.

Lemma Forall_seq_lt n : Forall (fun p => p < n) (seq 0 n).
Proof. apply Forall_forall. intros p I%in_seq. lia. Qed.

Section Sel.
  Context {L H A : Type}.
  Notation dframe := (df L H A).
  Notation pf := (@pframe L H A).
  Variable leqb : L -> L -> bool.
  Variable heqb : H -> H -> bool.
  Hypothesis leqb_ok : forall x y, leqb x y = true <-> x = y.
  Hypothesis heqb_ok : forall x y, heqb x y = true <-> x = y.
  Variables min_row min_col nparts : nat.
  Hypothesis mr : 0 < min_row.
  Hypothesis mc : 0 < min_col.
  Hypothesis np : 0 < nparts.

  (** The frame shows the table [d], labels known, block boundaries [rl], [cl]. *)
  Definition shows (f : pf) (d : dframe) rl cl : Prop :=
    holds f d rl cl /\ rl <> [] /\ cl <> [] /\ pindex f = Some (dindex d) /\ pcols f = Some (dcols d).

  Lemma iloc_cols_take2d r a b (d : dframe) : wf d -> Forall (fun p => p < nrows d) r ->
    take2d r (seq 0 (ncols (iloc_cols d a b))) (iloc_cols d a b) = iloc_cols (take2d r (seq 0 (ncols d)) d) a b.
  Proof. intros [W1 W2] F. apply df_eq; cbn [take2d iloc_cols dindex dcols dcells ncols]; unfold ncols; cbn [dcols iloc_cols].
    - reflexivity.
    - rewrite !pick_all by reflexivity. reflexivity.
    - rewrite pick_map, !map_map. apply map_ext_in. intros row I.
      assert (Hl : Forall (fun row => length row = length (dcols d)) (pick (dcells d) r)) by (apply Forall_pick; auto).
      rewrite Forall_forall in Hl. specialize (Hl row I). cbn in Hl. rewrite !pick_all; auto. rewrite !slice_length. lia. Qed.
  Lemma iloc_rows_take2d c a b (d : dframe) : wf d ->
    take2d (seq 0 (nrows (iloc_rows d a b))) c (iloc_rows d a b) = iloc_rows (take2d (seq 0 (nrows d)) c d) a b.
  Proof. intros [W1 W2]. apply df_eq; cbn [take2d iloc_rows dindex dcols dcells]; unfold nrows; cbn [dindex iloc_rows].
    - rewrite !pick_all by reflexivity. reflexivity.
    - reflexivity.
    - rewrite !pick_all; auto; [|rewrite !slice_length; lia]. now rewrite slice_map. Qed.

  Lemma take_rows_step (f : pf) d rl cl on : shows f d rl cl -> Forall (fun p => p < nrows d) on ->
    exists rl', map_axis_partitions leqb heqb nparts min_row false (pgrid f) (take_rows (map Z.of_nat on)) true None None
                = Ok (cut_table rl' cl (take2d on (seq 0 (ncols d)) d))
      /\ list_sum rl' = length on /\ rl' <> []
      /\ (length on = nrows d -> rl' = rl) /\ (length on <> nrows d -> get_length_list (length on) (length rl') min_row = Ok rl').
  Proof. intros ([Hg _] & Hr & Hc & _ & _) F. destruct Hg as (W & Hsr & Hsc & Hgr & _).
    rewrite Hgr. set (D := take2d on (seq 0 (ncols d)) d).
    assert (WD : wf D) by (apply wf_take2d; auto using Forall_seq_lt).
    assert (ND : nrows D = length on) by now apply take2d_nrows.
    destruct (@map_axis_column_wise_at L H A L H A leqb heqb heqb_ok (take_rows (map Z.of_nat on)) d D WD) with
      (rl := rl) (cl := cl) (nparts := nparts) (m := min_row) (keep := true) (num_splits := @None nat) (lengths := @None (list nat))
      as (rl' & M1 & M2 & M3 & M4 & _ & _ & _ & M8); auto; try congruence; try discriminate.
    - unfold D; rewrite take2d_ncols by apply Forall_seq_lt. now rewrite seq_length.
    - intros a b. unfold take_rows. rewrite wrap_all_of_nat.
      + f_equal. unfold D. now apply iloc_cols_take2d.
      + exact F.
    - specialize (M3 eq_refl eq_refl). rewrite ND in *. exists rl'. repeat split; auto.
      + destruct rl'; [|easy]. destruct rl; [easy|discriminate].
      + rewrite M3. now apply M8. Qed.

  Lemma take_cols_step rl cl (d : dframe) on : wf d -> rl <> [] -> cl <> [] -> list_sum rl = nrows d -> list_sum cl = ncols d ->
    Forall (fun p => p < ncols d) on ->
    exists cl', map_axis_partitions leqb heqb nparts min_col true (cut_table rl cl d) (take_cols (map Z.of_nat on)) true None None
                = Ok (cut_table rl cl' (take2d (seq 0 (nrows d)) on d))
      /\ list_sum cl' = length on /\ cl' <> []
      /\ (length on = ncols d -> cl' = cl) /\ (length on <> ncols d -> get_length_list (length on) (length cl') min_col = Ok cl').
  Proof. intros W Hr Hc Hsr Hsc F.
    set (D := take2d (seq 0 (nrows d)) on d).
    assert (WD : wf D) by (apply wf_take2d; auto using Forall_seq_lt).
    assert (ND : ncols D = length on) by now apply take2d_ncols.
    destruct (@map_axis_row_wise_at L H A L H A leqb heqb leqb_ok (take_cols (map Z.of_nat on)) d D WD) with
      (rl := rl) (cl := cl) (nparts := nparts) (m := min_col) (keep := true) (num_splits := @None nat) (lengths := @None (list nat))
      as (cl' & M1 & M2 & M3 & M4 & _ & _ & _ & M8); auto; try congruence; try discriminate.
    - unfold D; rewrite take2d_nrows by apply Forall_seq_lt. now rewrite seq_length.
    - intros a b. unfold take_cols. rewrite wrap_all_of_nat.
      + f_equal. unfold D. now apply iloc_rows_take2d.
      + exact F.
    - specialize (M3 eq_refl eq_refl). rewrite ND in *. exists cl'. repeat split; auto.
      + destruct cl'; [|easy]. destruct cl; [easy|discriminate].
      + rewrite M3. now apply M8. Qed.

  Definition order_or_all (o : option (list nat)) (n : nat) : list nat := match o with Some l => l | None => seq 0 n end.

  Lemma reorder_ok (f : pf) d rl cl (ro co : option (list nat)) : shows f d rl cl ->
    (forall on, ro = Some on -> Forall (fun p => p < nrows d) on) -> (forall on, co = Some on -> Forall (fun p => p < ncols d) on) ->
    exists f' rl' cl', reorder_labels leqb heqb min_row min_col nparts (option_map (map Z.of_nat) ro) (option_map (map Z.of_nat) co) f = Ok f'
      /\ shows f' (take2d (order_or_all ro (nrows d)) (order_or_all co (ncols d)) d) rl' cl'.
  Proof. intros Hsh Fr Fc. assert (Hsh' := Hsh). destruct Hsh' as ([Hg HL] & Hr & Hc & Hi & Hcol).
    assert (Hg' := Hg). destruct Hg' as (W & Hsr & Hsc & Hgr & Hli & Hlc & Crl & Ccl).
    unfold reorder_labels. set (ron := order_or_all ro (nrows d)).
    assert (Fron : Forall (fun p => p < nrows d) ron) by (unfold ron; destruct ro; cbn; auto using Forall_seq_lt).
    set (con := order_or_all co (ncols d)).
    assert (Fcon : Forall (fun p => p < ncols d) con) by (unfold con; destruct co; cbn; auto using Forall_seq_lt).
    set (D1 := take2d ron (seq 0 (ncols d)) d).
    assert (WD1 : wf D1) by (apply wf_take2d; auto using Forall_seq_lt).
    assert (ND1 : nrows D1 = length ron) by now apply take2d_nrows.
    assert (MD1 : ncols D1 = ncols d) by (unfold D1; rewrite take2d_ncols by apply Forall_seq_lt; apply seq_length).
    assert (S1 : exists rl1 c1,
      match option_map (map Z.of_nat) ro with
      | None => Ok (pgrid f, pindex f, prl f)
      | Some ps =>
          do g <- map_axis_partitions leqb heqb nparts min_row false (pgrid f) (take_rows ps) true None None;
          do index <- labels (pindex f);
          do row_idx <- np_take index ps;
          if negb (length row_idx =? length index)
          then do lens <- get_length_list (length row_idx) (length g) min_row; Ok (g, Some row_idx, Some lens)
          else Ok (g, Some row_idx, prl f)
      end = Ok (cut_table rl1 cl D1, Some (dindex D1), c1) /\ list_sum rl1 = nrows D1 /\ rl1 <> [] /\ (c1 = None \/ c1 = Some rl1)).
    { destruct ro as [on|]; cbn [option_map].
      - destruct (take_rows_step Hsh (Fr on eq_refl)) as (rl' & T1 & T2 & T3 & T4 & T5). rewrite T1. cbn [rbind]. rewrite Hi. cbn [labels rbind].
        rewrite np_take_nat by exact Fron. cbn [rbind].
        assert (PL : length (pick (dindex d) on) = length on) by (apply pick_length; exact Fron). rewrite PL.
        rewrite ND1. change ron with on. destruct (Nat.eqb_spec (length on) (length (dindex d))) as [E|E]; cbn [negb].
        + exists rl', (prl f). repeat split; auto. rewrite T4 by exact E. exact Crl.
        + assert (EL : length (cut_table rl' cl (take2d on (seq 0 (ncols d)) d)) = length rl') by (unfold cut_table; now rewrite map_length, bounds_length).
          rewrite EL, T5 by exact E. cbn [rbind]. exists rl', (Some rl'). repeat split; auto.
      - assert (ED : D1 = d) by (apply take2d_all; auto). rewrite ED. exists rl, (prl f). rewrite Hi, Hgr. repeat split; auto. }
    destruct S1 as (rl1 & c1 & -> & SR1 & NE1 & CR1). cbn [rbind].
    set (D2 := take2d ron con d).
    assert (ED2 : D2 = take2d (seq 0 (nrows D1)) con D1).
    { unfold D2, D1. rewrite take2d_take2d by (auto using Forall_seq_lt). fold D1. rewrite ND1, pick_all by reflexivity.
      f_equal. rewrite <- (map_id con) at 1. clear -Fcon. induction Fcon as [|p ps Hp _ IH]; [reflexivity|]. rewrite pick_cons. cbn [map].
      rewrite IH. rewrite (nth_error_nth' _ 0) by (rewrite seq_length; lia). rewrite seq_nth by lia. reflexivity. }
    assert (WD2 : wf D2) by (apply wf_take2d; auto).
    assert (S2 : exists cl1 c2,
      match option_map (map Z.of_nat) co with
      | None => Ok (cut_table rl1 cl D1, pcols f, pcl f)
      | Some ps =>
          do g <- map_axis_partitions leqb heqb nparts min_col true (cut_table rl1 cl D1) (take_cols ps) true None None;
          do columns <- labels (pcols f);
          do col_idx <- np_take columns ps;
          if negb (length col_idx =? length columns)
          then do lens <- get_length_list (length col_idx) (grid_width g) min_col; Ok (g, Some col_idx, Some lens)
          else Ok (g, Some col_idx, pcl f)
      end = Ok (cut_table rl1 cl1 D2, Some (dcols D2), c2) /\ list_sum cl1 = ncols D2 /\ cl1 <> [] /\ (c2 = None \/ c2 = Some cl1)).
    { assert (NC : ncols D2 = length con) by (now apply take2d_ncols). destruct co as [on|]; cbn [option_map].
      - destruct (@take_cols_step rl1 cl D1 on) as (cl' & T1 & T2 & T3 & T4 & T5); auto; [congruence|rewrite MD1; exact Fcon|].
        rewrite T1. cbn [rbind]. rewrite Hcol. cbn [labels rbind].
        rewrite np_take_nat by exact Fcon. cbn [rbind].
        assert (PL : length (pick (dcols d) on) = length on) by (apply pick_length; exact Fcon). rewrite PL.
        rewrite NC. change con with on. change con with on in ED2. rewrite <- ED2. rewrite MD1 in T4, T5.
        destruct (Nat.eqb_spec (length on) (length (dcols d))) as [E|E]; cbn [negb].
        + exists cl', (pcl f). repeat split; auto. rewrite T4 by exact E. exact Ccl.
        + rewrite cut_table_width by assumption. rewrite T5 by exact E. cbn [rbind]. exists cl', (Some cl'). repeat split; auto.
      - assert (ED : D2 = D1) by reflexivity. rewrite ED. exists cl, (pcl f). rewrite Hcol. repeat split; auto; [|congruence].
        unfold D1. cbn [take2d dcols]. now rewrite pick_all. }
    destruct S2 as (cl1 & c2 & -> & SR2 & NE2 & CR2). cbn [rbind].
    assert (EI : dindex D1 = dindex D2) by reflexivity. rewrite EI.
    assert (G : gridded (mkpf (cut_table rl1 cl1 D2) (Some (dindex D2)) (Some (dcols D2)) c1 c2) D2 rl1 cl1).
    { assert (nrows D2 = nrows D1) by (unfold nrows; now rewrite EI). repeat split; cbn [pgrid pindex pcols prl pcl]; auto; try (apply WD2); try congruence; intros ? [= <-]; reflexivity. }
    destruct (construct_gridded G NE1 NE2) as (f' & rl' & cl' & K1 & K2 & K3 & K4 & K5 & K6).
    cbn [pindex pcols] in K5, K6. exists f', rl', cl'. split; [exact K1|]. split; [|repeat split; auto]. split; [exact K2|]. split; right; assumption. Qed.

  (** * Frames without blocks *)
  Definition blockless (f : pf) : Prop := Forall (fun row => row = []) (pgrid f).
  Lemma blockless_pandas (f : pf) d : blockless f -> wf d -> nrows d = 0 \/ ncols d = 0 ->
    pindex f = Some (dindex d) -> pcols f = Some (dcols d) -> pf_to_pandas leqb heqb f = Ok d.
  Proof. intros B W Z Hi Hc. unfold pf_to_pandas, create_pandas_df_from_partitions.
    rewrite (filter_all_false). 2:{ apply forallb_forall. intros row I. unfold blockless in B. rewrite Forall_forall in B. now rewrite (B row I). }
    cbn [rmap rbind]. cbn [df_empty nrows ncols empty_df dindex dcols length Nat.eqb orb]. rewrite Hi, Hc. f_equal. apply wf_empty_cells; auto.
    unfold df_empty. destruct Z as [-> | ->]; [reflexivity|]. apply orb_true_r. Qed.
  Lemma blockless_construct g i c r1 c1 : Forall (fun row => row = []) g -> i = [] \/ c = [] ->
    (forall l, r1 = Some l -> list_sum l = length i) -> (forall l, c1 = Some l -> list_sum l = length c) ->
    exists f' : pf, construct (mkpf g (Some i) (Some c) r1 c1) = Ok f' /\ pgrid f' = g /\ pindex f' = Some i /\ pcols f' = Some c
      /\ prl f' = r1 /\ pcl f' = c1.
  Proof. intros B E R C. unfold construct, validate_axes_lengths. cbn [pindex pcols prl pcl].
    assert (V1 : match r1 with Some l => match i with [] => true | x :: xs => (list_sum l =? 0) || (list_sum l =? length (x :: xs)) end | None => true end = true).
    { destruct r1 as [l|]; [|reflexivity]. rewrite (R l eq_refl). destruct i; [reflexivity|]. now rewrite Nat.eqb_refl, orb_true_r. }
    assert (V2 : match c1 with Some l => match c with [] => true | x :: xs => (list_sum l =? 0) || (list_sum l =? length (x :: xs)) end | None => true end = true).
    { destruct c1 as [l|]; [|reflexivity]. rewrite (C l eq_refl). destruct c; [reflexivity|]. now rewrite Nat.eqb_refl, orb_true_r. }
    rewrite V1, V2. cbn [andb]. eexists; split; [reflexivity|]. unfold filter_empties. cbn [pgrid pindex pcols prl pcl].
    destruct (_ && _) eqn:X; [cbn [prl pcl]; auto|]. assert (is_empty_list (Some i) || is_empty_list (Some c) = true) as ->.
    { destruct E as [-> | ->]; [reflexivity|apply orb_true_r]. }
    cbn [orb pgrid pindex pcols prl pcl]. destruct r1, c1; try discriminate. auto. Qed.

  Lemma reorder_blockless (f : pf) (i : list L) (c : list H) (ro co : option (list nat)) :
    blockless f -> pindex f = Some i -> pcols f = Some c -> i = [] \/ c = [] ->
    (forall l, prl f = Some l -> list_sum l = length i) -> (forall l, pcl f = Some l -> list_sum l = length c) ->
    pgrid f = [] \/ ro <> None ->
    (forall on, ro = Some on -> Forall (fun p => p < length i) on /\ length on = length i) ->
    (forall on, co = Some on -> Forall (fun p => p < length c) on /\ length on = length c) ->
    exists f', reorder_labels leqb heqb min_row min_col nparts (option_map (map Z.of_nat) ro) (option_map (map Z.of_nat) co) f = Ok f'
      /\ blockless f' /\ pindex f' = Some (pick i (order_or_all ro (length i))) /\ pcols f' = Some (pick c (order_or_all co (length c))).
  Proof. intros B Hi Hc Z R C G Fr Fc. unfold reorder_labels.
    assert (S1 : exists c1,
      match option_map (map Z.of_nat) ro with
      | None => Ok (pgrid f, pindex f, prl f)
      | Some ps =>
          do g <- map_axis_partitions leqb heqb nparts min_row false (pgrid f) (take_rows ps) true None None;
          do index <- labels (pindex f);
          do row_idx <- np_take index ps;
          if negb (length row_idx =? length index)
          then do lens <- get_length_list (length row_idx) (length g) min_row; Ok (g, Some row_idx, Some lens)
          else Ok (g, Some row_idx, prl f)
      end = Ok ([], Some (pick i (order_or_all ro (length i))), c1) /\ (forall l, c1 = Some l -> list_sum l = length (pick i (order_or_all ro (length i))))).
    { destruct ro as [on|]; cbn [option_map order_or_all].
      - assert (E : map_axis_partitions leqb heqb nparts min_row false (pgrid f) (take_rows (map Z.of_nat on)) true None None = Ok []).
        { unfold map_axis_partitions. cbn [andb].
          assert (GW : grid_width (pgrid f) = 0). { unfold grid_width. destruct (pgrid f) as [|row g] eqn:E; [reflexivity|]. unfold blockless in B. rewrite E in B. inversion B; subst. reflexivity. }
          rewrite GW. assert (T0 : transp 0 (pgrid f) = []) by (apply length_zero_iff_nil; rewrite transp_length; [reflexivity|]; eapply Forall_impl; [|exact B]; now intros row ->).
          rewrite T0. reflexivity. }
        rewrite E. cbn [rbind]. rewrite Hi. cbn [labels rbind]. destruct (Fr on eq_refl) as [F1 F2].
        rewrite np_take_nat by exact F1. cbn [rbind]. rewrite pick_length by exact F1. rewrite F2, Nat.eqb_refl. cbn [negb]. exists (prl f). split; auto.
      - destruct G as [G|G]; [|easy]. rewrite G, Hi, pick_all by reflexivity. exists (prl f). split; auto. }
    destruct S1 as (c1 & -> & K1). cbn [rbind].
    assert (S2 : exists c2,
      match option_map (map Z.of_nat) co with
      | None => Ok ([], pcols f, pcl f)
      | Some ps =>
          do g <- map_axis_partitions leqb heqb nparts min_col true [] (@take_cols L H A ps) true None None;
          do columns <- labels (pcols f);
          do col_idx <- np_take columns ps;
          if negb (length col_idx =? length columns)
          then do lens <- get_length_list (length col_idx) (grid_width g) min_col; Ok (g, Some col_idx, Some lens)
          else Ok (g, Some col_idx, pcl f)
      end = Ok ([], Some (pick c (order_or_all co (length c))), c2) /\ (forall l, c2 = Some l -> list_sum l = length (pick c (order_or_all co (length c))))).
    { destruct co as [on|]; cbn [option_map order_or_all].
      - cbn [map_axis_partitions andb rmap rbind]. rewrite Hc. cbn [labels rbind]. destruct (Fc on eq_refl) as [F1 F2].
        rewrite np_take_nat by exact F1. cbn [rbind]. rewrite pick_length by exact F1. rewrite F2, Nat.eqb_refl. cbn [negb]. exists (pcl f). split; auto.
      - rewrite Hc, pick_all by reflexivity. exists (pcl f). split; auto. }
    destruct S2 as (c2 & -> & K2). cbn [rbind].
    destruct (@blockless_construct [] (pick i (order_or_all ro (length i))) (pick c (order_or_all co (length c))) c1 c2) as (f' & E1 & E2 & E3 & E4 & _); auto.
    { assert (PN : forall X (ps : list nat), pick (@nil X) ps = []). { intros X ps. induction ps as [|p ps IH]; [reflexivity|]. rewrite pick_cons, IH. now destruct p. }
      destruct Z as [-> | ->]; rewrite PN; auto. }
    exists f'. split; [exact E1|]. unfold blockless. rewrite E2. auto. Qed.
End Sel.
