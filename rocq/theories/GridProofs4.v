From Verif Require Import Base Table ChunkModel ChunkSpec ChunkProofs GridSpec GridModel FrameSpec GridProofs GridProofs2 GridProofs3.

Lemma get_length_list_unit k m : 0 < k -> 0 < m ->
  exists rest, get_length_list 1 k m = Ok (1 :: rest) /\ list_sum rest = 0.
Proof. intros Hk Hm. destruct (get_length_list_ok 1 Hk Hm) as (lens & E & Hl & Hs).
  assert (E' := E).
  unfold get_length_list in E. destruct (compute_chunksize_ok 1 Hk Hm) as (c & Ec & Hc & _).
  rewrite Ec in E. cbn [rbind] in E. destruct k as [|k]; [lia|].
  destruct lens as [|x rest]; [discriminate|]. cbn [seq map] in E. injection E as E1 E2.
  assert (X : x = 1). { rewrite <- E1. clear - Hc. destruct (Nat.leb_spec (c + 0) 1); lia. } subst x.
  rewrite X in *. exists rest. split; [exact E'|]. lsum. lia. Qed.

Section Reduce.
  Context {L H A : Type}.
  Variable leqb : L -> L -> bool.
  Variable heqb : H -> H -> bool.
  Hypothesis leqb_ok : forall x y, leqb x y = true <-> x = y.
  Hypothesis heqb_ok : forall x y, heqb x y = true <-> x = y.

  Lemma columns_length {X} (d : df L H X) : wf d -> length (columns d) = ncols d.
  Proof. intros [_ W]. unfold columns. now apply transp_length. Qed.

  Lemma columns_rows {X} (d : df L H X) : wf d -> Forall (fun c => length c = nrows d) (columns d).
  Proof. intros [W1 W]. unfold columns, nrows. rewrite <- W1. now apply transp_rows. Qed.

  Lemma reduce_columns_cw {X Y} (u : L) (agg : list X -> Y) : column_wise (@reduce_columns L H X Y u agg).
  Proof. intros d W. split; [|split].
    - split; cbn; [reflexivity|]. constructor; [|constructor]. rewrite map_length. now apply columns_length.
    - reflexivity.
    - intros a b. unfold reduce_columns, iloc_cols; cbn. do 2 f_equal.
      unfold columns, ncols; cbn. rewrite slice_length, transp_map_slice. now rewrite slice_map. Qed.

  Lemma reduce_rows_rw {X Y} (u : H) (agg : list X -> Y) : row_wise (@reduce_rows L H X Y u agg).
  Proof. intros d [W1 W2]. split; [|split].
    - split; cbn; [now rewrite map_length|]. apply Forall_forall. intros r Hr.
      apply in_map_iff in Hr as (? & <- & _). reflexivity.
    - reflexivity.
    - intros a b. unfold reduce_rows, iloc_rows; cbn. now rewrite slice_map. Qed.

  Lemma cut_table_app {X} l1 l2 cl (D : df L H X) : wf D -> list_sum l1 + list_sum l2 = nrows D ->
    cut_table (l1 ++ l2) cl D
    = cut_table l1 cl (iloc_rows D 0 (list_sum l1)) ++ cut_table l2 cl (iloc_rows D (list_sum l1) (nrows D)).
  Proof. intros W Hs. unfold cut_table. rewrite bounds_app, map_app, Nat.add_0_l. f_equal.
    - apply map_ext_in. intros ri Hri. apply map_ext. intros ci.
      pose proof (bounds_within 0 l1) as Fw. rewrite Forall_forall in Fw. specialize (Fw ri Hri). cbn in Fw.
      unfold block, iloc_rows; cbn. rewrite !slice_slice by lia. reflexivity.
    - rewrite <- (bounds_shift (list_sum l1)), map_map. apply map_ext_in. intros ri Hri. apply map_ext. intros ci.
      pose proof (bounds_within 0 l2) as Fw. rewrite Forall_forall in Fw. specialize (Fw ri Hri). cbn in Fw.
      unfold block, iloc_rows; cbn. rewrite !slice_slice by lia. reflexivity. Qed.

  Lemma rmap_ext {X Y} (f g : X -> res Y) l : (forall x, f x = g x) -> rmap f l = rmap g l.
  Proof. intros E. induction l as [|x l IH]; [reflexivity|]. cbn. now rewrite E, IH. Qed.

  (** ** One value per column *)
  Section Rows0.
    Context {M B : Type}.
    Variable u : L.
    Variable magg : list A -> M.
    Variable ragg : list M -> B.
    Variable agg : list A -> B.
    Hypothesis law : tree_law magg ragg agg.
    Notation F := (@reduce_columns L H A M u magg).

    Definition partials (d : df L H A) (gs : list (nat * nat)) : df L H M :=
      mkdf (repeat u (length gs)) (dcols d)
           (map (fun g => map magg (columns (iloc_rows d (fst g) (snd g)))) gs).

    Lemma partials_wf d gs : wf d -> wf (partials d gs).
    Proof. intros W. split; cbn; [now rewrite map_length, repeat_length|].
      apply Forall_forall. intros r Hr. apply in_map_iff in Hr as (g & <- & _).
      rewrite map_length. now apply columns_length, wf_iloc_rows. Qed.

    Lemma partials_cons d g gs : wf d ->
      iloc_rows (partials d (g :: gs)) 0 1 = F (iloc_rows d (fst g) (snd g))
      /\ iloc_rows (partials d (g :: gs)) 1 (nrows (partials d (g :: gs))) = partials d gs.
    Proof. intros W. split; [reflexivity|]. unfold iloc_rows, nrows, partials; cbn. f_equal.
      - apply firstn_all2. rewrite ?repeat_length; lia.
      - apply firstn_all2. rewrite ?repeat_length, ?map_length; lia. Qed.

    Lemma stack_groups d cl (groups : list (list nat * (nat * nat))) : wf d ->
      Forall (fun g => list_sum (fst g) = 1) groups ->
      concat (map (fun g => cut_table (fst g) cl (F (iloc_rows d (fst (snd g)) (snd (snd g))))) groups)
      = cut_table (concat (map fst groups)) cl (partials d (map snd groups)).
    Proof. intros W. induction groups as [|[lens g] gs IH]; intros Hf; [reflexivity|].
      apply Forall_cons_iff in Hf as [Hx Hf]. cbn [fst] in Hx.
      assert (Hsum : list_sum (concat (map fst gs)) = length gs).
      { clear IH. induction Hf as [|x xs E _ IHf]; [reflexivity|]. cbn [map concat length].
        rewrite list_sum_app, E, IHf. reflexivity. }
      cbn [map concat fst snd]. rewrite IH by assumption.
      destruct (partials_cons g (map snd gs) W) as [E1 E2].
      rewrite cut_table_app.
      - rewrite Hx, E1, E2. reflexivity.
      - now apply partials_wf.
      - rewrite Hx, Hsum. unfold nrows, partials; cbn. now rewrite repeat_length, map_length. Qed.

    Lemma grid_map_groups d rl cl : wf d ->
      grid_map F (bounds 0 rl) (bounds 0 cl) d
      = concat (map (fun g : list nat * (nat * nat) =>
                       cut_table (fst g) cl (F (iloc_rows d (fst (snd g)) (snd (snd g)))))
                    (map (fun ri => ([1], ri)) (bounds 0 rl))).
    Proof. intros W. rewrite map_map. cbn [fst snd]. unfold grid_map.
      induction (bounds 0 rl) as [|ri ris IH]; [reflexivity|]. cbn [map concat]. rewrite IH.
      unfold cut_table at 2. cbn [bounds map app Nat.add]. f_equal.
      apply map_ext. intros ci.
      assert (Wi : wf (iloc_rows d (fst ri) (snd ri))) by now apply wf_iloc_rows.
      destruct (@reduce_columns_cw A M u magg _ Wi) as (_ & _ & E).
      specialize (E (fst ci) (snd ci)).
      change (F (block d ri ci)) with (F (iloc_cols (iloc_rows d (fst ri) (snd ri)) (fst ci) (snd ci))).
      rewrite E. reflexivity. Qed.

    (** map over whole block rows keeping the partitioning *)
    Lemma map_axis1_grid_map d rl cl nparts m : wf d -> rl <> [] -> cl <> [] -> list_sum cl = ncols d -> 0 < m ->
      map_axis_partitions leqb heqb nparts m true (cut_table rl cl d) (fun d => Ok (F d)) true None None
      = Ok (grid_map F (bounds 0 rl) (bounds 0 cl) d).
    Proof. intros W Hr Hc Hs Hm. unfold map_axis_partitions. cbn [andb].
      rewrite cut_table_width by assumption. unfold cut_table, grid_map.
      rewrite (rmap_map_ok _ _ (fun ri => map (fun ci => F (block d ri ci)) (bounds 0 cl))); [reflexivity|].
      intros ri _. apply (deploy_colwise_axis1 leqb heqb leqb_ok (@reduce_columns_cw A M u magg)); auto. lia. Qed.

    Lemma tree_map_phase d rl cl dynamic cpus nparts min_row min_col :
      wf d -> rl <> [] -> cl <> [] -> list_sum rl = nrows d -> list_sum cl = ncols d ->
      0 < nparts -> 0 < min_row -> 0 < min_col ->
      exists groups : list (list nat * (nat * nat)),
        groups <> [] /\ tiles (map snd groups) (nrows d)
        /\ Forall (fun g => fst g <> [] /\ list_sum (fst g) = 1) groups
        /\ map_partitions leqb heqb dynamic cpus nparts min_row min_col (cut_table rl cl d) (fun d => Ok (F d))
           = Ok (cut_table (concat (map fst groups)) cl (partials d (map snd groups))).
    Proof.
      intros W Hr Hc Hsr Hsc Hp Hmr Hmc.
      assert (GM : exists groups : list (list nat * (nat * nat)),
        groups <> [] /\ tiles (map snd groups) (nrows d)
        /\ Forall (fun g => fst g <> [] /\ list_sum (fst g) = 1) groups
        /\ grid_map F (bounds 0 rl) (bounds 0 cl) d
           = cut_table (concat (map fst groups)) cl (partials d (map snd groups))).
      { exists (map (fun ri => ([1], ri)) (bounds 0 rl)). split; [|split; [|split]].
        - intros E. apply map_eq_nil, bounds_nil_iff in E. easy.
        - rewrite map_map. cbn [snd]. rewrite map_id. now apply tiles_bounds.
        - apply Forall_forall. intros g Hg. apply in_map_iff in Hg as (? & <- & _). cbn. split; [easy|reflexivity].
        - rewrite grid_map_groups by assumption. apply stack_groups; [assumption|].
          apply Forall_forall. intros g Hg. apply in_map_iff in Hg as (? & <- & _). reflexivity. }
      unfold map_partitions. destruct dynamic; cbn [negb].
      2:{ destruct GM as (gs & G1 & G2 & G3 & G4). exists gs. split; [exact G1|]. split; [exact G2|]. split; [exact G3|].
          rewrite <- G4. unfold cut_table at 1. fold (grid_iv (bounds 0 rl) (bounds 0 cl) d). now rewrite base_map_ok. }
      destruct (cut_table rl cl d) as [|r0 rs] eqn:E.
      { unfold cut_table in E. apply map_eq_nil in E. apply bounds_nil_iff in E. easy. }
      rewrite <- E. rewrite cut_table_width by assumption.
      destruct (Nat.eqb_spec (length cl) 0) as [Z|_]; [destruct cl; easy|].
      destruct (negb _ && _) eqn:Em.
      - apply andb_true_iff in Em as [_ Em]. apply Nat.ltb_lt in Em.
        destruct (joined_colwise leqb _ heqb_ok (@reduce_columns_cw A M u magg) (d:=d) cl (rl:=rl)
                    (cs:=cpus / length cl) (m:=min_row)) as (gs & G1 & G2 & G3 & G4); auto; try lia.
        assert (G3' : Forall (fun g : list nat * (nat * nat) => fst g <> [] /\ list_sum (fst g) = 1) gs) by exact G3.
        exists gs. split; [exact G1|]. split; [exact G2|]. split; [exact G3'|].
        rewrite G4. f_equal. apply stack_groups; [assumption|].
        eapply Forall_impl; [|exact G3']. now intros g [_ ?].
      - destruct (absdiff _ _ <? absdiff _ _).
        + destruct GM as (gs & G1 & G2 & G3 & G4). exists gs. split; [exact G1|]. split; [exact G2|]. split; [exact G3|].
          rewrite <- G4. now apply map_axis1_grid_map.
        + destruct (map_axis_column_wise leqb heqb heqb_ok (@reduce_columns_cw A M u magg) (d:=d) (rl:=rl) (cl:=cl)
                      (nparts:=nparts) (m:=min_row) (keep:=true) (num_splits:=None) (lengths:=None))
            as (rl' & E1 & E2 & E3 & _); auto; try discriminate.
          exists [(rl', (0, nrows d))]. split; [easy|]. split; [|split].
          * cbn. intros X l Hl. cbn. rewrite app_nil_r. apply slice_full. lia.
          * constructor; [|constructor]. cbn [fst]. split; [|exact E2].
            specialize (E3 eq_refl eq_refl). destruct rl'; [destruct rl; [easy|discriminate]|easy].
          * rewrite E1. f_equal. cbn [map fst snd concat]. rewrite app_nil_r. f_equal.
            unfold partials, reduce_columns. cbn. f_equal. f_equal.
            rewrite iloc_rows_full by assumption. reflexivity.
    Qed.

    Lemma reduce_partials d gs : wf d -> gs <> [] -> tiles gs (nrows d) ->
      reduce_columns u ragg (partials d gs) = reduce_columns u agg d.
    Proof.
      intros W Hg Ht. unfold reduce_columns, partials; cbn [dcols]. do 2 f_equal.
      unfold columns at 1. unfold ncols at 1. cbn [dcols dcells].
      rewrite (map_ext _ (fun g => map (fun c => magg (slice c (fst g) (snd g))) (columns d))).
      2:{ intros g. unfold columns at 1. unfold ncols; cbn [dcols dcells iloc_rows].
          destruct W as [_ W2]. rewrite transp_slice by assumption. now rewrite map_map. }
      change (length (dcols d)) with (ncols d). rewrite <- (columns_length W).
      rewrite (transp_fun (fun g c => magg (slice c (fst g) (snd g)))).
      rewrite map_map. apply map_ext_in. intros c Hc.
      pose proof (columns_rows W) as Fc. rewrite Forall_forall in Fc. specialize (Fc c Hc).
      rewrite <- (map_map (fun g => slice c (fst g) (snd g)) magg).
      rewrite law; [f_equal; now apply Ht|]. destruct gs; easy.
    Qed.
  End Rows0.

  Lemma pf_to_pandas_caches {X} (f : pframe (L:=L) (H:=H) (A:=X)) :
    pf_to_pandas leqb heqb f = pf_to_pandas leqb heqb (mkpf (pgrid f) (pindex f) (pcols f) None None).
  Proof. reflexivity. Qed.

  (** The frame built from a one-row grid plus empty rows gives the one-row table. *)
  Lemma finish_columns {X Y} (f : pframe) (d : df L H X) (D : df L H Y) rl cl rest u u' :
    holds f d rl cl -> rl <> [] -> cl <> [] ->
    wf D -> dindex D = [u] -> dcols D = dcols d -> list_sum rest = 0 ->
    exists f', compute_tree_reduce_metadata u u' false f (dindex d) (dcols d) (cut_table (1 :: rest) cl D) = Ok f'
      /\ pf_to_pandas leqb heqb f' = Ok D
      /\ pindex f' = Some [u] /\ pcols f' = Some (dcols d)
      /\ (0 < ncols d -> holds f' D [1] (nonzero cl)).
  Proof.
    intros Hh Hr Hc WD Hu Hcd Hrest. unfold compute_tree_reduce_metadata.
    destruct Hh as [Hh _]. rewrite (gridded_column_widths Hh Hr). destruct Hh as (W & Hsr & Hsc & _).
    set (f0 := mkpf _ _ _ _ _).
    assert (V : validate_axes_lengths f0 = true).
    { unfold validate_axes_lengths, f0; cbn. unfold ncols in Hsc. destruct (dcols d); [reflexivity|].
      rewrite Hsc. cbn [length]. lsum. now rewrite !Nat.eqb_refl, ?orb_true_r. }
    unfold construct. rewrite V. eexists; split; [reflexivity|].
    assert (Hm : ncols D = ncols d) by (unfold ncols; now rewrite Hcd).
    assert (Hn : nrows D = 1) by (unfold nrows; now rewrite Hu).
    destruct (Nat.eq_dec (ncols d) 0) as [Z|Z].
    - assert (E : filter_empties false f0 = f0).
      { unfold filter_empties, f0; cbn [prl pcl negb andb orb pindex pcols row_lengths column_widths].
        unfold ncols in Z. destruct (dcols d); [reflexivity|discriminate]. }
      rewrite E. split; [|split; [reflexivity|split; [reflexivity|lia]]].
      rewrite pf_to_pandas_caches.
      eapply pf_to_pandas_holds with (rl := 1 :: rest) (cl := cl); eauto; [|easy].
      apply holds_intro; cbn; lsum; rewrite ?Hu, ?Hcd; auto; lia.
    - assert (E : filter_empties false f0
        = mkpf (cut_table [1] (nonzero cl) D) (Some [u]) (Some (dcols d)) (Some [1]) (Some (nonzero cl))).
      { unfold filter_empties, f0; cbn [prl pcl negb andb orb pindex pcols row_lengths column_widths pgrid].
        replace (is_empty_list (Some [u]) || is_empty_list (Some (dcols d)) || (list_sum [1] =? 0) || (list_sum cl =? 0)) with false.
        - f_equal. unfold cut_table. rewrite map_map.
          change (1 :: rest) with ([1] ++ rest). rewrite keep_nonzero_bounds.
          apply map_ext. intros ri. apply keep_nonzero_bounds'.
        - symmetry. rewrite !orb_false_iff, !Nat.eqb_neq. repeat split; try lia; [|easy].
          unfold ncols in Z. now destruct (dcols d). }
      rewrite E. cbn [pindex pcols].
      assert (Hf : holds (mkpf (cut_table [1] (nonzero cl) D) (Some [u]) (Some (dcols d)) (Some [1]) (Some (nonzero cl)))
                     D [1] (nonzero cl)).
      { apply holds_intro; cbn [pgrid pindex pcols prl pcl]; rewrite ?list_sum_nonzero, ?Hu, ?Hcd, ?Hm, ?Hn; lsum; auto. }
      split; [|split; [reflexivity|split; [reflexivity|auto]]].
      eapply pf_to_pandas_holds; eauto. easy.
  Qed.

  Lemma finish_rows {X Y} (f : pframe) (d : df L H X) (D : df L H Y) rl cl rest u u' :
    holds f d rl cl -> rl <> [] -> cl <> [] ->
    wf D -> dcols D = [u] -> dindex D = dindex d -> list_sum rest = 0 ->
    exists f', compute_tree_reduce_metadata u' u true f (dindex d) (dcols d) (cut_table rl (1 :: rest) D) = Ok f'
      /\ pf_to_pandas leqb heqb f' = Ok D
      /\ pindex f' = Some (dindex d) /\ pcols f' = Some [u]
      /\ (0 < nrows d -> holds f' D (nonzero rl) [1]).
  Proof.
    intros Hh Hr Hc WD Hu Hcd Hrest. unfold compute_tree_reduce_metadata.
    destruct Hh as [Hh _]. rewrite (gridded_row_lengths Hh Hc). destruct Hh as (W & Hsr & Hsc & _).
    set (f0 := mkpf _ _ _ _ _).
    assert (V : validate_axes_lengths f0 = true).
    { unfold validate_axes_lengths, f0; cbn. unfold nrows in Hsr. destruct (dindex d); [reflexivity|].
      rewrite Hsr. cbn [length]. lsum. now rewrite !Nat.eqb_refl, ?orb_true_r. }
    unfold construct. rewrite V. eexists; split; [reflexivity|].
    assert (Hm : nrows D = nrows d) by (unfold nrows; now rewrite Hcd).
    assert (Hn : ncols D = 1) by (unfold ncols; now rewrite Hu).
    destruct (Nat.eq_dec (nrows d) 0) as [Z|Z].
    - assert (E : filter_empties false f0 = f0).
      { unfold filter_empties, f0; cbn [prl pcl negb andb orb pindex pcols row_lengths column_widths].
        unfold nrows in Z. destruct (dindex d); [reflexivity|discriminate]. }
      rewrite E. split; [|split; [reflexivity|split; [reflexivity|lia]]].
      rewrite pf_to_pandas_caches.
      eapply pf_to_pandas_holds with (rl := rl) (cl := 1 :: rest); eauto; [|easy].
      apply holds_intro; cbn; lsum; rewrite ?Hu, ?Hcd; auto; lia.
    - assert (E : filter_empties false f0
        = mkpf (cut_table (nonzero rl) [1] D) (Some (dindex d)) (Some [u]) (Some (nonzero rl)) (Some [1])).
      { unfold filter_empties, f0; cbn [prl pcl negb andb orb pindex pcols row_lengths column_widths pgrid].
        replace (is_empty_list (Some (dindex d)) || is_empty_list (Some [u]) || (list_sum rl =? 0) || (list_sum [1] =? 0)) with false.
        - f_equal. unfold cut_table. rewrite map_map.
          rewrite keep_nonzero_bounds'.
          apply map_ext. intros ri. change (1 :: rest) with ([1] ++ rest). apply keep_nonzero_bounds.
        - symmetry. rewrite !orb_false_iff, !Nat.eqb_neq. repeat split; try lia; [|easy].
          unfold nrows in Z. now destruct (dindex d). }
      rewrite E. cbn [pindex pcols].
      assert (Hf : holds (mkpf (cut_table (nonzero rl) [1] D) (Some (dindex d)) (Some [u]) (Some (nonzero rl)) (Some [1]))
                     D (nonzero rl) [1]).
      { apply holds_intro; cbn [pgrid pindex pcols prl pcl]; rewrite ?list_sum_nonzero, ?Hu, ?Hcd, ?Hm, ?Hn; lsum; auto. }
      split; [|split; [reflexivity|split; [reflexivity|auto]]].
      eapply pf_to_pandas_holds; eauto. easy.
  Qed.

  (** ** One value per row *)
  Section Cols1.
    Context {M B : Type}.
    Variable u : H.
    Variable magg : list A -> M.
    Variable ragg : list M -> B.
    Variable agg : list A -> B.
    Hypothesis law : tree_law magg ragg agg.
    Notation F := (@reduce_rows L H A M u magg).

    Definition partials1 (d : df L H A) (gs : list (nat * nat)) : df L H M :=
      mkdf (dindex d) (repeat u (length gs))
           (map (fun r => map (fun g => magg (slice r (fst g) (snd g))) gs) (dcells d)).

    Lemma partials1_wf d gs : wf d -> wf (partials1 d gs).
    Proof. intros [W1 W2]. split; cbn; [now rewrite map_length|].
      apply Forall_forall. intros r Hr. apply in_map_iff in Hr as (x & <- & _).
      now rewrite map_length, repeat_length. Qed.

    Lemma grid_map_partials1 d rl cl :
      grid_map F (bounds 0 rl) (bounds 0 cl) d
      = cut_table rl (repeat 1 (length cl)) (partials1 d (bounds 0 cl)).
    Proof. unfold grid_map, cut_table. apply map_ext. intros ri.
      rewrite bounds_ones, map_map. replace (seq 0 (length cl)) with (seq 0 (length (bounds 0 cl))) by now rewrite bounds_length. apply map_nth_seq.
      intros j ci Ej. unfold reduce_rows, partials1, block; cbn. f_equal.
      - symmetry. apply slice_one. rewrite nth_error_repeat; [reflexivity|].
        apply nth_error_Some. congruence.
      - rewrite !slice_map, !map_map. apply map_ext. intros r.
        rewrite slice_map. now rewrite (slice_one _ _ Ej). Qed.

    Lemma map_axis0_grid_map d rl cl nparts m : wf d -> rl <> [] -> cl <> [] -> list_sum rl = nrows d -> 0 < m ->
      map_axis_partitions leqb heqb nparts m false (cut_table rl cl d) (fun d => Ok (F d)) true None None
      = Ok (grid_map F (bounds 0 rl) (bounds 0 cl) d).
    Proof. intros W Hr Hc Hs Hm. unfold map_axis_partitions. cbn [andb].
      rewrite cut_table_width by assumption.
      assert (Hlen : length (cut_table rl cl d) = length rl) by (unfold cut_table; now rewrite map_length, bounds_length).
      rewrite Hlen. unfold cut_table. fold (grid_iv (bounds 0 rl) (bounds 0 cl) d). rewrite transp_grid_iv.
      rewrite (rmap_map_ok _ _ (fun ci => map (fun ri => F (block d ri ci)) (bounds 0 rl))).
      - cbn [rbind]. f_equal. unfold grid_map.
        rewrite (grid_width_map _ (n := length rl)).
        + rewrite <- (bounds_length 0 rl) at 1. exact (transp_fun (fun ci ri => F (block d ri ci)) (bounds 0 cl) (bounds 0 rl)).
        + now rewrite bounds_nil_iff.
        + intros. now rewrite map_length, bounds_length.
      - intros ci _. apply (deploy_rowwise_axis0 leqb heqb heqb_ok (@reduce_rows_rw A M u magg)); auto. lia. Qed.

    Lemma tree_map_phase1 d rl cl dynamic cpus nparts min_row min_col :
      wf d -> rl <> [] -> cl <> [] -> list_sum rl = nrows d -> list_sum cl = ncols d ->
      0 < nparts -> 0 < min_row -> 0 < min_col ->
      exists cl2 gs,
        cl2 <> [] /\ gs <> [] /\ tiles gs (ncols d) /\ list_sum cl2 = length gs
        /\ map_partitions leqb heqb dynamic cpus nparts min_row min_col (cut_table rl cl d) (fun d => Ok (F d))
           = Ok (cut_table rl cl2 (partials1 d gs)).
    Proof.
      intros W Hr Hc Hsr Hsc Hp Hmr Hmc.
      assert (GM : exists cl2 gs,
        cl2 <> [] /\ gs <> [] /\ tiles gs (ncols d) /\ list_sum cl2 = length gs
        /\ grid_map F (bounds 0 rl) (bounds 0 cl) d = cut_table rl cl2 (partials1 d gs)).
      { exists (repeat 1 (length cl)), (bounds 0 cl). rewrite grid_map_partials1. repeat split.
        - destruct cl; easy.
        - now rewrite bounds_nil_iff.
        - now apply tiles_bounds.
        - rewrite list_sum_repeat, bounds_length. lia. }
      unfold map_partitions. destruct dynamic; cbn [negb].
      2:{ destruct GM as (c2 & gs & G1 & G2 & G3 & G4 & G5). exists c2, gs. repeat split; auto.
          rewrite <- G5. unfold cut_table at 1. fold (grid_iv (bounds 0 rl) (bounds 0 cl) d). now rewrite base_map_ok. }
      destruct (cut_table rl cl d) as [|r0 rs] eqn:E.
      { unfold cut_table in E. apply map_eq_nil in E. apply bounds_nil_iff in E. easy. }
      rewrite <- E. rewrite cut_table_width by assumption.
      destruct (Nat.eqb_spec (length cl) 0) as [Z|_]; [destruct cl; easy|].
      destruct (negb _ && _) eqn:Em.
      - apply andb_true_iff in Em as [_ Em]. apply Nat.ltb_lt in Em.
        destruct GM as (c2 & gs & G1 & G2 & G3 & G4 & G5). exists c2, gs. repeat split; auto.
        rewrite (joined_rowwise _ _ heqb_ok (@reduce_rows_rw A M u magg)) by (auto; lia). now rewrite G5.
      - destruct (absdiff _ _ <? absdiff _ _).
        + destruct (map_axis_row_wise leqb heqb leqb_ok (@reduce_rows_rw A M u magg) (d:=d) (rl:=rl) (cl:=cl)
                      (nparts:=nparts) (m:=min_col) (keep:=true) (num_splits:=None) (lengths:=None))
            as (cl' & E1 & E2 & E3 & _); auto; try discriminate.
          exists cl', [(0, ncols d)]. split; [|split; [easy|split; [|split]]].
          * specialize (E3 eq_refl eq_refl). destruct cl'; [destruct cl; [easy|discriminate]|easy].
          * cbn. intros X l Hl. cbn. rewrite app_nil_r. apply slice_full. lia.
          * exact E2.
          * rewrite E1. do 2 f_equal. unfold partials1, reduce_rows. cbn. f_equal.
            apply map_ext_in. intros r Hrr. destruct W as [_ W2]. rewrite Forall_forall in W2.
            rewrite slice_full; [reflexivity|]. rewrite W2 by assumption. reflexivity.
        + destruct GM as (c2 & gs & G1 & G2 & G3 & G4 & G5). exists c2, gs. repeat split; auto.
          rewrite <- G5. now apply map_axis0_grid_map.
    Qed.

    Lemma reduce_partials1 d gs : wf d -> gs <> [] -> tiles gs (ncols d) ->
      reduce_rows u ragg (partials1 d gs) = reduce_rows u agg d.
    Proof.
      intros [W1 W2] Hg Ht. unfold reduce_rows, partials1; cbn. f_equal. rewrite map_map.
      apply map_ext_in. intros r Hr. do 1 f_equal.
      rewrite <- (map_map (fun g => slice r (fst g) (snd g)) magg).
      rewrite law; [f_equal; apply Ht|].
      - rewrite Forall_forall in W2. now apply W2.
      - destruct gs; easy. Qed.
  End Cols1.

  Lemma tree_reduce_ok {M B} (ul : L) (uh : H) (axis dynamic : bool) cpus nparts min_row min_col
      (magg : list A -> M) (ragg : list M -> B) agg (f : pframe) d rl cl :
    tree_law magg ragg agg ->
    holds f d rl cl -> rl <> [] -> cl <> [] -> 0 < nparts -> 0 < min_row -> 0 < min_col ->
    exists f',
      tree_reduce leqb heqb ul uh dynamic cpus nparts min_row min_col axis magg ragg f (dindex d) (dcols d) = Ok f'
      /\ pf_to_pandas leqb heqb f'
         = Ok (if axis then reduce_rows uh agg d else reduce_columns ul agg d).
  Proof.
    intros Law Hh Hr Hc Hp Hmr Hmc. assert (Hh' := Hh). destruct Hh' as [(W & Hsr & Hsc & Hg & _) _].
    unfold tree_reduce. rewrite Hg. destruct axis.
    - change (build_treereduce_func ul uh true magg) with (fun d => Ok (@reduce_rows L H A M uh magg d)).
      change (build_treereduce_func ul uh true ragg) with (fun d => Ok (@reduce_rows L H M B uh ragg d)).
      destruct (@tree_map_phase1 M uh magg d rl cl dynamic cpus nparts min_row min_col) as (cl2 & gs & G1 & G2 & G3 & G4 & G5); auto.
      rewrite G5. cbn [rbind].
      destruct (map_axis_row_wise leqb heqb leqb_ok (@reduce_rows_rw M B uh ragg) (d:=partials1 uh magg d gs) (rl:=rl) (cl:=cl2)
                  (nparts:=nparts) (m:=min_col) (keep:=false) (num_splits:=None) (lengths:=None))
            as (cl' & E1 & _ & _ & _ & _ & _ & E2); auto; try discriminate.
      { now apply partials1_wf. }
      { unfold ncols, partials1; cbn. now rewrite repeat_length. }
      rewrite E1. cbn [rbind]. specialize (E2 eq_refl eq_refl). cbn beta iota in E2. change (ncols _) with 1 in E2.
      destruct (get_length_list_unit Hp Hmc) as (rest & E3 & E4). rewrite E3 in E2. injection E2 as <-.
      rewrite (reduce_partials1 uh Law W G2 G3).
      destruct (@finish_rows A B f d (reduce_rows uh agg d) rl cl rest uh ul) as (f' & Q1 & Q2 & _); auto.
      { destruct (@reduce_rows_rw A B uh agg d W) as (Wx & _). exact Wx. }
      exists f'. split; assumption.
    - change (build_treereduce_func ul uh false magg) with (fun d => Ok (@reduce_columns L H A M ul magg d)).
      change (build_treereduce_func ul uh false ragg) with (fun d => Ok (@reduce_columns L H M B ul ragg d)).
      destruct (@tree_map_phase M ul magg d rl cl dynamic cpus nparts min_row min_col) as (gs & G1 & G2 & G3 & G4); auto.
      rewrite G4. cbn [rbind].
      assert (Hsum : list_sum (concat (map fst gs)) = length gs).
      { clear - G3. induction G3 as [|x xs [_ E] _ IHf]; [reflexivity|]. cbn [map concat length].
        rewrite list_sum_app, E, IHf. reflexivity. }
      destruct (map_axis_column_wise leqb heqb heqb_ok (@reduce_columns_cw M B ul ragg) (d:=partials ul magg d (map snd gs))
                  (rl:=concat (map fst gs)) (cl:=cl)
                  (nparts:=nparts) (m:=min_row) (keep:=false) (num_splits:=None) (lengths:=None))
            as (rl' & E1 & _ & _ & _ & _ & _ & E2); auto; try discriminate.
      { now apply partials_wf. }
      { intros E. destruct gs; [easy|]. rewrite E in Hsum. discriminate. }
      { unfold nrows, partials; cbn. now rewrite repeat_length, map_length. }
      rewrite E1. cbn [rbind]. specialize (E2 eq_refl eq_refl). cbn beta iota in E2. change (nrows _) with 1 in E2.
      destruct (get_length_list_unit Hp Hmr) as (rest & E3 & E4). rewrite E3 in E2. injection E2 as <-.
      rewrite (reduce_partials ul Law W); [|destruct gs; easy|assumption].
      destruct (@finish_columns A B f d (reduce_columns ul agg d) rl cl rest ul uh) as (f' & Q1 & Q2 & _); auto.
      { destruct (@reduce_columns_cw A B ul agg d W) as (Wx & _). exact Wx. }
      exists f'. split; assumption.
  Qed.

  Lemma reduce_ok {B} (ul : L) (uh : H) (axis : bool) nparts min_row min_col
      (agg : list A -> B) (f : pframe) d rl cl :
    holds f d rl cl -> rl <> [] -> cl <> [] -> 0 < nparts -> 0 < min_row -> 0 < min_col ->
    exists f',
      reduce leqb heqb ul uh nparts min_row min_col axis agg f (dindex d) (dcols d) = Ok f'
      /\ pf_to_pandas leqb heqb f'
         = Ok (if axis then reduce_rows uh agg d else reduce_columns ul agg d).
  Proof.
    intros Hh Hr Hc Hp Hmr Hmc. assert (Hh' := Hh). destruct Hh' as [(W & Hsr & Hsc & Hg & _) _].
    unfold reduce. rewrite Hg. destruct axis.
    - change (build_treereduce_func ul uh true agg) with (fun d => Ok (@reduce_rows L H A B uh agg d)).
      destruct (map_axis_row_wise leqb heqb leqb_ok (@reduce_rows_rw A B uh agg) (d:=d) (rl:=rl) (cl:=cl)
                  (nparts:=nparts) (m:=min_col) (keep:=false) (num_splits:=None) (lengths:=None))
            as (cl' & E1 & _ & _ & _ & _ & _ & E2); auto; try discriminate.
      rewrite E1. cbn [rbind]. specialize (E2 eq_refl eq_refl). cbn beta iota in E2. change (ncols _) with 1 in E2.
      destruct (get_length_list_unit Hp Hmc) as (rest & E3 & E4). rewrite E3 in E2. injection E2 as <-.
      destruct (@finish_rows A B f d (reduce_rows uh agg d) rl cl rest uh ul) as (f' & Q1 & Q2 & _); auto.
      { destruct (@reduce_rows_rw A B uh agg d W) as (Wx & _). exact Wx. }
      exists f'. split; assumption.
    - change (build_treereduce_func ul uh false agg) with (fun d => Ok (@reduce_columns L H A B ul agg d)).
      destruct (map_axis_column_wise leqb heqb heqb_ok (@reduce_columns_cw A B ul agg) (d:=d)
                  (rl:=rl) (cl:=cl)
                  (nparts:=nparts) (m:=min_row) (keep:=false) (num_splits:=None) (lengths:=None))
            as (rl' & E1 & _ & _ & _ & _ & _ & E2); auto; try discriminate.
      rewrite E1. cbn [rbind]. specialize (E2 eq_refl eq_refl). cbn beta iota in E2. change (nrows _) with 1 in E2.
      destruct (get_length_list_unit Hp Hmr) as (rest & E3 & E4). rewrite E3 in E2. injection E2 as <-.
      destruct (@finish_columns A B f d (reduce_columns ul agg d) rl cl rest ul uh) as (f' & Q1 & Q2 & _); auto.
      { destruct (@reduce_columns_cw A B ul agg d W) as (Wx & _). exact Wx. }
      exists f'. split; assumption.
  Qed.
End Reduce.
