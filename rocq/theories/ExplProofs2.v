From Verif Require Import Base Table ChunkModel ChunkSpec ChunkProofs GridModel GridSpec FrameSpec
  GridProofs GridProofs2 GridProofs3 GridProofs5 JoinModel JoinProofs3 RemModel RemProofs2 FilProofs2 SelProofs5
  ResetSpec ResetModel ResetProofs ExplSpec ExplModel ExplProofs.

Lemma concat_pieces {X} (ls : list (list X)) lens : list_sum lens = length ls ->
  concat (map (fun iv => concat (slice ls (fst iv) (snd iv))) (bounds 0 lens)) = concat ls.
Proof. intros E. transitivity (concat (concat (map (fun iv => slice ls (fst iv) (snd iv)) (bounds 0 lens)))); [|f_equal; exact (tiles_bounds lens E ls eq_refl)].
  generalize (bounds 0 lens). clear E. intros bs.
  induction bs as [|b bs IH]; [reflexivity|]. cbn [map concat]. now rewrite concat_app, IH. Qed.

Section Explode.
  Context {L H A : Type}.
  Variables (leqb : L -> L -> bool) (heqb : H -> H -> bool).
  Hypothesis leqb_ok : forall x y, leqb x y = true <-> x = y.
  Hypothesis heqb_ok : forall x y, heqb x y = true <-> x = y.
  Variable elements : A -> list A.
  Variable num : nat -> L.
  Variables nparts min_row min_col : nat.
  Hypothesis (nparts_pos : 0 < nparts) (min_row_pos : 0 < min_row) (min_col_pos : 0 < min_col).
  Notation dframe := (df L H A).
  Notation pf := (@pframe L H A).
  Notation explode_block := (p_explode heqb elements num).

  (** a function on whole rows whose results have the same columns: the results below each other *)
  Lemma frame_explode_ok func (f : pf) d rl cl (R : nat * nat -> dframe) : holds f d rl cl -> rl <> [] -> cl <> [] ->
    (forall ri, In ri (bounds 0 rl) -> func (iloc_rows d (fst ri) (snd ri)) = Ok (R ri) /\ wf (R ri) /\ dcols (R ri) = dcols d) ->
    exists f' rl' cl', frame_explode leqb heqb nparts min_row min_col true func f = Ok f'
      /\ holds f' (vcat (dcols d) (map R (bounds 0 rl))) rl' cl' /\ rl' <> [] /\ cl' <> [].
  Proof. intros Hh Hr Hc F. pose proof Hh as ((W & Hsr & Hsc & Hgr & Hli & Hlc & Crl & Ccl) & Ki & Kc).
    unfold frame_explode, map_axis_partitions. cbn [andb]. rewrite Hgr, cut_table_width by assumption. unfold cut_table at 1.
    rewrite (rmap_map_ok _ _ (fun ri => map (fun ci => iloc_cols (R ri) (fst ci) (snd ci)) (bounds 0 cl))).
    2:{ intros ri I. destruct (F ri I) as (E & WR & CR). apply deploy_any_rows; auto. unfold ncols. now rewrite CR. }
    cbn [rbind]. assert (FR : Forall (fun t => wf t /\ dcols t = dcols d) (map R (bounds 0 rl))).
    { apply Forall_forall. intros t I. apply in_map_iff in I as (ri & <- & I). now apply F. }
    replace (map _ (bounds 0 rl)) with (map (fun t => map (fun ci => iloc_cols t (fst ci) (snd ci)) (bounds 0 cl)) (map R (bounds 0 rl))) by now rewrite map_map.
    rewrite (cut_vcat cl FR). set (D := vcat _ _). set (lens := map (@nrows L H A) _).
    assert (Hl : lens <> []). { unfold lens. intros E. apply map_eq_nil, map_eq_nil in E. now apply bounds_nil_iff in E. }
    assert (G : gridded (mkpf (cut_table lens cl D) None None None None) D lens cl).
    { unfold gridded. cbn [pgrid pindex pcols prl pcl]. split; [now apply wf_vcat|]. split; [symmetry; apply nrows_vcat|]. split; [exact Hsc|]. split; [reflexivity|]. repeat split; auto; discriminate. }
    rewrite (@row_labels_holds L H A (mkpf (cut_table lens cl D) None None None None) D lens cl) by (auto; split; cbn; auto).
    rewrite (gridded_row_lengths G Hc).
    destruct (@construct_gridded L H A (mkpf (cut_table lens cl D) (Some (dindex D)) (pcols f) (Some lens) (pcl f)) D lens cl) as (f' & rl' & cl' & E & G' & N1 & N2 & I1 & I2); auto.
    { destruct G as (WD & S1 & S2 & _). unfold gridded. cbn [pgrid pindex pcols prl pcl]. split; [exact WD|]. split; [exact S1|]. split; [exact S2|]. split; [reflexivity|].
      split; [now intros i [= <-]|]. split; [exact Hlc|]. split; [now right|exact Ccl]. }
    exists f', rl', cl'. split; [exact E|]. split; [|auto]. split; [exact G'|]. rewrite I1, I2. cbn [pindex pcols]. split; [now right|exact Kc]. Qed.

  Lemma frame_explode_fails func (f : pf) d rl cl ri e : holds f d rl cl -> cl <> [] -> In ri (bounds 0 rl) ->
    func (iloc_rows d (fst ri) (snd ri)) = Err e -> exists e', frame_explode leqb heqb nparts min_row min_col true func f = Err e'.
  Proof. intros ((W & Hsr & Hsc & Hgr & _) & _) Hc I E. unfold frame_explode, map_axis_partitions. cbn [andb]. rewrite Hgr. unfold cut_table at 2.
    match goal with |- exists e', rbind (rbind (rmap ?g ?l) _) _ = _ => destruct (@rmap_some_err _ _ g l (map (fun ci => block d ri ci) (bounds 0 cl)) e) as (e' & ->) end.
    - apply in_map_iff. eauto.
    - unfold deploy_axis_func. rewrite (concat_cols_blocks_bounds leqb heqb leqb_ok) by assumption. cbn [rbind]. rewrite Nat.add_0_l, Hsc, block_cols_full by assumption. now rewrite E.
    - cbn. eauto. Qed.

  Lemma explode_row_length marks row ps : explode_row elements marks row = Ok ps -> length marks = length row -> Forall (fun r => length r = length row) ps.
  Proof. unfold explode_row. destruct (all_same _); [|discriminate]. intros [= <-] E. apply Forall_forall. intros r I. apply in_map_iff in I as (k & <- & _). rewrite map_length, combine_length. lia. Qed.

  Lemma repeats_length (ix : list L) (ps : list (list (list A))) : length ps = length ix ->
    length (concat (map (fun p => repeat (fst p) (length (snd p))) (combine ix ps))) = length (concat ps).
  Proof. revert ps. induction ix as [|i ix IH]; intros [|p ps] E; try discriminate; [reflexivity|]. cbn [combine map concat]. rewrite !app_length, repeat_length. cbn [fst snd]. rewrite IH by now injection E. reflexivity. Qed.

  Lemma qc_explode_ok columns (f : pf) d rl cl : shows f d rl cl ->
    match explode_block columns false d with
    | Ok D => exists f' rl' cl', qc_explode leqb heqb elements num nparts min_row min_col columns f = Ok f' /\ holds f' D rl' cl' /\ rl' <> [] /\ cl' <> []
    | Err _ => exists e, qc_explode leqb heqb elements num nparts min_row min_col columns f = Err e
    end.
  Proof. intros (Hh & Nr & Nc & _). pose proof Hh as ((W & Hsr & Hsc & _) & _). unfold qc_explode. unfold p_explode at 1.
    assert (Ne : exists ri, In ri (bounds 0 rl)). { destruct (bounds 0 rl) as [|ri bs] eqn:E; [now apply bounds_nil_iff in E|]. exists ri. now left. }
    destruct (allowed heqb columns (dcols d)) as [[]|e] eqn:Ea; cbn [rbind].
    2:{ destruct Ne as (ri & I). apply frame_explode_fails with (d := d) (rl := rl) (cl := cl) (ri := ri) (e := e); auto. unfold p_explode. cbn [dcols iloc_rows]. now rewrite Ea. }
    set (marks := map _ (dcols d)). destruct (rmap (explode_row elements marks) (dcells d)) as [ps|e] eqn:Ep; cbn [rbind].
    - set (R := fun iv => mkdf (concat (map (fun p : L * list (list A) => repeat (fst p) (length (snd p))) (combine (slice (dindex d) (fst iv) (snd iv)) (slice ps (fst iv) (snd iv)))))
                               (dcols d) (concat (slice ps (fst iv) (snd iv)))).
      assert (Lp := rmap_length _ _ Ep). assert (Li : length (dcells d) = length (dindex d)) by apply W.
      destruct (@frame_explode_ok (explode_block columns false) f d rl cl R Hh Nr Nc) as (f' & rl' & cl' & E & Hh' & N1 & N2).
      + intros ri I. split; [|split; [|reflexivity]].
        * unfold p_explode. cbn [dcols iloc_rows dcells dindex]. rewrite Ea. cbn [rbind]. fold marks. rewrite (rmap_slice _ _ _ _ Ep). reflexivity.
        * unfold R. split; cbn [dindex dcols dcells].
          -- symmetry. apply repeats_length. rewrite !slice_length. congruence.
          -- apply Forall_concat. apply Forall_forall. intros p Ip. assert (Ip' : In p ps) by (eapply slice_incl; eauto).
             apply rmap_iff in Ep. assert (X : In (Ok p) (map (explode_row elements marks) (dcells d))) by (rewrite Ep; now apply in_map). apply in_map_iff in X as (row & X & Ir).
             assert (Hrow : length row = length (dcols d)) by (destruct W as [_ W2]; rewrite Forall_forall in W2; now apply W2).
             rewrite <- Hrow. apply explode_row_length in X; auto. unfold marks. rewrite map_length. congruence.
      + exists f', rl', cl'. split; [exact E|]. split; [|auto]. replace (mkdf _ _ _) with (vcat (dcols d) (map R (bounds 0 rl))); [exact Hh'|].
        unfold vcat. rewrite !map_map. unfold R. cbn [dindex dcells].
        set (g := fun p : L * list (list A) => repeat (fst p) (length (snd p))). f_equal.
        * rewrite <- (@concat_pieces _ (map g (combine (dindex d) ps)) rl) by (rewrite map_length, combine_length; unfold nrows in *; lia).
          f_equal. apply map_ext. intros iv. now rewrite slice_map, combine_slice.
        * apply concat_pieces. unfold nrows in *. congruence.
    - apply rmap_err_in in Ep as (row & Ir & Er). assert (Hs : list_sum rl = length (dcells d)) by (rewrite Hsr; symmetry; apply W).
      rewrite <- (tiles_bounds rl Hs (dcells d) eq_refl) in Ir.
      apply in_concat in Ir as (band & Ib & Ir). apply in_map_iff in Ib as (ri & <- & Ib).
      destruct (@rmap_some_err _ _ (explode_row elements marks) _ row e Ir Er) as (e' & Ee).
      apply frame_explode_fails with (d := d) (rl := rl) (cl := cl) (ri := ri) (e := e'); auto. unfold p_explode. cbn [dcols iloc_rows dcells]. rewrite Ea. cbn [rbind]. fold marks. now rewrite Ee. Qed.

  Variable cell : L -> A.
  Variables hindex hlevel : H.
  Lemma api_explode_ok columns ignore_index (f : pf) d rl cl : shows f d rl cl ->
    match explode_block columns ignore_index d with
    | Ok D => exists f', api_explode leqb heqb elements num cell hindex hlevel nparts min_row min_col columns ignore_index f = Ok f' /\ look leqb heqb f' = Ok D
    | Err _ => exists e, api_explode leqb heqb elements num cell hindex hlevel nparts min_row min_col columns ignore_index f = Err e
    end.
  Proof. intros S. assert (X := @qc_explode_ok columns f d rl cl S). unfold api_explode. unfold p_explode in X |- *.
    destruct (allowed heqb columns (dcols d)) as [[]|]; cbn [rbind] in *; [|destruct X as (e' & ->); cbn; eauto].
    destruct (rmap _ (dcells d)) as [ps|]; cbn [rbind] in *; [|destruct X as (e' & ->); cbn; eauto].
    destruct X as (f' & rl' & cl' & -> & Hh & N1 & N2). cbn [rbind]. destruct ignore_index.
    - refine (@reset_ok L H A leqb heqb leqb_ok heqb_ok num cell hindex hlevel min_col nparts min_col_pos nparts_pos true None f' _ _ rl' cl' Hh N1 N2 _ (or_introl eq_refl)). reflexivity.
    - exists f'. split; [reflexivity|]. now apply (@look_holds L H A leqb heqb leqb_ok heqb_ok f' _ rl' cl'). Qed.
End Explode.
