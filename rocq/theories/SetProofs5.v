(** [write_items]: cells by position. *)
From Verif Require Import Base Table ChunkModel ChunkSpec ChunkProofs GridModel GridSpec FrameSpec GridProofs GridProofs2 GridProofs3 GridProofs5 SelSpec SelModel
  SelProofs SelProofs2 SelProofs3 SelProofs4 SelProofs5 SelProofs6 SelProofs7 SetSpec SetModel SetProofs SetProofs2 SetProofs3 SetProofs4.

Lemma last_index_perm s ps p : Permutation s ps -> last_index s p = None <-> last_index ps p = None.
Proof.
  intros P. rewrite !last_index_none. split; intros N I; apply N; [exact (Permutation_in _ (Permutation_sym P) I)|exact (Permutation_in _ P I)].
Qed.

Section Write.
  Context {L H A : Type}.
  Notation dframe := (df L H A).
  Notation pf := (@pframe L H A).

  Lemma put_scalar rows cols rows' cols' (a : A) (d : dframe) : wf d -> Permutation rows' rows -> Permutation cols' cols ->
    put rows' cols' (fun _ _ => a) d = put rows cols (fun _ _ => a) d.
  Proof.
    intros W Pr Pc. apply put_ext; [exact W|]. intros p q _ _.
    pose proof (last_index_perm p Pr) as Hr. pose proof (last_index_perm q Pc) as Hc.
    destruct Hr as [Hr Hr'], Hc as [Hc Hc'].
    destruct (last_index rows' p), (last_index rows p); try reflexivity; try discriminate (Hr eq_refl); try discriminate (Hr' eq_refl).
    destruct (last_index cols' q), (last_index cols q); try reflexivity; try discriminate (Hc eq_refl); try discriminate (Hc' eq_refl).
  Qed.

  Lemma cache_after_ok n ix cache (bins : list nat) : cache = None \/ cache = Some bins ->
    cache_after n ix cache bins = None \/ cache_after n ix cache bins = Some bins.
  Proof. unfold cache_after. destruct (reads_lengths n ix); auto. Qed.

  Lemma put_dims rows cols v (d : dframe) : wf d ->
    nrows (put rows cols v d) = nrows d /\ ncols (put rows cols v d) = ncols d.
  Proof. intros W. unfold nrows, ncols, put. cbn. split; reflexivity. Qed.

  Lemma construct_shows (g : list (list dframe)) (d : dframe) rl cl crl ccl :
    wf d -> list_sum rl = nrows d -> list_sum cl = ncols d -> rl <> [] -> cl <> [] -> g = cut_table rl cl d ->
    (crl = None \/ crl = Some rl) -> (ccl = None \/ ccl = Some cl) ->
    exists f' rl' cl', construct (mkpf g (Some (dindex d)) (Some (dcols d)) crl ccl) = Ok f' /\ shows f' d rl' cl'.
  Proof.
    intros W Sr Sc Nr Nc -> Hrl Hcl.
    assert (Hh : holds (mkpf (cut_table rl cl d) (Some (dindex d)) (Some (dcols d)) crl ccl) d rl cl).
    { apply holds_intro; auto. }
    destruct (construct_gridded (proj1 Hh) Nr Nc) as (f' & rl' & cl' & E & G & N1 & N2 & P1 & P2).
    exists f', rl', cl'. split; [exact E|]. cbn in P1, P2. split; [split; [exact G|]|].
    - split; right; assumption.
    - auto.
  Qed.

  Lemma write_items_ok (f : pf) d rl cl rows cols rps cps it v : shows f d rl cl ->
    lookup_ok (nrows d) rows rps -> lookup_ok (ncols d) cols cps ->
    wanted (length rps) (length cps) it = Some v -> fits rows rps cps it ->
    ((forall a, it <> Scalar a) -> in_step rl rows rps /\ in_step cl cols cps) ->
    exists f' rl' cl', write_items rows cols it f = Ok f' /\ shows f' (put rps cps v d) rl' cl'.
  Proof.
    intros Sh Lr Lc Wt Ft St. destruct Sh as ((G & Gi & Gc) & Nr & Nc & Pi & Pc). assert (W := proj1 G).
    pose proof (gridded_row_lengths G Nc) as Erl. pose proof (gridded_column_widths G Nr) as Ecl.
    destruct G as (_ & Sr & Sc & Eg & _ & _ & Cr & Cc).
    assert (Lg : length (pgrid f) = length rl) by (rewrite Eg; apply cut_table_length).
    assert (Wg : grid_width (pgrid f) = length cl) by (rewrite Eg; apply cut_table_width; exact Nr).
    unfold write_items. rewrite Pi, Pc. cbn [labels rbind]. rewrite Erl, Ecl, Lg, Wg. fold (nrows d) (ncols d).
    assert (Core : forall array w rows' cols' rps' cps', lookup_ok (nrows d) rows' rps' -> lookup_ok (ncols d) cols' cps' ->
      (array = false -> forall i j, w i j = w 0 0) ->
      (array = true -> Sorted le rps' /\ Sorted le cps' /\ length rps' = length rps /\ length cps' = length cps
                       /\ in_step rl rows' rps' /\ in_step cl cols' cps') ->
      (put rps' cps' w d = put rps cps v d) ->
      exists f' rl' cl',
      (do rdict <- block_index rl (length rl) (nrows d) rows' false;
       do cdict <- block_index cl (length cl) (ncols d) cols' false;
       do g <- write_rows array (length (ipos rows)) (length (ipos cols)) w (cache_after (nrows d) rows' (prl f) rl)
                 (cache_after (ncols d) cols' (pcl f) cl) 0 0 rdict cdict (pgrid f);
       construct (mkpf g (Some (dindex d)) (Some (dcols d)) (cache_after (nrows d) rows' (prl f) rl)
                 (cache_after (ncols d) cols' (pcl f) cl))) = Ok f' /\ shows f' (put rps cps v d) rl' cl').
    { intros array w rows' cols' rps' cps' (R1 & R2 & R3) (C1 & C2 & C3) Hs Ha Hput.
      destruct (@block_index_set rl (nrows d) rows' rps' Nr Sr R1 R2 R3) as (rdict & s & -> & Es & Fr & Ps & Ss & Ts).
      destruct (@block_index_set cl (ncols d) cols' cps' Nc Sc C1 C2 C3) as (cdict & s2 & -> & Es2 & Fc & Ps2 & Ss2 & Ts2).
      cbn [rbind]. rewrite Eg.
      assert (Er : length (ipos rows) = length rps) by (destruct Lr as (_ & -> & _); apply map_length).
      assert (Ec : length (ipos cols) = length cps) by (destruct Lc as (_ & -> & _); apply map_length).
      rewrite (@write_rows_ok L H A array _ _ w (cache_after (nrows d) rows' (prl f) rl) (cache_after (ncols d) cols' (pcl f) cl) rl cl cdict rdict Hs Fc).
      - cbn [rbind]. rewrite Es, Es2.
        assert (Eq : put s s2 (fun i j => w (0 + i) j) d = put rps cps v d).
        { rewrite <- Hput. destruct array.
          - destruct (Ha eq_refl) as (S1 & S2 & _).
            assert (s = rps') by (apply (sorted_perm_unique (R:=le)); auto; lia).
            assert (s2 = cps') by (apply (sorted_perm_unique (R:=le)); auto; lia). now subst.
          - transitivity (put s s2 (fun _ _ => w 0 0) d).
            + apply put_ext; [exact W|]. intros p q _ _. destruct (last_index s p); [|reflexivity]. destruct (last_index s2 q); [|reflexivity].
              cbn. f_equal. now apply Hs.
            + rewrite (put_scalar _ W Ps Ps2). apply put_ext; [exact W|]. intros p q _ _. destruct (last_index rps' p); [|reflexivity].
              destruct (last_index cps' q); [|reflexivity]. f_equal. symmetry. now apply Hs. }
        rewrite Eq. destruct (put_dims rps cps v W) as [Dn Dm].
        assert (W' : wf (put rps cps v d)) by now apply wf_put.
        apply (@construct_shows _ (put rps cps v d) rl cl); auto; try (now rewrite ?Dn, ?Dm); now apply cache_after_ok.
      - apply Ts2; [exact Cc|]. intros E. apply Ha. exact E.
      - intros E _. destruct (Ha E) as (_ & _ & _ & L2 & _). rewrite <- total_positions, Es2, (Permutation_length Ps2), L2. now symmetry.
      - exact W.
      - exact Sr.
      - exact Sc.
      - exact Fr.
      - apply Ts; [exact Cr|]. intros E. apply Ha. exact E.
      - intros E _. destruct (Ha E) as (_ & _ & L1 & _). rewrite Nat.add_0_l, <- total_positions, Es, (Permutation_length Ps), L1. now symmetry. }
    assert (Arr : (forall a, it <> Scalar a) -> exists w rows' cols' rps' cps', broadcast_item rows cols it = Ok (w, rows', cols')
      /\ lookup_ok (nrows d) rows' rps' /\ lookup_ok (ncols d) cols' cps'
      /\ Sorted le rps' /\ Sorted le cps' /\ length rps' = length rps /\ length cps' = length cps
      /\ in_step rl rows' rps' /\ in_step cl cols' cps' /\ put rps' cps' w d = put rps cps v d).
    { intros Ns. destruct (St Ns) as [St1 St2].
      destruct (@broadcast_ok L H A (nrows d) (ncols d) rows cols rps cps it v Lr Lc Wt Ft Ns)
        as (w & rows' & cols' & E & rps' & cps' & H1 & H2 & H3 & H4 & H5 & H6 & H7 & H8 & H9).
      exists w, rows', cols', rps', cps'. repeat (split; [assumption|]). split.
      { destruct H7 as [[-> ->]|[zs ->]]; [exact St1|exact I]. }
      split. { destruct H8 as [[-> ->]|[zs ->]]; [exact St2|exact I]. }
      now apply H9. }
    destruct it as [a|n v0|r0 c0 v0].
    - cbn [rbind]. cbn in Wt. injection Wt as <-. apply (Core false _ rows cols rps cps); auto. discriminate.
    - destruct Arr as (w & rows' & cols' & rps' & cps' & -> & Hx); [discriminate|]. cbn [rbind].
      destruct Hx as (H1 & H2 & H3 & H4 & H5 & H6 & H7 & H8 & H9).
      apply (Core true w rows' cols' rps' cps'); auto. discriminate. intros _. repeat (split; [assumption|]). assumption.
    - destruct Arr as (w & rows' & cols' & rps' & cps' & -> & Hx); [discriminate|]. cbn [rbind].
      destruct Hx as (H1 & H2 & H3 & H4 & H5 & H6 & H7 & H8 & H9).
      apply (Core true w rows' cols' rps' cps'); auto. discriminate. intros _. repeat (split; [assumption|]). assumption.
  Qed.
End Write.
