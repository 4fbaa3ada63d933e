From Verif Require Import Base Table ChunkModel ChunkSpec ChunkProofs GridModel GridSpec FrameSpec GridProofs GridProofs2 GridProofs3 GridProofs5 SelSpec SelModel SelProofs SelProofs2 SelProofs3 SelProofs4 SelProofs5.

Lemma nth_error_bounds lens : forall a i, i < length lens ->
  nth_error (bounds a lens) i = Some (a + start_of lens i, a + start_of lens i + nth i lens 0).
Proof. induction lens as [|n lens IH]; intros a [|i] Hi; cbn [length] in Hi; try lia; cbn [bounds nth_error nth].
  - unfold start_of. cbn. lsum. f_equal. f_equal; lia.
  - rewrite IH by lia. unfold start_of. change (firstn (S i) (n :: lens)) with (n :: firstn i lens). rewrite list_sum_cons. f_equal. f_equal; lia. Qed.
Lemma start_of_bound bins i : i < length bins -> start_of bins i + nth i bins 0 <= list_sum bins.
Proof. intros Hi. rewrite <- start_of_S by assumption. rewrite <- start_of_all. apply start_of_mono. lia. Qed.

Lemma full_mask_length known len ix : is_full_axis_mask known len ix = true -> length (expand len ix) = len.
Proof. destruct ix as [[a|] [b|]|ps]; cbn [is_full_axis_mask]; intros E; try (apply andb_true_iff in E as [_ E]; now apply Nat.eqb_eq in E).
  rewrite expand_slice, seq_length. lia. Qed.

Section Take.
  Context {L H A : Type}.
  Notation dframe := (df L H A).
  Notation pf := (@pframe L H A).
  Variable leqb : L -> L -> bool.
  Variable heqb : H -> H -> bool.
  Hypothesis leqb_ok : forall x y, leqb x y = true <-> x = y.
  Hypothesis heqb_ok : forall x y, heqb x y = true <-> x = y.
  Variables min_row min_col nparts : nat.
  Hypothesis mr : 0 < min_row.
  Hypothesis mc : 0 < min_col.
  Hypothesis np : 0 < nparts.
  Variables known_l known_w : nat -> nat -> bool.
  Variable argsort : list Z -> list nat.
  Hypothesis argsort_ok : forall l, sorts l (argsort l).

  Lemma mask_block (d : dframe) rl cl re ce kl kw : wf d -> list_sum rl = nrows d -> list_sum cl = ncols d ->
    entry_ok rl re -> entry_ok cl ce -> entry_safe rl re -> entry_safe cl ce ->
    mask kl kw (snd re) (snd ce) (block d (start_of rl (fst re), start_of rl (fst re) + nth (fst re) rl 0)
                                          (start_of cl (fst ce), start_of cl (fst ce) + nth (fst ce) cl 0))
    = Ok (take2d (entry_positions rl re) (entry_positions cl ce) d).
  Proof. intros W Hr Hc [R1 R2] [C1 C2] SR SC. set (b := block d _ _).
    assert (Wb : wf b) by now apply wf_block.
    pose proof (start_of_bound rl R1) as BR. pose proof (start_of_bound cl C1) as BC.
    assert (Nb : nrows b = nth (fst re) rl 0) by (unfold b, nrows; cbn; rewrite slice_length; unfold nrows in Hr; lia).
    assert (Mb : ncols b = nth (fst ce) cl 0) by (unfold b, ncols; cbn; rewrite slice_length; unfold ncols in Hc; lia).
    assert (E : take2d (expand (nrows b) (snd re)) (expand (ncols b) (snd ce)) b = take2d (entry_positions rl re) (entry_positions cl ce) d).
    { rewrite Nb, Mb. unfold b. rewrite take2d_block; auto.
      - eapply Forall_impl; [|exact R2]. cbn. lia.
      - eapply Forall_impl; [|exact C2]. cbn. lia. }
    unfold mask. destruct (is_full_axis_mask kl (nrows b) (snd re) && is_full_axis_mask kw (ncols b) (snd ce)) eqn:M.
    - apply andb_true_iff in M as [M1 M2]. apply full_mask_length in M1, M2. rewrite <- E.
      rewrite Nb, Mb in *. rewrite SR, SC by assumption. rewrite <- Nb, <- Mb. now rewrite take2d_all.
    - unfold df_iloc. rewrite Nb, Mb in *. rewrite (proj2 (forallb_forall _ _)), (proj2 (forallb_forall _ _)); cbn [andb].
      + now rewrite E.
      + intros p I. rewrite Forall_forall in C2. apply Nat.ltb_lt. now apply C2.
      + intros p I. rewrite Forall_forall in R2. apply Nat.ltb_lt. now apply R2. Qed.

  Lemma mask_grid (d : dframe) rl cl rdict cdict : wf d -> list_sum rl = nrows d -> list_sum cl = ncols d ->
    Forall (entry_ok rl) rdict -> Forall (entry_ok cl) cdict -> Forall (entry_safe rl) rdict -> Forall (entry_safe cl) cdict ->
    rmap (fun re => rmap (fun ce =>
       match nth_error (cut_table rl cl d) (fst re) with
       | Some row => match nth_error row (fst ce) with
           | Some b => mask (known_l (fst re) (fst ce)) (known_w (fst re) (fst ce)) (snd re) (snd ce) b
           | None => Err IndexError end
       | None => Err IndexError end) cdict) rdict
    = Ok (map (fun r => map (fun c => take2d r c d) (map (entry_positions cl) cdict)) (map (entry_positions rl) rdict)).
  Proof. intros W Hr Hc R1 C1 R2 C2. rewrite map_map.
    apply rmap_ok. intros re Ire. rewrite map_map. apply rmap_ok. intros ce Ice.
    rewrite Forall_forall in R1, R2, C1, C2. specialize (R1 re Ire). specialize (R2 re Ire). specialize (C1 ce Ice). specialize (C2 ce Ice).
    unfold cut_table. rewrite nth_error_map, nth_error_bounds by apply R1. cbn [option_map].
    rewrite nth_error_map, nth_error_bounds by apply C1. cbn [option_map]. rewrite !Nat.add_0_l. now apply mask_block. Qed.

  Lemma normalize_ok {X} (l : list X) n ix ps : length l = n -> selects n ix ps ->
    exists ix', normalize (Some l) ix = Ok ix' /\ selects n ix' ps /\ (ix' = None \/ ix' = ix).
  Proof. intros Hl Hs. destruct ix as [[a b s|zs]|]; cbn [normalize labels rbind]; eauto.
    destruct (Z.eqb_spec s 1) as [->|]; cbn [andb]; [|eauto]. rewrite Hl, range_len_1.
    destruct (Nat.eqb_spec (Z.to_nat (b - a)) n) as [E|]; [|eauto]. exists None. split; [reflexivity|]. split; [|auto]. cbn.
    destruct Hs as ((_ & O1 & _) & Hp & F). specialize (O1 eq_refl). cbn [ipos] in Hp.
    destruct (Z.eqb_spec a b) as [->|Hab].
    - replace n with 0 by lia. apply (f_equal (@length Z)) in Hp. rewrite py_range_length, range_len_1, map_length in Hp.
      destruct ps; [reflexivity|cbn in Hp; lia].
    - destruct (@py_range_1 a b ps n ltac:(lia) Hp F) as (p & k & -> & -> & Hk & -> & Hle). f_equal; lia. Qed.

  (** The condition under which the current code is right: the direct path (rows only, and unsorted or
      nearly all of them), or no position repeated. *)
  Definition direct (big : bool) (cols : option indexer) (rps : list nat) : Prop :=
    cols = None /\ (big = true \/ ~ Sorted le rps).

  Lemma take_2d_ok big (f : pf) (d : dframe) rl cl rows cols rps cps :
    shows f d rl cl -> selects (nrows d) rows rps -> selects (ncols d) cols cps ->
    direct big cols rps \/ NoDup rps /\ NoDup cps ->
    exists f', take_2d_positional leqb heqb min_row min_col nparts known_l known_w argsort big rows cols f = Ok f'
      /\ pf_to_pandas leqb heqb f' = Ok (take2d rps cps d)
      /\ (rps <> [] -> cps <> [] -> exists rl' cl', shows f' (take2d rps cps d) rl' cl').
  Proof.
    intros Hsh Sr Sc Hdup.
    assert (Hsh' := Hsh). destruct Hsh' as ([Hg HL] & Hr & Hc & Hi & Hcol).
    assert (Hg' := Hg). destruct Hg' as (W & Hsr & Hsc & Hgr & Hli & Hlc & Crl & Ccl).
    pose proof (@selects_bound _ _ _ Sr) as Fr. pose proof (@selects_bound _ _ _ Sc) as Fc.
    assert (WD : wf (take2d rps cps d)) by now apply wf_take2d.
    assert (PP : forall (f' : pf) rl' cl' (D : dframe), shows f' D rl' cl' -> pf_to_pandas leqb heqb f' = Ok D).
    { intros f' rl' cl' D (G1 & G2 & G3 & G4 & G5). eapply pf_to_pandas_holds; eauto. intros _. rewrite G4, G5. easy. }
    unfold take_2d_positional. rewrite Hi, Hcol.
    destruct (@normalize_ok _ (dindex d) (nrows d) rows rps eq_refl Sr) as (rows' & -> & Sr' & Er). cbn [rbind].
    destruct (@normalize_ok _ (dcols d) (ncols d) cols cps eq_refl Sc) as (cols' & -> & Sc' & Ec). cbn [rbind].
    destruct (match rows' with None => match cols' with None => true | _ => false end | _ => false end) eqn:Enone.
    { destruct rows'; [discriminate|]. destruct cols'; [discriminate|]. cbn in Sr', Sc'. subst rps cps.
      rewrite take2d_all by assumption. exists f. split; [reflexivity|]. split; [eapply PP; eauto|]. intros _ _. exists rl, cl. exact Hsh. }
    set (dir := match rows', cols' with
                | Some ix, None => if big || negb (increasing (ipos ix)) then Some (ipos ix) else None
                | _, _ => None end).
    assert (Hdir : (exists zs, dir = Some zs /\ cols' = None /\ zs = map Z.of_nat rps)
                   \/ (dir = None /\ (direct big cols rps -> False \/ NoDup rps /\ NoDup cps))).
    { unfold dir. destruct rows' as [ix|].
      - destruct cols' as [ix'|].
        + right. split; [reflexivity|]. intros [-> _]. destruct Ec; discriminate.
        + destruct Sr' as (_ & Hp & _). destruct (big || negb (increasing (ipos ix))) eqn:Eb.
          * left. eauto.
          * right. split; [reflexivity|]. intros [_ [->|Hns]]; [discriminate|]. exfalso. apply Hns.
            apply orb_false_iff in Eb as [_ Eb]. apply negb_false_iff in Eb. apply increasing_sorted in Eb. rewrite Hp in Eb. now apply Sorted_map_of_nat.
      - right. split; [reflexivity|]. intros [-> _]. destruct Ec as [-> | ->]; discriminate. }
    replace (match rows' with
      | Some _ => _
      | None => match cols' with None => Ok f | Some _ => _ end end)
      with (match dir with
      | Some ps => reorder_labels leqb heqb min_row min_col nparts (Some ps) None f
      | None =>
        do r <- take_axis (row_lengths f) (length (pgrid f)) (prl f) (Some (dindex d)) rows';
        do c <- take_axis (column_widths f) (grid_width (pgrid f)) (pcl f) (Some (dcols d)) cols';
        let '(rdict, new_rl, new_index) := r in
        let '(cdict, new_cl, new_columns) := c in
        if match cols', new_cl, new_columns with
           | Some _, Some cl, Some cs => negb (list_sum cl =? length cs)
           | _, _, _ => false
           end
        then Err InternalBug
        else
        do grid <- rmap (fun re => rmap (fun ce =>
                     match nth_error (pgrid f) (fst re) with
                     | Some row =>
                         match nth_error row (fst ce) with
                         | Some b => mask (known_l (fst re) (fst ce)) (known_w (fst re) (fst ce))
                                       (snd re) (snd ce) b
                         | None => Err IndexError
                         end
                     | None => Err IndexError
                     end) cdict) rdict;
        do intermediate <- construct (mkpf grid new_index new_columns new_rl new_cl);
        maybe_reorder_labels leqb heqb min_row min_col nparts argsort rows' cols' intermediate
      end).
    2:{ unfold dir. destruct rows' as [ix|], cols' as [ix'|]; try discriminate; try reflexivity. }
    clear Enone. clearbody dir. destruct Hdir as [(zs & -> & -> & ->)|(-> & Hd2)].
    { cbn in Sc'. subst cps.
      destruct (@reorder_ok L H A leqb heqb leqb_ok heqb_ok min_row min_col nparts mr mc np f d rl cl (Some rps) None Hsh) as (f' & rl' & cl' & R1 & R2).
      - intros on [= <-]. exact Fr. - discriminate.
      - cbn [option_map order_or_all] in R1, R2. exists f'. split; [exact R1|]. split; [eapply PP; eauto|]. eauto. }
    assert (ND : NoDup rps /\ NoDup cps) by tauto. destruct ND as [NDr NDc]. clear Hd2 Hdup.
    rewrite (gridded_row_lengths Hg Hc), (gridded_column_widths Hg Hr), Hgr.
    replace (length (cut_table rl cl d)) with (length rl) by (unfold cut_table; now rewrite map_length, bounds_length).
    rewrite cut_table_width by assumption.
    destruct (@take_axis_ok argsort argsort_ok _ rl (nrows d) (dindex d) rows' rps (prl f) Hr Hsr eq_refl Sr' Crl)
      as (rdict & rc & sr & TR & DR & PR & SSr & CR & CRs & IOr & UOr).
    destruct (@take_axis_ok argsort argsort_ok _ cl (ncols d) (dcols d) cols' cps (pcl f) Hc Hsc eq_refl Sc' Ccl)
      as (cdict & cc & sc & TC & DC & PC & SSc & CC & CCs & IOc & UOc).
    rewrite TR, TC. cbn [rbind].
    destruct DR as (DR1 & DR2 & DR3). destruct DC as (DC1 & DC2 & DC3).
    assert (NDsr : NoDup sr) by (eapply Permutation_NoDup; [symmetry; exact PR|exact NDr]).
    assert (NDsc : NoDup sc) by (eapply Permutation_NoDup; [symmetry; exact PC|exact NDc]).
    specialize (DR3 NDsr). specialize (DC3 NDsc).
    assert (Fsr : Forall (fun p => p < nrows d) sr) by (eapply Forall_perm; [symmetry; exact PR|exact Fr]).
    assert (Fsc : Forall (fun p => p < ncols d) sc) by (eapply Forall_perm; [symmetry; exact PC|exact Fc]).
    set (R := map (entry_positions rl) rdict) in *. set (C := map (entry_positions cl) cdict) in *.
    assert (SumC : list_sum (map (@length nat) C) = length sc) by (rewrite <- map_length_concat, DC1; reflexivity).
    assert (SumR : list_sum (map (@length nat) R) = length sr) by (rewrite <- map_length_concat, DR1; reflexivity).
    assert (PLc : length (pick (dcols d) sc) = length sc) by (apply pick_length; exact Fsc).
    assert (PLr : length (pick (dindex d) sr) = length sr) by (apply pick_length; exact Fsr).
    assert (Chk : match cols' with
       | Some _ => match cc with Some cl0 => negb (list_sum cl0 =? length (pick (dcols d) sc)) | None => false end
       | None => false end = false).
    { destruct cols'; [|reflexivity]. destruct cc as [l|]; [|reflexivity]. destruct CC as [|[= ->]]; [discriminate|].
      now rewrite SumC, PLc, Nat.eqb_refl. }
    rewrite Chk. rewrite mask_grid by assumption. fold R C. cbn [rbind].
    set (D0 := take2d sr sc d). set (g := map (fun r => map (fun c => take2d r c d) C) R).
    assert (WD0 : wf D0) by now apply wf_take2d.
    assert (CRsum : forall l, rc = Some l -> list_sum l = length (pick (dindex d) sr)) by (intros l ->; destruct CR as [|[= ->]]; [discriminate|congruence]).
    assert (CCsum : forall l, cc = Some l -> list_sum l = length (pick (dcols d) sc)) by (intros l ->; destruct CC as [|[= ->]]; [discriminate|congruence]).
    assert (HOr : exists ro, unsort_order argsort rows' = option_map (map Z.of_nat) ro
        /\ pick sr (order_or_all ro (length sr)) = rps
        /\ (forall on, ro = Some on -> Forall (fun p => p < length sr) on /\ length on = length sr)).
    { destruct (unsort_order argsort rows') as [o|].
      - destruct UOr as (on & -> & U1 & U2 & U3). exists (Some on). split; [reflexivity|]. split; [exact U2|]. intros ? [= <-]. split; [exact U1|]. now rewrite (Permutation_length PR).
      - exists None. cbn [order_or_all option_map]. rewrite pick_all by reflexivity. split; [reflexivity|]. split; [auto|]. discriminate. }
    assert (HOc : exists co, unsort_order argsort cols' = option_map (map Z.of_nat) co
        /\ pick sc (order_or_all co (length sc)) = cps
        /\ (forall on, co = Some on -> Forall (fun p => p < length sc) on /\ length on = length sc)).
    { destruct (unsort_order argsort cols') as [o|].
      - destruct UOc as (on & -> & U1 & U2 & U3). exists (Some on). split; [reflexivity|]. split; [exact U2|]. intros ? [= <-]. split; [exact U1|]. now rewrite (Permutation_length PC).
      - exists None. cbn [order_or_all option_map]. rewrite pick_all by reflexivity. split; [reflexivity|]. split; [auto|]. discriminate. }
    destruct HOr as (ro & ERo & Pro & Hro). destruct HOc as (co & ECo & Pco & Hco).
    unfold maybe_reorder_labels. rewrite ERo, ECo.
    destruct (match R, C with _ :: _, _ :: _ => true | _, _ => false end) eqn:Ene.
    - (* some blocks selected *)
      assert (NR : map (@length nat) R <> []) by (destruct R; [discriminate|easy]).
      assert (NC : map (@length nat) C <> []) by (destruct C; [destruct R; discriminate|easy]).
      assert (G : gridded (mkpf g (Some (dindex D0)) (Some (dcols D0)) rc cc) D0 (map (@length nat) R) (map (@length nat) C)).
      { split; [exact WD0|]. split; [rewrite SumR; symmetry; now apply take2d_nrows|]. split; [rewrite SumC; symmetry; now apply take2d_ncols|].
        cbn [pgrid pindex pcols prl pcl]. split.
        - unfold D0. rewrite <- DR1, <- DC1. fold R C. rewrite cut_take2d; [reflexivity|assumption| |]; [now rewrite DR1|now rewrite DC1].
        - split; [intros ? [= <-]; reflexivity|]. split; [intros ? [= <-]; reflexivity|]. auto. }
      destruct (construct_gridded G NR NC) as (f0 & rl0 & cl0 & K1 & K2 & K3 & K4 & K5 & K6). cbn [pindex pcols] in K5, K6.
      change (pick (dindex d) sr) with (dindex D0). change (pick (dcols d) sc) with (dcols D0). rewrite K1. cbn [rbind].
      assert (Sh0 : shows f0 D0 rl0 cl0) by (split; [split; [exact K2|split; right; assumption]|auto]).
      destruct (in_order rows' && in_order cols') eqn:IO.
      + apply andb_true_iff in IO as [IO1 IO2]. exists f0. split; [reflexivity|].
        assert (ED : D0 = take2d rps cps d) by (unfold D0; now rewrite (IOr IO1), (IOc IO2)). rewrite <- ED. split; [eapply PP; eauto|eauto].
      + destruct (@reorder_ok L H A leqb heqb leqb_ok heqb_ok min_row min_col nparts mr mc np f0 D0 rl0 cl0 ro co Sh0) as (f' & rl' & cl' & R1 & R2).
        * intros on Eo. destruct (Hro on Eo) as [X _]. unfold D0. rewrite take2d_nrows by assumption. exact X.
        * intros on Eo. destruct (Hco on Eo) as [X _]. unfold D0. rewrite take2d_ncols by assumption. exact X.
        * assert (ED : take2d (order_or_all ro (nrows D0)) (order_or_all co (ncols D0)) D0 = take2d rps cps d).
          { unfold D0 at 1 2. rewrite take2d_nrows, take2d_ncols by assumption. unfold D0. rewrite take2d_take2d by assumption. now rewrite Pro, Pco. }
          rewrite ED in R2. exists f'. split; [exact R1|]. split; [eapply PP; eauto|eauto].
    - (* nothing selected *)
      assert (Z : sr = [] \/ sc = []).
      { destruct R; [left; now rewrite <- DR1|]. destruct C; [right; now rewrite <- DC1|]. discriminate. }
      assert (Z' : rps = [] \/ cps = []).
      { destruct Z as [Z|Z]; [left; rewrite Z in PR|right; rewrite Z in PC]; now apply Permutation_nil. }
      assert (B : Forall (fun row => row = []) g).
      { unfold g. destruct R as [|r R']; [constructor|]. destruct C as [|c C']; [|discriminate]. apply Forall_map, Forall_forall. reflexivity. }
      destruct (@blockless_construct L H A g (pick (dindex d) sr) (pick (dcols d) sc) rc cc B) as (f0 & K1 & K2 & K3 & K4 & K5 & K6); auto.
      { destruct Z as [-> | ->]; auto. }
      rewrite K1. cbn [rbind].
      assert (Zd : nrows (take2d rps cps d) = 0 \/ ncols (take2d rps cps d) = 0).
      { rewrite take2d_nrows, take2d_ncols by assumption. destruct Z' as [-> | ->]; auto. }
      destruct (in_order rows' && in_order cols') eqn:IO.
      + apply andb_true_iff in IO as [IO1 IO2]. exists f0. split; [reflexivity|]. split.
        * rewrite (IOr IO1) in K3. rewrite (IOc IO2) in K4. apply blockless_pandas; auto. unfold blockless. now rewrite K2.
        * intros N1 N2. destruct Z'; contradiction.
      + destruct (@reorder_blockless L H A leqb heqb min_row min_col nparts f0 (pick (dindex d) sr) (pick (dcols d) sc) ro co) as (f' & R1 & R2 & R3 & R4); auto.
        * unfold blockless. now rewrite K2.
        * destruct Z as [-> | ->]; auto.
        * now rewrite K5.
        * now rewrite K6.
        * rewrite K2. unfold g. destruct R as [|r R']; [now left|]. right. intros ->.
          destruct C as [|c C']; [|discriminate]. assert (Cnil : cps = []) by (cbn in DC1; rewrite <- DC1 in PC; now apply Permutation_nil).
          assert (IO2 : in_order cols' = true).
          { destruct cols' as [ix|]; [|reflexivity]. destruct Sc' as (_ & Hp & _). unfold in_order. rewrite Hp, Cnil. cbn. apply orb_true_r. }
          rewrite IO2, andb_true_r in IO. destruct rows' as [[a b s|zs]|]; cbn [unsort_order] in ERo; try discriminate.
          destruct Sr' as ((_ & _ & Hnz) & _). destruct (Z.ltb_spec s 0); [discriminate|]. cbn [in_order] in IO.
          destruct (Z.gtb_spec s 0); [discriminate|lia].
        * rewrite PLr. exact Hro.
        * rewrite PLc. exact Hco.
        * rewrite PLr in R3. rewrite PLc in R4. rewrite pick_pick in R3 by exact Fsr. rewrite pick_pick in R4 by exact Fsc. rewrite Pro in R3. rewrite Pco in R4.
          exists f'. split; [exact R1|]. split; [now apply blockless_pandas|]. intros N1 N2. destruct Z'; contradiction.
  Qed.
End Take.
