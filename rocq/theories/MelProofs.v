(** Columns taken without a change of the rows of blocks; columns of blocks stacked. *)
From Coq Require Import Permutation.
From Verif Require Import Base Table ChunkModel ChunkSpec ChunkProofs GridModel GridSpec FrameSpec GridProofs GridProofs2 GridProofs3 GridProofs4 GridProofs5 SelSpec SelModel
  SelProofs SelProofs2 SelProofs3 SelProofs4 SelProofs5 SelProofs6 LocSpec LocModel LocProofs SetProofs3 KeyProofs MelSpec MelModel.

Lemma nonzero_same rl : Forall (fun n => 0 < n) rl -> nonzero rl = rl.
Proof. induction 1 as [|n rl Hn F IH]; [reflexivity|]. cbn. destruct (Nat.eqb_spec n 0); [lia|]. cbn. f_equal. exact IH. Qed.

Section Exact.
  Context {L H A : Type}.
  Notation dframe := (df L H A).
  Notation pf := (@pframe L H A).
  Variable leqb : L -> L -> bool.
  Variable heqb : H -> H -> bool.
  Hypothesis leqb_ok : forall x y, leqb x y = true <-> x = y.
  Hypothesis heqb_ok : forall x y, heqb x y = true <-> x = y.
  Variables min_row min_col nparts : nat.
  Hypothesis mr : 0 < min_row.
  Hypothesis mc : 0 < min_col.
  Hypothesis np : 0 < nparts.
  Variables known_l known_w : nat -> nat -> bool.
  Variable argsort : list Z -> list nat.
  Hypothesis argsort_ok : forall l, sorts l (argsort l).
  Notation take cols f := (take_2d_positional leqb heqb min_row min_col nparts known_l known_w argsort false None (Some (IList cols)) f).

  Lemma construct_exact (f : pf) (d : dframe) rl cl : gridded f d rl cl -> rl <> [] -> cl <> [] -> Forall (fun n => 0 < n) rl ->
    exists f' cl', construct f = Ok f' /\ gridded f' d rl cl' /\ cl' <> [] /\ pindex f' = pindex f /\ pcols f' = pcols f.
  Proof.
    clear. intros Hg Hr Hc Hp. unfold construct. rewrite (gridded_validate Hg).
    destruct (filter_empties_gridded false Hg Hr Hc) as (rl' & cl' & G1 & G2 & G3 & G4).
    assert (X : rl' <> [] /\ cl' <> []). { apply (gridded_ne G1 Hr Hc). destruct G4 as [G4|[G4|G4]]; tauto. }
    assert (E : rl' = rl). { destruct G4 as [G4|[G4|G4]]; [tauto|tauto|]. rewrite <- (nonzero_same Hp). tauto. }
    subst rl'. exists (filter_empties false f), cl'. tauto.
  Qed.

  Lemma reorder_cols_exact (f : pf) d rl cl on : shows f d rl cl -> Forall (fun n => 0 < n) rl -> Forall (fun p => p < ncols d) on ->
    exists f' cl', reorder_labels leqb heqb min_row min_col nparts None (Some (map Z.of_nat on)) f = Ok f'
      /\ shows f' (take2d (seq 0 (nrows d)) on d) rl cl'.
  Proof.
    intros Hsh Hp F. assert (Hsh' := Hsh). destruct Hsh' as ([Hg HL] & Hr & Hc & Hi & Hcol).
    assert (Hg' := Hg). destruct Hg' as (W & Hsr & Hsc & Hgr & Hli & Hlc & Crl & Ccl).
    unfold reorder_labels. cbn [rbind]. rewrite Hgr.
    destruct (@take_cols_step L H A leqb heqb leqb_ok min_row min_col nparts mr mc np rl cl d on W Hr Hc Hsr Hsc F) as (cl' & T1 & T2 & T3 & T4 & T5).
    rewrite T1. cbn [rbind]. rewrite Hcol. cbn [labels rbind]. rewrite np_take_nat by exact F. cbn [rbind].
    assert (PL : length (pick (dcols d) on) = length on) by (apply pick_length; exact F). rewrite PL.
    set (D := take2d (seq 0 (nrows d)) on d).
    assert (WD : wf D) by (apply wf_take2d; auto using Forall_seq_lt).
    assert (EI : dindex D = dindex d) by (cbn; now apply pick_all).
    assert (NR : nrows D = nrows d) by (unfold nrows; now rewrite EI).
    assert (NC : ncols D = length on) by (unfold D; now apply take2d_ncols).
    assert (exists cc, (cc = None \/ cc = Some cl') /\
      (if negb (length on =? length (dcols d)) then do lens <- get_length_list (length on) (grid_width (cut_table rl cl' D)) min_col; Ok (cut_table rl cl' D, Some (pick (dcols d) on), Some lens)
       else Ok (cut_table rl cl' D, Some (pick (dcols d) on), pcl f)) = Ok (cut_table rl cl' D, Some (pick (dcols d) on), cc)) as (cc & Hcc & ->).
    { destruct (Nat.eqb_spec (length on) (length (dcols d))) as [E|E]; cbn [negb].
      - exists (pcl f). split; [|reflexivity]. rewrite T4 by exact E. exact Ccl.
      - rewrite cut_table_width by assumption. rewrite T5 by exact E. cbn [rbind]. exists (Some cl'). auto. }
    cbn [rbind]. rewrite Hi.
    assert (G : gridded (mkpf (cut_table rl cl' D) (Some (dindex d)) (Some (pick (dcols d) on)) (prl f) cc) D rl cl').
    { split; [exact WD|]. split; [congruence|]. split; [congruence|]. cbn [pgrid pindex pcols prl pcl]. split; [reflexivity|].
      split; [intros ? [= <-]; now rewrite <- EI|]. split; [intros ? [= <-]; now rewrite NC|]. auto. }
    destruct (construct_exact G Hr T3 Hp) as (f' & cl2 & K1 & K2 & K3 & K4 & K5).
    exists f', cl2. split; [exact K1|]. cbn [pindex pcols] in K4, K5. split; [|split; [exact Hr|]; split; [exact K3|]; rewrite EI; auto].
    split; [exact K2|]. split; right; [rewrite EI|]; assumption.
  Qed.

  Lemma take_exact (f : pf) d rl cl ps : shows f d rl cl -> Forall (fun n => 0 < n) rl -> ps <> [] -> NoDup ps -> Forall (fun p => p < ncols d) ps ->
    exists f' cl', take (map Z.of_nat ps) f = Ok f' /\ shows f' (take2d (seq 0 (nrows d)) ps d) rl cl'.
  Proof.
    intros Hsh Hp Hne ND F. assert (Hsh' := Hsh). destruct Hsh' as ([Hg HL] & Hr & Hc & Hi & Hcol).
    assert (Hg' := Hg). destruct Hg' as (W & Hsr & Hsc & Hgr & Hli & Hlc & Crl & Ccl).
    unfold take_2d_positional. cbn [normalize rbind]. rewrite Hi, Hcol.
    rewrite (gridded_row_lengths Hg Hc), (gridded_column_widths Hg Hr), Hgr.
    replace (length (cut_table rl cl d)) with (length rl) by (unfold cut_table; now rewrite map_length, bounds_length).
    rewrite cut_table_width by assumption.
    assert (Sc : selects (ncols d) (Some (IList (map Z.of_nat ps))) ps) by (split; [exact I|split; [reflexivity|exact F]]).
    destruct (@take_axis_ok argsort argsort_ok _ rl (nrows d) (dindex d) None (seq 0 (nrows d)) (prl f) Hr Hsr eq_refl eq_refl Crl)
      as (rdict & rc & sr & TR & DR & PR & SSr & CR & CRs & IOr & UOr).
    destruct (@take_axis_ok argsort argsort_ok _ cl (ncols d) (dcols d) (Some (IList (map Z.of_nat ps))) ps (pcl f) Hc Hsc eq_refl Sc Ccl)
      as (cdict & cc & sc & TC & DC & PC & SSc & CC & CCs & IOc & UOc).
    assert (ERD : rdict = map (fun i => (i, whole)) (seq 0 (length rl)) /\ rc = prl f). { cbn [take_axis] in TR. injection TR as <- <- _. auto. }
    destruct ERD as [ERD Erc]. assert (sr = seq 0 (nrows d)) by now apply IOr. subst sr.
    rewrite TR, TC. cbn [rbind]. destruct DR as (DR1 & DR2 & DR3). destruct DC as (DC1 & DC2 & DC3).
    assert (NDsc : NoDup sc) by (eapply Permutation_NoDup; [symmetry; exact PC|exact ND]).
    specialize (DR3 (seq_NoDup _ _)). specialize (DC3 NDsc).
    assert (Fsc : Forall (fun p => p < ncols d) sc) by (eapply Forall_perm; [symmetry; exact PC|exact F]).
    set (C := map (entry_positions cl) cdict) in *.
    assert (SumC : list_sum (map (@length nat) C) = length sc) by (rewrite <- map_length_concat, DC1; reflexivity).
    assert (PLc : length (pick (dcols d) sc) = length sc) by (apply pick_length; exact Fsc).
    assert (ERl : map (@length nat) (map (entry_positions rl) rdict) = rl) by (rewrite ERD; apply wholes_lengths).
    assert (Chk : match cc with Some cl0 => negb (list_sum cl0 =? length (pick (dcols d) sc)) | None => false end = false).
    { destruct cc as [l|]; [|reflexivity]. destruct CC as [|[= ->]]; [discriminate|]. now rewrite SumC, PLc, Nat.eqb_refl. }
    rewrite Chk. rewrite (mask_grid mr mc np known_l known_w) by assumption. fold C. cbn [rbind].
    set (R := map (entry_positions rl) rdict) in *. set (D0 := take2d (seq 0 (nrows d)) sc d).
    assert (WD0 : wf D0) by (apply wf_take2d; auto using Forall_seq_lt).
    assert (NC : map (@length nat) C <> []).
    { intros E. destruct C; [|discriminate]. cbn in DC1. subst sc. apply Permutation_nil in PC. congruence. }
    rewrite (@pick_all L (dindex d) (nrows d) eq_refl).
    assert (EI : dindex D0 = dindex d) by (cbn; now apply pick_all).
    assert (G : gridded (mkpf (map (fun r => map (fun c => take2d r c d) C) R) (Some (dindex d)) (Some (pick (dcols d) sc)) rc cc) D0 rl (map (@length nat) C)).
    { split; [exact WD0|]. split; [unfold nrows in *; now rewrite EI|]. split; [rewrite SumC; symmetry; now apply take2d_ncols|].
      cbn [pgrid pindex pcols prl pcl]. split.
      - unfold D0. rewrite <- DR1, <- DC1. rewrite <- ERl. fold R C. rewrite cut_take2d; [reflexivity|assumption| |]; [rewrite DR1; apply Forall_seq_lt|now rewrite DC1].
      - split; [intros ? [= <-]; unfold nrows; now rewrite EI|]. split; [intros ? [= <-]; reflexivity|]. rewrite Erc. auto. }
    destruct (construct_exact G Hr NC Hp) as (f0 & cl0 & K1 & K2 & K3 & K4 & K5). cbn [pindex pcols] in K4, K5.
    rewrite K1. cbn [rbind].
    assert (Sh0 : shows f0 D0 rl cl0).
    { split; [split; [exact K2|split; right; [rewrite EI|]; assumption]|]. split; [exact Hr|]. split; [exact K3|]. rewrite EI. auto. }
    unfold maybe_reorder_labels. cbn [SelModel.in_order andb].
    destruct (SelModel.in_order (Some (IList (map Z.of_nat ps)))) eqn:IO; unfold SelModel.in_order in IO; rewrite IO.
    - exists f0, cl0. split; [reflexivity|]. rewrite <- (IOc eq_refl). exact Sh0.
    - cbn [unsort_order] in UOc |- *. destruct UOc as (on & Eo & U1 & U2 & U3). rewrite Eo.
      assert (N0 : nrows D0 = nrows d) by (unfold nrows; now rewrite EI).
      destruct (@reorder_cols_exact f0 D0 rl cl0 on Sh0 Hp) as (f' & cl' & R1 & R2); [unfold D0; rewrite take2d_ncols by assumption; exact U1|].
      exists f', cl'. split; [exact R1|]. rewrite N0 in R2. unfold D0 in R2. rewrite take2d_take2d in R2 by auto using Forall_seq_lt.
      rewrite U2 in R2. rewrite pick_all in R2 by apply seq_length. exact R2.
  Qed.
End Exact.
