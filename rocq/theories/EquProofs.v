(** Proofs for C90. *)
From Verif Require Import Base Table ChunkModel ChunkSpec ChunkProofs GridSpec GridModel FrameSpec GridProofs GridProofs2 GridProofs3 GridProofs4 GridProofs5 JoinSpec JoinModel JoinProofs JoinProofs2 JoinProofs3 JoinProofs4 JoinProofs5 JoinProofs6 EquSpec EquModel.

Lemma first_labels_ok {X} (i : list X) : joins_well first_labels [i; i].
Proof. unfold joins_well, first_labels. cbn [nth fst snd map]. split; [reflexivity|]. intros k lab ix Hl Hi.
  assert (lab = i /\ ix = map Some (seq 0 (length i))) as [-> ->].
  { destruct k as [|[|[|k]]]; cbn in Hl, Hi; try discriminate; split; congruence. }
  rewrite map_length, seq_length. split; [reflexivity|]. split; [|split; [|reflexivity]].
  - intros j p Hk. rewrite nth_error_map in Hk. destruct (Nat.lt_ge_cases j (length i)).
    + rewrite (nth_error_nth' _ 0) in Hk by now rewrite seq_length. rewrite seq_nth in Hk by assumption. cbn in Hk. injection Hk as <-. auto.
    + rewrite (proj2 (nth_error_None _ _)) in Hk by now rewrite seq_length. discriminate.
  - intros j x Hk. rewrite nth_error_map in Hk. destruct (nth_error (seq 0 (length i)) j); discriminate. Qed.

Section Proofs.
  Context {L H A : Type}.
  Variable leqb : L -> L -> bool.
  Variable heqb : H -> H -> bool.
  Variable aeqb : A -> A -> bool.
  Hypothesis leqb_ok : forall x y, leqb x y = true <-> x = y.
  Hypothesis heqb_ok : forall x y, heqb x y = true <-> x = y.
  Hypothesis aeqb_ok : forall x y, aeqb x y = true <-> x = y.
  Variable fill : A.
  Notation dframe := (df L H A).
  Notation pf := (@pframe L H A).
  Notation beq := (block_equals leqb heqb aeqb).

  Lemma block_equals_iff (d e : dframe) : beq d e = true <-> d = e.
  Proof. unfold block_equals. rewrite !andb_true_iff, (list_eqb_spec leqb leqb_ok), (list_eqb_spec heqb heqb_ok).
    rewrite (@list_eqb_spec _ (list_eqb aeqb) (list_eqb_spec aeqb aeqb_ok)). destruct d, e; cbn. split; [intros [[-> ->] ->]; auto|intros [= -> -> ->]; auto]. Qed.

  Definition answers rl cl (d e : dframe) : list (list bool) :=
    map (fun ri => map (fun ci => beq (block d ri ci) (block e ri ci)) (bounds 0 cl)) (bounds 0 rl).
  Lemma equals_blocks_ok rl cl (d e : dframe) : equals_blocks leqb heqb aeqb (cut_table rl cl d) (cut_table rl cl e) = Ok (answers rl cl d e).
  Proof.
    unfold equals_blocks.
    set (G := fun ri => map (fun ci => block d ri ci) (bounds 0 cl)).
    change (cut_table rl cl d) with (map G (bounds 0 rl)). rewrite map_length.
    assert (R : forall k ivs, (forall i iv, nth_error ivs i = Some iv -> nth_error (bounds 0 rl) (k + i) = Some iv) ->
       rmap (fun irow => rmap (fun jb =>
        match nth_error (cut_table rl cl e) (fst irow) with
        | Some rrow => match nth_error rrow (fst jb) with Some e => Ok (beq (snd jb) e) | None => Err IndexError end
        | None => Err IndexError
        end) (combine (seq 0 (length (snd irow))) (snd irow))) (combine (seq k (length ivs)) (map G ivs))
       = Ok (map (fun ri => map (fun ci => beq (block d ri ci) (block e ri ci)) (bounds 0 cl)) ivs)).
    { intros k ivs. revert k. induction ivs as [|iv ivs IH]; intros k Hn; [reflexivity|].
      cbn [length seq map combine rmap fst snd].
      assert (E0 := Hn 0 iv eq_refl). rewrite Nat.add_0_r in E0.
      unfold cut_table at 1. rewrite nth_error_map, E0. cbn [option_map].
      assert (C : forall j civs, (forall i ci, nth_error civs i = Some ci -> nth_error (bounds 0 cl) (j + i) = Some ci) ->
        rmap (fun jb => match nth_error (map (fun ci => block e iv ci) (bounds 0 cl)) (fst jb) with
                        | Some e => Ok (beq (snd jb) e) | None => Err IndexError end)
             (combine (seq j (length civs)) (map (fun ci => block d iv ci) civs))
        = Ok (map (fun ci => beq (block d iv ci) (block e iv ci)) civs)).
      { intros j civs. revert j. induction civs as [|ci civs IHc]; intros j Hc; [reflexivity|].
        cbn [length seq map combine rmap fst snd].
        assert (Ec0 := Hc 0 ci eq_refl). rewrite Nat.add_0_r in Ec0. rewrite nth_error_map, Ec0. cbn [option_map rbind]. rewrite (IHc (S j)).
        - reflexivity.
        - intros i c Hi. rewrite <- (Hc (S i) c Hi). f_equal. lia. }
      unfold G at 1 2. rewrite map_length.
      rewrite (C 0 (bounds 0 cl)) by auto. cbn [rbind].
      rewrite (IH (S k)).
      - reflexivity.
      - intros i c Hi. rewrite <- (Hn (S i) c Hi). f_equal. lia. }
    exact (R 0 (bounds 0 rl) (fun i iv E => E)).
  Qed.

  Lemma answers_true rl cl (d e : dframe) : wf d -> wf e -> list_sum rl = nrows d -> list_sum cl = ncols d -> dindex d = dindex e -> dcols d = dcols e ->
    forallb (forallb (fun b => b)) (answers rl cl d e) = true <-> d = e.
  Proof. intros W V Sr Sc Ei Ec. split.
    - intros F. assert (E : cut_table rl cl d = cut_table rl cl e).
      { unfold cut_table. apply map_ext_in. intros ri Hr. apply map_ext_in. intros ci Hc. rewrite forallb_forall in F.
        specialize (F _ (in_map _ _ _ Hr)). cbv beta in F. rewrite forallb_forall in F. specialize (F _ (in_map _ _ _ Hc)). cbv beta in F. now apply block_equals_iff. }
      assert (X : forall t : dframe, wf t -> dindex d = dindex t -> dcols d = dcols t ->
        pf_to_pandas leqb heqb (mkpf (cut_table rl cl t) (Some (dindex d)) (Some (dcols d)) None None) = Ok t).
      { intros t Wt Et Ect. apply (@pf_to_pandas_holds L H A leqb heqb leqb_ok heqb_ok) with (rl := rl) (cl := cl).
        - apply holds_intro; cbn; auto; unfold nrows, ncols in *; rewrite <- ?Et, <- ?Ect; auto.
        - intros _. split; discriminate. }
      pose proof (X d W eq_refl eq_refl) as X1. rewrite E in X1. pose proof (X e V Ei Ec) as X2. congruence.
    - intros <-. apply forallb_forall. intros r Hr. unfold answers in Hr. apply in_map_iff in Hr as (ri & <- & _). apply forallb_forall. intros b Hb.
      apply in_map_iff in Hb as (ci & <- & _). now apply block_equals_iff. Qed.

  Lemma qc_equals_ok nparts min_row min_col (lf rf : pf) (dl dr : dframe) rll cll rlr clr :
    0 < nparts -> 0 < min_row -> 0 < min_col ->
    holds lf dl rll cll -> rll <> [] -> cll <> [] -> holds rf dr rlr clr -> rlr <> [] -> clr <> [] ->
    dindex dl = dindex dr -> dcols dl = dcols dr ->
    Forall (fun n => 0 < n) rll \/ (pcl lf <> None /\ pcl rf <> None) \/ (pcl lf = None /\ pcl rf = None) ->
    exists rl cl, qc_equals leqb heqb aeqb fill nparts min_row min_col lf rf = Ok (answers rl cl dl dr) /\ list_sum rl = nrows dl /\ list_sum cl = ncols dl.
  Proof.
    intros Hn Hmr Hmc HL Nl1 Nl2 HR Nr1 Nr2 Ei Ec Hyp.
    set (jr := dindex dl). set (ix := map Some (seq 0 (length jr))). set (jcl := dcols dl). set (ixc := map Some (seq 0 (length jcl))).
    assert (Er : join_index_objects leqb first_labels [dindex dl; dindex dr] = (jr, [ix; ix])).
    { unfold join_index_objects. rewrite <- Ei. cbn [forallb]. now rewrite (list_eqb_refl leqb leqb_ok). }
    assert (Ecc : join_index_objects heqb first_labels [dcols dl; dcols dr] = (jcl, [ixc; ixc])).
    { unfold join_index_objects. rewrite <- Ec. cbn [forallb]. now rewrite (list_eqb_refl heqb heqb_ok). }
    assert (Jr : joins_well first_labels [dindex dl; dindex dr]) by (rewrite <- Ei; apply first_labels_ok).
    assert (Jc : joins_well first_labels [dcols dl; dcols dr]) by (rewrite <- Ec; apply first_labels_ok).
    set (tl := mkslot lf dl rll cll). set (tr := mkslot rf dr rlr clr).
    assert (F : Forall row_rep [tl; tr]) by (repeat constructor; now apply row_rep_holds).
    destruct (@copartition_rows_ok L H A leqb heqb leqb_ok heqb_ok fill nparts min_row Hn Hmr first_labels tl [tr] jr [ix; ix] F)
      as (base & jc & lc & C1 & C2 & C3 & C4 & C5 & C6 & C7); auto.
    specialize (C6 Nl2). specialize (C7 Nl2). cbn [sf sd sl so tl] in C4, C5, C6, C7.
    unfold qc_equals. change rf with (sf tr). change lf with (sf tl) at 1. change [sf tr] with (map sf [tr]). rewrite C1.
    cbn [rbind map combine seq length fst snd nth sf sd sl so tl tr]. clear C1.
    destruct HL as [(WL & SLr & SLc & _ & _ & _ & PLr & PLc) [IL CL]].
    destruct HR as [(WR & SRr & SRc & _ & _ & _ & PRr & PRc) [IR CR]].
    assert (EL : pick_rows fill jr ix dl = dl) by now apply pick_rows_id.
    assert (ER : pick_rows fill jr ix dr = dr) by (unfold ix, jr; rewrite Ei; now apply pick_rows_id).
    rewrite EL, ER. specialize (C6 eq_refl). subst base. clear C7.
    assert (Hjc : jc = None \/ jc = Some jr) by (destruct C4 as [-> |[-> _]]; auto).
    assert (Hlc : lc = None \/ lc = Some rll) by (destruct C5 as [[-> _]| ->]; auto).
    assert (NR : nrows dr = nrows dl) by (unfold nrows; now rewrite Ei). assert (NC : ncols dr = ncols dl) by (unfold ncols; now rewrite Ec).
    assert (HL1 : holds (mkpf (cut_table rll cll dl) jc (pcols lf) lc (pcl lf)) dl rll cll) by (apply holds_intro; cbn; auto).
    assert (HR1 : holds (mkpf (cut_table rll clr dr) jc (pcols rf) lc (pcl rf)) dr rll clr) by (apply holds_intro; cbn; rewrite <- ?Ei; auto; congruence).
    destruct (construct_detail HL1 C3 Nl2) as (l1 & rl1 & cl1 & K1 & K2 & K3 & K4 & K5 & K6 & K7).
    destruct (construct_detail HR1 C3 Nr2) as (r1 & rl2 & cl2 & Q1 & Q2 & Q3 & Q4 & Q5 & Q6 & Q7).
    rewrite K1, Q1. cbn [rbind]. cbn [prl pcl pindex pcols] in *.
    assert (SAME : rl1 = rl2).
    { destruct Hyp as [Hp|[[H4 H5]|[H4 H5]]].
      - rewrite (nonzero_all_pos Hp) in *.
        destruct K7 as [(_ & _ & -> & _)|[(_ & -> & _)|(_ & _ & -> & _)]];
        destruct Q7 as [(_ & _ & -> & _)|[(_ & -> & _)|(_ & _ & -> & _)]]; auto.
      - destruct K7 as [(_ & [E|E] & -> & _)|[(E & -> & _ & _ & E' & _)|(E & E' & -> & _ & _ & E'' & _)]]; try contradiction;
        destruct Q7 as [(_ & [D|D] & -> & _)|[(D & -> & _ & _ & D' & _)|(D & D' & -> & _ & _ & D'' & _)]]; try contradiction; auto; lia.
      - destruct K7 as [(_ & _ & -> & _)|[(_ & _ & _ & _ & _ & X)|(_ & _ & _ & _ & _ & _ & X)]]; try contradiction;
        destruct Q7 as [(_ & _ & -> & _)|[(_ & _ & _ & _ & _ & X)|(_ & _ & _ & _ & _ & _ & X)]]; try contradiction; auto. }
    subst rl2.
    set (ul := mkslot l1 dl cl1 rl1). set (ur := mkslot r1 dr cl2 rl1).
    assert (F2 : Forall col_rep [ul; ur]) by (repeat constructor; apply col_rep_holds; auto).
    assert (Ex2 : Exists (fun t => so t <> []) [ul; ur]) by (now apply Exists_cons_hd).
    destruct (@copartition_cols_ok L H A leqb heqb leqb_ok heqb_ok fill nparts min_col Hn Hmc first_labels ul [ur] jcl [ixc; ixc] F2 Ex2 Jc Ecc)
      as (base2 & jc2 & lc2 & D1 & D2 & D3 & D4 & D5 & _ & _).
    change r1 with (sf ur). change l1 with (sf ul) at 1. change [sf ur] with (map sf [ur]). rewrite D1. clear D1.
    cbn [rbind map combine seq length fst snd nth sf sd sl so ul ur] in *.
    assert (EL2 : pick_cols fill jcl ixc dl = dl) by now apply pick_cols_id.
    assert (ER2 : pick_cols fill jcl ixc dr = dr) by (unfold ixc, jcl; rewrite Ec; now apply pick_cols_id).
    rewrite EL2, ER2.
    assert (Hgl : forall d : dframe, exists r rs, cut_table rl1 base2 d = r :: rs).
    { intros d. destruct (cut_table rl1 base2 d) as [|r rs] eqn:Eq; [|eauto].
      apply (f_equal (@length _)) in Eq. rewrite cut_table_length in Eq. destruct rl1; [easy|discriminate]. }
    exists rl1, base2. split; [|split; [apply K2|exact D2]].
    rewrite <- equals_blocks_ok. destruct (Hgl dl) as (? & ? & ->). destruct (Hgl dr) as (? & ? & ->). reflexivity.
  Qed.

  Lemma labelled_holds (f : pf) d rl cl : holds f d rl cl -> rl <> [] -> cl <> [] -> holds (labelled f) d rl cl.
  Proof. intros Hh Hr Hc. pose proof Hh as [G _]. unfold labelled.
    rewrite (row_labels_holds Hh Hc), (col_labels_holds Hh (or_introl Hr)), (gridded_row_lengths G Hc), (gridded_column_widths G Hr).
    destruct G as (W & S1 & S2 & -> & _ & _ & P1 & P2). apply holds_intro; auto.
    - destruct (pindex f), (prl f); auto.
    - destruct (pcols f), (pcl f); auto. Qed.
End Proofs.
