From Verif Require Import Base Table ChunkModel ChunkSpec ChunkProofs GridSpec GridModel FrameSpec GridProofs GridProofs2 GridProofs3 GridProofs4 GridProofs5 JoinSpec JoinModel JoinProofs JoinProofs2 JoinProofs3 JoinProofs4.

Section ConcatFrames.
  Context {L H A : Type}.
  Variable leqb : L -> L -> bool.
  Variable heqb : H -> H -> bool.
  Hypothesis leqb_ok : forall x y, leqb x y = true <-> x = y.
  Hypothesis heqb_ok : forall x y, heqb x y = true <-> x = y.
  Variable fill : A.
  Notation dframe := (df L H A).
  Notation pf := (@pframe L H A).
  Notation slot := (@slot L H A).

  Lemma filter_nonempty_grids (ps : list (list nat * dframe)) base : base <> [] ->
    filter (fun o => negb (gsize o =? 0)) (map (fun p => cut_table (fst p) base (snd p)) ps)
    = map (fun p => cut_table (fst p) base (snd p)) (filter (fun p => match fst p with [] => false | _ => true end) ps).
  Proof. intros Hb. induction ps as [|p ps IH]; [reflexivity|]. cbn [map filter].
    destruct (fst p) as [|x rl] eqn:E.
    - cbn. exact IH.
    - rewrite gsize_cut by easy. cbn [negb map]. rewrite E, IH. reflexivity. Qed.

  Lemma concat_drop_empty (ps : list (list nat * dframe)) base :
    concat (map (fun p => cut_table (fst p) base (snd p)) (filter (fun p => match fst p with [] => false | _ => true end) ps))
    = concat (map (fun p => cut_table (fst p) base (snd p)) ps).
  Proof. induction ps as [|p ps IH]; [reflexivity|]. cbn [map filter concat].
    destruct (fst p) as [|x rl] eqn:E; [|cbn [map concat]; now rewrite E, IH]. cbn. exact IH. Qed.

  (** The grids of the operands, aligned to the same columns, below each other. *)
  Lemma pm_concat_rows nparts known cols base (p0 : list nat * dframe) ps :
    0 < nparts -> base <> [] -> list_sum base = length cols ->
    Forall (fun p => wf (snd p) /\ dcols (snd p) = cols) (p0 :: ps) ->
    Forall (fun p => list_sum (fst p) = nrows (snd p)) (p0 :: ps) ->
    Exists (fun p => fst p <> []) (p0 :: ps) ->
    exists rl' lens,
      pm_concat leqb heqb nparts known false (cut_table (fst p0) base (snd p0)) (map (fun p => cut_table (fst p) base (snd p)) ps)
      = Ok (cut_table rl' base (stack cols (map snd (p0 :: ps))), lens)
      /\ list_sum rl' = nrows (stack cols (map snd (p0 :: ps))) /\ rl' <> []
      /\ (lens = None \/ lens = Some rl')
      /\ (3 * nparts < 2 * length (concat (map fst (p0 :: ps))) -> length rl' <= nparts).
  Proof.
    intros Hn Hb Hs F S Ex. unfold pm_concat.
    rewrite filter_nonempty_grids by assumption.
    set (keep := fun p : list nat * dframe => match fst p with [] => false | _ => true end).
    assert (E1 : (if negb (gsize (cut_table (fst p0) base (snd p0)) =? 0)
                  then cut_table (fst p0) base (snd p0) :: map (fun p => cut_table (fst p) base (snd p)) (filter keep ps)
                  else map (fun p => cut_table (fst p) base (snd p)) (filter keep ps))
                 = map (fun p => cut_table (fst p) base (snd p)) (filter keep (p0 :: ps))).
    { cbn [filter]. unfold keep at 3. destruct (fst p0) as [|x rl] eqn:E; [reflexivity|].
      rewrite gsize_cut by easy. cbn [negb map]. now rewrite E. }
    rewrite E1. clear E1.
    destruct (filter keep (p0 :: ps)) as [|q qs] eqn:Eq.
    { exfalso. apply Exists_exists in Ex as (p & Hp & Hne).
      assert (Hin : In p (filter keep (p0 :: ps))). { apply filter_In. split; [assumption|]. unfold keep. now destruct (fst p). }
      rewrite Eq in Hin. inversion Hin. }
    assert (NP : np_concatenate false (map (fun p => cut_table (fst p) base (snd p)) (q :: qs))
                 = Ok (concat (map (fun p => cut_table (fst p) base (snd p)) (q :: qs)))).
    { unfold np_concatenate. cbn [map].
      rewrite (proj2 (forallb_forall _ _)); [reflexivity|]. intros g Hg.
      assert (W : forall p, In p (q :: qs) -> grid_width (cut_table (fst p) base (snd p)) = length base).
      { intros p Hp. rewrite <- Eq in Hp. apply filter_In in Hp as [_ Hp]. unfold keep in Hp.
        apply cut_table_width. intros E. now rewrite E in Hp. }
      change (In g (map (fun p => cut_table (fst p) base (snd p)) (q :: qs))) in Hg.
      apply in_map_iff in Hg as (p & <- & Hp). rewrite (W p Hp), (W q (or_introl eq_refl)). apply Nat.eqb_refl. }
    cbn [map] in NP |- *. rewrite NP. cbn [rbind]. clear NP.
    change (cut_table (fst q) base (snd q) :: map (fun p => cut_table (fst p) base (snd p)) qs)
      with (map (fun p => cut_table (fst p) base (snd p)) (q :: qs)).
    rewrite <- Eq. unfold keep. rewrite concat_drop_empty.
    destruct (@cut_stack L H A cols base (p0 :: ps) F S) as [C1 C2]. rewrite C1.
    change (snd p0 :: map snd ps) with (map snd (p0 :: ps)).
    destruct (@rebalance_ok L H A leqb heqb heqb_ok (stack cols (map snd (p0 :: ps))) base nparts known (concat (map fst (p0 :: ps))))
      as (rl' & lens & R1 & R2 & R3 & R4 & R5 & R6 & R7 & _); auto.
    - apply stack_wf. now apply Forall_map.
    - intros E0. apply Exists_exists in Ex as (p & Hp & Hne). destruct (fst p) as [|x rl] eqn:Ep; [easy|].
      apply (f_equal (@length nat)) in E0. rewrite map_length_concat in E0.
      assert (In (length (fst p)) (map (@length nat) (map fst (p0 :: ps)))) by now apply in_map, in_map.
      rewrite Ep in H0. apply in_split in H0 as (l1 & l2 & E2). rewrite E2, list_sum_app in E0. cbn in E0. lsum. lia.
    - exists rl', lens. auto.
  Qed.

  (** The operands of a concatenation: frame, table, row lengths, column widths. *)
  Definition good_row_operand (t : slot) : Prop :=
    holds (sf t) (sd t) (so t) (sl t) /\ sl t <> [] /\ (so t <> [] \/ pcols (sf t) <> None).

  Lemma good_col_rep t : good_row_operand t -> col_rep t.
  Proof. intros (Hh & Hl & Ho). destruct t as [f d l o]. now apply (col_rep_holds Hh). Qed.

  Lemma concat_rows_is_copartition join nparts min_col (self : pf) others :
    (if forallb (axes_identical heqb col_labels (@column_widths L H A) self) others
     then Ok (map pgrid (self :: others), pcols self, pcl self)
     else copartition_cols leqb heqb fill join nparts min_col self others)
    = copartition_cols leqb heqb fill join nparts min_col self others.
  Proof. unfold copartition_cols, copartition. now destruct (forallb _ others). Qed.

  Lemma concat_cols_is_copartition join nparts min_row (self : pf) others :
    (if forallb (axes_identical leqb row_labels (@row_lengths L H A) self) others
     then Ok (map pgrid (self :: others), pindex self, prl self)
     else copartition_rows leqb heqb fill join nparts min_row self others)
    = copartition_rows leqb heqb fill join nparts min_row self others.
  Proof. unfold copartition_rows, copartition. now destruct (forallb _ others). Qed.

  Lemma Forall2_map_both {X Y Z} (R : Y -> Z -> Prop) (f : X -> Y) (g : X -> Z) l :
    (forall x, In x l -> R (f x) (g x)) -> Forall2 R (map f l) (map g l).
  Proof. induction l as [|x l IH]; intros Hf; cbn; constructor; [apply Hf; now left|apply IH; intros; apply Hf; now right]. Qed.

  Lemma combine_seq_snd {X Y} (f : X -> Y) k (ts : list X) : map (fun it => f (snd it)) (combine (seq k (length ts)) ts) = map f ts.
  Proof. revert k. induction ts as [|t ts IH]; intros k; [reflexivity|]. cbn. now rewrite IH. Qed.

  Lemma in_combine_seq {X} k (ts : list X) it : In it (combine (seq k (length ts)) ts) -> nth_error ts (fst it - k) = Some (snd it) /\ k <= fst it.
  Proof. revert k. induction ts as [|t ts IH]; intros k; cbn; [easy|]. intros [<-|Hi]; cbn.
    - now rewrite Nat.sub_diag.
    - destruct (IH _ Hi) as [I1 I2]. split; [|lia]. replace (fst it - k) with (S (fst it - S k)) by lia. exact I1. Qed.

  Lemma jio_len {X} xeqb (xeqb_ok : forall x y : X, xeqb x y = true <-> x = y) join labs joined ixs i lab :
    joins_well join labs -> join_index_objects xeqb join labs = (joined, ixs) -> nth_error labs i = Some lab ->
    length (nth i ixs []) = length joined.
  Proof. intros Hj E Hl.
    destruct (@jio_ok X xeqb xeqb_ok join labs joined ixs Hj E) as [J1 J2]; [intros ->; now destruct i|].
    destruct (nth_error ixs i) as [ix|] eqn:Ei.
    - rewrite (nth_error_nth _ _ _ Ei). now apply (J2 _ _ _ Hl Ei).
    - apply nth_error_None in Ei. assert (i < length labs) by (apply nth_error_Some; congruence). lia. Qed.

  Theorem concat_rows_ok join nparts min_col known first_known (t0 : slot) ts joined ixs :
    0 < nparts -> 0 < min_col ->
    Forall good_row_operand (t0 :: ts) -> Exists (fun t => so t <> []) (t0 :: ts) ->
    joins_well join (map (fun t => dcols (sd t)) (t0 :: ts)) ->
    join_index_objects heqb join (map (fun t => dcols (sd t)) (t0 :: ts)) = (joined, ixs) ->
    exists f' rl' cl',
      concat_frames_rows leqb heqb fill join nparts min_col known first_known (sf t0) (map sf ts) = Ok f'
      /\ holds f' (stack joined (map (fun it => pick_cols fill joined (nth (fst it) ixs []) (sd (snd it)))
                                     (combine (seq 0 (length (t0 :: ts))) (t0 :: ts)))) rl' cl'
      /\ rl' <> [] /\ cl' <> []
      /\ (Forall (fun t => pindex (sf t) <> None) (t0 :: ts) -> pindex f' <> None)
      /\ (pcols (sf t0) <> None -> pcols f' <> None).
  Proof.
    intros Hn Hm F Ex Hj E.
    assert (Fr : Forall col_rep (t0 :: ts)) by (eapply Forall_impl; [|exact F]; apply good_col_rep).
    destruct (@copartition_cols_ok L H A leqb heqb leqb_ok heqb_ok fill nparts min_col Hn Hm join t0 ts joined ixs Fr Ex Hj E)
      as (base & jc & lc & C1 & C2 & C3 & C4 & C5 & _ & _).
    unfold concat_frames_rows. rewrite concat_rows_is_copartition, C1. cbn [rbind].
    set (its := combine (seq 0 (length (t0 :: ts))) (t0 :: ts)) in *.
    set (Ai := fun it : nat * slot => pick_cols fill joined (nth (fst it) ixs []) (sd (snd it))) in *.
    set (ps := map (fun it => (so (snd it), Ai it)) its).
    assert (Egr : map (fun it => cut_table (so (snd it)) base (pick_cols fill joined (nth (fst it) ixs []) (sd (snd it)))) its = map (fun p => cut_table (fst p) base (snd p)) ps).
    { unfold ps. rewrite map_map. reflexivity. }
    assert (Hits : forall it, In it its -> nth_error (t0 :: ts) (fst it) = Some (snd it)).
    { intros it Hi. apply in_combine_seq in Hi as [Hi _]. now rewrite Nat.sub_0_r in Hi. }
    assert (Hlen : forall it, In it its -> length (nth (fst it) ixs []) = length joined).
    { intros it Hi. eapply (@jio_len _ heqb heqb_ok); [exact Hj|exact E|]. rewrite nth_error_map, (Hits _ Hi). reflexivity. }
    assert (Wt : forall it, In it its -> wf (sd (snd it)) /\ list_sum (so (snd it)) = nrows (sd (snd it))).
    { intros it Hi. apply Hits, nth_error_In in Hi. rewrite Forall_forall in F. apply F in Hi as ([(W & Sr & _) _] & _). auto. }
    assert (P1 : Forall (fun p => wf (snd p) /\ dcols (snd p) = joined) ps).
    { unfold ps. apply Forall_map. apply Forall_forall. intros it Hi. cbn. split; [|reflexivity].
      apply pick_cols_wf; [now apply Hlen|now apply Wt]. }
    assert (P2 : Forall (fun p => list_sum (fst p) = nrows (snd p)) ps).
    { unfold ps. apply Forall_map. apply Forall_forall. intros it Hi. cbn. destruct (Wt it Hi) as [_ ->]. reflexivity. }
    assert (P3 : Exists (fun p => fst p <> []) ps).
    { unfold ps. rewrite Exists_exists in *. destruct Ex as (t & Ht & Hne). apply In_nth_error in Ht as [i Hi].
      assert (Hin := nth_error_combine_seq 0 _ _ Hi). cbn in Hin. apply nth_error_In in Hin.
      exists (so t, Ai (i, t)). split; [|exact Hne]. apply in_map_iff. exists (i, t). auto. }
    assert (Eits : exists it0 its', its = it0 :: its') by (unfold its; cbn; eauto).
    destruct Eits as (it0 & its' & Eits). rewrite Egr. unfold ps in Egr, P1, P2, P3 |- *. rewrite Eits in P1, P2, P3 |- *.
    cbn [map] in P1, P2, P3 |- *. clear Egr ps.
    destruct (@pm_concat_rows nparts known joined base _ _ Hn C3 C2 P1 P2 P3) as (rl1 & lens & M1 & M2 & M3 & M4 & M5).
    rewrite M1. cbn [rbind]. clear M1 M5.
    cbn [map snd] in M2 |- *. rewrite map_map in M2 |- *. cbn [snd] in M2 |- *.
    change (Ai it0 :: map (fun x => Ai x) its') with (map Ai (it0 :: its')) in *. rewrite <- Eits in *.
    set (D := stack joined (map Ai its)) in *.
    rewrite gsize_cut by assumption.
    assert (WD : wf D).
    { unfold D. apply stack_wf. apply Forall_map. apply Forall_forall. intros it Hi. split; [|reflexivity].
      apply pick_cols_wf; [now apply Hlen|now apply Wt]. }
    match goal with |- context [construct (mkpf _ _ _ ?nl _)] => set (nl1 := nl) end.
    assert (Hnl : nl1 = None \/ nl1 = Some rl1).
    { unfold nl1. rewrite (first_col_lengths rl1 D C3 M2).
      destruct M4 as [-> | ->]; [destruct first_known; auto|]. destruct rl1; [easy|auto]. }
    clearbody nl1.
    assert (EDi : dindex D = concat (map (fun t => dindex (sd t)) (t0 :: ts))).
    { unfold D, stack; cbn [dindex]. rewrite map_map. cbn [dindex Ai pick_cols]. f_equal.
      unfold its. exact (combine_seq_snd (fun t => dindex (sd t)) 0 (t0 :: ts)). }
    change (sf t0 :: map sf ts) with (map sf (t0 :: ts)). rewrite (map_map sf).
    assert (F2 : Forall2 (fun o l => o = None \/ o = Some l) (map (fun t => pindex (sf t)) (t0 :: ts)) (map (fun t => dindex (sd t)) (t0 :: ts))).
    { apply Forall2_map_both. intros t Ht. rewrite Forall_forall in F. apply F in Ht as ([_ [Hi _]] & _). exact Hi. }
    pose proof (all_some_spec F2) as Has.
    set (idxc := all_some _) in *.
    assert (Hh : holds (mkpf (cut_table rl1 base D) idxc jc nl1 lc) D rl1 base).
    { apply holds_intro; cbn [pgrid pindex pcols prl pcl]; auto.
      - rewrite EDi. exact Has.
      - destruct C4 as [-> | [-> _]]; auto.
      - destruct C5 as [[-> _] | ->]; auto. }
    destruct (construct_holds Hh M3 C3) as (f' & rl' & cl' & K1 & K2 & K3 & K4 & K5 & K6).
    exists f', rl', cl'. split; [exact K1|]. split; [unfold D in K2; rewrite Eits in K2; exact K2|]. repeat split; auto.
    - intros Fi. rewrite K5. cbn [pindex]. unfold idxc. clear - Fi. induction Fi as [|t l Ht _ IH]; cbn; [easy|].
      unfold all_some in IH. destruct (pindex (sf t)); [|easy]. now destruct (fold_right _ _ _).
    - intros Hp. rewrite K6. cbn [pcols]. destruct C4 as [-> | [_ C4]]; [easy|congruence].
  Qed.

  Definition good_operand (t : slot) : Prop :=
    holds (sf t) (sd t) (sl t) (so t) /\ sl t <> [] /\ so t <> [].

  Theorem concat_cols_ok join nparts min_row first_known (t0 : slot) ts joined ixs :
    0 < nparts -> 0 < min_row ->
    Forall good_operand (t0 :: ts) ->
    joins_well join (map (fun t => dindex (sd t)) (t0 :: ts)) ->
    join_index_objects leqb join (map (fun t => dindex (sd t)) (t0 :: ts)) = (joined, ixs) ->
    exists f' rl' cl',
      concat_frames_cols leqb heqb fill join nparts min_row first_known (sf t0) (map sf ts) = Ok f'
      /\ holds f' (glue joined (map (fun it => pick_rows fill joined (nth (fst it) ixs []) (sd (snd it)))
                                     (combine (seq 0 (length (t0 :: ts))) (t0 :: ts)))) rl' cl'
      /\ rl' <> [] /\ cl' <> []
      /\ (Forall (fun t => pcols (sf t) <> None) (t0 :: ts) -> pcols f' <> None)
      /\ (pindex (sf t0) <> None -> pindex f' <> None).
  Proof.
    intros Hn Hm F Hj E.
    assert (Fr : Forall row_rep (t0 :: ts)).
    { eapply Forall_impl; [|exact F]. intros t (Hh & Hl & Ho). destruct t. now apply (row_rep_holds Hh). }
    assert (Ex : Exists (fun t => so t <> []) (t0 :: ts)).
    { apply Exists_cons_hd. apply Forall_cons_iff in F as [(_ & _ & Ho) _]. exact Ho. }
    destruct (@copartition_rows_ok L H A leqb heqb leqb_ok heqb_ok fill nparts min_row Hn Hm join t0 ts joined ixs Fr Ex Hj E)
      as (base & jc & lc & C1 & C2 & C3 & C4 & C5 & _ & _).
    unfold concat_frames_cols. rewrite concat_cols_is_copartition, C1. cbn [rbind].
    set (its := combine (seq 0 (length (t0 :: ts))) (t0 :: ts)) in *.
    set (Ai := fun it : nat * slot => pick_rows fill joined (nth (fst it) ixs []) (sd (snd it))) in *.
    set (ps := map (fun it => (so (snd it), Ai it)) its).
    assert (Egr : map (fun it => cut_table base (so (snd it)) (pick_rows fill joined (nth (fst it) ixs []) (sd (snd it)))) its = map (fun p => cut_table base (fst p) (snd p)) ps).
    { unfold ps. rewrite map_map. reflexivity. }
    assert (Hits : forall it, In it its -> nth_error (t0 :: ts) (fst it) = Some (snd it)).
    { intros it Hi. apply in_combine_seq in Hi as [Hi _]. now rewrite Nat.sub_0_r in Hi. }
    assert (Hlen : forall it, In it its -> length (nth (fst it) ixs []) = length joined).
    { intros it Hi. eapply (@jio_len _ leqb leqb_ok); [exact Hj|exact E|]. rewrite nth_error_map, (Hits _ Hi). reflexivity. }
    assert (Wt : forall it, In it its -> wf (sd (snd it)) /\ list_sum (so (snd it)) = ncols (sd (snd it)) /\ so (snd it) <> []).
    { intros it Hi. apply Hits, nth_error_In in Hi. rewrite Forall_forall in F. apply F in Hi as ([(W & _ & Sc & _) _] & _ & Ho). auto. }
    assert (P1 : Forall (fun p => wf (snd p) /\ dindex (snd p) = joined) ps).
    { unfold ps. apply Forall_map. apply Forall_forall. intros it Hi. cbn. split; [|reflexivity].
      apply pick_rows_wf; [now apply Hlen|now apply Wt]. }
    assert (P2 : Forall (fun p => list_sum (fst p) = ncols (snd p)) ps).
    { unfold ps. apply Forall_map. apply Forall_forall. intros it Hi. cbn. destruct (Wt it Hi) as (_ & -> & _). reflexivity. }
    assert (P3 : Forall (fun p => fst p <> []) ps).
    { unfold ps. apply Forall_map. apply Forall_forall. intros it Hi. cbn. now apply Wt. }
    assert (PMC : match map (fun it => cut_table base (so (snd it)) (pick_rows fill joined (nth (fst it) ixs []) (sd (snd it)))) its with
                  | l :: rs => pm_concat leqb heqb nparts false true l rs | [] => Err InternalBug end
                  = Ok (cut_table base (concat (map fst ps)) (glue joined (map snd ps)), None)).
    { rewrite Egr. assert (Eps : exists q qs, ps = q :: qs) by (unfold ps, its; cbn; eauto).
      destruct Eps as (q & qs & Eps). rewrite Eps in P1, P2, P3 |- *. cbn [map].
      unfold pm_concat.
      rewrite (@gsize_cut L H A base (fst q) (snd q)); [|assumption|now apply Forall_cons_iff in P3]. cbn [negb].
      rewrite filter_all_true.
      2:{ apply forallb_forall. intros g Hg. apply in_map_iff in Hg as (p & <- & Hp).
          rewrite gsize_cut; auto. rewrite Forall_forall in P3. apply P3. now right. }
      unfold np_concatenate. cbv beta iota.
      change (cut_table base (fst q) (snd q) :: map (fun p => cut_table base (fst p) (snd p)) qs)
        with (map (fun p => cut_table base (fst p) (snd p)) (q :: qs)).
      rewrite (proj2 (forallb_forall _ _)).
      2:{ intros g Hg. apply in_map_iff in Hg as (p & <- & Hp). rewrite !cut_table_length. apply Nat.eqb_refl. }
      cbn [rbind]. rewrite cut_table_length.
      now rewrite (proj1 (@cut_glue L H A joined base (q :: qs) P1 P2)). }
    rewrite PMC. cbn [rbind]. clear PMC.
    pose proof (proj2 (@cut_glue L H A joined base ps P1 P2)) as M2.
    assert (Esn : map snd ps = map Ai its) by (unfold ps; rewrite map_map; reflexivity).
    assert (Efs : map fst ps = map (fun t => so t) (t0 :: ts)).
    { unfold ps. rewrite map_map. cbn [fst]. unfold its. exact (combine_seq_snd (fun t => so t) 0 (t0 :: ts)). }
    rewrite Esn in *. set (D := glue joined (map Ai its)) in *. set (wid := concat (map fst ps)) in *.
    assert (Wne : wid <> []).
    { unfold wid. rewrite Efs. cbn [map concat]. apply Forall_cons_iff in F as [(_ & _ & Ho) _]. destruct (so t0); [easy|]. easy. }
    rewrite gsize_cut by assumption.
    assert (WD : wf D).
    { unfold D. apply glue_wf. rewrite <- Esn. now apply Forall_map. }
    assert (EDc : dcols D = concat (map (fun t => dcols (sd t)) (t0 :: ts))).
    { unfold D, glue; cbn [dcols]. rewrite map_map. cbn [dcols Ai pick_rows]. f_equal.
      unfold its. exact (combine_seq_snd (fun t => dcols (sd t)) 0 (t0 :: ts)). }
    change (sf t0 :: map sf ts) with (map sf (t0 :: ts)). rewrite !(map_map sf).
    assert (F2 : Forall2 (fun o l => o = None \/ o = Some l) (map (fun t => pcols (sf t)) (t0 :: ts)) (map (fun t => dcols (sd t)) (t0 :: ts))).
    { apply Forall2_map_both. intros t Ht. rewrite Forall_forall in F. apply F in Ht as ([_ [_ Hi]] & _). exact Hi. }
    pose proof (all_some_spec F2) as Has.
    assert (F3 : Forall2 (fun o l => o = None \/ o = Some l) (map (fun t => pcl (sf t)) (t0 :: ts)) (map (fun t => so t) (t0 :: ts))).
    { apply Forall2_map_both. intros t Ht. rewrite Forall_forall in F. apply F in Ht as ([(_ & _ & _ & _ & _ & _ & _ & Hi) _] & _). exact Hi. }
    pose proof (all_some_spec F3) as Hww. rewrite <- Efs in Hww. fold wid in Hww.
    set (colc := all_some (map (fun t => pcols (sf t)) (t0 :: ts))) in *.
    set (widc := all_some (map (fun t => pcl (sf t)) (t0 :: ts))) in *.
    match goal with |- context [construct (mkpf _ _ _ _ ?nl)] => set (nw := nl) end.
    assert (Hnw : nw = None \/ nw = Some wid).
    { unfold nw. rewrite (first_row_widths wid D C3 M2).
      destruct Hww as [-> | ->]; [destruct first_known; auto|]. destruct wid; [easy|auto]. }
    clearbody nw.
    assert (Elc : (match lc with Some _ => lc | None => None end) = lc) by now destruct lc. rewrite Elc.
    assert (Hh : holds (mkpf (cut_table base wid D) jc colc lc nw) D base wid).
    { apply holds_intro; cbn [pgrid pindex pcols prl pcl]; auto.
      - destruct C4 as [-> | [-> _]]; auto.
      - rewrite EDc. exact Has.
      - destruct C5 as [[-> _] | ->]; auto. }
    destruct (construct_holds Hh C3 Wne) as (f' & rl' & cl' & K1 & K2 & K3 & K4 & K5 & K6).
    exists f', rl', cl'. split; [exact K1|]. split; [exact K2|]. repeat split; auto.
    - intros Fi. rewrite K6. cbn [pcols]. unfold colc. clear - Fi. induction Fi as [|t l Ht _ IH]; cbn; [easy|].
      unfold all_some in IH. destruct (pcols (sf t)); [|easy]. now destruct (fold_right _ _ _).
    - intros Hp. rewrite K5. cbn [pindex]. destruct C4 as [-> | [_ C4]]; [easy|congruence].
  Qed.
End ConcatFrames.
