From Verif Require Import Base Table ChunkModel ChunkSpec ChunkProofs GridModel GridSpec FrameSpec
  GridProofs GridProofs2 GridProofs3 GridProofs5 JoinModel JoinProofs3 GroupSpec
  MergeSpec MergeModel MergeProofs2 MergeProofs3 ResetModel ResetProofs FilProofs2 ExplProofs ExplProofs2 JonSpec JonModel.

Lemma rmap_all_err {X Y} (f : X -> res Y) l e : l <> [] -> (forall x, In x l -> f x = Err e) -> rmap f l = Err e.
Proof. destruct l as [|x l]; [easy|]. intros _ F. cbn. rewrite F by now left. reflexivity. Qed.

Section Proofs.
  Context {L H A : Type}.
  Variable leqb : L -> L -> bool.
  Variable heqb : H -> H -> bool.
  Hypothesis leqb_ok : forall x y, leqb x y = true <-> x = y.
  Hypothesis heqb_ok : forall x y, heqb x y = true <-> x = y.
  Notation dframe := (df L H A).
  Notation pf := (@pframe L H A).

  Definition tbl (c : list H) (js : list (L * list A)) : dframe := mkdf (map fst js) c (map snd js).

  Lemma vcat_tbl c (g : L * list A -> list (L * list A)) xs lens : list_sum lens = length xs ->
    vcat c (map (fun ri => tbl c (flat_map g (slice xs (fst ri) (snd ri)))) (bounds 0 lens)) = tbl c (flat_map g xs).
  Proof. intros E. assert (X : concat (map (fun ri => flat_map g (slice xs (fst ri) (snd ri))) (bounds 0 lens)) = flat_map g xs).
    { rewrite flat_map_concat_map, <- (concat_pieces (map g xs) lens) by now rewrite map_length. f_equal. apply map_ext. intros ri.
      rewrite flat_map_concat_map. f_equal. unfold slice. now rewrite skipn_map, firstn_map. }
    unfold vcat, tbl. rewrite <- X, !concat_map, !map_map. reflexivity. Qed.

  Lemma wf_tbl c (js : list (L * list A)) : Forall (fun x => length (snd x) = length c) js -> wf (tbl c js).
  Proof. intros F. split; cbn [tbl dindex dcells dcols]; [now rewrite !map_length|]. now apply Forall_map. Qed.

  Lemma broadcast_ok min_col (func : dframe -> dframe -> res dframe) (other f : pf) (d r : dframe) rl cl k c (R : nat * nat -> dframe) :
    holds f d rl cl -> rl <> [] -> cl <> [] -> 0 < min_col -> 0 < k ->
    (do rows <- rmap (concat_axis leqb heqb true) (extract_partitions other); concat_axis leqb heqb false rows) = Ok r ->
    (forall ri, In ri (bounds 0 rl) -> func (iloc_rows d (fst ri) (snd ri)) r = Ok (R ri) /\ wf (R ri) /\ dcols (R ri) = c) ->
    exists f' rl' cl', broadcast_labelled leqb heqb min_col func other k f = Ok f'
      /\ holds f' (vcat c (map R (bounds 0 rl))) rl' cl' /\ rl' <> [] /\ cl' <> [].
  Proof.
    intros [G _] Hr Hc Hm Hk Er F. destruct G as (W & Sr & Sc & Hg & _). unfold broadcast_labelled. rewrite Hg.
    destruct (rmap (concat_axis leqb heqb true) (extract_partitions other)) as [rs|] eqn:Ers; [|discriminate].
    cbn [rbind] in Er |- *. set (lens := eff_lens (length c) k min_col None).
    unfold cut_table at 1.
    rewrite (rmap_map_ok _ _ (fun ri => map (fun ci => iloc_cols (R ri) (fst ci) (snd ci)) (bounds 0 lens))).
    2:{ intros ri I. destruct (F ri I) as (E & WR & CR).
      rewrite (concat_cols_blocks_bounds leqb heqb leqb_ok) by assumption. cbn [rbind]. rewrite Er. cbn [rbind].
      rewrite Nat.add_0_l, Sc, block_cols_full by assumption. rewrite E. cbn [rbind]. rewrite split_eff by auto.
      unfold axis_size, ncols. now rewrite CR. }
    cbn [rbind].
    assert (FR : Forall (fun t => wf t /\ dcols t = c) (map R (bounds 0 rl))).
    { apply Forall_forall. intros t I. apply in_map_iff in I as (ri & <- & I). now apply F. }
    replace (map _ (bounds 0 rl)) with (map (fun t => map (fun ci => iloc_cols t (fst ci) (snd ci)) (bounds 0 lens)) (map R (bounds 0 rl))) by now rewrite map_map.
    rewrite (cut_vcat lens FR). set (D := vcat _ _). set (rows := map (@nrows L H A) _).
    destruct (@eff_lens_sum (length c) k min_col None) as [Sl Ll]; auto; [discriminate|]. fold lens in Sl, Ll.
    assert (Hrows : rows <> []). { unfold rows. intros E. apply map_eq_nil, map_eq_nil in E. now apply bounds_nil_iff in E. }
    assert (Hl : lens <> []) by (intros X; rewrite X in Ll; cbn in Ll; lia).
    destruct (@construct_gridded L H A (mkpf (cut_table rows lens D) None None None None) D rows lens) as (f' & rl' & cl' & E & G' & N1 & N2 & I1 & I2); auto.
    { unfold gridded. cbn [pgrid pindex pcols prl pcl]. split; [now apply wf_vcat|]. split; [symmetry; apply nrows_vcat|].
      split; [exact Sl|]. split; [reflexivity|]. repeat split; auto; discriminate. }
    exists f', rl', cl'. split; [exact E|]. split; [|auto]. split; [exact G'|]. rewrite I1, I2. cbn [pindex pcols]. auto. Qed.

  Lemma broadcast_err min_col (func : dframe -> dframe -> res dframe) (other f : pf) (d r : dframe) rl cl k e :
    holds f d rl cl -> rl <> [] -> cl <> [] ->
    (do rows <- rmap (concat_axis leqb heqb true) (extract_partitions other); concat_axis leqb heqb false rows) = Ok r ->
    (forall ri, In ri (bounds 0 rl) -> func (iloc_rows d (fst ri) (snd ri)) r = Err e) ->
    broadcast_labelled leqb heqb min_col func other k f = Err e.
  Proof.
    intros [G _] Hr Hc Er F. destruct G as (W & Sr & Sc & Hg & _). unfold broadcast_labelled. rewrite Hg.
    destruct (rmap (concat_axis leqb heqb true) (extract_partitions other)) as [rs|] eqn:Ers; [|discriminate]. cbn [rbind] in Er |- *.
    rewrite (@rmap_all_err _ _ _ _ e); [reflexivity| |].
    - unfold cut_table. intros E. apply map_eq_nil in E. now apply bounds_nil_iff in E.
    - intros b I. unfold cut_table in I. apply in_map_iff in I as (ri & <- & I).
      rewrite (concat_cols_blocks_bounds leqb heqb leqb_ok) by assumption. cbn [rbind]. rewrite Er. cbn [rbind].
      rewrite Nat.add_0_l, Sc, block_cols_full by assumption. now rewrite F. Qed.

  Variable nan : A.
  Variable is_label : A -> L -> bool.
  Variable label_cell : L -> A.
  Variable nolabel : L.
  Variable names : list H -> list H -> res (list H).
  Hypothesis names_length : forall a b c, names a b = Ok c -> length c = length a + length b.
  Notation left_rows := (left_rows heqb nan is_label).
  Notation right_rows := (right_rows heqb nan is_label label_cell nolabel).
  Notation p_join := (p_join heqb nan is_label label_cell nolabel names).
  Notation qc_join := (qc_join leqb heqb nan is_label label_cell nolabel names).

  Lemma rows_width (d : dframe) x : wf d -> In x (rows d) -> length (snd x) = ncols d.
  Proof. intros [_ W] I. destruct x as [a b]. apply in_combine_r in I. rewrite Forall_forall in W. now apply W. Qed.
  Lemma rows_iloc (d : dframe) lo hi : rows (iloc_rows d lo hi) = slice (rows d) lo hi.
  Proof. unfold rows, iloc_rows. cbn [dindex dcells]. apply combine_slice. Qed.

  Lemma left_width inner (dl dr : dframe) on x : wf dr -> length (snd x) = ncols dl ->
    Forall (fun y => length (snd y) = ncols dl + ncols dr) (left_rows inner (dcols dl) on dr x).
  Proof. clear. intros W E. apply Forall_forall. intros y I. unfold JonSpec.left_rows in I.
    destruct (filter _ (rows dr)) as [|z zs] eqn:Ef.
    - destruct inner; [easy|]. destruct I as [<-|[]]. cbn. rewrite app_length, repeat_length. congruence.
    - rewrite <- Ef in I. apply in_map_iff in I as (z' & <- & I). apply filter_In in I as [I _]. cbn. rewrite app_length, (@rows_width dr z' W I). congruence. Qed.
  Lemma right_width (dl dr : dframe) on y : wf dl -> length (snd y) = ncols dr ->
    Forall (fun z => length (snd z) = ncols dl + ncols dr) (right_rows dl on y).
  Proof. clear. intros W E. apply Forall_forall. intros z I. unfold JonSpec.right_rows in I.
    destruct (filter _ (rows dl)) as [|x xs] eqn:Ef.
    - destruct I as [<-|[]]. cbn. rewrite app_length, map_length. unfold ncols in *. congruence.
    - rewrite <- Ef in I. apply in_map_iff in I as (x' & <- & I). apply filter_In in I as [I _]. cbn. rewrite app_length, (@rows_width dl x' W I). congruence. Qed.

  (** a function that works row by row on the driving side, whose errors depend on the headers only *)
  Lemma rowwise_ok nparts min_col (func : dframe -> dframe -> res dframe) (a b : pf) (da db : dframe) rla cla rlb clb (hdr : res (list H)) g :
    holds a da rla cla -> holds b db rlb clb -> rla <> [] -> cla <> [] -> rlb <> [] -> clb <> [] ->
    0 < ncols da -> 0 < ncols db -> 0 < nparts -> 0 < min_col ->
    (forall d, wf d -> dcols d = dcols da -> func d db = (do c <- hdr; Ok (tbl c (flat_map g (rows d))))) ->
    (forall c x, hdr = Ok c -> length (snd x) = ncols da -> Forall (fun y => length (snd y) = length c) (g x)) ->
    match func da db with
    | Ok t => exists f', (do o <- combine_frame leqb heqb b; do n <- merge_partitioning nparts min_col (pcl a) (pcl b) (pgrid a) (pgrid b);
                          broadcast_labelled leqb heqb min_col func o n a) = Ok f' /\ look leqb heqb f' = Ok t
    | Err e => (do o <- combine_frame leqb heqb b; do n <- merge_partitioning nparts min_col (pcl a) (pcl b) (pgrid a) (pgrid b);
                          broadcast_labelled leqb heqb min_col func o n a) = Err e
    end.
  Proof.
    clear names names_length. intros Ha Hb Ra Ca Rb Cb Pa Pb Pn Pm F Wd.
    destruct (operand_ok leqb heqb leqb_ok heqb_ok Hb Pb) as (o & Eo & Er); [easy|].
    destruct (@width_splits L H A (fun _ _ => true) nan (fun _ h => h) nparts min_col a b da db rla cla rlb clb (proj1 Ha) (proj1 Hb)) as (n & En & Pn'); auto.
    rewrite Eo. cbn [rbind]. rewrite En. cbn [rbind].
    assert (Ha' := Ha). destruct Ha' as [(W & Sr & Sc & _) _].
    rewrite (F da W eq_refl). destruct hdr as [c|e]; cbn [rbind].
    - destruct (@broadcast_ok min_col func o a da db rla cla n c (fun ri => tbl c (flat_map g (slice (rows da) (fst ri) (snd ri))))) as (f' & rl' & cl' & E & Hh & N1 & N2); auto.
      + intros ri _. rewrite F by (auto; apply wf_iloc_rows; auto). rewrite rows_iloc. split; [reflexivity|]. split; [|reflexivity].
        apply wf_tbl. apply Forall_forall. intros y I. apply in_flat_map in I as (x & I & J).
        assert (X : In x (rows da)). { now apply slice_incl in I. }
        specialize (Wd c x eq_refl (@rows_width da x W X)). rewrite Forall_forall in Wd. now apply Wd.
      + exists f'. split; [exact E|]. rewrite vcat_tbl in Hh.
        * now apply (look_holds leqb heqb leqb_ok heqb_ok Hh).
        * unfold rows. rewrite combine_length. destruct W as [W1 _]. unfold nrows in Sr. lia.
    - apply (@broadcast_err min_col func o a da db rla cla n e); auto.
      intros ri _. rewrite F by (auto; apply wf_iloc_rows; auto). reflexivity. Qed.

  Lemma qc_join_ok nparts min_row min_col h on (l r : pf) (dl dr : dframe) rll cll rlr clr :
    holds l dl rll cll -> holds r dr rlr clr -> rll <> [] -> cll <> [] -> rlr <> [] -> clr <> [] ->
    0 < ncols dl -> 0 < ncols dr -> 0 < nparts -> 0 < min_col ->
    match p_join h on dl dr with
    | Ok t => exists f', qc_join nparts min_row min_col h on l r = Ok f' /\ look leqb heqb f' = Ok t
    | Err e => qc_join nparts min_row min_col h on l r = Err e
    end.
  Proof.
    intros Hl Hr Rl Cl Rr Cr Pl Pr Pn Pm.
    assert (Wl : wf dl) by apply Hl. assert (Wr : wf dr) by apply Hr.
    set (hdr := match filter (heqb on) (dcols dl) with [] => Err KeyError | [_] => names (dcols dl) (dcols dr) | _ => Err ValueError end).
    assert (Hn : forall c, hdr = Ok c -> length c = ncols dl + ncols dr).
    { intros c. unfold hdr. destruct (filter _ _) as [|? [|? ?]]; try discriminate. apply names_length. }
    assert (Gs : gsize (pgrid r) =? 0 = false).
    { destruct Hr as [(_ & _ & _ & E & _) _]. rewrite E. apply Nat.eqb_neq. unfold gsize, cut_table. destruct rlr as [|x xs]; [easy|]. destruct clr as [|y ys]; [easy|]. cbn. lia. }
    unfold JonModel.qc_join. rewrite Gs. destruct h; cbn [andb].
    - refine (@rowwise_ok nparts min_col (p_join HLeft on) l r dl dr rll cll rlr clr hdr (left_rows false (dcols dl) on dr) Hl Hr Rl Cl Rr Cr Pl Pr Pn Pm _ _).
      + intros d W E. unfold JonSpec.p_join, hdr, joined. rewrite E. destruct (filter _ _) as [|? [|? ?]]; try reflexivity.
      + intros c x Ec Ex. rewrite (Hn c Ec). now apply left_width.
    - refine (@rowwise_ok nparts min_col (p_join HInner on) l r dl dr rll cll rlr clr hdr (left_rows true (dcols dl) on dr) Hl Hr Rl Cl Rr Cr Pl Pr Pn Pm _ _).
      + intros d W E. unfold JonSpec.p_join, hdr, joined. rewrite E. destruct (filter _ _) as [|? [|? ?]]; try reflexivity.
      + intros c x Ec Ex. rewrite (Hn c Ec). now apply left_width.
    - refine (@rowwise_ok nparts min_col (fun a b => p_join HRight on b a) r l dr dl rlr clr rll cll hdr (right_rows dl on) Hr Hl Rr Cr Rl Cl Pr Pl Pn Pm _ _).
      + intros d W E. unfold JonSpec.p_join, hdr, joined. rewrite E. destruct (filter _ _) as [|? [|? ?]]; try reflexivity.
      + intros c x Ec Ex. rewrite (Hn c Ec). now apply right_width. Qed.
End Proofs.
