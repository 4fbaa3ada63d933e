(** Dropping missing values. *)
From Verif Require GroupProofs5.
From Verif Require Import Base Table ChunkModel ChunkSpec ChunkProofs GridModel GridSpec FrameSpec GridProofs GridProofs2 GridProofs3 GridProofs4 GridProofs5 SelSpec SelModel
  SelProofs SelProofs5 LocSpec LocModel LocProofs JoinModel JoinProofs3 JoinProofs6 RemSpec RemModel RemProofs RemProofs2.

Lemma map2_snd {X Y Z} (h : Y -> Z) (r : list X) (t : list Y) : length r = length t -> map2 (fun _ c => h c) r t = map h t.
Proof. revert t. induction r as [|x r IH]; intros [|y t] E; try discriminate; [reflexivity|]. rewrite map2_cons, IH by (now injection E). reflexivity. Qed.
Lemma map2_map_r' {X Y Z W} (f : X -> Y -> Z) (h : W -> Y) (r : list X) (t : list W) : map2 f r (map h t) = map2 (fun x w => f x (h w)) r t.
Proof. revert t. induction r as [|x r IH]; intros [|y t]; try reflexivity. cbn [map]. now rewrite !map2_cons, IH. Qed.
Lemma transp_kept {X} w m (g : list (list X)) : length m = length g -> Forall (fun r => length r = w) g -> transp w (kept m g) = map (kept m) (transp w g).
Proof. intros E F. revert m E. induction F as [|r g Hr F IH]; intros [|b m] E; try discriminate; cbn [kept].
  - rewrite transp_nil. clear. induction w; cbn; [reflexivity|]. now rewrite <- IHw.
  - injection E as E. rewrite transp_cons, map_map2. specialize (IH m E). destruct b; cbn [kept].
    + rewrite transp_cons, IH. apply map2_map_r'.
    + rewrite IH. symmetry. apply (@map2_snd _ _ _ (kept m)). rewrite transp_length by exact F. exact Hr. Qed.
Lemma concat_kept {X} m (l : list X) a lens : length m = length l -> a + list_sum lens <= length l ->
  concat (map (fun iv => kept (slice m (fst iv) (snd iv)) (slice l (fst iv) (snd iv))) (bounds a lens)) = kept (slice m a (a + list_sum lens)) (slice l a (a + list_sum lens)).
Proof. intros E. revert a. induction lens as [|n lens IH]; intros a Hs; lsum.
  - cbn. replace (slice m a (a + 0)) with (@nil bool); [reflexivity|]. unfold slice. now replace (a + 0 - a) with 0 by lia.
  - cbn [bounds map concat fst snd]. rewrite IH by lia. rewrite <- kept_app by (rewrite !slice_length; lia). rewrite !slice_app by lia. now rewrite Nat.add_assoc. Qed.


Lemma in_slice {X} (l : list X) a b x : In x (slice l a b) -> In x l.
Proof. intros I. rewrite <- (firstn_skipn a l), in_app_iff. right. rewrite <- (firstn_skipn (b - a) (skipn a l)), in_app_iff. now left. Qed.

Section Dropna.
  Context {L H A : Type}.
  Variable leqb : L -> L -> bool.
  Variable heqb : H -> H -> bool.
  Hypothesis leqb_ok : forall x y, leqb x y = true <-> x = y.
  Hypothesis heqb_ok : forall x y, heqb x y = true <-> x = y.
  Variable na : A -> bool.
  Variables min_row min_col nparts : nat.
  Hypothesis mr : 0 < min_row.
  Hypothesis mc : 0 < min_col.
  Hypothesis np : 0 < nparts.
  Notation dframe := (df L H A).
  Notation pf := (@pframe L H A).

  Lemma columns_iloc_cols (d : dframe) a b : columns (iloc_cols d a b) = slice (columns d) a b.
  Proof. unfold columns, ncols, iloc_cols. cbn [dcols dcells]. rewrite slice_length. apply transp_map_slice. Qed.
  Lemma columns_block (d : dframe) ri ci : wf d ->
    columns (block d ri ci) = map (fun c => slice c (fst ri) (snd ri)) (slice (columns d) (fst ci) (snd ci)).
  Proof. intros [W1 W2]. change (block d ri ci) with (iloc_cols (iloc_rows d (fst ri) (snd ri)) (fst ci) (snd ci)).
    rewrite columns_iloc_cols. unfold columns. change (ncols (iloc_rows d (fst ri) (snd ri))) with (ncols d). cbn [iloc_rows dcells].
    rewrite transp_slice by exact W2. now rewrite slice_map. Qed.

  Theorem dropna0_ok r subset sub (f : pf) d rl cl : holds f d rl cl -> rl <> [] -> cl <> [] ->
    lookup heqb (dcols d) subset = Ok sub ->
    exists f' rl' cl', dropna0 leqb heqb na min_row min_col nparts r subset f = Ok f'
      /\ holds f' (dropna_rows na r sub d) rl' cl' /\ rl' <> [] /\ cl' <> [].
  Proof. intros Hh Hr Hc E. unfold dropna0. rewrite (col_labels_holds Hh (or_introl Hr)), E. cbn [rbind].
    unfold dropna_rows. apply (@filter_rows_ok L H A leqb heqb leqb_ok min_row min_col nparts mr mc np _ f d rl cl); auto.
    - rewrite map_length. destruct Hh as [[[W _] _] _]. exact W.
    - intros a b _ _. cbn [iloc_rows dcols]. rewrite E. cbn [rbind]. unfold dropna_rows. cbn [dcells]. now rewrite slice_map. Qed.

  Lemma by_pandas_ok r subset sub (f : pf) d rl cl : holds f d rl cl -> rl <> [] -> cl <> [] ->
    lookup leqb (dindex d) subset = Ok sub ->
    exists f' rl' cl',
      frame_filter leqb heqb min_row min_col nparts false (fun d => do sub <- lookup leqb (dindex d) subset; Ok (dropna_columns na r sub d)) f = Ok f'
      /\ holds f' (dropna_columns na r sub d) rl' cl' /\ rl' <> [] /\ cl' <> [].
  Proof. intros Hh Hr Hc E. unfold dropna_columns at 2. apply (@filter_cols_ok L H A leqb heqb heqb_ok min_row min_col nparts mr mc np _ f d rl cl); auto.
    - rewrite map_length. apply columns_length. apply Hh.
    - intros a b _ _. cbn [iloc_cols dindex]. rewrite E. cbn [rbind]. unfold dropna_columns.
      change (mkdf (dindex d) (slice (dcols d) a b) (map (fun r0 => slice r0 a b) (dcells d))) with (iloc_cols d a b).
      now rewrite columns_iloc_cols, slice_map. Qed.

  (** * the masks *)
  Definition chosen (subset : option (list L)) (idx : list L) : list bool :=
    match subset with None => repeat true (length idx) | Some ls => map (fun l => inb leqb l ls) idx end.
  Lemma chosen_length subset idx : length (chosen subset idx) = length idx.
  Proof. destruct subset; cbn; [apply map_length|apply repeat_length]. Qed.
  Lemma chosen_slice subset idx a b : chosen subset (slice idx a b) = slice (chosen subset idx) a b.
  Proof. destruct subset; cbn [chosen]; [now rewrite slice_map|]. rewrite slice_length, slice_repeat. reflexivity. Qed.
  Lemma mapper_eq all subset (d : dframe) : wf d ->
    mapper leqb na all subset d = mkdf [tt] (dcols d) [map (fun c => condition all (map na (kept (chosen subset (dindex d)) c))) (columns d)].
  Proof. intros [W1 W2]. unfold mapper. f_equal. f_equal.
    replace (match subset with None => dcells d | Some ls => kept (map (fun l => inb leqb l ls) (dindex d)) (dcells d) end)
      with (kept (chosen subset (dindex d)) (dcells d)).
    2:{ destruct subset; cbn [chosen]; [reflexivity|]. rewrite <- W1. apply kept_all. }
    rewrite transp_kept; auto; [|rewrite chosen_length; now rewrite W1]. now rewrite map_map. Qed.
  Lemma mapper_cw all subset : column_wise (mapper (H:=H) leqb na all subset).
  Proof. intros d W. rewrite mapper_eq by exact W. split; [|split].
    - split; cbn; [reflexivity|]. constructor; [|constructor]. rewrite map_length. now apply columns_length.
    - reflexivity.
    - intros a b. rewrite mapper_eq by now apply wf_iloc_cols. unfold iloc_cols at 4. cbn [dindex dcols dcells iloc_cols map].
      change (mkdf (dindex d) (slice (dcols d) a b) (map (fun r0 => slice r0 a b) (dcells d))) with (iloc_cols d a b).
      rewrite columns_iloc_cols. now rewrite <- slice_map. Qed.

  Definition verdict all subset (d : dframe) (c : list A) : bool := condition all (map na (kept (chosen subset (dindex d)) c)).
  Lemma condition_concat all (gs : list (list bool)) : condition all (concat gs) = condition all (map (condition all) gs).
  Proof. destruct all; cbn [condition]; induction gs as [|g gs IH]; cbn; auto.
    - now rewrite forallb_app, IH.
    - now rewrite existsb_app, IH. Qed.
  Lemma verdict_pieces all subset (d : dframe) rl c : wf d -> list_sum rl = nrows d -> length c = nrows d ->
    condition all (map (fun ri => condition all (map na (kept (slice (chosen subset (dindex d)) (fst ri) (snd ri)) (slice c (fst ri) (snd ri))))) (bounds 0 rl))
    = verdict all subset d c.
  Proof. intros W Hs Hc. unfold verdict.
    assert (E : kept (chosen subset (dindex d)) c = concat (map (fun iv => kept (slice (chosen subset (dindex d)) (fst iv) (snd iv)) (slice c (fst iv) (snd iv))) (bounds 0 rl))).
    { rewrite concat_kept by (rewrite ?chosen_length; unfold nrows in *; lia). rewrite Nat.add_0_l, Hs, !slice_full; rewrite ?chosen_length; unfold nrows in *; auto; lia. }
    rewrite E, concat_map, condition_concat, !map_map. reflexivity. Qed.

  Lemma everywhere_unique (labels : list H) l p : NoDup labels -> nth_error labels p = Some l -> everywhere heqb labels l = [p].
  Proof. intros ND E. assert (I : forall q, In q (everywhere heqb labels l) <-> q = p).
    { intros q. rewrite (everywhere_in heqb heqb_ok). split; [|now intros ->]. intros E'. apply (proj1 (NoDup_nth_error labels) ND); [|congruence].
      apply nth_error_Some. now rewrite E'. }
    assert (N : NoDup (everywhere heqb labels l)).
    { unfold everywhere. clear. generalize 0. induction labels as [|x tl IH]; intros a; cbn [length seq combine filter snd]; [constructor|].
      destruct (heqb x l); cbn [map fst]; [|apply IH]. constructor; [|apply IH]. intros ((q & y) & E & [I _]%filter_In)%in_map_iff. cbn in E. subst q.
      apply in_combine_l, in_seq in I. lia. }
    destruct (everywhere heqb labels l) as [|x [|y q]].
    - destruct (proj2 (I p) eq_refl).
    - f_equal. apply I. now left.
    - exfalso. assert (x = p) by (apply I; now left). assert (y = p) by (apply I; right; now left). subst. inversion N; subst. apply H2. now left. Qed.
  Lemma kept_positions (labels : list H) m : NoDup labels -> length m = length labels ->
    concat (map (everywhere heqb labels) (kept m labels)) = marked m.
  Proof. intros ND E. rewrite (kept_pick m labels E).
    assert (G : forall ps, Forall (fun p => p < length labels) ps -> concat (map (everywhere heqb labels) (pick labels ps)) = ps).
    { induction 1 as [|p ps Hp _ IH]; [reflexivity|]. rewrite pick_cons. destruct (nth_error labels p) as [l|] eqn:Ep; [|apply nth_error_None in Ep; lia].
      cbn [app map concat]. now rewrite (@everywhere_unique labels l p ND Ep), IH. }
    apply G. rewrite <- E. apply marked_bound. Qed.

  Lemma filter_combine_kept {Y} (q : Y -> bool) (cs : list H) (ys : list Y) : length cs = length ys ->
    map fst (filter (fun p => q (snd p) && existsb (heqb (fst p)) cs) (combine cs ys)) = kept (map q ys) cs.
  Proof. intros E. assert (G : forall cs', (forall c, In c cs' -> In c cs) -> length cs' = length ys ->
      map fst (filter (fun p => q (snd p) && existsb (heqb (fst p)) cs) (combine cs' ys)) = kept (map q ys) cs').
    { clear E. induction ys as [|y ys IH]; intros [|c cs'] I E; try discriminate; [reflexivity|]. cbn [combine map kept filter fst snd].
      replace (existsb (heqb c) cs) with true. 2:{ symmetry. apply existsb_exists. exists c. split; [apply I; now left|now apply heqb_ok]. }
      rewrite andb_true_r. destruct (q y); cbn [map fst]; rewrite IH; auto; intros; apply I; now right. }
    apply G; auto. Qed.

  Lemma keep_columns_take2d m (d : dframe) : wf d -> length m = ncols d -> keep_columns m d = take2d (seq 0 (nrows d)) (marked m) d.
  Proof. intros W E. rewrite <- (marked_true 0 (nrows d)). rewrite <- (@keep_take2d _ _ _ (repeat true (nrows d)) m d W) by (rewrite ?repeat_length; auto).
    unfold keep_rows. cbn [keep_columns dindex dcols dcells]. unfold nrows. rewrite kept_all. destruct W as [W1 _]. rewrite <- W1 at 1.
    rewrite <- (map_length (kept m) (dcells d)). now rewrite kept_all. Qed.

  Theorem by_masks_ok all subset (f : pf) d rl cl : holds f d rl cl -> rl <> [] -> cl <> [] -> NoDup (dcols d) ->
    exists f' rl' cl',
      (do masks <- apply_full_axis leqb heqb nparts min_row min_col true (fun d => Ok (mapper leqb na all subset d)) None None true None f;
       do parts <- broadcast_cols heqb (reducer heqb all) (pgrid f) (pgrid masks);
       construct (mkpf parts (pindex f) None (prl f) None)) = Ok f'
      /\ holds f' (keep_columns (map (fun c => negb (verdict all subset d c)) (columns d)) d) rl' cl' /\ rl' <> [] /\ cl' <> [].
  Proof.
    intros Hh Hr Hc ND. assert (Hh' := Hh). destruct Hh' as [Hg _]. destruct Hg as (W & Hsr & Hsc & Hgr & _).
    set (F := mapper leqb na all subset). set (m := map (fun c => negb (verdict all subset d c)) (columns d)).
    assert (E1 : map_axis_partitions leqb heqb nparts min_col true (pgrid f) (fun d => Ok (F d)) true None None
                 = Ok (map (fun ri => map (fun ci => F (block d ri ci)) (bounds 0 cl)) (bounds 0 rl))).
    { unfold map_axis_partitions. cbn [andb]. rewrite Hgr, cut_table_width by assumption. unfold cut_table.
      rewrite (rmap_map_ok _ _ (fun ri => map (fun ci => F (block d ri ci)) (bounds 0 cl))); [reflexivity|].
      intros ri _. apply (deploy_colwise_axis1 leqb heqb leqb_ok (mapper_cw all subset)); auto. lia. }
    unfold apply_full_axis. rewrite E1. cbn [rbind negb]. cbn [rbind].
    unfold construct at 1. cbn [validate_axes_lengths pindex pcols prl pcl andb rbind].
    rewrite filter_unknown by (cbn; now left). cbn [pgrid rbind].
    replace (match pcl f with Some _ => @None (list nat) | None => None end) with (@None (list nat)) by now destruct (pcl f).
    cbn [rbind pgrid].
    set (rows := fun ci => map (fun ri => map (fun c => condition all (map na (kept (slice (chosen subset (dindex d)) (fst ri) (snd ri)) (slice c (fst ri) (snd ri))))) (slice (columns d) (fst ci) (snd ci))) (bounds 0 rl)).
    set (O := fun ci : nat * nat => mkdf (map (fun _ => tt) (bounds 0 rl)) (slice (dcols d) (fst ci) (snd ci)) (rows ci)).
    assert (EF : forall ri ci, F (block d ri ci) = mkdf [tt] (slice (dcols d) (fst ci) (snd ci))
        [map (fun c => condition all (map na (kept (slice (chosen subset (dindex d)) (fst ri) (snd ri)) (slice c (fst ri) (snd ri))))) (slice (columns d) (fst ci) (snd ci))]).
    { intros ri ci. unfold F. rewrite mapper_eq by now apply wf_block. rewrite columns_block by exact W. rewrite map_map. cbn [block dindex dcols]. now rewrite chosen_slice. }
    assert (EO : rmap (fun col => match col with [] => Err IndexError | [o] => Ok o | _ => concat_axis unit_eqb heqb false col end)
                   (map (fun ci => map (fun ri => F (block d ri ci)) (bounds 0 rl)) (bounds 0 cl)) = Ok (map O (bounds 0 cl))).
    { apply rmap_map_ok. intros ci _. destruct rl as [|n rl']; [easy|]. cbn [bounds map].
      assert (G : concat_axis unit_eqb heqb false (map (fun ri => F (block d ri ci)) (bounds 0 (n :: rl'))) = Ok (O ci)).
      { unfold concat_axis. destruct (map (fun ri => F (block d ri ci)) (bounds 0 (n :: rl'))) as [|p0 ps] eqn:E; [discriminate|]. rewrite <- E. clear p0 ps E.
        unfold concatenate. destruct (map (fun ri => F (block d ri ci)) (bounds 0 (n :: rl'))) as [|p0 ps] eqn:E; [discriminate|].
        assert (Ep : dcols p0 = slice (dcols d) (fst ci) (snd ci)). { cbn [bounds map] in E. injection E as <- _. now rewrite EF. }
        rewrite <- E. replace (forallb _ _) with true.
        2:{ symmetry. apply forallb_forall. intros x (ri & <- & _)%in_map_iff. rewrite EF, Ep. cbn [dcols]. apply list_eqb_refl. intros; now apply heqb_ok. }
        rewrite Ep. unfold O, rows. do 2 f_equal.
        - rewrite map_map. clear -EF. induction (bounds 0 (n :: rl')) as [|ri l IH]; [reflexivity|]. cbn [map concat]. rewrite IH, EF. reflexivity.
        - rewrite map_map. clear -EF. induction (bounds 0 (n :: rl')) as [|ri l IH]; [reflexivity|]. cbn [map concat]. rewrite IH, EF. reflexivity. }
      cbn [bounds map] in G. destruct rl' as [|n' rl']; [|exact G]. cbn [bounds map]. rewrite EF. unfold O, rows. reflexivity. }
    unfold broadcast_cols.
    rewrite (@grid_width_map _ _ _ _ (length cl)). 2:{ now rewrite bounds_nil_iff. } 2:{ intros; now rewrite map_length, bounds_length. }
    replace (length cl) with (length (bounds 0 cl)) by apply bounds_length. rewrite transp_fun, EO. cbn [rbind].
    assert (EB : rmap (fun row => rmap (fun jb => match nth_error (map O (bounds 0 cl)) (fst jb) with Some o => Ok (reducer heqb all (snd jb) o) | None => Err IndexError end)
                        (combine (seq 0 (length row)) row)) (pgrid f)
                 = Ok (map (fun ri => map (fun ci => keep_columns (slice m (fst ci) (snd ci)) (block d ri ci)) (bounds 0 cl)) (bounds 0 rl))).
    { rewrite Hgr. unfold cut_table. apply rmap_map_ok. intros ri _. rewrite map_length.
      assert (G : forall k l, (forall i ci, nth_error l i = Some ci -> nth_error (bounds 0 cl) (k + i) = Some ci) ->
        rmap (fun jb => match nth_error (map O (bounds 0 cl)) (fst jb) with Some o => Ok (reducer heqb all (snd jb) o) | None => Err IndexError end)
          (combine (seq k (length l)) (map (fun ci => block d ri ci) l)) = Ok (map (fun ci => keep_columns (slice m (fst ci) (snd ci)) (block d ri ci)) l)).
      { intros k l. revert k. induction l as [|ci l IH]; intros k Hl; [reflexivity|]. cbn [length seq map combine rmap fst snd].
        pose proof (Hl 0 ci eq_refl) as E0. rewrite Nat.add_0_r in E0. rewrite nth_error_map, E0. cbn [option_map rbind].
        rewrite IH. 2:{ intros i c Ei. replace (S k + i) with (k + S i) by lia. now apply Hl. }
        cbn [rbind]. do 2 f_equal. clear IH. apply nth_error_In in E0.
        assert (Hb := bounds_within 0 cl). rewrite Forall_forall in Hb. specialize (Hb ci E0).
        unfold reducer, O. cbn [dcols dcells].
        set (cs := slice (dcols d) (fst ci) (snd ci)). set (C := slice (columns d) (fst ci) (snd ci)).
        assert (LC : length cs = length C). { unfold cs, C. rewrite !slice_length, (columns_length W). unfold ncols. lia. }
        assert (ET : transp (ncols (mkdf (map (fun _ => tt) (bounds 0 rl)) cs (rows ci))) (rows ci)
                     = map (fun c => map (fun ri => condition all (map na (kept (slice (chosen subset (dindex d)) (fst ri) (snd ri)) (slice c (fst ri) (snd ri))))) (bounds 0 rl)) C).
        { unfold ncols. cbn [dcols]. rewrite LC. unfold rows. fold C. apply transp_fun. }
        rewrite ET. change (dcols (block d ri ci)) with cs.
        rewrite (filter_combine_kept (fun y => negb (condition all y))) by (rewrite map_length; exact LC).
        rewrite map_map.
        assert (EM : map (fun c => negb (condition all (map (fun ri => condition all (map na (kept (slice (chosen subset (dindex d)) (fst ri) (snd ri)) (slice c (fst ri) (snd ri))))) (bounds 0 rl)))) C = slice m (fst ci) (snd ci)).
        { unfold m, C. rewrite slice_map. apply map_ext_in. intros c Ic. f_equal. apply verdict_pieces; auto.
          pose proof (columns_rows W) as FR. rewrite Forall_forall in FR. apply FR. now apply in_slice in Ic. }
        rewrite EM.
        assert (LM : length (slice m (fst ci) (snd ci)) = length cs). { rewrite LC. unfold m, C. now rewrite slice_map, map_length. }
        rewrite kept_positions; auto.
        2:{ unfold cs. apply GroupProofs5.NoDup_slice, ND. }
        symmetry. apply keep_columns_take2d; [now apply wf_block|exact LM]. }
      rewrite <- (G 0 (bounds 0 cl)); auto. }
    rewrite EB. cbn [rbind]. rewrite cut_keep_columns; auto.
    2:{ unfold m. rewrite map_length. now apply columns_length. }
    apply finish_cols; auto. unfold m. rewrite map_length. now apply columns_length.
  Qed.

  (** * what the masks say *)
  Lemma all_of_in (labels ls : list L) ps p : all_of leqb labels ls = Some ps -> In p ps <-> exists l, nth_error labels p = Some l /\ In l ls.
  Proof. revert ps. induction ls as [|x ls IH]; intros ps E; cbn [all_of] in E.
    - injection E as <-. cbn. split; [easy|]. now intros (l & _ & ?).
    - pose proof (everywhere_in leqb leqb_ok labels x p) as EX. destruct (everywhere leqb labels x) as [|q qs]; [discriminate|].
      destruct (all_of leqb labels ls) as [rs|]; [|discriminate]. injection E as <-. change (q :: qs ++ rs) with ((q :: qs) ++ rs). rewrite in_app_iff, EX, (IH rs eq_refl). split.
      + intros [E|(l & E & I)]; [exists x; split; auto; now left|exists l; split; auto; now right].
      + intros (l & E & [<-|I]); [now left|right; eauto]. Qed.
  Lemma in_pick {X} (l : list X) ps x : In x (pick l ps) <-> exists p, In p ps /\ nth_error l p = Some x.
  Proof. induction ps as [|p ps IH]; [cbn; split; [easy|now intros (p & [] & _)]|]. rewrite pick_cons, in_app_iff, IH. split.
    - intros [I|(q & I & E)]; [|exists q; split; auto; now right]. destruct (nth_error l p) eqn:E; [|easy]. destruct I as [->|[]]. exists p. split; auto. now left.
    - intros (q & [<-|I] & E); [left; rewrite E; now left|right; eauto]. Qed.
  Lemma in_chosen subset sub (d : dframe) (c : list A) x : wf d -> length c = nrows d -> lookup leqb (dindex d) subset = Ok sub ->
    In x (kept (chosen subset (dindex d)) c) <-> In x (looked_at sub c).
  Proof. intros W Hc E. destruct subset as [ls|]; cbn [lookup chosen] in *.
    - destruct (all_of leqb (dindex d) ls) as [ps|] eqn:Ea; [|discriminate]. injection E as <-. cbn [looked_at].
      rewrite kept_pick by (now rewrite map_length). rewrite !in_pick. split; intros (p & I & Ep); exists p; (split; [|exact Ep]).
      + apply (all_of_in _ _ _ Ea). apply in_marked in I as [_ I]. rewrite Nat.sub_0_r, nth_error_map in I. destruct (nth_error (dindex d) p) as [l|]; [|discriminate].
        injection I as I. exists l. split; auto. now apply (inb_in leqb leqb_ok).
      + apply in_marked. split; [lia|]. rewrite Nat.sub_0_r, nth_error_map. apply (all_of_in _ _ _ Ea) in I as (l & -> & I). cbn. f_equal. now apply (inb_in leqb leqb_ok).
    - injection E as <-. cbn [looked_at]. unfold nrows in Hc. rewrite <- Hc, kept_all. reflexivity. Qed.
  Lemma verdict_missing (all : bool) subset sub (d : dframe) c : wf d -> length c = nrows d -> lookup leqb (dindex d) subset = Ok sub ->
    verdict all subset d c = missing na (if all then AllMissing else AnyMissing) (looked_at sub c).
  Proof. intros W Hc E. pose proof (fun x => @in_chosen subset sub d c x W Hc E) as I. unfold verdict. destruct all; cbn [condition missing]; apply eq_true_iff_eq.
    - rewrite !forallb_forall. split.
      + intros F x J. apply I in J. apply (F (na x)). now apply in_map.
      + intros F b (x & <- & J)%in_map_iff. apply F, I, J.
    - rewrite !existsb_exists. split.
      + intros (b & (x & <- & J)%in_map_iff & Eb). exists x. split; auto. now apply I.
      + intros (x & J & Eb). exists (na x). split; auto. apply in_map, I, J. Qed.

  Theorem dropna1_ok few r subset sub (f : pf) d rl cl : holds f d rl cl -> rl <> [] -> cl <> [] ->
    lookup leqb (dindex d) subset = Ok sub ->
    NoDup (dcols d) \/ few = false \/ (exists t, r = FewerThan t) ->
    exists f' rl' cl', dropna1 leqb heqb na min_row min_col nparts few r subset f = Ok f'
      /\ holds f' (dropna_columns na r sub d) rl' cl' /\ rl' <> [] /\ cl' <> [].
  Proof. intros Hh Hr Hc E C. unfold dropna1. rewrite (row_labels_holds Hh Hc), E. cbn [rbind].
    assert (BP := fun r => @by_pandas_ok r subset sub f d rl cl Hh Hr Hc E).
    assert (BM : forall all : bool, NoDup (dcols d) -> exists f' rl' cl',
      (do masks <- apply_full_axis leqb heqb nparts min_row min_col true (fun d => Ok (mapper leqb na all subset d)) None None true None f;
       do parts <- broadcast_cols heqb (reducer heqb all) (pgrid f) (pgrid masks);
       construct (mkpf parts (pindex f) None (prl f) None)) = Ok f'
      /\ holds f' (dropna_columns na (if all then AllMissing else AnyMissing) sub d) rl' cl' /\ rl' <> [] /\ cl' <> []).
    { intros all ND. destruct (by_masks_ok all subset Hh Hr Hc ND) as (f' & rl' & cl' & E1 & E2 & E3). exists f', rl', cl'. split; [exact E1|]. split; [|exact E3].
      unfold dropna_columns. erewrite map_ext_in; [exact E2|]. intros c Ic. cbn. f_equal. symmetry. apply verdict_missing; auto; [apply Hh|].
      pose proof (columns_rows (proj1 (proj1 Hh))) as FR. rewrite Forall_forall in FR. now apply FR. }
    destruct r as [| |t]; try apply BP; (destruct few; [|apply BP]).
    - apply (BM false). destruct C as [C|[C|(t & C)]]; auto; discriminate.
    - apply (BM true). destruct C as [C|[C|(t & C)]]; auto; discriminate. Qed.
End Dropna.
