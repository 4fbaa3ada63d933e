From Verif Require Import Base Table ChunkModel ChunkSpec ChunkProofs GridModel GridSpec FrameSpec
  GridProofs GridProofs2 GridProofs3 GridProofs5 JoinModel GroupSpec MergeSpec MergeModel MergeProofs.

Lemma rmap_same_ok {X Y} (f : X -> res Y) (g : X -> Y) l : (forall x, In x l -> f x = Ok (g x)) -> rmap f l = Ok (map g l).
Proof. intros E. rewrite <- (map_id l) at 1. now apply rmap_map_ok. Qed.

(** * A function of one row partition and the whole other frame *)
Section Broadcast.
  Context {L H A : Type}.
  Variable leqb : L -> L -> bool.
  Variable heqb : H -> H -> bool.
  Hypothesis leqb_ok : forall x y, leqb x y = true <-> x = y.
  Hypothesis heqb_ok : forall x y, heqb x y = true <-> x = y.
  Notation dframe := (df L H A).
  Notation pf := (@pframe L H A).

  (** all the rows the function makes of a list of rows *)
  Variable g : list A -> list (list A).
  Variable c : list H.
  Notation made rows := (flat_map g rows).
  Variable func : dframe -> dframe -> res (df nat H A).
  Variable d r : dframe.
  Hypothesis func_ok : forall l, wf l -> dcols l = dcols d ->
    func l r = Ok (mkdf (seq 0 (length (made (dcells l)))) c (made (dcells l))).
  Hypothesis g_width : forall row, length row = length (dcols d) -> Forall (fun x => length x = length c) (g row).

  Lemma made_widths rows : Forall (fun row => length row = length (dcols d)) rows ->
    Forall (fun x => length x = length c) (made rows).
  Proof. induction 1 as [|x xs Hx _ IH]; [constructor|]. cbn. apply Forall_app. split; [now apply g_width|exact IH]. Qed.

  Lemma broadcast_rows_ok (min_col num_splits : nat) (other f : pf) rl cl columns :
    holds f d rl cl -> rl <> [] -> cl <> [] -> 0 < min_col -> 0 < num_splits ->
    (do rows <- rmap (concat_axis leqb heqb true) (extract_partitions other); concat_axis leqb heqb false rows) = Ok r ->
    (columns = None \/ columns = Some c) ->
    exists f' rl' cl' idx,
      broadcast_rows leqb heqb min_col func other num_splits columns f = Ok f'
      /\ holds f' (mkdf idx c (made (dcells d))) rl' cl' /\ length idx = length (made (dcells d))
      /\ rl' <> [] /\ cl' <> [] /\ pindex f' = None /\ pcols f' = columns.
  Proof.
    intros [G _] Hr Hc Hm Hn Er Hcol. destruct G as (W & Sr & Sc & Hg & _).
    unfold broadcast_rows. rewrite Hg.
    destruct (rmap (concat_axis leqb heqb true) (extract_partitions other)) as [rows|] eqn:Erows; [|discriminate].
    cbn [rbind] in Er |- *.
    set (lens := eff_lens (length c) num_splits min_col None).
    set (ts := map (fun ri : nat * nat => let m := made (slice (dcells d) (fst ri) (snd ri)) in mkdf (seq 0 (length m)) c m) (bounds 0 rl)).
    assert (Fts : Forall (fun t => wf t /\ dcols t = c) ts).
    { unfold ts. apply Forall_map. apply Forall_forall. intros ri _. split; [|reflexivity]. split; cbn; [now rewrite seq_length|].
      apply made_widths. apply Forall_slice. apply W. }
    match goal with |- context [rmap ?F (cut_table rl cl d)] =>
      assert (E : rmap F (cut_table rl cl d) = Ok (map (fun t => map (fun ci => iloc_cols t (fst ci) (snd ci)) (bounds 0 lens)) ts)) end.
    { unfold cut_table, ts. rewrite map_map. apply rmap_map_ok. intros ri Hri.
      rewrite (concat_cols_blocks_bounds leqb heqb leqb_ok) by assumption. cbn [rbind].
      rewrite Er. cbn [rbind].
      rewrite Nat.add_0_l, Sc, block_cols_full by assumption.
      rewrite func_ok by (try apply wf_iloc_rows; auto). cbn [rbind].
      rewrite split_eff; auto.
      split; cbn; [now rewrite seq_length|]. apply made_widths. apply Forall_slice. apply W. }
    rewrite E. cbn [rbind]. clear E.
    rewrite (stack_grid lens Fts).
    set (T := mkdf (concat (map dindex ts)) c (concat (map dcells ts))).
    assert (WT : wf T) by now apply wf_stack.
    assert (ET : concat (map dcells ts) = made (dcells d)).
    { unfold ts. rewrite map_map. cbn [dcells].
      transitivity (made (concat (map (fun ri => slice (dcells d) (fst ri) (snd ri)) (bounds 0 rl)))).
      - clear. induction (bounds 0 rl) as [|b bs IH]; [reflexivity|]. cbn [map concat]. now rewrite flat_map_app, <- IH.
      - rewrite concat_bounds, Nat.add_0_l, Sr. f_equal. apply slice_full. unfold nrows. destruct W as [-> _]. auto. }
    destruct (@eff_lens_sum (length c) num_splits min_col None) as [Sl Ll]; auto; [discriminate|]. fold lens in Sl, Ll.
    assert (Hts : map nrows ts <> []).
    { unfold ts. rewrite map_map. intros X. apply map_eq_nil in X. now rewrite bounds_nil_iff in X. }
    assert (Hl : lens <> []) by (intros X; rewrite X in Ll; cbn in Ll; lia).
    assert (WD : exists widths, match columns with
                 | Some c => do n <- shape1 (cut_table (map nrows ts) lens T);
                             do w <- get_length_list (length c) n min_col; Ok (Some w)
                 | None => Ok None
                 end = Ok widths /\ (widths = None \/ widths = Some lens)).
    { destruct Hcol as [->| ->]; [eauto|].
      assert (S1 : shape1 (cut_table (map nrows ts) lens T) = Ok num_splits).
      { unfold cut_table, shape1. destruct (map nrows ts) as [|x xs]; [easy|]. cbn [bounds map]. now rewrite map_length, bounds_length, Ll. }
      rewrite S1. cbn [rbind]. destruct (get_length_list_ok (length c) Hn Hm) as (l & El & _). rewrite El. cbn [rbind].
      eexists. split; [reflexivity|]. right. f_equal. unfold lens, eff_lens.
      destruct (Nat.eqb_spec num_splits 1) as [->|_]; [|now rewrite El].
      rewrite get_length_list_one in El by assumption. congruence. }
    destruct WD as (widths & Ew & Hw). rewrite Ew. cbn [rbind].
    destruct (@construct_gridded _ _ _ (mkpf (cut_table (map nrows ts) lens T) None columns None widths) T (map nrows ts) lens)
      as (f' & rl' & cl' & F1 & F2 & F3 & F4 & F5 & F6); auto.
    - unfold gridded; cbn [pgrid pindex pcols prl pcl]. split; [exact WT|].
      split; [unfold T, nrows at 2; cbn [dindex]; now rewrite nrows_stack|]. split; [exact Sl|].
      repeat split; auto; try discriminate. intros c' Ec. destruct Hcol as [Hc'|Hc']; rewrite Hc' in Ec; [discriminate|]. injection Ec as <-. reflexivity.
    - cbn [pindex pcols] in F5, F6. exists f', rl', cl', (concat (map dindex ts)).
      split; [exact F1|]. split; [|split].
      + split; [unfold T in F2; rewrite ET in F2; exact F2|]. rewrite F5, F6. cbn [dcols]. tauto.
      + unfold T in WT. rewrite ET in WT. symmetry. apply WT.
      + auto.
  Qed.
End Broadcast.

(** * The broadcast operand *)
Section Operand.
  Context {L H A : Type}.
  Variable leqb : L -> L -> bool.
  Variable heqb : H -> H -> bool.
  Hypothesis leqb_ok : forall x y, leqb x y = true <-> x = y.
  Hypothesis heqb_ok : forall x y, heqb x y = true <-> x = y.
  Notation dframe := (df L H A).
  Notation pf := (@pframe L H A).

  Lemma gather_grid (d : dframe) rl cl : wf d -> list_sum rl = nrows d -> list_sum cl = ncols d -> rl <> [] -> cl <> [] ->
    (do rows <- rmap (concat_axis leqb heqb true) (cut_table rl cl d); concat_axis leqb heqb false rows) = Ok d.
  Proof.
    intros W Sr Sc Hr Hc.
    assert (E : rmap (concat_axis leqb heqb true) (cut_table rl cl d) = Ok (map (fun ri => block d ri (0, ncols d)) (bounds 0 rl))).
    { unfold cut_table. apply rmap_map_ok. intros ri _. rewrite (concat_cols_blocks_bounds leqb heqb leqb_ok) by assumption.
      now rewrite Nat.add_0_l, Sc. }
    rewrite E. cbn [rbind]. rewrite (concat_rows_blocks leqb heqb heqb_ok) by assumption.
    rewrite Nat.add_0_l, Sr. f_equal. rewrite block_rows_full by assumption. now apply iloc_cols_full.
  Qed.

  Lemma create_grid (d : dframe) rl cl : wf d -> list_sum rl = nrows d -> list_sum cl = ncols d -> rl <> [] -> 0 < ncols d ->
    create_pandas_df_from_partitions leqb heqb (cut_table rl cl d) = Ok d.
  Proof.
    intros W Sr Sc Hr Hp. unfold create_pandas_df_from_partitions, cut_table.
    assert (Hc : cl <> []) by (intros ->; cbn in Sc; lsum; lia).
    assert (X : exists ci, In ci (bounds 0 cl) /\ fst ci < snd ci <= ncols d).
    { rewrite <- Sc in *. clear - Hp. change (list_sum cl) with (0 + list_sum cl) at 1.
      assert (G : forall a, 0 < list_sum cl -> exists ci, In ci (bounds a cl) /\ fst ci < snd ci <= a + list_sum cl).
      { clear. induction cl as [|n ns IH]; intros a; lsum; [lia|]. intros P. destruct n as [|n].
        - destruct (IH (a + 0)) as (ci & I & B); [lia|]. exists ci. split; [now right|]. lia.
        - exists (a, a + S n). split; [now left|]. cbn. lia. }
      apply G. exact Hp. }
    destruct X as (ci & Ici & Bci).
    rewrite filter_all_true.
    2:{ apply forallb_forall. intros row Hrow. apply in_map_iff in Hrow as (ri & <- & _).
        apply negb_true_iff. apply not_true_is_false. intros F. rewrite forallb_forall in F.
        specialize (F (block d ri ci) (in_map _ _ _ Ici)). unfold is_part_empty in F. apply andb_true_iff in F as [_ F].
        apply Nat.eqb_eq in F. unfold ncols, block in F; cbn in F. rewrite slice_length in F. unfold ncols in Bci. lia. }
    pose proof (gather_grid W Sr Sc Hr Hc) as G.
    change (@concat_axis L H A leqb heqb true) with (@concat_cols L H A leqb) in G. unfold cut_table in G.
    destruct (rmap (concat_cols leqb) _) as [rows|] eqn:E; [|discriminate]. cbn [rbind] in *.
    assert (Hrows : rows <> []). { apply rmap_length in E. rewrite map_length, bounds_length in E. destruct rows; [destruct rl; easy|easy]. }
    destruct rows; [easy|]. unfold concat_axis in G. destruct (concatenate heqb (d0 :: rows)); [exact G|discriminate].
  Qed.

  Lemma operand_ok (b : pf) (d : dframe) rl cl :
    holds b d rl cl -> 0 < ncols d -> (rl = [] -> pindex b <> None /\ pcols b <> None) ->
    exists other, combine_frame leqb heqb b = Ok other
      /\ (do rows <- rmap (concat_axis leqb heqb true) (extract_partitions other); concat_axis leqb heqb false rows) = Ok d.
  Proof.
    intros Hh Pc He. assert (Hh' := Hh). destruct Hh' as [(W & Sr & Sc & Hg & G5 & G6 & G7 & G8) [Hi Hcl]].
    assert (Hc : cl <> []) by (intros ->; cbn in Sc; lsum; lia).
    assert (Gs : forall rl cl, gsize (cut_table rl cl d) = length rl * length cl).
    { intros r' c'. unfold gsize. destruct r' as [|x r']; [reflexivity|]. now rewrite cut_table_length, cut_table_width. }
    assert (Gp : forall f rl cl, gridded f d rl cl -> rl <> [] -> cl <> [] ->
      (do rows <- rmap (concat_axis leqb heqb true) (extract_partitions f); concat_axis leqb heqb false rows) = Ok d).
    { intros f r' c' (_ & S1 & S2 & E & _) R C. unfold extract_partitions. rewrite E, Gs.
      destruct (Nat.ltb_spec 0 (length r' * length c')) as [_|X]; [now apply gather_grid|].
      destruct r', c'; try easy; cbn in X; lia. }
    unfold combine_frame. rewrite Hg, Gs. destruct (Nat.leb_spec (length rl * length cl) 1) as [Hle|Hgt].
    - exists b. split; [reflexivity|]. destruct rl as [|x rl'].
      + unfold extract_partitions. rewrite Hg, Gs. cbn [length Nat.mul]. destruct He as [E1 E2]; [reflexivity|].
        replace (0 <? 0) with false by reflexivity.
        replace (df_of_labels (row_labels b) (col_labels b)) with d.
        * assert (Z : nrows d = 0) by (cbn in Sr; revert Sr; lsum; lia).
          cbn. rewrite list_eqb_refl by assumption. cbn. destruct d as [i c t]. destruct W as [W1 W2]. unfold nrows in Z. cbn in *.
          destruct i; [|easy]. destruct t; [|easy]. rewrite app_nil_r, list_eqb_refl by assumption. reflexivity.
        * unfold row_labels, col_labels. destruct Hi as [|Hi]; [easy|]. destruct Hcl as [|Hcl]; [easy|]. rewrite Hi, Hcl.
          symmetry. apply wf_empty_cells; auto. unfold df_empty. rewrite <- Sr. reflexivity.
      + apply (Gp b (x :: rl') cl); [apply Hh|easy|assumption].
    - assert (Hr : rl <> []) by (intros ->; cbn in Hgt; lia).
      rewrite create_grid by assumption. cbn [rbind].
      match goal with |- context [construct ?f0] =>
        destruct (@construct_gridded _ _ _ f0 d [nrows d] [ncols d]) as (f' & rl' & cl' & F1 & F2 & F3 & F4 & _); try easy end.
      2:{ exists f'. split; [exact F1|]. now apply (Gp f' rl' cl'). }
      unfold gridded; cbn [pgrid pindex pcols prl pcl]. split; [exact W|]. split; [lsum; lia|]. split; [lsum; lia|]. split.
      { unfold cut_table. cbn [bounds map]. rewrite Nat.add_0_l, block_rows_full by assumption. cbn [fst snd]. rewrite Nat.add_0_l. now rewrite iloc_cols_full. }
      split; [exact G5|]. split; [exact G6|]. split.
      { destruct G7 as [->| ->]; [now left|right]. cbn. now rewrite Sr. }
      { destruct G8 as [->| ->]; [now left|right]. cbn. now rewrite Sc. }
  Qed.
End Operand.
