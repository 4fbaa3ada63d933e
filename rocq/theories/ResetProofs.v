(** [reset_index]. *)
From Verif Require Import Base Table ChunkModel ChunkSpec ChunkProofs GridModel GridSpec FrameSpec GridProofs GridProofs2 GridProofs3 GridProofs4 GridProofs5 JoinModel JoinProofs3 MergeProofs
  ResetSpec ResetModel.

Lemma bounds_S l : forall a, bounds (S a) l = map (fun p => (S (fst p), S (snd p))) (bounds a l).
Proof. induction l as [|n l IH]; intros a; [reflexivity|]. cbn [bounds map fst snd]. now rewrite <- IH. Qed.
Lemma skipn_combine {X Y} n : forall (l : list X) (g : list Y), skipn n (combine l g) = combine (skipn n l) (skipn n g).
Proof. induction n as [|n IH]; intros l g; [reflexivity|]. destruct l as [|x l]; [reflexivity|]. destruct g as [|y g]; [cbn [skipn combine]; now destruct (skipn n l)|]. cbn [skipn combine]. apply IH. Qed.
Lemma combine_slice {X Y} (l : list X) (g : list Y) a b : combine (slice l a b) (slice g a b) = slice (combine l g) a b.
Proof. unfold slice. now rewrite skipn_combine, combine_firstn. Qed.
Lemma slice_O {X} (x : X) l w : slice (x :: l) 0 (S w) = x :: slice l 0 w.
Proof. unfold slice. now rewrite !Nat.sub_0_r. Qed.
Lemma slice_S {X} (x : X) l a b : slice (x :: l) (S a) (S b) = slice l a b.
Proof. reflexivity. Qed.
Lemma firstn_bounds lens : forall i ri a, nth_error (bounds a lens) i = Some ri -> fst ri = a + list_sum (firstn i lens) /\ snd ri = a + list_sum (firstn (S i) lens).
Proof. induction lens as [|n lens IH]; intros i ri a E; [now destruct i|]. cbn [bounds] in E. destruct i as [|i]; cbn [nth_error firstn] in *.
  - injection E as <-. cbn [fst snd]. unfold list_sum. cbn. lia.
  - destruct (IH _ _ _ E) as [E1 E2]. rewrite E1, E2. cbn [firstn]. unfold list_sum. cbn. lia. Qed.

Section Look.
  Context {L H A : Type}.
  Variable leqb : L -> L -> bool.
  Variable heqb : H -> H -> bool.
  Hypothesis leqb_ok : forall x y, leqb x y = true <-> x = y.
  Hypothesis heqb_ok : forall x y, heqb x y = true <-> x = y.
  Notation dframe := (df L H A).
  Notation pf := (@pframe L H A).
  Lemma look_gridded (f : pf) (D : dframe) rl cl i c : gridded f D rl cl -> rl <> [] -> cl <> [] -> row_labels f = i -> col_labels f = c ->
    length i = nrows D -> length c = ncols D -> look leqb heqb f = Ok (mkdf i c (dcells D)).
  Proof. intros G Hr Hc Hi Hcs Li Lc. unfold look. rewrite Hi, Hcs. cbn [pindex pcols].
    destruct G as (W & Sr & Sc & Gr & _ & _ & Cr & Cc).
    set (f' := mkpf (pgrid f) (Some i) (Some c) (prl f) (pcl f)).
    assert (G' : gridded f' D rl cl). { unfold gridded, f'; cbn. repeat split; auto; try apply W; intros ? [= <-]; auto. }
    destruct (propagate_ok None G' Hr Hc (idx:=i) (cols:=c) eq_refl eq_refl) as (rl' & cl' & S1 & S2 & E).
    rewrite E. cbn [rbind]. apply (@pf_to_pandas_holds L H A leqb heqb leqb_ok heqb_ok _ (mkdf i c (dcells D)) rl' cl'); [|cbn; split; discriminate].
    unfold holds, gridded. cbn [pgrid pindex pcols prl pcl dindex dcols dcells relabel]. unfold nrows, ncols in *. cbn [dindex dcols].
    destruct W as [W1 W2]. repeat split; auto; try congruence; cbn [dindex dcols dcells]; unfold nrows, ncols in *; cbn [dindex dcols]; rewrite ?Lc, ?Li; auto. Qed.
  Lemma look_holds (f : pf) (d : dframe) rl cl : holds f d rl cl -> rl <> [] -> cl <> [] -> look leqb heqb f = Ok d.
  Proof. intros Hh Hr Hc. rewrite (@look_gridded f d rl cl (dindex d) (dcols d)); auto.
    - now destruct d.
    - apply Hh.
    - exact (row_labels_holds Hh Hc).
    - exact (col_labels_holds Hh (or_introl Hr)). Qed.
End Look.

Section Reset.
  Context {L H A : Type}.
  Variable leqb : L -> L -> bool.
  Variable heqb : H -> H -> bool.
  Hypothesis leqb_ok : forall x y, leqb x y = true <-> x = y.
  Hypothesis heqb_ok : forall x y, heqb x y = true <-> x = y.
  Variable num : nat -> L.
  Variable cell : L -> A.
  Variables hindex hlevel : H.
  Variables min_row min_col nparts : nat.
  Hypothesis mc : 0 < min_col.
  Hypothesis np : 0 < nparts.
  Notation dframe := (df L H A).
  Notation pf := (@pframe L H A).
  Notation reset := (reset heqb num cell hindex hlevel).
  Notation df_reset_index := (df_reset_index leqb heqb num cell hindex hlevel min_col nparts).

  Lemma wf_with_labels h (d : dframe) : wf d -> wf (with_labels cell h d).
  Proof. intros [W1 W2]. split; cbn [with_labels dindex dcells].
    - unfold nrows in *. rewrite map_length, combine_length. cbn. lia.
    - unfold ncols in *. cbn [dcols length]. apply Forall_forall. intros r I. apply in_map_iff in I as ([l s] & <- & I). apply in_combine_r in I. rewrite Forall_forall in W2. cbn. now rewrite (W2 s I). Qed.
  Lemma wf_numbered (d : dframe) : wf d -> wf (numbered num d).
  Proof. intros [W1 W2]. split; cbn [numbered dindex dcells]; [|exact W2]. unfold nrows at 1. cbn [dindex]. now rewrite map_length, seq_length. Qed.
  Lemma reset_wf drop name (d t : dframe) : wf d -> reset drop name d = Ok t -> wf t /\ nrows t = nrows d.
  Proof. unfold ResetSpec.reset. intros W E. destruct drop.
    - injection E as <-. split; [now apply wf_numbered|]. unfold nrows. cbn. now rewrite map_length, seq_length.
    - destruct (has _ _ _); [discriminate|]. injection E as <-. split; [now apply wf_numbered, wf_with_labels|]. unfold nrows. cbn. now rewrite map_length, seq_length. Qed.

  (** the first blocks with the labels: the blocks of the table with the labels *)
  Lemma cut_with_labels h (d : dframe) rl w ws : wf d ->
    map (fun row => match row with [] => [] | b :: bs => with_labels cell h b :: bs end) (cut_table rl (w :: ws) d)
    = cut_table rl (S w :: ws) (with_labels cell h d).
  Proof. intros [W1 W2]. unfold cut_table. rewrite map_map. apply map_ext. intros ri. cbn [bounds map]. rewrite !Nat.add_0_l. f_equal.
    - unfold block, with_labels. cbn [dindex dcols dcells fst snd]. f_equal; [now rewrite slice_O|]. rewrite slice_map, <- (combine_slice (dindex d) (dcells d)).
      generalize (slice (dindex d) (fst ri) (snd ri)), (slice (dcells d) (fst ri) (snd ri)). intros l g. revert g. induction l as [|x l IH]; intros [|r g]; try reflexivity.
      cbn [map combine fst snd]. rewrite slice_O. f_equal. apply IH.
    - rewrite bounds_S, map_map. apply map_ext. intros ci. unfold block, with_labels. cbn [dindex dcols dcells fst snd]. f_equal. rewrite slice_map, <- (combine_slice (dindex d) (dcells d)).
      assert (E : length (slice (dindex d) (fst ri) (snd ri)) = length (slice (dcells d) (fst ri) (snd ri))) by (rewrite !slice_length; unfold nrows in W1; now rewrite W1).
      revert E. generalize (slice (dindex d) (fst ri) (snd ri)), (slice (dcells d) (fst ri) (snd ri)). intros l g. revert g. induction l as [|x l IH]; intros [|r g] E; try discriminate; [reflexivity|].
      cbn [map combine fst snd]. f_equal. apply IH. now injection E. Qed.

  Lemma from_labels_ok name (f : pf) (d : dframe) rl cl : holds f d rl cl -> rl <> [] -> cl <> [] ->
    exists f' rl' cl', from_labels heqb num cell hindex hlevel name f = Ok f' /\ gridded f' (with_labels cell (label_header heqb hindex hlevel name (dcols d)) d) rl' cl' /\ rl' <> [] /\ cl' <> []
      /\ pindex f' = Some (map num (seq 0 (nrows d))) /\ pcols f' = Some (label_header heqb hindex hlevel name (dcols d) :: dcols d).
  Proof. intros Hh Hr Hc. unfold from_labels. rewrite (col_labels_holds Hh (or_introl Hr)), (row_labels_holds Hh Hc).
    assert (Hh' := Hh). destruct Hh' as [G _]. rewrite (gridded_column_widths G Hr). assert (G' := G). destruct G' as (W & Sr & Sc & Gr & Li & Lc & Cr & Cc).
    destruct cl as [|w ws]; [easy|]. set (h := label_header heqb hindex hlevel name (dcols d)). rewrite Gr. unfold add_labels. rewrite cut_with_labels by exact W.
    set (x := mkpf _ _ _ _ _). assert (Gx : gridded x (with_labels cell h d) rl (S w :: ws)).
    { unfold gridded, x. cbn [pgrid pindex pcols prl pcl]. split; [now apply wf_with_labels|]. split; [exact Sr|]. split; [|split; [reflexivity|]].
      - unfold ncols in *. cbn. change (list_sum (w :: ws)) with (w + list_sum ws) in Sc. change (list_sum (S w :: ws)) with (S (w + list_sum ws)). now rewrite Sc.
      - split; [intros ? [= <-]; now rewrite map_length, seq_length|]. split; [intros ? [= <-]; reflexivity|]. split; [exact Cr|now right]. }
    destruct (construct_gridded Gx) as (f' & rl' & cl' & E1 & G' & N1 & N2 & P1 & P2); auto; [discriminate|].
    exists f', rl', cl'. repeat split; auto; apply G'. Qed.

  (** ** The labels of the rows are not known *)
  Lemma rmap_numbered {X Y Z} (f : nat * Y -> res Z) (row : X -> Y) (g : X -> Z) bs : forall s,
    (forall i b, nth_error bs i = Some b -> f (s + i, row b) = Ok (g b)) -> rmap f (combine (seq s (length bs)) (map row bs)) = Ok (map g bs).
  Proof. induction bs as [|b bs IH]; intros s E; [reflexivity|]. cbn [length seq map combine rmap]. rewrite <- (Nat.add_0_r s) at 1. rewrite (E 0 b eq_refl). cbn [rbind].
    rewrite (IH (S s)); [reflexivity|]. intros i x Ei. replace (S s + i) with (s + S i) by lia. now apply E. Qed.
  Lemma reset_rows_ok drop name (d t : dframe) rl i ri : wf d -> list_sum rl = nrows d -> reset drop name d = Ok t -> nth_error (bounds 0 rl) i = Some ri ->
    reset_rows heqb num cell hindex hlevel drop name rl i (iloc_rows d (fst ri) (snd ri)) = Ok (iloc_rows t (fst ri) (snd ri)).
  Proof. intros W Sr E Ei. unfold reset_rows. destruct (@firstn_bounds rl i ri 0 Ei) as [F1 F2]. rewrite !Nat.add_0_l in F1, F2. rewrite <- F1, <- F2.
    assert (B : fst ri <= snd ri <= nrows d).
    { split.
      - pose proof (bounds_snd_ge 0 rl) as B. rewrite Forall_forall in B. apply (B ri). now apply (nth_error_In _ i).
      - pose proof (bounds_within 0 rl) as B. rewrite Forall_forall in B. specialize (B ri (nth_error_In _ i Ei)). lia. }
    assert (N : nrows (iloc_rows d (fst ri) (snd ri)) = snd ri - fst ri). { unfold nrows in *. cbn [iloc_rows dindex]. rewrite slice_length. lia. }
    assert (Q : map num (seq (fst ri) (snd ri - fst ri)) = slice (map num (seq 0 (nrows d))) (fst ri) (snd ri)).
    { rewrite slice_map. f_equal. symmetry. apply slice_seq. apply B. }
    unfold ResetSpec.reset in *. change (dcols (iloc_rows d (fst ri) (snd ri))) with (dcols d). destruct drop.
    - injection E as <-. cbn [rbind]. unfold numbered at 1. unfold nrows at 1. cbn [dindex]. rewrite map_length, seq_length, N, Nat.eqb_refl. cbn [negb numbered dcols dcells iloc_rows dindex].
      unfold iloc_rows, numbered. cbn [dindex dcols dcells]. now rewrite Q.
    - destruct (has _ _ _); [discriminate|]. injection E as <-. cbn [rbind]. unfold numbered at 1. unfold nrows at 1. cbn [dindex]. rewrite map_length, seq_length.
      change (nrows (with_labels cell ?h ?x)) with (nrows x). rewrite N, Nat.eqb_refl. cbn [negb numbered dcols dcells iloc_rows dindex with_labels].
      change (nrows (with_labels cell ?h ?x)) with (nrows x). unfold iloc_rows. cbn [dindex dcols dcells]. rewrite Q. f_equal. f_equal.
      cbn [numbered with_labels dcells]. now rewrite slice_map, combine_slice. Qed.

  Lemma reset_lazy_ok drop name (f : pf) (d t : dframe) rl cl : holds f d rl cl -> rl <> [] -> cl <> [] -> pindex f = None -> reset drop name d = Ok t ->
    exists f' rl' cl', reset_lazy leqb heqb num cell hindex hlevel min_col nparts drop name f = Ok f' /\ holds f' t rl' cl' /\ rl' <> [] /\ cl' <> [].
  Proof. intros Hh Hr Hc Pi E. unfold reset_lazy. assert (Hh' := Hh). destruct Hh' as [G [Ki Kc]]. rewrite (gridded_row_lengths G Hc).
    assert (G' := G). destruct G' as (W & Sr & Sc & Gr & Li & Lc & Cr & Cc). destruct (reset_wf drop name W E) as [Wt Nt].
    set (cl' := deploy_lens (ncols t) nparts min_col false cl None false).
    destruct (@deploy_lens_ok (ncols t) nparts min_col false cl None false np mc) as (D1 & D2 & _ & _); [discriminate|]. fold cl' in D1, D2.
    assert (R : rmap (fun ir => deploy_axis_func leqb heqb true (reset_rows heqb num cell hindex hlevel drop name rl (fst ir)) nparts false (snd ir) min_col None false)
                  (combine (seq 0 (length (pgrid f))) (pgrid f)) = Ok (cut_table rl cl' t)).
    { rewrite Gr. unfold cut_table. rewrite map_length. apply rmap_numbered. intros i ri Ei. cbn [fst snd]. rewrite Nat.add_0_l. unfold deploy_axis_func.
      rewrite (concat_cols_blocks_bounds leqb heqb leqb_ok) by assumption. cbn [rbind]. rewrite Nat.add_0_l, Sc, block_cols_full by assumption.
      rewrite (@reset_rows_ok drop name d t rl i ri) by assumption. cbn [rbind]. rewrite split_eff; auto using wf_iloc_rows. f_equal. rewrite map_length, bounds_length.
      cbn [axis_size]. change (ncols (iloc_rows t (fst ri) (snd ri))) with (ncols t). unfold cl', deploy_lens. rewrite orb_true_r. reflexivity. }
    rewrite R. cbn [rbind]. assert (Hc' : cl' <> []) by (intros X; rewrite X in D2; cbn in D2; lia).
    assert (Gw : grid_width (cut_table rl cl' t) = nparts). { unfold cut_table. rewrite <- D2. apply grid_width_map; [now rewrite bounds_nil_iff|]. intros; now rewrite map_length, bounds_length. }
    assert (X : forall nc w, (nc = None \/ nc = Some (dcols t)) -> (w = None \/ w = Some cl') ->
      exists f' rl2 cl2, construct (mkpf (cut_table rl cl' t) None nc None w) = Ok f' /\ holds f' t rl2 cl2 /\ rl2 <> [] /\ cl2 <> []).
    { intros nc w Hn Hw. set (x := mkpf (cut_table rl cl' t) None nc None w). assert (Gx : gridded x t rl cl').
      { unfold gridded, x. cbn [pgrid pindex pcols prl pcl]. repeat split; auto; try apply Wt; try congruence.
        intros c Ec. destruct Hn as [Hn|Hn]; rewrite Hn in Ec; [discriminate|]. now injection Ec as <-. }
      destruct (construct_gridded Gx) as (f' & rl' & cl2 & E1 & G' & N1 & N2 & P1 & P2); auto. exists f', rl', cl2. split; [exact E1|]. split; [|auto].
      split; [exact G'|]. rewrite P1, P2. unfold x. cbn [pindex pcols]. split; [now left|]. exact Hn. }
    destruct drop; [|cbn [rbind]; apply X; auto].
    destruct Kc as [Kc|Kc]; rewrite Kc; [cbn [rbind]; apply X; auto|].
    rewrite Gw. assert (Q : get_length_list (length (dcols d)) nparts min_col = Ok cl').
    { unfold cl', deploy_lens, eff_lens. cbn [negb]. rewrite orb_true_r. cbn in E. injection E as <-. change (ncols (numbered num d)) with (length (dcols d)).
      destruct (Nat.eqb_spec nparts 1) as [->|Hn1]; [now apply get_length_list_one|]. destruct (get_length_list_ok (length (dcols d)) np mc) as (l & -> & _). reflexivity. }
    rewrite Q. cbn [rbind]. apply X; auto. right. cbn in E. now injection E as <-. Qed.

  Lemma reset_lazy_conflict drop name (f : pf) (d : dframe) rl cl e : holds f d rl cl -> rl <> [] -> cl <> [] -> reset drop name d = Err e ->
    reset_lazy leqb heqb num cell hindex hlevel min_col nparts drop name f = Err e.
  Proof. intros [G _] Hr Hc E. unfold reset_lazy. rewrite (gridded_row_lengths G Hc). destruct G as (W & Sr & Sc & Gr & _). rewrite Gr.
    destruct rl as [|r rl]; [easy|]. unfold cut_table at 1 2. cbn [bounds map length seq combine rmap fst snd]. unfold deploy_axis_func at 1.
    rewrite (concat_cols_blocks_bounds leqb heqb leqb_ok) by assumption. cbn [rbind]. rewrite !Nat.add_0_l, Sc, block_cols_full by assumption. unfold reset_rows at 1.
    unfold ResetSpec.reset in *. change (dcols (iloc_rows d ?a ?b)) with (dcols d). destruct drop; [discriminate|].
    destruct (has _ _ _); [|discriminate]. cbn [rbind]. congruence. Qed.

  (** * [reset_index] *)
  Lemma reset_ok drop name (f : pf) (d t : dframe) rl cl : holds f d rl cl -> rl <> [] -> cl <> [] -> reset drop name d = Ok t ->
    (drop = true \/ name = None \/ pindex f = None \/ has heqb hlevel (dcols d) && has heqb hindex (dcols d) = false) ->
    exists f', df_reset_index drop name f = Ok f' /\ look leqb heqb f' = Ok t.
  Proof. intros Hh Hr Hc E K. unfold ResetModel.df_reset_index. assert (Hh' := Hh). destruct Hh' as [G [Ki Kc]]. assert (W : wf d) by apply G.
    destruct (reset_wf drop name W E) as [Wt Nt].
    assert (C : negb drop && match pindex f, pcols f with Some _, Some cols => has heqb hlevel cols && has heqb hindex cols | _, _ => false end = false).
    { destruct drop; [reflexivity|]. cbn [negb andb]. destruct Ki as [Ki|Ki]; rewrite Ki; [reflexivity|]. destruct Kc as [Kc|Kc]; rewrite Kc; [reflexivity|].
      destruct K as [K|[K|[K|K]]]; [discriminate| |congruence|exact K]. subst name. cbn [ResetSpec.reset label_header] in E.
      destruct (has heqb hindex (dcols d)); [|apply andb_false_r]. destruct (has heqb hlevel (dcols d)); [discriminate|reflexivity]. }
    rewrite C. destruct Ki as [Ki|Ki]; rewrite Ki.
    - destruct (reset_lazy_ok drop name Hh Hr Hc Ki E) as (f' & rl' & cl' & E1 & H' & N1 & N2). exists f'. split; [exact E1|]. now apply (look_holds leqb heqb leqb_ok heqb_ok H').
    - destruct drop.
      + eexists. split; [reflexivity|]. rewrite (gridded_row_lengths G Hc). assert (Sr : list_sum rl = nrows d) by apply G. rewrite Sr.
        cbn in E. injection E as <-. rewrite (@look_gridded _ _ _ leqb heqb leqb_ok heqb_ok _ d rl cl (map num (seq 0 (nrows d))) (dcols d)); auto.
        * destruct G as (G1 & G2 & G3 & G4 & G5 & G6 & G7 & G8). unfold gridded. cbn [pgrid pindex pcols prl pcl]. repeat split; auto; try apply G1. intros ? [= <-]. now rewrite map_length, seq_length.
        * assert (X := col_labels_holds Hh (or_introl Hr)). unfold col_labels in *. cbn [pcols pgrid]. exact X.
      + destruct (from_labels_ok name Hh Hr Hc) as (f' & rl' & cl' & E1 & G' & N1 & N2 & P1 & P2). exists f'. split; [exact E1|].
        cbn [ResetSpec.reset] in E. destruct (has _ _ _); [discriminate|]. injection E as <-.
        set (h := label_header _ _ _ _ _) in *. rewrite (@look_gridded _ _ _ leqb heqb leqb_ok heqb_ok _ _ rl' cl' (map num (seq 0 (nrows d))) (h :: dcols d) G'); auto.
        * unfold row_labels. now rewrite P1.
        * unfold col_labels. now rewrite P2. Qed.

  Lemma reset_conflict drop name (f : pf) (d : dframe) rl cl e : holds f d rl cl -> rl <> [] -> cl <> [] -> reset drop name d = Err e ->
    (pindex f = None \/ (name = None /\ pcols f <> None)) -> df_reset_index drop name f = Err ValueError.
  Proof. intros Hh Hr Hc E K. assert (Ev : e = ValueError). { unfold ResetSpec.reset in E. destruct drop; [discriminate|]. destruct (has _ _ _); [congruence|discriminate]. } subst e.
    unfold ResetModel.df_reset_index. destruct (pindex f) as [i|] eqn:Pi.
    - destruct K as [K|[-> K]]; [discriminate|]. assert (Kc : pcols f = Some (dcols d)) by (destruct Hh as [_ [_ [X|X]]]; congruence). rewrite Kc.
      unfold ResetSpec.reset in E. destruct drop; [discriminate|]. cbn [label_header] in E. destruct (has heqb hindex (dcols d)) eqn:Q.
      + destruct (has heqb hlevel (dcols d)); [reflexivity|discriminate].
      + rewrite Q in E. discriminate.
    - rewrite andb_false_r. now apply (reset_lazy_conflict drop name Hh Hr Hc). Qed.
End Reset.
