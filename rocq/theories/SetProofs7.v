(** A whole column replaced by new values. *)
From Verif Require Import Base Table ChunkModel ChunkSpec ChunkProofs GridModel GridSpec FrameSpec GridProofs GridProofs2 GridProofs3 GridProofs5 SelSpec SelModel
  SelProofs SelProofs2 SelProofs3 SelProofs4 SelProofs5 SelProofs6 SelProofs7 JoinSpec JoinModel JoinProofs JoinProofs2 JoinProofs3 JoinProofs4 JoinProofs5 JoinProps
  SetSpec SetModel SetProofs SetProofs2 SetProofs3 SetProofs4 SetProofs5 SetProofs6.

Lemma reported_start n c i : 0 < c -> i <= nchunks n c -> i = 0 \/ (i - 1) * c + c <= n \/ i = nchunks n c ->
  start_of (reported_lengths n c) i = Nat.min n (i * c).
Proof.
  intros Hc. induction i as [|i IH]; intros Hi _; [rewrite start_of_0; lia|].
  rewrite start_of_S by (rewrite reported_lengths_length; lia). rewrite reported_lengths_nth by (auto; lia).
  assert (Hn : i * c < n) by (apply nchunks_tight; auto; lia).
  rewrite IH; [|lia|].
  - nia.
  - destruct i; [now left|right; left]. nia.
Qed.

Section Column.
  Context {L H A : Type}.
  Notation dframe := (df L H A).
  Notation pf := (@pframe L H A).
  Variable leqb : L -> L -> bool.
  Variable heqb : H -> H -> bool.
  Hypothesis leqb_ok : forall x y, leqb x y = true <-> x = y.
  Hypothesis heqb_ok : forall x y, heqb x y = true <-> x = y.
  Variables min_row min_col nparts : nat.
  Hypothesis mr : 0 < min_row.
  Hypothesis mc : 0 < min_col.
  Hypothesis np : 0 < nparts.
  Variables known_l known_w : nat -> nat -> bool.
  Variable argsort : list Z -> list nat.
  Hypothesis argsort_ok : forall l, sorts l (argsort l).
  Variable fill : A.

  Lemma slice_clip {X} (l : list X) a b b' : length l <= b -> length l <= b' -> slice l a b = slice l a b'.
  Proof.
    intros Hb Hb'. unfold slice. destruct (Nat.le_gt_cases (length l) a).
    - rewrite !skipn_all2 by assumption. now rewrite !firstn_nil.
    - rewrite !firstn_all2; [reflexivity| |]; rewrite skipn_length; lia.
  Qed.

  (** A one-column table put into blocks. *)
  Lemma distribute_shows (d : dframe) : wf d -> 0 < nrows d -> ncols d = 1 ->
    exists f rl cl, distribute min_row min_col nparts d = Ok f /\ shows f d rl cl.
  Proof.
    intros W Hn Hm. unfold distribute, from_pandas.
    destruct (compute_chunksize_ok (nrows d) np mr) as (rc & -> & Hrc & Hrn & _).
    destruct (compute_chunksize_ok (ncols d) np mc) as (cc & -> & Hcc & Hcn & _). cbn [rbind fgrid findex fcols frow_lengths fcol_widths].
    rewrite split_as_grid_wf by assumption. rewrite Hm. replace (1 <=? cc) with true by (symmetry; apply Nat.leb_le; lia).
    assert (Ec : reported_lengths 1 cc = [1]).
    { rewrite reported_lengths_eq by assumption. rewrite range_step_0. unfold nchunks. destruct cc as [|[|cc]]; [lia|reflexivity|].
      rewrite Nat.div_small, Nat.mod_small by lia. reflexivity. }
    rewrite Ec.
    assert (Eg : grid_iv (map (fun i => (i, i + rc)) (range_step 0 (nrows d) rc)) [(0, 1)] d = cut_table (reported_lengths (nrows d) rc) [1] d).
    { unfold grid_iv, cut_table. apply nth_error_ext. intros i. rewrite !nth_error_map.
      destruct (Nat.ltb_spec i (nchunks (nrows d) rc)) as [Hi|Hi].
      - rewrite nth_error_bounds by now rewrite reported_lengths_length.
        rewrite range_step_0, nth_error_map, (nth_error_nth' _ 0) by now rewrite seq_length. rewrite seq_nth by assumption. cbn [option_map plus].
        pose proof (nchunks_tight (nrows d) Hrc Hi) as Ht.
        rewrite reported_start; [|assumption|lia|]. 2:{ destruct i; [now left|right; left]. nia. }
        replace (Nat.min (nrows d) (i * rc)) with (i * rc) by lia. rewrite reported_lengths_nth by assumption.
        f_equal. cbn [map bounds]. f_equal. unfold block. cbn [fst snd].
        assert (X : forall Y (l : list Y), length l = nrows d -> slice l (i * rc) (i * rc + rc) = slice l (i * rc) (i * rc + Nat.min rc (nrows d - i * rc))).
        { intros Y l Hl. destruct (Nat.le_gt_cases rc (nrows d - i * rc)); [f_equal; lia|]. apply slice_clip; lia. }
        rewrite !X; [reflexivity|apply W|reflexivity].
      - rewrite (proj2 (nth_error_None (range_step 0 (nrows d) rc) i)) by (rewrite range_step_length; exact Hi).
        rewrite (proj2 (nth_error_None (bounds 0 _) i)); [reflexivity|]. rewrite bounds_length, reported_lengths_length. exact Hi. }
    rewrite Eg. exists (mkpf (cut_table (reported_lengths (nrows d) rc) [1] d) (Some (dindex d)) (Some (dcols d)) (Some (reported_lengths (nrows d) rc)) (Some [1])),
      (reported_lengths (nrows d) rc), [1]. split; [reflexivity|].
    pose proof (reported_lengths_sum (nrows d) Hrc) as Sr.
    split; [|split; [|split; [discriminate|auto]]].
    - apply holds_intro; cbn; auto.
    - intros E. rewrite E in Sr. change (list_sum []) with 0 in Sr. lia.
  Qed.

  (** No columns at all: zero-width blocks. *)
  Lemma take_no_columns (f : pf) d rl cl : shows f d rl cl ->
    exists f' rl' cl', take_2d_positional leqb heqb min_row min_col nparts known_l known_w argsort false None (Some (IList [])) f = Ok f'
      /\ shows f' (take2d (seq 0 (nrows d)) [] d) rl' cl'.
  Proof.
    intros ((G & Gi & Gc) & Nr & Nc & Pi & Pc). assert (W := proj1 G).
    pose proof (gridded_row_lengths G Nc) as Erl. pose proof (gridded_column_widths G Nr) as Ecl.
    destruct G as (_ & Sr & Sc & Eg & _ & _ & Cr & Cc).
    unfold take_2d_positional. cbn [normalize rbind take_axis]. rewrite Pi, Pc. cbn [labels rbind ipos increasing block_index get_new_index_obj].
    assert (E0 : np_take (dcols d) [] = Ok []) by reflexivity.
    rewrite E0. cbn [rbind]. rewrite Ecl, Eg, cut_table_length.
    replace (get_new_lengths cl [(0, BList [])]) with [0] by reflexivity. cbn [list_sum length Nat.eqb negb fold_right Nat.add].
    assert (Hcl : 0 < length cl) by (destruct cl; [easy|cbn; lia]).
    rewrite (@mask_grid L H A min_row min_col nparts mr mc np known_l known_w d rl cl (map (fun i => (i, whole)) (seq 0 (length rl))) [(0, BList [])]); auto.
    - cbn [rbind map].
      set (D := take2d (seq 0 (nrows d)) [] d).
      assert (WD : wf D). { apply wf_take2d; [exact W|apply Forall_forall; intros p Hp%in_seq; lia|constructor]. }
      assert (EG : map (fun r => [take2d r (entry_positions cl (0, BList [])) d]) (map (entry_positions rl) (map (fun i => (i, whole)) (seq 0 (length rl)))) = cut_table rl [0] D).
      { change (entry_positions cl (0, BList [])) with (@nil nat).
        set (R := map (entry_positions rl) (map (fun i => (i, whole)) (seq 0 (length rl)))).
        assert (E1 : concat R = seq 0 (nrows d)). { unfold R. rewrite wholes by lia. rewrite start_of_0, Nat.add_0_l, start_of_all. f_equal. lia. }
        pose proof (@cut_take2d L H A R [[]] d W) as C. cbn [map length concat app] in C. rewrite E1 in C.
        unfold R in C at 1. rewrite wholes_lengths in C. unfold D. rewrite C; [reflexivity| |constructor]. apply Forall_forall. intros p Hp%in_seq. lia. }
      rewrite EG.
      assert (Di : Some (dindex d) = Some (dindex D)). { f_equal. unfold D. cbn. now rewrite pick_all. }
      rewrite Di. change (Some (@nil H)) with (Some (dcols D)).
      destruct (@construct_shows L H A (cut_table rl [0] D) D rl [0] (prl f) (Some [0])) as (f' & rl' & cl' & K1 & K2); auto.
      + rewrite Sr. unfold D. symmetry. rewrite take2d_nrows; [apply seq_length|]. apply Forall_forall. intros p Hp%in_seq. lia.
      + discriminate.
      + rewrite K1. cbn [rbind]. exists f', rl', cl'. split; [|exact K2]. reflexivity.
    - apply wholes_ok. lia.
    - constructor; [|constructor]. split; [exact Hcl|constructor].
    - apply wholes_safe.
    - constructor; [|constructor]. intros E. cbn in *. now rewrite <- E.
  Qed.

  Lemma mask_shows (f : pf) d rl cl k n : shows f d rl cl -> 0 < nrows d -> k + n <= ncols d ->
    exists f' rl' cl', take_2d_positional leqb heqb min_row min_col nparts known_l known_w argsort false None (Some (IList (map Z.of_nat (seq k n)))) f = Ok f'
      /\ shows f' (take2d (seq 0 (nrows d)) (seq k n) d) rl' cl'.
  Proof.
    intros Sh Hn Hk. destruct n as [|n]; [now apply (take_no_columns Sh)|].
    destruct (@take_2d_ok L H A leqb heqb leqb_ok heqb_ok min_row min_col nparts mr mc np known_l known_w argsort argsort_ok false f d rl cl None
      (Some (IList (map Z.of_nat (seq k (S n))))) (seq 0 (nrows d)) (seq k (S n)) Sh) as (f' & E1 & _ & E2).
    - reflexivity.
    - split; [exact I|]. split; [reflexivity|]. apply Forall_forall. intros p Hp%in_seq. lia.
    - right. split; apply seq_NoDup.
    - destruct E2 as (rl' & cl' & Sh'); [destruct (nrows d); [lia|discriminate]|discriminate|]. eauto.
  Qed.

  (** Three tables with the same row labels side by side. *)
  Lemma concat_three join fk (f0 f1 f2 : pf) d0 d1 d2 rl0 cl0 rl1 cl1 rl2 cl2 idx :
    shows f0 d0 rl0 cl0 -> shows f1 d1 rl1 cl1 -> shows f2 d2 rl2 cl2 ->
    dindex d0 = idx -> dindex d1 = idx -> dindex d2 = idx ->
    exists f' rl' cl', concat_frames_cols leqb heqb fill join nparts min_row fk f0 [f1; f2] = Ok f'
      /\ shows f' (glue idx [d0; d1; d2]) rl' cl'.
  Proof.
    intros S0 S1 S2 I0 I1 I2.
    set (join' := fun ls : list (list L) => (nth 0 ls [], map (fun l => map Some (seq 0 (length l))) ls)).
    assert (R0 : row_labels f0 = idx) by (destruct S0 as (Hh & _ & Hc & _); rewrite (row_labels_holds Hh Hc); exact I0).
    assert (R1 : row_labels f1 = idx) by (destruct S1 as (Hh & _ & Hc & _); rewrite (row_labels_holds Hh Hc); exact I1).
    assert (R2 : row_labels f2 = idx) by (destruct S2 as (Hh & _ & Hc & _); rewrite (row_labels_holds Hh Hc); exact I2).
    assert (Ej : concat_frames_cols leqb heqb fill join nparts min_row fk f0 [f1; f2] = concat_frames_cols leqb heqb fill join' nparts min_row fk f0 [f1; f2]).
    { unfold concat_frames_cols, copartition_rows, copartition. cbn [map]. rewrite R0, R1, R2. unfold join_index_objects.
      replace (forallb (list_eqb leqb idx) [idx; idx]) with true; [reflexivity|]. cbn. now rewrite (list_eqb_refl leqb leqb_ok). }
    rewrite Ej.
    set (t0 := mkslot f0 d0 rl0 cl0). set (t1 := mkslot f1 d1 rl1 cl1). set (t2 := mkslot f2 d2 rl2 cl2).
    assert (Elab : map (fun t : @slot L H A => dindex (sd t)) [t0; t1; t2] = [idx; idx; idx]) by (cbn; now rewrite I0, I1, I2).
    assert (Eio : join_index_objects leqb join' [idx; idx; idx] = (idx, map (fun l => map Some (seq 0 (length l))) [idx; idx; idx])).
    { unfold join_index_objects. cbn [forallb]. now rewrite (list_eqb_refl leqb leqb_ok). }
    destruct (@concat_cols_ok L H A leqb heqb leqb_ok heqb_ok fill join' nparts min_row fk t0 [t1; t2] idx (map (fun l => map Some (seq 0 (length l))) [idx; idx; idx]))
      as (f' & rl' & cl' & K1 & K2 & K3 & K4 & K5 & K6); auto.
    - destruct S0 as (H0 & A0 & B0 & _), S1 as (H1 & A1 & B1 & _), S2 as (H2 & A2 & B2 & _).
      repeat apply Forall_cons; try apply Forall_nil; (split; [assumption|split; assumption]).
    - rewrite Elab. unfold joins_well. unfold join' at 1. cbn [fst snd nth map]. split; [reflexivity|]. intros i lab ix Hlab Hix.
      assert (lab = idx /\ ix = map Some (seq 0 (length idx))) as [-> ->].
      { destruct i as [|[|[|i]]]; cbn in Hlab, Hix; try (injection Hlab as <-; injection Hix as <-; auto); destruct i; discriminate. }
      rewrite map_length, seq_length. split; [reflexivity|]. split; [|split; [|reflexivity]].
      + intros k p Hk. rewrite nth_error_map in Hk. destruct (nth_error (seq 0 (length idx)) k) as [q|] eqn:Eq; [|discriminate].
        cbn in Hk. injection Hk as ->. assert (Hk : k < length (seq 0 (length idx))) by (apply nth_error_Some; congruence).
        rewrite seq_length in Hk. apply (nth_error_nth _ _ 0) in Eq. rewrite seq_nth in Eq by assumption. cbn in Eq. subst p. auto.
      + intros k x Hk. rewrite nth_error_map in Hk. destruct (nth_error (seq 0 (length idx)) k); discriminate.
    - now rewrite Elab.
    - cbn [sf map] in K1. cbn [length seq combine map fst snd nth sd] in K2.
      assert (W0 : wf d0) by apply S0. assert (W1 : wf d1) by apply S1. assert (W2 : wf d2) by apply S2.
      assert (P : forall dd : dframe, wf dd -> dindex dd = idx -> pick_rows fill idx (map Some (seq 0 (length idx))) dd = dd).
      { intros dd Wd <-. now apply pick_rows_id. }
      unfold t0, t1, t2 in K2. cbn [sd] in K2. rewrite !P in K2 by assumption.
      exists f', rl', cl'. split; [exact K1|]. split; [exact K2|]. split; [exact K3|]. split; [exact K4|].
      destruct S0 as (_ & _ & _ & X0 & Y0), S1 as (_ & _ & _ & X1 & Y1), S2 as (_ & _ & _ & X2 & Y2).
      destruct K2 as (_ & Ki & Kc). split.
      + destruct Ki as [Ki|Ki]; [|exact Ki]. exfalso. apply K6; [cbn; congruence|exact Ki].
      + destruct Kc as [Kc|Kc]; [|exact Kc]. exfalso. apply K5; [|exact Kc]. repeat constructor; cbn; congruence.
  Qed.

  Lemma zip_three (g h : list A -> list A) (v : nat -> A) : forall rows k,
    fold_right zipapp (repeat [] (length rows)) [map g rows; map (fun i => [v i]) (seq k (length rows)); map h rows]
    = imap_from k (fun p r => g r ++ [v p] ++ h r) rows.
  Proof.
    induction rows as [|r t IH]; intros k; [reflexivity|].
    cbn [length repeat map seq imap_from]. rewrite <- IH. cbn [fold_right]. unfold zipapp. cbn [combine map]. now rewrite app_nil_r.
  Qed.

  Lemma glue_column (d : dframe) q key v : wf d -> q < ncols d -> nth_error (dcols d) q = Some key ->
    glue (dindex d) [take2d (seq 0 (nrows d)) (seq 0 q) d; mkdf (dindex d) [key] (map (fun i => [v i]) (seq 0 (nrows d)));
                     take2d (seq 0 (nrows d)) (seq (S q) (ncols d - S q)) d]
    = put (seq 0 (nrows d)) [q] (fun i _ => v i) d.
  Proof.
    intros W Hq Hk. assert (W' := W). destruct W' as [W1 W2].
    assert (Er : pick (dcells d) (seq 0 (nrows d)) = dcells d) by (apply pick_all; exact W1).
    assert (EC : fold_right zipapp (repeat [] (length (dindex d)))
       [map (fun r => pick r (seq 0 q)) (dcells d); map (fun i => [v i]) (seq 0 (nrows d)); map (fun r => pick r (seq (S q) (ncols d - S q))) (dcells d)]
       = imap (fun p r => pick r (seq 0 q) ++ [v p] ++ pick r (seq (S q) (ncols d - S q))) (dcells d)).
    { unfold nrows. rewrite <- W1. unfold imap. apply zip_three. }
    assert (Dc : concat (map dcols [take2d (seq 0 (nrows d)) (seq 0 q) d; mkdf (dindex d) [key] (map (fun i => [v i]) (seq 0 (nrows d)));
                     take2d (seq 0 (nrows d)) (seq (S q) (ncols d - S q)) d]) = dcols d).
    { cbn [map concat take2d dcols]. rewrite app_nil_r. 
      rewrite <- (@pick_all _ (dcols d) (ncols d)) at 3 by reflexivity.
      replace (seq 0 (ncols d)) with (seq 0 q ++ [q] ++ seq (S q) (ncols d - S q)).
      - rewrite !pick_app. f_equal. f_equal. unfold pick. cbn. now rewrite Hk.
      - change ([q] ++ seq (S q) (ncols d - S q)) with (seq q (S (ncols d - S q))). rewrite <- seq_app. f_equal. lia. }
    apply df_eq; cbn [glue put dindex dcols dcells].
    - reflexivity.
    - exact Dc.
    - cbn [map take2d dcells]. rewrite Er, EC. apply nth_error_ext. intros p. rewrite !imap_nth.
      destruct (nth_error (dcells d) p) as [r|] eqn:Ep; [|reflexivity]. cbn [option_map]. f_equal.
      assert (Hp : p < nrows d) by (unfold nrows; rewrite <- W1; apply nth_error_Some; congruence).
      rewrite last_index_seq, (proj2 (Nat.ltb_lt _ _) Hp).
      assert (Lr : length r = ncols d) by (rewrite Forall_forall in W2; apply W2; eapply nth_error_In; eauto).
      rewrite !pick_seq by lia. apply nth_error_ext. intros j. rewrite imap_nth.
      assert (Ls : length (slice r 0 (0 + q)) = q) by (rewrite slice_length; lia).
      destruct (Nat.lt_trichotomy j q) as [Lt|[->|Gt]].
      + rewrite nth_error_app1 by lia. rewrite nth_error_slice by lia. cbn [plus last_index].
        destruct (Nat.eqb_spec q j); [lia|]. destruct (nth_error r j); reflexivity.
      + rewrite nth_error_app2 by lia. rewrite Ls, Nat.sub_diag. cbn [app nth_error last_index]. rewrite Nat.eqb_refl.
        destruct (nth_error r q) eqn:E; [reflexivity|]. apply nth_error_None in E. lia.
      + rewrite nth_error_app2 by lia. rewrite Ls. replace (j - q) with (S (j - S q)) by lia. cbn [app nth_error last_index].
        destruct (Nat.eqb_spec q j); [lia|].
        destruct (Nat.ltb_spec j (ncols d)) as [Hj|Hj].
        * rewrite nth_error_slice by lia. replace (S q + (j - S q)) with j by lia. destruct (nth_error r j); reflexivity.
        * rewrite (proj2 (nth_error_None _ _)) by (rewrite slice_length; lia). rewrite (proj2 (nth_error_None r j)) by lia. reflexivity.
  Qed.

  (** [df[key] = values] for an existing column *)
  Lemma setitem_column_list_ok join fk (f : pf) d rl cl q key v : shows f d rl cl -> 0 < nrows d -> nth_error (dcols d) q = Some key ->
    (forall k, nth_error (dcols d) k = Some key -> k = q) ->
    exists f' rl' cl', setitem_column leqb heqb min_row min_col nparts known_l known_w argsort fill join fk key (Vector (nrows d) v) f = Ok f'
      /\ shows f' (put (seq 0 (nrows d)) [q] (fun i _ => v i) d) rl' cl'.
  Proof.
    intros Sh Hn Hk Hu. assert (Sh' := Sh). destruct Sh' as ((G & _) & _ & _ & Pi & Pc). assert (W := proj1 G).
    assert (Hq : q < ncols d) by (unfold ncols; apply nth_error_Some; congruence).
    unfold setitem_column. rewrite Pi, Pc. cbn [labels rbind]. fold (nrows d). rewrite Nat.eqb_refl. cbn [negb].
    set (col := mkdf (dindex d) [key] (map (fun i => [v i]) (seq 0 (nrows d)))).
    assert (Wc : wf col). { split; cbn; [now rewrite map_length, seq_length|]. apply Forall_map, Forall_forall. reflexivity. }
    destruct (@distribute_shows col Wc Hn eq_refl) as (fv & rlv & clv & -> & Shv). cbn [rbind].
    rewrite (@indexer_unique _ heqb heqb_ok _ _ _ Hk Hu). unfold insert_item. rewrite Pc. cbn [labels rbind]. fold (ncols d).
    rewrite (proj2 (Nat.ltb_lt _ _) Hq), !seq_length.
    replace (q =? ncols d) with false by (symmetry; apply Nat.eqb_neq; lia).
    replace (ncols d - S q =? ncols d) with false by (symmetry; apply Nat.eqb_neq; lia).
    destruct (@mask_shows f d rl cl 0 q Sh Hn) as (f0 & rl0 & cl0 & -> & Sh0); [lia|]. cbn [rbind].
    destruct (@mask_shows f d rl cl (S q) (ncols d - S q) Sh Hn) as (f2 & rl2 & cl2 & -> & Sh2); [lia|]. cbn [rbind].
    rewrite <- (glue_column v W Hq Hk).
    apply (concat_three join fk Sh0 Shv Sh2); cbn; try (now apply pick_all); reflexivity.
  Qed.
End Column.
