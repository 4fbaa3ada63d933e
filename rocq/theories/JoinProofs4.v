From Verif Require Import Base Table ChunkModel ChunkSpec ChunkProofs GridSpec GridModel FrameSpec GridProofs GridProofs2 GridProofs3 GridProofs4 GridProofs5 JoinSpec JoinModel JoinProofs JoinProofs2 JoinProofs3.

Lemma slice_app_l {X} (l r : list X) n : length l = n -> slice (l ++ r) 0 n = l.
Proof. intros E. unfold slice. cbn. rewrite Nat.sub_0_r. rewrite firstn_app, E, Nat.sub_diag. cbn. rewrite app_nil_r.
  rewrite <- E. apply firstn_all. Qed.
Lemma slice_app_r {X} (l r : list X) n m : length l = n -> n + length r <= m -> slice (l ++ r) n m = r.
Proof. intros E Hm. unfold slice. rewrite skipn_app, E, Nat.sub_diag. rewrite skipn_all2 by lia. cbn.
  apply firstn_all2. lia. Qed.

Section ConcatProofs.
  Context {L H A : Type}.
  Variable leqb : L -> L -> bool.
  Variable heqb : H -> H -> bool.
  Hypothesis leqb_ok : forall x y, leqb x y = true <-> x = y.
  Hypothesis heqb_ok : forall x y, heqb x y = true <-> x = y.
  Variable fill : A.
  Notation dframe := (df L H A).
  Notation pf := (@pframe L H A).
  Notation slot := (@slot L H A).

  (** ** Stacking *)
  Lemma stack_wf cols (ds : list dframe) : Forall (fun d => wf d /\ dcols d = cols) ds -> wf (stack cols ds).
  Proof. intros F. split; cbn.
    - induction F as [|d ds [[W _] _] _ IH]; cbn; [reflexivity|]. rewrite !app_length, IH. congruence.
    - apply Forall_concat. apply Forall_map. eapply Forall_impl; [|exact F]. intros d [[_ W] E].
      unfold ncols in *. cbn. now rewrite E in W. Qed.

  Lemma stack_cons_rows cols (d : dframe) ds : wf d -> dcols d = cols -> Forall (fun d => wf d /\ dcols d = cols) ds ->
    iloc_rows (stack cols (d :: ds)) 0 (nrows d) = d
    /\ iloc_rows (stack cols (d :: ds)) (nrows d) (nrows (stack cols (d :: ds))) = stack cols ds.
  Proof. intros [W1 W2] E F. destruct (stack_wf F) as [V1 _]. cbn in V1.
    unfold iloc_rows, stack, nrows in *; cbn in *. split.
    - rewrite !slice_app_l by auto. destruct d; cbn in *; congruence.
    - rewrite app_length, !slice_app_r; auto; lia. Qed.

  Lemma cut_stack cols cl (ps : list (list nat * dframe)) :
    Forall (fun p => wf (snd p) /\ dcols (snd p) = cols) ps ->
    Forall (fun p => list_sum (fst p) = nrows (snd p)) ps ->
    concat (map (fun p => cut_table (fst p) cl (snd p)) ps)
    = cut_table (concat (map fst ps)) cl (stack cols (map snd ps))
    /\ list_sum (concat (map fst ps)) = nrows (stack cols (map snd ps)).
  Proof. intros F S. induction ps as [|p ps IH]; [split; reflexivity|].
    apply Forall_cons_iff in F as [[W E] F]. apply Forall_cons_iff in S as [S1 S].
    destruct (IH F S) as [IH1 IH2]. cbn [map concat].
    assert (F' : Forall (fun d => wf d /\ dcols d = cols) (map snd ps)) by now apply Forall_map.
    assert (Hsum : list_sum (fst p ++ concat (map fst ps)) = nrows (stack cols (snd p :: map snd ps))).
    { rewrite list_sum_app, IH2, S1. unfold nrows; cbn. now rewrite app_length. }
    split; [|exact Hsum].
    rewrite cut_table_app.
    - rewrite S1. destruct (@stack_cons_rows cols (snd p) (map snd ps)) as [-> ->]; auto. now rewrite IH1.
    - apply stack_wf. constructor; auto.
    - now rewrite <- list_sum_app. Qed.

  (** ** Gluing *)
  Lemma zipapp_length {X} (a b : list (list X)) : length a = length b -> length (zipapp a b) = length a.
  Proof. intros E. unfold zipapp. rewrite map_length, combine_length. lia. Qed.

  Lemma zipapp_slice_l {X} (a b : list (list X)) w : length a = length b -> Forall (fun r => length r = w) a ->
    map (fun r => slice r 0 w) (zipapp a b) = a.
  Proof. unfold zipapp. revert b. induction a as [|x a IH]; intros [|y b] E F; try discriminate; [reflexivity|].
    apply Forall_cons_iff in F as [F1 F2]. cbn. rewrite slice_app_l by assumption. f_equal. apply IH; auto. Qed.

  Lemma zipapp_slice_r {X} (a b : list (list X)) w v : length a = length b -> Forall (fun r => length r = w) a ->
    Forall (fun r => w + length r <= v) b -> map (fun r => slice r w v) (zipapp a b) = b.
  Proof. unfold zipapp. revert b. induction a as [|x a IH]; intros [|y b] E F G; try discriminate; [reflexivity|].
    apply Forall_cons_iff in F as [F1 F2]. apply Forall_cons_iff in G as [G1 G2].
    cbn. rewrite slice_app_r by assumption. f_equal. apply IH; auto. Qed.

  Lemma zipapp_rows {X} (a b : list (list X)) w v : Forall (fun r => length r = w) a -> Forall (fun r => length r = v) b ->
    Forall (fun r => length r = w + v) (zipapp a b).
  Proof. unfold zipapp. intros F G. revert b G. induction F as [|x a Fx F IH]; intros [|y b] G; cbn; try constructor.
    - apply Forall_cons_iff in G as [G1 G2]. rewrite app_length. lia.
    - apply Forall_cons_iff in G as [G1 G2]. auto. Qed.

  Lemma glue_wf idx (ds : list dframe) : Forall (fun d => wf d /\ dindex d = idx) ds -> wf (glue idx ds).
  Proof. intros F. induction F as [|d ds [[W1 W2] E] F [I1 I2]].
    - split; cbn; [apply repeat_length|]. apply Forall_forall. intros r Hr. apply repeat_spec in Hr. now subst.
    - unfold glue, ncols in *. cbn [map fold_right dindex dcols dcells concat] in *. split; cbn [dcells dindex dcols].
      + rewrite zipapp_length; congruence.
      + rewrite app_length. apply zipapp_rows; assumption. Qed.

  Lemma glue_cons_cols idx (d : dframe) ds : wf d -> dindex d = idx -> Forall (fun d => wf d /\ dindex d = idx) ds ->
    iloc_cols (glue idx (d :: ds)) 0 (ncols d) = d
    /\ iloc_cols (glue idx (d :: ds)) (ncols d) (ncols (glue idx (d :: ds))) = glue idx ds.
  Proof. intros [W1 W2] E F. destruct (glue_wf F) as [V1 V2]. unfold glue in V1, V2. cbn [dcells dindex dcols] in V1, V2.
    unfold iloc_cols, glue, ncols in *. cbn [dcells dindex dcols map concat fold_right] in *. split.
    - rewrite slice_app_l by auto. rewrite zipapp_slice_l; [|congruence|assumption].
      destruct d; cbn in *; congruence.
    - rewrite app_length, slice_app_r by lia. rewrite zipapp_slice_r; [reflexivity|congruence|assumption|].
      eapply Forall_impl; [|exact V2]. cbn. lia. Qed.

  Lemma cut_table_cols_app rl c1 c2 (D : dframe) : wf D -> list_sum c1 + list_sum c2 = ncols D ->
    cut_table rl (c1 ++ c2) D
    = zipapp (cut_table rl c1 (iloc_cols D 0 (list_sum c1))) (cut_table rl c2 (iloc_cols D (list_sum c1) (ncols D))).
  Proof. intros W Hs. unfold cut_table.
    rewrite zipapp_map. apply map_ext. intros ri. rewrite bounds_app, map_app, Nat.add_0_l. f_equal.
    - apply map_ext_in. intros ci Hci. pose proof (bounds_within 0 c1) as Fw. rewrite Forall_forall in Fw.
      specialize (Fw ci Hci). cbn in Fw. unfold block, iloc_cols; cbn. rewrite slice_slice by lia. f_equal.
      rewrite slice_map, map_map. apply map_ext. intros r. now rewrite slice_slice by lia.
    - rewrite <- (bounds_shift (list_sum c1)), map_map. apply map_ext_in. intros ci Hci.
      pose proof (bounds_within 0 c2) as Fw. rewrite Forall_forall in Fw.
      specialize (Fw ci Hci). cbn in Fw. unfold block, iloc_cols; cbn. rewrite slice_slice by lia. f_equal.
      rewrite slice_map, map_map. apply map_ext. intros r. now rewrite slice_slice by lia. Qed.

  Lemma cut_glue idx rl (ps : list (list nat * dframe)) :
    Forall (fun p => wf (snd p) /\ dindex (snd p) = idx) ps ->
    Forall (fun p => list_sum (fst p) = ncols (snd p)) ps ->
    fold_right zipapp (repeat [] (length rl)) (map (fun p => cut_table rl (fst p) (snd p)) ps)
    = cut_table rl (concat (map fst ps)) (glue idx (map snd ps))
    /\ list_sum (concat (map fst ps)) = ncols (glue idx (map snd ps)).
  Proof. intros F S. induction ps as [|p ps IH].
    - split; [|reflexivity]. cbn. unfold cut_table. cbn. now rewrite map_const, bounds_length.
    - apply Forall_cons_iff in F as [[W E] F]. apply Forall_cons_iff in S as [S1 S].
      destruct (IH F S) as [IH1 IH2]. cbn [map concat fold_right].
      assert (F' : Forall (fun d => wf d /\ dindex d = idx) (map snd ps)) by now apply Forall_map.
      assert (Hsum : list_sum (fst p ++ concat (map fst ps)) = ncols (glue idx (snd p :: map snd ps))).
      { rewrite list_sum_app, IH2, S1. unfold ncols; cbn. now rewrite app_length. }
      split; [|exact Hsum].
      rewrite cut_table_cols_app.
      + rewrite S1. destruct (@glue_cons_cols idx (snd p) (map snd ps)) as [-> ->]; auto. now rewrite IH1.
      + apply glue_wf. constructor; auto.
      + now rewrite <- list_sum_app. Qed.

  (** ** Caches *)
  Lemma all_some_spec {Y} (os : list (option (list Y))) (ls : list (list Y)) :
    Forall2 (fun o l => o = None \/ o = Some l) os ls ->
    all_some os = None \/ all_some os = Some (concat ls).
  Proof. induction 1 as [|o l os ls Ho _ IH]; cbn; [now right|].
    destruct Ho as [-> | ->]; [now left|]. unfold all_some in IH. destruct IH as [-> | ->]; [now left|now right]. Qed.

  Lemma gsize_cut rl cl (d : dframe) : rl <> [] -> cl <> [] -> (gsize (cut_table rl cl d) =? 0) = false.
  Proof. intros Hr Hc. unfold gsize. rewrite cut_table_length, cut_table_width by assumption.
    destruct rl; [easy|]. destruct cl; [easy|]. reflexivity. Qed.

  Lemma first_col_lengths rl cl (d : dframe) : cl <> [] -> list_sum rl = nrows d ->
    map (fun row => match row with b :: _ => nrows b | [] => 0 end) (cut_table rl cl d) = rl.
  Proof. intros Hc Hs. unfold cut_table. rewrite map_map.
    transitivity (map (fun iv : nat * nat => Nat.min (snd iv - fst iv) (nrows d - fst iv)) (bounds 0 rl)).
    - apply map_ext. intros ri. destruct cl as [|c cl]; [easy|]. cbn. unfold nrows; cbn. now rewrite slice_length.
    - apply bounds_sizes. lia. Qed.

  Lemma first_row_widths rl cl (d : dframe) : rl <> [] -> list_sum cl = ncols d ->
    (match cut_table rl cl d with row :: _ => map ncols row | [] => [] end) = cl.
  Proof. intros Hc Hs. unfold cut_table. destruct rl as [|r rl]; [easy|]. cbn [bounds map]. rewrite map_map.
    transitivity (map (fun iv : nat * nat => Nat.min (snd iv - fst iv) (ncols d - fst iv)) (bounds 0 cl)).
    - apply map_ext. intros ci. unfold ncols; cbn. now rewrite slice_length.
    - apply bounds_sizes. lia. Qed.

  Lemma construct_holds (f : pf) (d : dframe) rl cl : holds f d rl cl -> rl <> [] -> cl <> [] ->
    exists f' rl' cl', construct f = Ok f' /\ holds f' d rl' cl' /\ rl' <> [] /\ cl' <> []
      /\ pindex f' = pindex f /\ pcols f' = pcols f.
  Proof. intros [G [Hi Hc]] Hr Hcl. destruct (construct_gridded G Hr Hcl) as (f' & rl' & cl' & C1 & C2 & C3 & C4 & C5 & C6).
    exists f', rl', cl'. repeat split; auto; try apply C2; [now rewrite C5|now rewrite C6]. Qed.
End ConcatProofs.
