From Verif Require Import Base Table ChunkModel ChunkSpec ChunkProofs GridModel GridSpec FrameSpec
  GridProofs GridProofs2 GridProofs3 GridProofs5 JoinModel GroupSpec MergeSpec MergeModel.

Lemma slice_at_app {X} (p l q : list X) : slice (p ++ l ++ q) (length p) (length p + length l) = l.
Proof. unfold slice. rewrite skipn_app, skipn_all, Nat.sub_diag. cbn [skipn app].
  replace (length p + length l - length p) with (length l) by lia.
  now rewrite firstn_app, firstn_all, Nat.sub_diag, app_nil_r. Qed.

Lemma slice_seq n a b : b <= n -> slice (seq 0 n) a b = seq a (b - a).
Proof. intros Hb. unfold slice. destruct (Nat.le_gt_cases b a) as [E|E].
  - now replace (b - a) with 0 by lia.
  - replace (seq 0 n) with (seq 0 a ++ seq a (b - a) ++ seq b (n - b)).
    + pose proof (slice_at_app (seq 0 a) (seq a (b - a)) (seq b (n - b))) as X. unfold slice in X.
      rewrite !seq_length in X. now replace (a + (b - a) - a) with (b - a) in X by lia.
    + replace (seq b (n - b)) with (seq (a + (b - a)) (n - b)) by (f_equal; lia). rewrite <- seq_app.
      change a with (0 + a) at 2. rewrite <- seq_app. f_equal. lia. Qed.

(** * Tables below each other, cut into the same columns *)
Section Stack.
  Context {L H A : Type}.
  Notation dframe := (df L H A).

  Lemma stack_blocks (c : list H) (ci : nat * nat) (ts : list dframe) :
    Forall (fun t => wf t /\ dcols t = c) ts ->
    forall (pi : list L) (pc : list (list A)), length pi = length pc ->
    map (fun ri => block (mkdf (pi ++ concat (map dindex ts)) c (pc ++ concat (map dcells ts))) ri ci)
        (bounds (length pi) (map nrows ts))
    = map (fun t => iloc_cols t (fst ci) (snd ci)) ts.
  Proof.
    induction 1 as [|t ts [W C] F IH]; intros pi pc E; cbn [map bounds concat]; [reflexivity|].
    f_equal.
    - unfold block, iloc_cols. cbn [dindex dcols dcells fst snd]. rewrite C. f_equal.
      + unfold nrows. apply slice_at_app.
      + f_equal. unfold nrows. rewrite E, <- (proj1 W). apply slice_at_app.
    - specialize (IH (pi ++ dindex t) (pc ++ dcells t)). rewrite !app_length in IH.
      rewrite <- !app_assoc in IH. apply IH. rewrite E. f_equal. symmetry. apply W.
  Qed.

  Lemma stack_grid (c : list H) (cl : list nat) (ts : list dframe) :
    Forall (fun t => wf t /\ dcols t = c) ts ->
    map (fun t => map (fun ci => iloc_cols t (fst ci) (snd ci)) (bounds 0 cl)) ts
    = cut_table (map nrows ts) cl (mkdf (concat (map dindex ts)) c (concat (map dcells ts))).
  Proof.
    intros F. unfold cut_table.
    assert (E : forall ci, map (fun ri => block (mkdf (concat (map dindex ts)) c (concat (map dcells ts))) ri ci) (bounds 0 (map nrows ts))
                = map (fun t => iloc_cols t (fst ci) (snd ci)) ts).
    { intros ci. apply (stack_blocks ci F [] []). reflexivity. }
    set (B := bounds 0 (map nrows ts)) in *. set (T := mkdf _ _ _) in *.
    assert (El : length B = length ts) by (unfold B; now rewrite bounds_length, map_length).
    apply nth_error_ext. intros i. rewrite !nth_error_map.
    destruct (nth_error ts i) as [t|] eqn:Et; destruct (nth_error B i) as [ri|] eqn:Eb; cbn.
    - f_equal. apply map_ext_in. intros ci _. specialize (E ci). apply (f_equal (fun l => nth_error l i)) in E.
      rewrite !nth_error_map, Et, Eb in E. cbn in E. congruence.
    - apply nth_error_None in Eb. assert (i < length ts) by (apply nth_error_Some; congruence). lia.
    - apply nth_error_None in Et. assert (i < length B) by (apply nth_error_Some; congruence). lia.
    - reflexivity.
  Qed.

  Lemma wf_stack (c : list H) (ts : list dframe) : Forall (fun t => wf t /\ dcols t = c) ts ->
    wf (mkdf (concat (map dindex ts)) c (concat (map dcells ts))).
  Proof.
    induction 1 as [|t ts [W C] F IH]; [now split; [|constructor]|]. destruct IH as [I1 I2]. destruct W as [W1 W2].
    cbn in *. split; cbn [dindex dcols dcells].
    - rewrite !app_length. congruence.
    - apply Forall_app. split; [|exact I2]. now rewrite C in W2.
  Qed.
  Lemma nrows_stack (ts : list dframe) : length (concat (map dindex ts)) = list_sum (map nrows ts).
  Proof. rewrite map_length_concat, map_map. reflexivity. Qed.
End Stack.

(** * reset_index(drop=True) *)
Section Reset.
  Context {H A : Type}.
  Variable heqb : H -> H -> bool.

  Lemma firstn_sum_bounds lens i iv : nth_error (bounds 0 lens) i = Some iv ->
    fst iv = list_sum (firstn i lens) /\ snd iv = list_sum (firstn (S i) lens).
  Proof.
    cut (forall a, nth_error (bounds a lens) i = Some iv ->
           fst iv = a + list_sum (firstn i lens) /\ snd iv = a + list_sum (firstn (S i) lens)); [intros X; apply (X 0)|].
    revert i. induction lens as [|n lens IH]; intros [|i] a; cbn [bounds nth_error]; try easy.
    - intros [= <-]. cbn. lsum. lia.
    - intros E. apply IH in E as [-> ->]. cbn [firstn]. lsum. lia.
  Qed.

  Lemma reset_index_ok (min_col : nat) (f : @pframe nat H A) d rl cl :
    holds f d rl cl -> pindex f = None -> rl <> [] -> cl <> [] -> 0 < min_col ->
    exists f' rl' cl', reset_index heqb min_col f = Ok f'
      /\ holds f' (mkdf (seq 0 (nrows d)) (dcols d) (dcells d)) rl' cl' /\ rl' <> [] /\ cl' <> []
      /\ pindex f' = None /\ pcols f' = pcols f.
  Proof.
    intros [G [Hi Hc']] Ei Hr Hc Hm. assert (G' := G). destruct G' as (W & Sr & Sc & Hg & _ & Hcl' & Hrl & Hcl).
    unfold reset_index. rewrite Ei, (gridded_row_lengths G Hc), Hg.
    set (T := mkdf (seq 0 (nrows d)) (dcols d) (dcells d)).
    assert (WT : wf T) by (destruct W as [W1 W2]; split; cbn; [now rewrite seq_length|exact W2]).
    assert (Hw : grid_width (cut_table rl cl d) = length cl).
    { unfold cut_table. apply grid_width_map; [now rewrite bounds_nil_iff|]. intros; now rewrite map_length, bounds_length. }
    rewrite Hw.
    match goal with |- context [rmap ?F ?l] => assert (E : rmap F l = Ok (cut_table rl cl T)) end.
    { unfold cut_table. rewrite combine_seq_bounds.
      erewrite rmap_map_ok with (h := fun ir : nat * (nat * nat) => map (fun ci => block T (snd ir) ci) (bounds 0 cl)).
      { f_equal. rewrite <- (bounds_length 0 rl). apply map_snd_combine_seq with (h := fun ri => map (fun ci => block T ri ci) (bounds 0 cl)). }
      intros [i ri] Hin. cbn [fst snd].
      assert (Hn : nth_error (bounds 0 rl) i = Some ri).
      { assert (X : forall (l : list (nat * nat)) s i ri, In (i, ri) (combine (seq s (length l)) l) -> s <= i /\ nth_error l (i - s) = Some ri).
        { clear. induction l as [|x l IH]; intros s i ri; cbn; [easy|]. intros [[= <- <-]|Hin].
          - rewrite Nat.sub_diag. auto.
          - apply IH in Hin as [H1 H2]. split; [lia|]. replace (i - s) with (S (i - S s)) by lia. exact H2. }
        rewrite <- (bounds_length 0 rl) in Hin. apply X in Hin as [_ Hin]. now rewrite Nat.sub_0_r in Hin. }
      destruct (firstn_sum_bounds _ _ Hn) as [E1 E2]. rewrite <- E1, <- E2.
      pose proof (bounds_within 0 rl) as Fw. rewrite Forall_forall in Fw. specialize (Fw ri (nth_error_In _ _ Hn)).
      pose proof (bounds_snd_ge 0 rl) as Fg. rewrite Forall_forall in Fg. specialize (Fg ri (nth_error_In _ _ Hn)).
      unfold deploy_axis_func. rewrite (concat_cols_blocks_bounds Nat.eqb heqb Nat.eqb_eq) by assumption.
      cbn [rbind]. rewrite Nat.add_0_l, Sc, block_cols_full by assumption.
      unfold set_index_labels. rewrite seq_length.
      assert (En : nrows (iloc_rows d (fst ri) (snd ri)) = snd ri - fst ri).
      { unfold nrows in *. cbn. rewrite slice_length. lia. }
      rewrite En, Nat.eqb_refl. cbn [rbind].
      set (b := mkdf (seq (fst ri) (snd ri - fst ri)) (dcols (iloc_rows d (fst ri) (snd ri))) (dcells (iloc_rows d (fst ri) (snd ri)))).
      assert (Eb : b = iloc_rows T (fst ri) (snd ri)).
      { unfold b, iloc_rows, T. cbn. f_equal. rewrite slice_seq; [reflexivity|lia]. }
      assert (Wb : wf b) by (rewrite Eb; now apply wf_iloc_rows).
      assert (Hl : 0 < length cl) by (destruct cl; [easy|cbn; lia]).
      rewrite split_eff; auto.
      assert (Hold : map (axis_size true) (map (fun ci => block d ri ci) (bounds 0 cl)) = cl).
      { rewrite map_map. cbn [axis_size]. unfold ncols in *. cbn.
        rewrite <- (@bounds_sizes (length (dcols d)) 0 cl) at 2 by lia.
        apply map_ext. intros iv. now rewrite slice_length. }
      rewrite Hold, !map_length, bounds_length.
      assert (Hb : axis_size true b = list_sum cl) by (rewrite Sc; reflexivity).
      rewrite Hb.
      change (eff_lens (list_sum cl) (length cl) min_col
        (if length cl =? 1 then None
         else if negb (length cl =? length cl) || negb true then None
         else if list_sum cl =? list_sum cl then Some cl else None))
        with (deploy_lens (list_sum cl) (length cl) min_col true cl None false).
      destruct (@deploy_lens_ok (list_sum cl) (length cl) min_col true cl None false) as (_ & _ & D & _);
        auto; [discriminate|]. rewrite D by auto.
      f_equal. apply map_ext. intros ci. rewrite Eb. destruct ri, ci. reflexivity. }
    rewrite E. cbn [rbind].
    match goal with |- context [construct ?x] => destruct (@construct_gridded _ _ _ x T rl cl) as (f' & rl' & cl' & F1 & F2 & F3 & F4 & F5 & F6) end; auto.
    - unfold gridded. cbn [pgrid pindex pcols prl pcl]. change (nrows T) with (length (seq 0 (nrows d))). rewrite seq_length.
      change (ncols T) with (ncols d). repeat split; auto; try apply WT; try discriminate.
      destruct (pcl f) as [l|]; [|auto]. destruct (pcols f); [|auto]. destruct (_ && _); [|auto]. destruct Hcl; auto.
    - exists f', rl', cl'. split; [exact F1|]. cbn [pindex pcols] in F5, F6. repeat split; auto; try apply F2.
      rewrite F6. exact Hc'.
  Qed.
End Reset.
