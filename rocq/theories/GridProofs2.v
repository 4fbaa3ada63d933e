From Verif Require Import Base Table ChunkModel ChunkSpec ChunkProofs GridSpec GridModel GridProofs.

Lemma slice_one {X} (l : list X) j x : nth_error l j = Some x -> slice l j (S j) = [x].
Proof. unfold slice. replace (S j - j) with 1 by lia. revert l; induction j as [|j IH]; intros [|y l]; cbn; try discriminate.
  - now intros [= ->].
  - apply IH. Qed.

Lemma bounds_ones a n : bounds a (repeat 1 n) = map (fun j => (j, S j)) (seq a n).
Proof. revert a; induction n as [|n IH]; intros a; cbn; [reflexivity|].
  rewrite IH. now rewrite Nat.add_1_r. Qed.

Lemma map_nth_seq {X Y} (l : list X) (f : X -> Y) (g : nat -> Y) :
  (forall j x, nth_error l j = Some x -> f x = g j) -> map f l = map g (seq 0 (length l)).
Proof. revert g; induction l as [|x l IH]; intros g Hg; cbn; [reflexivity|].
  f_equal; [now apply (Hg 0)|]. rewrite <- seq_shift, map_map. apply IH. intros j y E. now apply (Hg (S j)). Qed.

Section RowColModes.
  Context {L H A L2 H2 B : Type}.
  Variable leqb : L -> L -> bool.
  Variable heqb : H -> H -> bool.
  Hypothesis leqb_ok : forall x y, leqb x y = true <-> x = y.
  Hypothesis heqb_ok : forall x y, heqb x y = true <-> x = y.
  Variable F : df L H A -> df L2 H2 B.

  Definition grid_map (rivs civs : list (nat * nat)) (d : df L H A) : list (list (df L2 H2 B)) :=
    map (fun ri => map (fun ci => F (block d ri ci)) civs) rivs.

  Lemma base_map_ok rivs civs d :
    base_map_partitions (grid_iv rivs civs d) (fun d => Ok (F d)) = Ok (grid_map rivs civs d).
  Proof. unfold base_map_partitions, grid_iv, grid_map.
    induction rivs as [|ri rs IH]; [reflexivity|]. cbn [map rmap].
    assert (E : rmap (fun d => Ok (F d)) (map (fun ci => block d ri ci) civs)
                = Ok (map (fun ci => F (block d ri ci)) civs)).
    { clear. induction civs as [|c cs IH]; [reflexivity|]. cbn. now rewrite IH. }
    rewrite E. cbn. now rewrite IH. Qed.

  (** Row-local function deployed on joined row blocks *)
  Lemma deploy_rowwise_axis0 (RW : row_wise F) d a lens ci m :
    wf d -> lens <> [] -> a + list_sum lens <= nrows d -> 0 < m ->
    deploy_axis_func leqb heqb false (fun d => Ok (F d)) (length lens) true
      (map (fun ri => block d ri ci) (bounds a lens)) m None false
    = Ok (map (fun ri => F (block d ri ci)) (bounds a lens)).
  Proof.
    intros W Hne Hs Hm. unfold deploy_axis_func.
    rewrite (concat_rows_blocks _ _ heqb_ok) by assumption. cbn [rbind].
    set (b := block d (a, a + list_sum lens) ci).
    assert (Wb : wf b) by now apply wf_block.
    destruct (RW b Wb) as (WF & Hn & Hcom).
    assert (Hl : 0 < length lens) by (destruct lens; [easy|cbn; lia]).
    rewrite split_eff; auto.
    assert (Hold : map (axis_size false) (map (fun ri => block d ri ci) (bounds a lens)) = lens).
    { rewrite map_map. cbn [axis_size]. unfold nrows in *. cbn.
      rewrite <- (@bounds_sizes (length (dindex d)) a lens) at 2 by lia.
      apply map_ext. intros iv. now rewrite slice_length. }
    rewrite Hold. rewrite !map_length, bounds_length.
    assert (Hb : nrows b = list_sum lens).
    { unfold b, nrows, block; cbn. rewrite slice_length. unfold nrows in Hs. lia. }
    change (eff_lens (axis_size false (F b)) (length lens) m
      (if length lens =? 1 then None
       else if negb (length lens =? length lens) || negb true then None
       else if list_sum lens =? axis_size false (F b) then Some lens else None))
      with (deploy_lens (nrows (F b)) (length lens) m true lens None false).
    destruct (@deploy_lens_ok (nrows (F b)) (length lens) m true lens None false) as (_ & _ & D & _);
      auto; [discriminate|]. rewrite D by (auto; lia).
    f_equal. rewrite <- (bounds_shift a), map_map.
    apply map_ext_in. intros iv Hiv. cbn [fst snd].
    rewrite <- Hcom. f_equal. unfold b. rewrite block_iloc_rows; [reflexivity|].
    pose proof (bounds_within 0 lens) as Fw. rewrite Forall_forall in Fw.
    specialize (Fw iv Hiv). lia.
  Qed.

  (** Column-local function deployed on joined column blocks *)
  Lemma deploy_colwise_axis1 (CW : column_wise F) d a lens ri m :
    wf d -> lens <> [] -> a + list_sum lens <= ncols d -> 0 < m ->
    deploy_axis_func leqb heqb true (fun d => Ok (F d)) (length lens) true
      (map (fun ci => block d ri ci) (bounds a lens)) m None false
    = Ok (map (fun ci => F (block d ri ci)) (bounds a lens)).
  Proof.
    intros W Hne Hs Hm. unfold deploy_axis_func.
    rewrite (concat_cols_blocks_bounds leqb heqb leqb_ok) by assumption. cbn [rbind].
    set (b := block d ri (a, a + list_sum lens)).
    assert (Wb : wf b) by now apply wf_block.
    destruct (CW b Wb) as (WF & Hn & Hcom).
    assert (Hl : 0 < length lens) by (destruct lens; [easy|cbn; lia]).
    rewrite split_eff; auto.
    assert (Hold : map (axis_size true) (map (fun ci => block d ri ci) (bounds a lens)) = lens).
    { rewrite map_map. cbn [axis_size]. unfold ncols in *. cbn.
      rewrite <- (@bounds_sizes (length (dcols d)) a lens) at 2 by lia.
      apply map_ext. intros iv. now rewrite slice_length. }
    rewrite Hold. rewrite !map_length, bounds_length.
    assert (Hb : ncols b = list_sum lens).
    { unfold b, ncols, block; cbn. rewrite slice_length. unfold ncols in Hs. lia. }
    change (eff_lens (axis_size true (F b)) (length lens) m
      (if length lens =? 1 then None
       else if negb (length lens =? length lens) || negb true then None
       else if list_sum lens =? axis_size true (F b) then Some lens else None))
      with (deploy_lens (ncols (F b)) (length lens) m true lens None false).
    destruct (@deploy_lens_ok (ncols (F b)) (length lens) m true lens None false) as (_ & _ & D & _);
      auto; [discriminate|]. rewrite D by (auto; lia).
    f_equal. rewrite <- (bounds_shift a), map_map.
    apply map_ext_in. intros iv Hiv. cbn [fst snd].
    rewrite <- Hcom. f_equal. unfold b. rewrite block_iloc_cols; [reflexivity|].
    pose proof (bounds_within 0 lens) as Fw. rewrite Forall_forall in Fw.
    specialize (Fw iv Hiv). lia.
  Qed.

  Lemma cut_table_width rl cl (d : df L H A) : rl <> [] -> grid_width (cut_table rl cl d) = length cl.
  Proof. intros Hr. unfold cut_table. apply grid_width_map.
    - now rewrite bounds_nil_iff.
    - intros. now rewrite map_length, bounds_length. Qed.

  Lemma rmap_map_ok {X Y Z} (f : Y -> res Z) (g : X -> Y) (h : X -> Z) l :
    (forall x, In x l -> f (g x) = Ok (h x)) -> rmap f (map g l) = Ok (map h l).
  Proof. intros E. induction l as [|x l IH]; [reflexivity|]. cbn [map rmap].
    rewrite E by now left. cbn. rewrite IH by (intros; apply E; now right). reflexivity. Qed.

  Lemma slice_cut_table rl cl (d : df L H A) i j :
    slice (cut_table rl cl d) i j
    = grid_iv (bounds (list_sum (firstn i rl)) (slice rl i j)) (bounds 0 cl) d.
  Proof. unfold cut_table, grid_iv. now rewrite slice_map, bounds_slice. Qed.

  Lemma grid_iv_length rivs civs (d : df L H A) : length (grid_iv rivs civs d) = length rivs.
  Proof. unfold grid_iv. now rewrite map_length. Qed.

  Lemma transp_grid_iv rivs cl (d : df L H A) :
    transp (length cl) (grid_iv rivs (bounds 0 cl) d)
    = map (fun ci => map (fun ri => block d ri ci) rivs) (bounds 0 cl).
  Proof. rewrite <- (bounds_length 0 cl). exact (transp_fun (fun ri ci => block d ri ci) rivs (bounds 0 cl)). Qed.

  (** joined-by-column mode, row-local function: same blocks as the block-wise map *)
  Lemma joined_rowwise (RW : row_wise F) d rl cl cs m :
    wf d -> rl <> [] -> list_sum rl = nrows d -> 0 < cs -> 0 < m ->
    map_partitions_joined_by_column leqb heqb m (cut_table rl cl d) cs (fun d => Ok (F d))
    = Ok (grid_map (bounds 0 rl) (bounds 0 cl) d).
  Proof.
    intros W Hne Hs Hcs Hm. unfold map_partitions_joined_by_column.
    destruct (Nat.ltb_spec cs 1); [lia|].
    set (step := Nat.max (length (cut_table rl cl d) / cs) 1).
    assert (Hstep : 0 < step) by lia. clearbody step.
    assert (Hlen : length (cut_table rl cl d) = length rl)
      by (unfold cut_table; now rewrite map_length, bounds_length).
    rewrite Hlen, cut_table_width by assumption.
    rewrite (@rmap_ok _ _ _ (fun i => grid_map (slice (bounds 0 rl) i (i + step)) (bounds 0 cl) d)).
    - cbn [rbind]. f_equal. unfold grid_map.
      pose proof (concat_slices_range (bounds 0 rl) Hstep) as E. rewrite bounds_length in E.
      transitivity (map (fun ri => map (fun ci => F (block d ri ci)) (bounds 0 cl))
        (concat (map (fun i => slice (bounds 0 rl) i (i + step)) (range_step 0 (length rl) step)))).
      + now rewrite concat_map, map_map.
      + now rewrite E.
    - intros i Hi.
      assert (Hi' : i < length rl).
      { rewrite range_step_0 in Hi. apply in_map_iff in Hi as (k & <- & Hk). apply in_seq in Hk.
        apply (nchunks_tight (length rl)); lia. }
      rewrite slice_cut_table, transp_grid_iv, grid_iv_length, bounds_length.
      rewrite bounds_slice, Nat.add_0_l.
      set (sub := slice rl i (i + step)). set (a := list_sum (firstn i rl)).
      assert (Hsub : sub <> []).
      { intros E. apply (f_equal (@length nat)) in E. unfold sub in E. rewrite slice_length in E. cbn in E. lia. }
      assert (Ha : a + list_sum sub <= nrows d).
      { rewrite <- Hs. apply list_sum_firstn_slice. }
      rewrite (rmap_map_ok _ _ (fun ci => map (fun ri => F (block d ri ci)) (bounds a sub))).
      + cbn [rbind]. f_equal. rewrite <- (bounds_length a sub).
        exact (transp_fun (fun ci ri => F (block d ri ci)) (bounds 0 cl) (bounds a sub)).
      + intros ci _. now apply deploy_rowwise_axis0.
  Qed.

  (** joined-by-column mode, column-local function: one application per group of row blocks *)
  Lemma joined_colwise (CW : column_wise F) d rl cl cs m :
    wf d -> rl <> [] -> list_sum rl = nrows d -> 0 < cs -> 0 < m ->
    exists groups : list (list nat * (nat * nat)),
      groups <> []
      /\ tiles (map snd groups) (nrows d)
      /\ Forall (fun g => fst g <> [] /\ list_sum (fst g) = nrows (F (iloc_rows d (fst (snd g)) (snd (snd g))))) groups
      /\ map_partitions_joined_by_column leqb heqb m (cut_table rl cl d) cs (fun d => Ok (F d))
         = Ok (concat (map (fun g => cut_table (fst g) cl (F (iloc_rows d (fst (snd g)) (snd (snd g))))) groups)).
  Proof.
    intros W Hne Hs Hcs Hm. unfold map_partitions_joined_by_column.
    destruct (Nat.ltb_spec cs 1); [lia|].
    set (step := Nat.max (length (cut_table rl cl d) / cs) 1).
    assert (Hstep : 0 < step) by lia. clearbody step.
    assert (Hlen : length (cut_table rl cl d) = length rl)
      by (unfold cut_table; now rewrite map_length, bounds_length).
    rewrite Hlen, cut_table_width by assumption.
    set (iv := fun i => (list_sum (firstn i rl), list_sum (firstn i rl) + list_sum (slice rl i (i + step)))).
    set (lg := fun i => deploy_lens (nrows (F (iloc_rows d (fst (iv i)) (snd (iv i)))))
                 (length (slice rl i (i + step))) m true (slice rl i (i + step)) None false).
    exists (map (fun i => (lg i, iv i)) (range_step 0 (length rl) step)).
    assert (Hin : forall i, In i (range_step 0 (length rl) step) -> slice rl i (i + step) <> []
                   /\ list_sum (firstn i rl) + list_sum (slice rl i (i + step)) <= nrows d).
    { intros i Hi.
      assert (Hi' : i < length rl).
      { rewrite range_step_0 in Hi. apply in_map_iff in Hi as (k & <- & Hk). apply in_seq in Hk.
        apply (nchunks_tight (length rl)); lia. }
      split.
      - intros E. apply (f_equal (@length nat)) in E. rewrite slice_length in E. cbn in E. lia.
      - rewrite <- Hs. apply list_sum_firstn_slice. }
    assert (Hlg : forall i, In i (range_step 0 (length rl) step) ->
       list_sum (lg i) = nrows (F (iloc_rows d (fst (iv i)) (snd (iv i))))
       /\ length (lg i) = length (slice rl i (i + step))).
    { intros i Hi. destruct (Hin i Hi) as [H1 _].
      destruct (@deploy_lens_ok (nrows (F (iloc_rows d (fst (iv i)) (snd (iv i)))))
                 (length (slice rl i (i + step))) m true (slice rl i (i + step)) None false) as (? & ? & _); auto.
      - destruct (slice rl i (i + step)); [easy|cbn; lia].
      - discriminate. }
    split; [|split; [|split]].
    - intros E. apply (f_equal (@length _)) in E. rewrite map_length, range_step_length in E. cbn in E.
      assert (0 < length rl) by (destruct rl; [easy|cbn; lia]).
      pose proof (nchunks_cover (length rl) Hstep). rewrite E in *. lia.
    - rewrite map_map. cbn [snd].
      intros X l Hl. rewrite map_map. unfold iv; cbn [fst snd].
      assert (T : concat (map (fun p => slice l (fst p) (snd p)) (bounds 0 rl)) = l)
        by (apply (@tiles_bounds rl (nrows d) Hs); assumption).
      pose proof (concat_slices_range (bounds 0 rl) Hstep) as E. rewrite bounds_length in E.
      rewrite <- E, concat_map, map_map in T.
      assert (CC : forall (ls : list (list (list X))), concat (concat ls) = concat (map (@concat X) ls)).
      { clear. induction ls as [|x ls IH]; cbn; [reflexivity|]. now rewrite concat_app, IH. }
      rewrite CC, map_map in T. etransitivity; [|exact T]. f_equal. apply map_ext. intros i.
      rewrite bounds_slice, Nat.add_0_l. now rewrite concat_bounds.
    - apply Forall_forall. intros g Hg. apply in_map_iff in Hg as (i & <- & Hi). cbn [fst snd].
      destruct (Hlg i Hi) as [Hx1 Hx2]. split; [|exact Hx1].
      intros E. rewrite E in Hx2. destruct (Hin i Hi) as [Hx3 _]. now destruct (slice rl i (i + step)).
    - rewrite map_map. cbn [fst snd].
      rewrite (@rmap_ok _ _ _ (fun i => cut_table (lg i) cl (F (iloc_rows d (fst (iv i)) (snd (iv i)))))).
      + reflexivity.
      + intros i Hi. destruct (Hin i Hi) as [Hsub Ha]. destruct (Hlg i Hi) as [Hg1 Hg2].
        rewrite slice_cut_table, transp_grid_iv, grid_iv_length, bounds_length.
        set (sub := slice rl i (i + step)) in *. set (a := list_sum (firstn i rl)) in *.
        set (d' := iloc_rows d a (a + list_sum sub)).
        assert (Wd' : wf d') by now apply wf_iloc_rows.
        assert (Hd' : list_sum sub = nrows d').
        { unfold d', nrows, iloc_rows; cbn. rewrite slice_length. unfold nrows in Ha. lia. }
        rewrite (rmap_map_ok _ _ (fun ci => map (fun ri => block (F d') ri ci) (bounds 0 (lg i)))).
        * cbn [rbind]. f_equal. rewrite <- Hg2, <- (bounds_length 0 (lg i)).
          exact (transp_fun (fun ci ri => block (F d') ri ci) (bounds 0 cl) (bounds 0 (lg i))).
        * intros ci _.
          rewrite <- (deploy_column_wise leqb heqb heqb_ok CW) with (k := length sub) (m := m)
            (keep := true) (lens := None) (manual := false) (rl := sub); auto.
          2:{ destruct sub; [easy|cbn; lia]. }
          f_equal. rewrite <- (bounds_shift a), map_map. apply map_ext_in. intros p Hp.
          cbn [fst snd]. unfold d'.
          pose proof (bounds_within 0 sub) as Fw. rewrite Forall_forall in Fw. specialize (Fw p Hp).
          destruct p as [x y]. cbn [fst snd] in *. unfold block, iloc_rows; cbn.
          rewrite !slice_slice by lia. reflexivity.
  Qed.
End RowColModes.
