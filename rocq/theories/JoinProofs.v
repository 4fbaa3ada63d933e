From Verif Require Import Base Table ChunkModel ChunkSpec ChunkProofs GridSpec GridModel FrameSpec GridProofs GridProofs2 GridProofs3 GridProofs4 GridProofs5 JoinSpec JoinModel.

Lemma bounds_diffs a lens : map (fun iv : nat * nat => snd iv - fst iv) (bounds a lens) = lens.
Proof. revert a; induction lens as [|n ns IH]; intros a; cbn; [reflexivity|]. rewrite IH. f_equal. lia. Qed.

Lemma grid_width_app_l {X} (g h : list (list X)) : g <> [] -> grid_width (g ++ h) = grid_width g.
Proof. destruct g; [easy|reflexivity]. Qed.

Section RebalanceProofs.
  Context {L H A : Type}.
  Variable leqb : L -> L -> bool.
  Variable heqb : H -> H -> bool.
  Hypothesis leqb_ok : forall x y, leqb x y = true <-> x = y.
  Hypothesis heqb_ok : forall x y, heqb x y = true <-> x = y.
  Notation dframe := (df L H A).

  Variable d : dframe.
  Variable cl : list nat.

  Definition lrow (iv : nat * nat) : nat * list dframe :=
    (snd iv - fst iv, map (fun ci => block d iv ci) (bounds 0 cl)).

  Lemma lrow_sums a lens : map fst (map lrow (bounds a lens)) = lens.
  Proof. rewrite map_map. cbn. apply bounds_diffs. Qed.

  Lemma snd_lrows a lens : map snd (map lrow (bounds a lens)) = grid_iv (bounds a lens) (bounds 0 cl) d.
  Proof. rewrite map_map. reflexivity. Qed.

  Lemma join_rows_blocks a lens : wf d -> lens <> [] ->
    join_rows leqb heqb (grid_iv (bounds a lens) (bounds 0 cl) d)
    = Ok (map (fun ci => block d (a, a + list_sum lens) ci) (bounds 0 cl)).
  Proof. intros W Hne. unfold join_rows.
    replace (grid_width (grid_iv (bounds a lens) (bounds 0 cl) d)) with (length cl).
    2:{ destruct lens; [easy|]. cbn. now rewrite map_length, bounds_length. }
    rewrite transp_grid_iv. apply rmap_map_ok. intros ci _.
    now apply concat_rows_blocks. Qed.

  Lemma grow_spec ideal b tail stop size :
    exists k, grow ideal (map lrow (bounds b tail)) stop size = (stop + k, size + list_sum (firstn k tail))
      /\ k <= S (length tail)
      /\ (k = 0 \/ size + list_sum (firstn (k - 1) tail) < ideal)
      /\ (size + list_sum (firstn k tail) < ideal -> k = S (length tail)).
  Proof. revert b stop size. induction tail as [|n tail IH]; intros b stop size; cbn [bounds map grow].
    - destruct (Nat.ltb_spec size ideal).
      + exists 1. cbn. lsum. repeat split; try lia. f_equal; lia.
      + exists 0. cbn. lsum. repeat split; try lia. f_equal; lia.
    - destruct (Nat.ltb_spec size ideal).
      + unfold lrow at 1. cbn [fst snd]. replace (b + n - b) with n by lia.
        destruct (IH (b + n) (S stop) (size + n)) as (k & E & Hk & H1 & H2).
        exists (S k). rewrite E. cbn [firstn length]. lsum. repeat split; try lia.
        * f_equal; lia.
        * right. destruct k as [|k]; cbn [Nat.sub firstn] in *; lsum; [lia|].
          rewrite Nat.sub_0_r in H1. destruct H1; lia.
      + exists 0. cbn. lsum. repeat split; try lia. f_equal; lia. Qed.

  Lemma block_split_rows iv ci n : fst iv <= snd iv -> fst iv + n <= snd iv -> snd iv <= nrows d ->
    iloc_rows (block d iv ci) 0 n = block d (fst iv, fst iv + n) ci
    /\ iloc_rows (block d iv ci) n (nrows (block d iv ci)) = block d (fst iv + n, snd iv) ci.
  Proof. intros H1 H2 H3. unfold iloc_rows, block, nrows in *; cbn. rewrite !slice_map, !slice_length.
    rewrite !slice_slice by lia. rewrite Nat.add_0_r. split; [reflexivity|].
    replace (fst iv + Nat.min (snd iv - fst iv) (length (dindex d) - fst iv)) with (snd iv) by lia. reflexivity. Qed.

  Lemma regroup_spec n ideal a lens : wf d -> 0 < ideal -> a + list_sum lens <= nrows d ->
    exists rl', rmap (fun g => join_rows leqb heqb (map snd g)) (regroup n ideal (map lrow (bounds a lens)))
        = Ok (map (fun ri => map (fun ci => block d ri ci) (bounds 0 cl)) (bounds a rl'))
      /\ map (fun g => list_sum (map fst g)) (regroup n ideal (map lrow (bounds a lens))) = rl'
      /\ length rl' <= n
      /\ (list_sum lens <= n * ideal -> list_sum rl' = list_sum lens)
      /\ (lens <> [] -> 0 < n -> rl' <> []).
  Proof.
    intros W Hi. revert a lens. induction n as [|n IH]; intros a lens Hs.
    { exists []. cbn. repeat split; auto; try lia. lsum. lia. }
    destruct lens as [|l0 tail].
    { exists []. cbn. repeat split; auto; try lia; try congruence. }
    destruct (grow_spec ideal (a + l0) tail 0 l0) as (k & E & Hk & H1 & H2).
    cbn [Nat.add] in E. set (size := l0 + list_sum (firstn k tail)) in *.
    set (rest := map lrow (bounds a (l0 :: tail))).
    assert (HR : regroup (S n) ideal rest =
      if 3 * ideal <? 2 * size then
        match nth_error rest k with
        | Some (_, row) =>
            (firstn k rest ++ [(ideal - list_sum (map fst (firstn k rest)),
                map (fun b => iloc_rows b 0 (ideal - list_sum (map fst (firstn k rest)))) row)])
            :: regroup n ideal ((size - (list_sum (map fst (firstn k rest)) + (ideal - list_sum (map fst (firstn k rest)))),
                map (fun b => iloc_rows b (ideal - list_sum (map fst (firstn k rest))) (nrows b)) row) :: skipn (S k) rest)
        | None => []
        end
      else firstn (S k) rest :: regroup n ideal (skipn (S k) rest)).
    { assert (E0 : rest = (l0, snd (lrow (a, a + l0))) :: map lrow (bounds (a + l0) tail)).
      { unfold rest. cbn [bounds map]. f_equal. unfold lrow; cbn. f_equal. lia. }
      rewrite E0 at 1. cbn [regroup]. rewrite E, <- E0. reflexivity. }
    rewrite HR. clear HR. unfold rest. clear rest.
    set (lens := l0 :: tail) in *.
    assert (Esz : list_sum (firstn (S k) lens) = size) by (unfold lens; cbn [firstn]; now lsum).
    assert (Eprev : k = 0 \/ list_sum (firstn k lens) < ideal).
    { destruct H1 as [->|H1]; [now left|]. destruct k as [|k]; [now left|]. right.
      unfold lens; cbn [firstn]. lsum. cbn [Nat.sub] in H1. rewrite Nat.sub_0_r in H1. lia. }
    assert (Hprev : list_sum (firstn k lens) < ideal \/ k = 0 /\ list_sum (firstn k lens) = 0).
    { destruct Eprev as [->|?]; [right; now cbn|now left]. }
    assert (Hsplit : list_sum lens = list_sum (firstn (S k) lens) + list_sum (skipn (S k) lens)).
    { rewrite <- list_sum_app. now rewrite firstn_skipn. }
    assert (Hlen : length lens = S (length tail)) by reflexivity.
    clearbody lens. clear E.
    destruct (Nat.ltb_spec (3 * ideal) (2 * size)) as [Hgt|Hle].
    - (* split *)
      rewrite !firstn_map, !bounds_firstn, !skipn_map, !bounds_skipn, lrow_sums.
      set (prev := list_sum (firstn k lens)) in *.
      assert (Hkl : k < length lens).
      { destruct (Nat.lt_ge_cases k (length lens)); [assumption|].
        assert (prev = size). { unfold prev. rewrite <- Esz. rewrite !firstn_all2 by lia. reflexivity. } lia. }
      destruct (nth_error lens k) as [x|] eqn:Ex; [|apply nth_error_None in Ex; lia].
      assert (Esz2 : size = prev + x).
      { rewrite <- Esz. unfold prev.
        clear - Ex. revert k Ex. induction lens as [|y l IH]; intros [|k] Ex; try discriminate; cbn in *; lsum.
        - injection Ex as ->. cbn. lia.
        - rewrite (IH _ Ex). lia. }
      rewrite nth_error_map.
      replace (nth_error (bounds a lens) k) with (Some (a + prev, a + prev + x)).
      2:{ unfold prev. clear - Ex. revert a k Ex. induction lens as [|y l IH]; intros a [|k] Ex; try discriminate; cbn in *; lsum.
          - injection Ex as ->. now rewrite Nat.add_0_r.
          - rewrite <- (IH (a + y) _ Ex). f_equal. f_equal; lia. }
      cbn [option_map]. change (lrow (a + prev, a + prev + x)) with (a + prev + x - (a + prev), map (fun ci => block d (a + prev, a + prev + x) ci) (bounds 0 cl)).
      set (nl := ideal - prev).
      assert (Hpre : prev < ideal) by (destruct Hprev as [?|[_ ?]]; lia).
      assert (E1 : (nl, map (fun b => iloc_rows b 0 nl) (map (fun ci => block d (a + prev, a + prev + x) ci) (bounds 0 cl)))
                   = lrow (a + prev, a + ideal)).
      { unfold lrow; cbn [fst snd]. f_equal; [lia|]. rewrite map_map. apply map_ext. intros ci.
        destruct (@block_split_rows (a + prev, a + prev + x) ci nl) as [-> _]; cbn; try lia.
        replace (a + prev + nl) with (a + ideal) by lia. reflexivity. }
      assert (E2 : (size - (prev + nl), map (fun b => iloc_rows b nl (nrows b)) (map (fun ci => block d (a + prev, a + prev + x) ci) (bounds 0 cl)))
                   = lrow (a + ideal, a + size)).
      { unfold lrow; cbn [fst snd]. f_equal; [lia|]. rewrite map_map. apply map_ext. intros ci.
        destruct (@block_split_rows (a + prev, a + prev + x) ci nl) as [_ ->]; cbn; try lia.
        replace (a + prev + nl) with (a + ideal) by lia. replace (a + prev + x) with (a + size) by lia. reflexivity. }
      cbv beta iota. rewrite E1, E2.
      assert (E3 : lrow (a + ideal, a + size) :: map lrow (bounds (a + list_sum (firstn (S k) lens)) (skipn (S k) lens))
                   = map lrow (bounds (a + ideal) ((size - ideal) :: skipn (S k) lens))).
      { cbn [bounds map]. replace (a + ideal + (size - ideal)) with (a + size) by lia. rewrite Esz. reflexivity. }
      rewrite E3.
      assert (E4 : map lrow (bounds a (firstn k lens)) ++ [lrow (a + prev, a + ideal)]
                   = map lrow (bounds a (firstn k lens ++ [nl]))).
      { rewrite bounds_app, map_app. cbn [bounds map]. fold prev. replace (a + prev + nl) with (a + ideal) by lia. reflexivity. }
      rewrite E4.
      destruct (IH (a + ideal) ((size - ideal) :: skipn (S k) lens)) as (rl' & R1 & R2 & R3 & R4 & R5).
      { lsum. lia. }
      exists (ideal :: rl'). cbn [rmap map].
      rewrite snd_lrows, join_rows_blocks; [|assumption|now destruct (firstn k lens)].
      cbn [rbind]. rewrite R1. cbn [rbind]. rewrite lrow_sums, list_sum_app, R2. fold prev.
      lsum. replace (prev + (nl + 0)) with ideal by lia.
      split; [reflexivity|]. split; [reflexivity|]. split; [cbn [length]; lia|]. split; [|congruence].
      intros HH. rewrite R4; lia.
    - rewrite !firstn_map, !bounds_firstn, !skipn_map, !bounds_skipn, Esz.
      destruct (IH (a + size) (skipn (S k) lens)) as (rl' & R1 & R2 & R3 & R4 & R5); [lia|].
      exists (size :: rl'). cbn [rmap map].
      rewrite snd_lrows, join_rows_blocks; [|assumption|destruct lens; [cbn in Hlen; lia|easy]].
      cbn [rbind]. rewrite R1. cbn [rbind]. rewrite lrow_sums, Esz, R2.
      split; [reflexivity|]. split; [reflexivity|]. split; [cbn [length]; lia|]. split; [|congruence].
      intros HH. lsum.
      destruct (Nat.lt_ge_cases size ideal) as [Hsi|Hsi].
      + (* everything taken *)
        assert (skipn (S k) lens = []) by (apply skipn_all2; rewrite Hlen; specialize (H2 Hsi); lia).
        rewrite H0 in *. lsum. rewrite R4 by lia. lia.
      + rewrite R4; lia.
  Qed.

  (** Consecutive groups of [chunk] grid rows. *)
  Lemma chunk_groups rl chunk k : wf d -> 0 < chunk -> (forall j, j < k -> j * chunk < length rl) ->
    exists rl', rmap (fun i => join_rows leqb heqb (slice (cut_table rl cl d) i (i + chunk)))
                  (map (fun j => j * chunk) (seq 0 k))
        = Ok (cut_table rl' cl d) /\ length rl' = k /\ list_sum rl' = list_sum (firstn (k * chunk) rl).
  Proof. intros W Hc Hj.
    exists (map (fun j => list_sum (slice rl (j * chunk) (j * chunk + chunk))) (seq 0 k)).
    split; [|split; [now rewrite map_length, seq_length|]].
    2:{ rewrite <- concat_map_slices_seq. induction (seq 0 k) as [|j js IH]; [reflexivity|].
        cbn [map concat]. rewrite list_sum_app. lsum. now rewrite IH. }
    rewrite (rmap_map_ok _ _ (fun j => map (fun ci => block d (list_sum (firstn (j * chunk) rl), list_sum (firstn (j * chunk + chunk) rl)) ci) (bounds 0 cl))).
    - f_equal. unfold cut_table.
      assert (G : forall s a, a = list_sum (firstn (s * chunk) rl) ->
        bounds a (map (fun j => list_sum (slice rl (j * chunk) (j * chunk + chunk))) (seq s k))
        = map (fun j => (list_sum (firstn (j * chunk) rl), list_sum (firstn (j * chunk + chunk) rl))) (seq s k)).
      { clear Hj. induction k as [|k IH]; intros s a ->; [reflexivity|]. cbn [seq map bounds].
        assert (X : list_sum (firstn (s * chunk) rl) + list_sum (slice rl (s * chunk) (s * chunk + chunk)) = list_sum (firstn (s * chunk + chunk) rl)).
        { rewrite firstn_add, list_sum_app. unfold slice. do 3 f_equal. lia. }
        rewrite X. f_equal. apply IH. f_equal. f_equal. lia. }
      rewrite (G 0 0) by reflexivity. now rewrite map_map.
    - intros j Hin. apply in_seq in Hin. rewrite slice_cut_table.
      rewrite join_rows_blocks; auto.
      + f_equal. apply map_ext. intros ci. f_equal. f_equal.
        rewrite firstn_add, list_sum_app. unfold slice. do 3 f_equal. lia.
      + specialize (Hj j ltac:(lia)). intros E. apply (f_equal (@length nat)) in E. rewrite slice_length in E. cbn in E. lia.
  Qed.

  Lemma rebalance_ok nparts known rl : wf d -> 0 < nparts -> rl <> [] -> cl <> [] -> list_sum rl = nrows d ->
    exists rl' lens,
      rebalance_partitions leqb heqb nparts known (cut_table rl cl d) = Ok (cut_table rl' cl d, lens)
      /\ list_sum rl' = nrows d /\ rl' <> []
      /\ (lens = None \/ lens = Some rl')
      /\ (rl' = rl \/ length rl' <= nparts)
      /\ (2 * length rl <= 3 * nparts -> rl' = rl /\ lens = None)
      /\ (3 * nparts < 2 * length rl -> length rl' <= nparts)
      /\ (known = true -> 3 * nparts < 2 * length rl -> lens = Some rl').
  Proof.
    intros W Hn Hne Hcl Hs. unfold rebalance_partitions. rewrite cut_table_length.
    destruct (Nat.leb_spec (2 * length rl) (3 * nparts)) as [Hle|Hgt].
    { exists rl, None. repeat split; auto; lia. }
    destruct known; cbn [negb].
    - set (rows := map _ (cut_table rl cl d)).
      assert (ER : rows = map lrow (bounds 0 rl)).
      { unfold rows, cut_table. rewrite map_map. apply map_ext_in. intros iv Hiv. unfold lrow. f_equal.
        destruct cl as [|c cs]; [easy|]. cbn. unfold nrows; cbn. rewrite slice_length.
        pose proof (bounds_within 0 rl) as Fw. rewrite Forall_forall in Fw. specialize (Fw iv Hiv). cbn in Fw.
        unfold nrows in Hs. lia. }
      rewrite ER, lrow_sums. clear rows ER.
      destruct (@compute_chunksize_ok (list_sum rl) nparts 1 Hn ltac:(lia)) as (c & -> & Hc & Hcov & _). cbn [rbind].
      destruct (@regroup_spec nparts c 0 rl W Hc) as (rl' & R1 & R2 & R3 & R4 & R5); [lia|].
      rewrite R1. cbn [rbind]. rewrite R2. exists rl', (Some rl').
      repeat split; auto; try lia.
    - destruct (@compute_chunksize_ok (length rl) nparts 1 Hn ltac:(lia)) as (c & -> & Hc & Hcov & _ & Hmin). cbn [rbind].
      rewrite range_step_0.
      destruct (@chunk_groups rl c (nchunks (length rl) c) W Hc) as (rl' & R1 & R2 & R3).
      { intros j Hj. now apply nchunks_tight. }
      rewrite R1. cbn [rbind]. exists rl', None.
      rewrite firstn_all2 in R3 by (now apply nchunks_cover).
      assert (length rl' <= nparts).
      { rewrite R2. destruct (Nat.le_gt_cases (nchunks (length rl) c) nparts); [assumption|].
        pose proof (@nchunks_tight (length rl) c nparts Hc ltac:(lia)). lia. }
      repeat split; auto; try lia.
      intros ->. cbn in R2. pose proof (@nchunks_cover (length rl) c Hc). rewrite <- R2 in H1.
      destruct rl; [easy|cbn in H1; lia].
  Qed.
End RebalanceProofs.
