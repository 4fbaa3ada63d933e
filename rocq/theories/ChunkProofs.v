From Verif Require Import Base Table ChunkModel ChunkSpec.

Lemma bounds_length acc lens : length (bounds acc lens) = length lens.
Proof. revert acc; induction lens; intros; cbn; auto. Qed.

Lemma bounds_snd_ge acc lens : Forall (fun iv => acc <= fst iv <= snd iv) (bounds acc lens).
Proof. revert acc; induction lens as [|n ns IH]; intros acc; cbn; constructor; cbn; [lia|].
  eapply Forall_impl; [|apply IH]. cbn. lia. Qed.

Lemma concat_bounds {B} (l : list B) acc lens :
  concat (map (fun iv => slice l (fst iv) (snd iv)) (bounds acc lens))
  = slice l acc (acc + list_sum lens).
Proof. revert acc; induction lens as [|n ns IH]; intros acc; cbn; lsum.
  - unfold slice. now rewrite Nat.add_0_r, Nat.sub_diag.
  - rewrite IH, slice_app by lia. f_equal. lia. Qed.

Definition tiles (ivs : list (nat * nat)) (n : nat) : Prop :=
  forall B (l : list B), length l = n ->
    concat (map (fun iv => slice l (fst iv) (snd iv)) ivs) = l.

Lemma tiles_bounds lens n : list_sum lens = n -> tiles (bounds 0 lens) n.
Proof. intros H B l Hl. rewrite concat_bounds. apply slice_full. lia. Qed.

Lemma tiles_range n c : 0 < c -> tiles (map (fun i => (i, i + c)) (range_step 0 n c)) n.
Proof. intros H B l <-. rewrite map_map. cbn. now apply concat_slices_range. Qed.

Lemma tiles_one n m : n <= m -> tiles [(0, m)] n.
Proof. intros H B l <-. cbn. rewrite app_nil_r. now apply slice_full. Qed.

Lemma compute_chunksize_ok n k m :
  0 < k -> 0 < m -> exists c, compute_chunksize n k m = Ok c /\ 0 < c /\ n <= k * c /\ m <= c
    /\ (forall c', n <= k * c' -> m <= c' -> c <= c').
Proof.
  intros Hk Hm. unfold compute_chunksize.
  destruct (Nat.eqb_spec m 0); [lia|]. destruct (Nat.eqb_spec k 0); [lia|].
  eexists; split; [reflexivity|].
  destruct (Nat.eqb_spec (n mod k) 0) as [E|E].
  - assert (n = k * (n / k)) by (pose proof (Nat.div_mod n k); lia).
    split; [nia|]. split; [nia|]. split; [nia|].
    intros c' H1 H2. apply Nat.max_lub; auto. apply Nat.div_le_upper_bound; lia.
  - assert (n = k * (n / k) + n mod k) by (apply Nat.div_mod; lia).
    assert (n mod k < k) by (apply Nat.mod_upper_bound; lia).
    assert (n <= k * (n / k + 1)) by nia.
    split; [nia|]. split; [nia|]. split; [nia|].
    intros c' H3 H4. apply Nat.max_lub; auto.
    destruct (Nat.le_gt_cases (n / k + 1) c'); auto. exfalso. nia.
Qed.

Section Chunk.
  Context {L H A : Type}.
  Variable leqb : L -> L -> bool.
  Variable heqb : H -> H -> bool.
  Hypothesis leqb_ok : forall x y, leqb x y = true <-> x = y.
  Hypothesis heqb_ok : forall x y, heqb x y = true <-> x = y.
  Notation dframe := (df L H A).

  Definition grid_iv (rivs civs : list (nat * nat)) (d : dframe) : list (list dframe) :=
    map (fun ri => map (fun ci => block d ri ci) civs) rivs.

  Lemma block_iloc (d : dframe) a b c e :
    iloc_rows (iloc_cols d c e) a b = block d (a, b) (c, e).
  Proof. unfold iloc_rows, iloc_cols, block; cbn. now rewrite slice_map. Qed.

  Lemma concat_cols_blocks (d : dframe) civs ri :
    wf d -> tiles civs (ncols d) -> civs <> [] ->
    concat_cols leqb (map (fun ci => block d ri ci) civs)
    = Ok (iloc_rows d (fst ri) (snd ri)).
  Proof.
    intros [Hw1 Hw2] Ht Hne. unfold concat_cols.
    destruct civs as [|c0 cs]; [easy|]. cbn [map].
    replace (forallb _ _) with true.
    2:{ symmetry. apply forallb_forall. intros e He.
        replace (dindex e) with (slice (dindex d) (fst ri) (snd ri)).
        - now apply list_eqb_refl.
        - change (block d ri c0 :: map (fun ci => block d ri ci) cs)
            with (map (fun ci => block d ri ci) (c0 :: cs)) in He.
          apply in_map_iff in He as (ci & <- & _). reflexivity. }
    change (block d ri c0 :: map (fun ci => block d ri ci) cs)
      with (map (fun ci => block d ri ci) (c0 :: cs)).
    f_equal. apply df_eq; cbn [dindex dcols dcells iloc_rows]; [reflexivity| |].
    - rewrite map_map. apply (Ht H (dcols d)). reflexivity.
    - rewrite map_map.
      set (t := slice (dcells d) (fst ri) (snd ri)).
      replace (nrows (block d ri c0)) with (length t).
      2:{ unfold t, nrows, block; cbn. rewrite !slice_length. lia. }
      etransitivity.
      { etransitivity; [|exact (fold_zipapp_map
                 (map (fun (x : nat * nat) (r : list A) => slice r (fst x) (snd x)) (c0 :: cs)) t)].
        f_equal. cbn [map]. f_equal. now rewrite map_map. }
      rewrite (map_ext_in _ (fun r => r)); [apply map_id|].
      intros r Hr. rewrite map_map. apply Ht.
      assert (F : Forall (fun r => length r = length (dcols d)) t) by now apply Forall_slice.
      rewrite Forall_forall in F. now apply F.
  Qed.

  Lemma concatenate_rows (d : dframe) rivs :
    wf d -> tiles rivs (nrows d) -> rivs <> [] ->
    concatenate heqb (map (fun ri => iloc_rows d (fst ri) (snd ri)) rivs) = Ok d.
  Proof.
    intros [Hw1 Hw2] Ht Hne. unfold concatenate.
    destruct rivs as [|r0 rs]; [easy|].
    set (l := map _ (r0 :: rs)).
    assert (Hl : l = map (fun ri => iloc_rows d (fst ri) (snd ri)) (r0 :: rs)) by reflexivity.
    clearbody l. destruct l as [|l0 ls]; [discriminate|].
    assert (E0 : dcols l0 = dcols d) by (cbn in Hl; injection Hl as -> _; reflexivity).
    rewrite E0.
    replace (forallb _ _) with true.
    2:{ symmetry. apply forallb_forall. intros e He. rewrite Hl in He.
        apply in_map_iff in He as (ri & <- & _). cbn. now apply list_eqb_refl. }
    f_equal. rewrite Hl, !map_map. apply df_eq; cbn [dindex dcols dcells]; auto.
    - rewrite (map_ext _ (fun iv => slice (dindex d) (fst iv) (snd iv))) by reflexivity.
      now apply Ht.
    - rewrite (map_ext _ (fun iv => slice (dcells d) (fst iv) (snd iv))) by reflexivity.
      now apply Ht.
  Qed.

  Lemma tiles_nonempty civs n : tiles civs n -> 0 < n ->
    exists ci, In ci civs /\ 0 < Nat.min (snd ci - fst ci) (n - fst ci).
  Proof.
    intros Ht Hn. specialize (Ht nat (repeat 0 n) (repeat_length 0 n)).
    destruct (existsb (fun ci => 0 <? Nat.min (snd ci - fst ci) (n - fst ci)) civs) eqn:E.
    - apply existsb_exists in E as (ci & Hi & Hc). exists ci. split; auto.
      now apply Nat.ltb_lt in Hc.
    - exfalso. apply (f_equal (@length nat)) in Ht. rewrite repeat_length in Ht.
      enough (Hz : length (concat (map (fun iv => slice (repeat 0 n) (fst iv) (snd iv)) civs)) = 0) by lia.
      clear Ht. induction civs as [|c cs IH]; [reflexivity|].
      cbn [existsb] in E. apply orb_false_iff in E as [E1 E2].
      cbn. rewrite app_length, IH by assumption. rewrite slice_length, repeat_length.
      apply Nat.ltb_ge in E1. lia.
  Qed.

  Lemma filter_all_true {X} (f : X -> bool) l : forallb f l = true -> filter f l = l.
  Proof. induction l; cbn; [auto|]. intros E. apply andb_true_iff in E as [-> E].
    now rewrite IHl. Qed.
  Lemma filter_all_false {X} (f : X -> bool) l : forallb (fun x => negb (f x)) l = true -> filter f l = [].
  Proof. induction l; cbn; [auto|]. intros E. apply andb_true_iff in E as [E1 E].
    destruct (f a); [discriminate|]. now rewrite IHl. Qed.

  Lemma assemble_grid (d : dframe) rivs civs rl cl :
    wf d -> tiles rivs (nrows d) -> tiles civs (ncols d) ->
    to_pandas leqb heqb (mkframe (grid_iv rivs civs d) (dindex d) (dcols d) rl cl) = Ok d.
  Proof.
    intros Hw Hr Hc. unfold to_pandas, create_pandas_df_from_partitions. cbn [fgrid findex fcols].
    destruct (Nat.eq_dec (ncols d) 0) as [E0|E0].
    - rewrite filter_all_false.
      + cbn. now rewrite wf_empty_cells by (auto; unfold df_empty; rewrite E0; apply orb_true_r).
      + apply forallb_forall. intros row Hrow. rewrite negb_involutive.
        unfold grid_iv in Hrow. apply in_map_iff in Hrow as (ri & <- & _).
        apply forallb_forall. intros p Hp. apply in_map_iff in Hp as (ci & <- & _).
        assert (Hz : ncols (block d ri ci) = 0).
        { unfold ncols, block; cbn. rewrite slice_length. unfold ncols in E0. lia. }
        unfold is_part_empty, df_empty. rewrite Hz. cbn. now rewrite orb_true_r.
    - destruct (tiles_nonempty Hc) as (ci & Hin & Hpos); [lia|].
      assert (Hne : civs <> []) by (intros ->; easy).
      rewrite filter_all_true.
      2:{ apply forallb_forall. intros row Hrow. unfold grid_iv in Hrow.
          apply in_map_iff in Hrow as (ri & <- & _).
          apply negb_true_iff. apply not_true_is_false. intros F.
          rewrite forallb_forall in F.
          specialize (F (block d ri ci) (in_map _ _ _ Hin)).
          unfold is_part_empty in F. apply andb_true_iff in F as [_ F].
          apply Nat.eqb_eq in F. unfold ncols, block in F; cbn in F.
          rewrite slice_length in F. unfold ncols in Hpos. lia. }
      unfold grid_iv.
      assert (Hrm : rmap (concat_cols leqb) (map (fun ri => map (fun ci => block d ri ci) civs) rivs)
                    = Ok (map (fun ri => iloc_rows d (fst ri) (snd ri)) rivs)).
      { clear Hr. induction rivs as [|ri rs IH]; [reflexivity|].
        cbn [map rmap]. rewrite concat_cols_blocks by auto. cbn. now rewrite IH. }
      rewrite Hrm. cbn [rbind].
      destruct rivs as [|r0 rs].
      + cbn. specialize (Hr L (dindex d) eq_refl). cbn in Hr.
        rewrite wf_empty_cells; auto. unfold df_empty, nrows. now rewrite <- Hr.
      + change (match map _ (r0 :: rs) with [] => Ok empty_df | _ => ?X end) with X.
        rewrite concatenate_rows by (auto; discriminate). cbn [rbind].
        destruct (df_empty d) eqn:E; [now rewrite wf_empty_cells|].
        rewrite !list_eqb_refl by assumption. cbn. f_equal. now destruct d.
  Qed.

  Lemma split_as_grid (d : dframe) rc cc :
    split_pandas_df_into_partitions d rc cc
    = grid_iv (map (fun i => (i, i + rc)) (range_step 0 (nrows d) rc))
              (if ncols d <=? cc then [(0, ncols d)]
               else map (fun i => (i, i + cc)) (range_step 0 (ncols d) cc)) d
    \/ ~ wf d.
  Proof.
    destruct (Nat.leb_spec (ncols d) cc) as [E|E].
    - destruct (Forall_dec (fun r : list A => length r = length (dcols d))
                 (fun r => Nat.eq_dec _ _) (dcells d)) as [F|F].
      2:{ right. intros [_ W]. now apply F. }
      left. unfold split_pandas_df_into_partitions, grid_iv.
      rewrite (proj2 (Nat.leb_le _ _) E). rewrite map_map. apply map_ext. intros i. cbn.
      f_equal. unfold iloc_rows, block; cbn. f_equal.
      + now rewrite slice_full.
      + rewrite <- (map_id (slice (dcells d) i (i + rc))) at 1. apply map_ext_in.
        intros r Hr. rewrite slice_full; auto.
        apply (Forall_slice i (i + rc)) in F. rewrite Forall_forall in F. unfold ncols.
        now rewrite F.
    - left. unfold split_pandas_df_into_partitions, grid_iv.
      rewrite (proj2 (Nat.leb_gt _ _) E). rewrite map_map. apply map_ext. intros i. cbn.
      rewrite !map_map. apply map_ext. intros j. apply block_iloc.
  Qed.

  Lemma split_as_grid_wf (d : dframe) rc cc : wf d ->
    split_pandas_df_into_partitions d rc cc
    = grid_iv (map (fun i => (i, i + rc)) (range_step 0 (nrows d) rc))
              (if ncols d <=? cc then [(0, ncols d)]
               else map (fun i => (i, i + cc)) (range_step 0 (ncols d) cc)) d.
  Proof. intros W. destruct (split_as_grid d rc cc); tauto. Qed.

  Lemma round_trip (d : dframe) nparts minrow mincol :
    wf d -> 0 < nparts -> 0 < minrow -> 0 < mincol ->
    exists f, from_pandas nparts minrow mincol d = Ok f /\ to_pandas leqb heqb f = Ok d.
  Proof.
    intros W H1 H2 H3. unfold from_pandas.
    destruct (compute_chunksize_ok (nrows d) H1 H2) as (rc & -> & Hrc & _).
    destruct (compute_chunksize_ok (ncols d) H1 H3) as (cc & -> & Hcc & _).
    cbn. eexists; split; [reflexivity|].
    rewrite split_as_grid_wf by assumption. apply assemble_grid; auto.
    - now apply tiles_range.
    - destruct (Nat.leb_spec (ncols d) cc); [now apply tiles_one | now apply tiles_range].
  Qed.

  Lemma cut_table_round_trip (d : dframe) rl cl f :
    wf d -> list_sum rl = nrows d -> list_sum cl = ncols d ->
    fgrid f = cut_table rl cl d -> findex f = dindex d -> fcols f = dcols d ->
    to_pandas leqb heqb f = Ok d.
  Proof. intros W H1 H2 G I C. destruct f; cbn in *; subst.
    apply assemble_grid; auto; now apply tiles_bounds. Qed.
End Chunk.

(** Reported lengths *)
Lemma reported_lengths_nth n c i : 0 < c -> i < nchunks n c ->
  nth i (reported_lengths n c) 0 = Nat.min c (n - i * c).
Proof.
  intros Hc Hi. unfold reported_lengths. rewrite range_step_0, map_map.
  rewrite (nth_indep _ 0 ((fun k => if k * c + c <? n then c else if n mod c =? 0 then c else n mod c) 0))
    by now rewrite map_length, seq_length.
  rewrite (map_nth (fun k => if k * c + c <? n then c else if n mod c =? 0 then c else n mod c)).
  rewrite seq_nth by assumption. rewrite Nat.add_0_l.
  destruct (Nat.ltb_spec (i * c + c) n); [lia|].
  assert (Hn : i * c < n) by now apply nchunks_tight.
  unfold nchunks in Hi.
  assert (Dm : n = c * (n / c) + n mod c) by (apply Nat.div_mod; lia).
  assert (Hm : n mod c < c) by (apply Nat.mod_upper_bound; lia).
  set (q := n / c) in *. set (r := n mod c) in *. clearbody q r.
  destruct (Nat.eqb_spec r 0).
  - assert (q <= i + 1) by (apply (Nat.mul_le_mono_pos_l _ _ c); lia).
    assert (q = i + 1) by lia. subst. lia.
  - assert (q < i + 1) by (apply (Nat.mul_lt_mono_pos_l c); lia).
    assert (q = i) by lia. subst. lia.
Qed.

Lemma reported_lengths_length n c : length (reported_lengths n c) = nchunks n c.
Proof. unfold reported_lengths. now rewrite map_length, range_step_length. Qed.

Lemma reported_lengths_eq n c : 0 < c ->
  reported_lengths n c = map (fun i => Nat.min c (n - i)) (range_step 0 n c).
Proof.
  intros Hc. apply (nth_ext _ _ 0 0).
  - unfold reported_lengths. now rewrite !map_length.
  - rewrite reported_lengths_length. intros i Hi. rewrite reported_lengths_nth by assumption.
    rewrite range_step_0, map_map.
    rewrite (nth_indep _ 0 ((fun k => Nat.min c (n - k * c)) 0)) by now rewrite map_length, seq_length.
    rewrite (map_nth (fun k => Nat.min c (n - k * c))). rewrite seq_nth by assumption. reflexivity.
Qed.

Lemma reported_lengths_sum n c : 0 < c -> list_sum (reported_lengths n c) = n.
Proof.
  intros Hc. rewrite reported_lengths_eq by assumption.
  pose proof (concat_slices_range (repeat 0 n) Hc) as E.
  apply (f_equal (@length nat)) in E. rewrite map_length_concat, map_map, repeat_length in E.
  rewrite <- E at 2. f_equal. apply map_ext. intros i. rewrite slice_length, repeat_length.
  f_equal; lia.
Qed.

Lemma get_length_list_ok n k m : 0 < k -> 0 < m ->
  exists lens, get_length_list n k m = Ok lens /\ length lens = k /\ list_sum lens = n.
Proof.
  intros Hk Hm. unfold get_length_list.
  destruct (compute_chunksize_ok n Hk Hm) as (c & -> & Hc & Hn & _). cbn.
  eexists; split; [reflexivity|]. split; [now rewrite map_length, seq_length|].
  assert (G : forall j, list_sum (map (fun i => if (i + 1) * c <=? n then c else Nat.max 0 (n - i * c)) (seq 0 j))
              = Nat.min n (j * c)).
  { induction j as [|j IH]; [cbn; lsum; lia|].
    rewrite seq_S, map_app, list_sum_app, IH. cbn. lsum.
    destruct (Nat.leb_spec ((j + 1) * c) n); nia. }
  rewrite G. lia.
Qed.

Lemma bounds_cumsum_from acc lens :
  map (fun i => (nth i (cumsum_from acc lens) 0, nth (S i) (cumsum_from acc lens) 0))
      (seq 0 (length (cumsum_from acc lens) - 1)) = bounds acc lens.
Proof.
  revert acc; induction lens as [|n ns IH]; intros acc; [reflexivity|].
  cbn [cumsum_from length bounds]. rewrite cumsum_from_length.
  replace (S (S (length ns)) - 1) with (S (length ns)) by lia. cbn [seq map]. f_equal.
  - cbn. f_equal. destruct ns; cbn; reflexivity.
  - rewrite <- IH, cumsum_from_length. replace (S (length ns) - 1) with (length ns) by lia.
    rewrite <- seq_shift, map_map. reflexivity.
Qed.

Section Split.
  Context {L H A : Type}.
  Variable leqb : L -> L -> bool.
  Variable heqb : H -> H -> bool.
  Hypothesis leqb_ok : forall x y, leqb x y = true <-> x = y.
  Hypothesis heqb_ok : forall x y, heqb x y = true <-> x = y.
  Notation dframe := (df L H A).

  Lemma split_result_eq axis k (d : dframe) m lens : k <> 1 ->
    split_result_of_axis_func axis k d m (Some lens)
    = Ok (map (fun iv => if axis then iloc_cols d (fst iv) (snd iv)
                         else iloc_rows d (fst iv) (snd iv)) (bounds 0 lens)).
  Proof.
    intros Hk. unfold split_result_of_axis_func.
    destruct (Nat.eqb_spec k 1); [easy|]. cbn [rbind]. f_equal.
    unfold cumsum0. rewrite <- bounds_cumsum_from, map_map. reflexivity.
  Qed.

  Lemma split_result_none (axis : bool) k (d : dframe) m lens : k <> 1 ->
    get_length_list (if axis then ncols d else nrows d) k m = Ok lens ->
    split_result_of_axis_func axis k d m None = split_result_of_axis_func axis k d m (Some lens).
  Proof. intros Hk E. unfold split_result_of_axis_func. destruct (Nat.eqb_spec k 1); [easy|].
    now rewrite E. Qed.

  Lemma concat_cols_iloc (d : dframe) civs :
    wf d -> tiles civs (ncols d) -> civs <> [] ->
    concat_cols leqb (map (fun ci => iloc_cols d (fst ci) (snd ci)) civs) = Ok d.
  Proof.
    intros W Ht Hne.
    assert (E : forall ci, iloc_cols d (fst ci) (snd ci) = block d (0, nrows d) ci).
    { intros ci. destruct ci as [a b]. rewrite <- block_iloc. unfold iloc_rows; cbn.
      rewrite !slice_full; auto. unfold nrows. destruct W as [W _]. rewrite map_length. lia. }
    rewrite (map_ext _ (fun ci => block d (0, nrows d) ci) E). rewrite (concat_cols_blocks _ leqb_ok) by auto. f_equal.
    apply df_eq; cbn; auto; rewrite ?slice_full; auto. unfold nrows. destruct W; lia.
  Qed.
End Split.

Lemma bounds_sizes n acc lens : acc + list_sum lens <= n ->
  map (fun iv => Nat.min (snd iv - fst iv) (n - fst iv)) (bounds acc lens) = lens.
Proof. revert acc; induction lens as [|k ks IH]; intros acc Hn; cbn; [reflexivity|]. lsum.
  rewrite IH by lia. f_equal. lia. Qed.

Lemma get_length_list_one n m : 0 < m -> get_length_list n 1 m = Ok [n].
Proof.
  intros Hm. destruct (get_length_list_ok n (le_n 1) Hm) as (lens & E & Hl & Hs). rewrite E. f_equal.
  destruct lens as [|a [|b l]]; try discriminate. lsum. f_equal. lia.
Qed.

Section Split2.
  Context {L H A : Type}.
  Variable leqb : L -> L -> bool.
  Variable heqb : H -> H -> bool.
  Hypothesis leqb_ok : forall x y, leqb x y = true <-> x = y.
  Hypothesis heqb_ok : forall x y, heqb x y = true <-> x = y.
  Notation dframe := (df L H A).

  Definition join_blocks (axis : bool) (bs : list dframe) : res dframe :=
    if axis then concat_cols leqb bs else concatenate heqb bs.
  Definition axis_len (axis : bool) (d : dframe) := if axis then ncols d else nrows d.

  Lemma split_given (axis : bool) k (d : dframe) m lens :
    wf d -> 0 < k -> length lens = k -> list_sum lens = axis_len axis d ->
    exists bs, split_result_of_axis_func axis k d m (Some lens) = Ok bs
      /\ length bs = k /\ map (axis_len axis) bs = lens /\ join_blocks axis bs = Ok d
      /\ Forall wf bs.
  Proof.
    intros W Hk Hl Hs.
    destruct (Nat.eq_dec k 1) as [->|Hk1].
    - unfold split_result_of_axis_func. cbn [Nat.eqb]. exists [d].
      destruct lens as [|a [|b l]]; try discriminate. lsum.
      assert (a = axis_len axis d) as -> by lia.
      repeat split; auto. unfold join_blocks. destruct axis; cbn.
      + rewrite list_eqb_refl by assumption. cbn. rewrite app_nil_r. f_equal.
        destruct d as [i c t]; cbn in *. f_equal. destruct W as [W1 W2]; cbn in *.
        clear -W1. unfold nrows; cbn. revert t W1.
        induction i; intros [|r t]; cbn; intros; try discriminate; auto.
        unfold zipapp in *. cbn. rewrite app_nil_r. f_equal. apply IHi. lia.
      + rewrite list_eqb_refl by assumption. cbn. rewrite !app_nil_r. now destruct d.
    - rewrite split_result_eq by assumption. eexists; split; [reflexivity|].
      split; [now rewrite map_length, bounds_length|].
      assert (Hne : bounds 0 lens <> []).
      { intros E. apply (f_equal (@length _)) in E. rewrite bounds_length in E. cbn in E. lia. }
      split; [|split].
      + rewrite map_map.
        rewrite <- (@bounds_sizes (axis_len axis d) 0 lens) at 2 by lia. apply map_ext.
        intros iv. unfold axis_len, nrows, ncols. destruct axis; cbn; now rewrite slice_length.
      + unfold join_blocks. destruct axis; cbn [axis_len] in Hs.
        * apply (concat_cols_iloc _ leqb_ok); auto. now apply tiles_bounds.
        * apply (concatenate_rows _ heqb_ok); auto. now apply tiles_bounds.
      + apply Forall_map. apply Forall_forall. intros iv _.
        destruct axis; [now apply wf_iloc_cols | now apply wf_iloc_rows].
  Qed.

  Lemma split_formula (axis : bool) k (d : dframe) m :
    wf d -> 0 < k -> 0 < m ->
    exists lens bs,
      get_length_list (axis_len axis d) k m = Ok lens
      /\ split_result_of_axis_func axis k d m None = Ok bs
      /\ length bs = k /\ map (axis_len axis) bs = lens /\ join_blocks axis bs = Ok d
      /\ Forall wf bs.
  Proof.
    intros W Hk Hm. destruct (get_length_list_ok (axis_len axis d) Hk Hm) as (lens & E & Hl & Hs).
    destruct (split_given axis m lens W Hk Hl Hs) as (bs & Eb & H1 & H2 & H3 & H4).
    exists lens, bs. split; auto. split; auto.
    destruct (Nat.eq_dec k 1) as [->|Hk1]; [exact Eb|].
    rewrite <- Eb. now apply split_result_none.
  Qed.
End Split2.

Section Report.
  Context {L H A : Type}.
  Notation dframe := (df L H A).

  Lemma nth_error_range_iv n c i iv : 0 < c ->
    nth_error (map (fun i => (i, i + c)) (range_step 0 n c)) i = Some iv ->
    i < nchunks n c /\ iv = (i * c, i * c + c).
  Proof.
    intros Hc E. rewrite range_step_0, map_map in E.
    assert (Hi : i < nchunks n c).
    { assert (X : nth_error (map (fun x => (x * c, x * c + c)) (seq 0 (nchunks n c))) i <> None) by congruence.
      apply nth_error_Some in X. now rewrite map_length, seq_length in X. }
    split; auto. rewrite nth_error_map, (nth_error_nth' _ 0) in E by now rewrite seq_length.
    rewrite seq_nth in E by assumption. cbn in E. congruence.
  Qed.

  Lemma report_exact (d : dframe) nparts minrow mincol f :
    wf d -> 0 < nparts -> 0 < minrow -> 0 < mincol ->
    from_pandas nparts minrow mincol d = Ok f ->
    list_sum (frow_lengths f) = nrows d /\ list_sum (fcol_widths f) = ncols d
    /\ length (fgrid f) = length (frow_lengths f)
    /\ length (frow_lengths f) <= nparts /\ length (fcol_widths f) <= nparts
    /\ forall i row, nth_error (fgrid f) i = Some row ->
         length row = Nat.max 1 (length (fcol_widths f))
         /\ forall j b, nth_error row j = Some b ->
              nrows b = nth i (frow_lengths f) 0 /\ ncols b = nth j (fcol_widths f) 0
              /\ 0 < nrows b.
  Proof.
    intros W H1 H2 H3. unfold from_pandas.
    destruct (compute_chunksize_ok (nrows d) H1 H2) as (rc & -> & Hrc & Hrn & _).
    destruct (compute_chunksize_ok (ncols d) H1 H3) as (cc & -> & Hcc & Hcn & _).
    cbn [rbind]. intros [= <-]. cbn [fgrid frow_lengths fcol_widths].
    rewrite split_as_grid_wf by assumption.
    rewrite !reported_lengths_sum, !reported_lengths_length by assumption.
    assert (Hchunks : forall n c, 0 < c -> n <= nparts * c -> nchunks n c <= nparts).
    { intros n c Hc Hn. destruct (Nat.le_gt_cases (nchunks n c) nparts) as [|G]; auto.
      pose proof (nchunks_tight n Hc G). lia. }
    split; [reflexivity|]. split; [reflexivity|].
    unfold grid_iv. rewrite !map_length, range_step_length. split; [reflexivity|].
    split; [now apply Hchunks|]. split; [now apply Hchunks|].
    intros i row Erow. rewrite nth_error_map in Erow.
    destruct (nth_error (map (fun i => (i, i + rc)) (range_step 0 (nrows d) rc)) i) as [ri|] eqn:Eri;
      [|discriminate].
    injection Erow as <-. apply nth_error_range_iv in Eri as [Hi ->]; auto.
    assert (Hri : forall ci, nrows (block d (i * rc, i * rc + rc) ci) = nth i (reported_lengths (nrows d) rc) 0
                   /\ 0 < nrows (block d (i * rc, i * rc + rc) ci)).
    { intros ci. rewrite reported_lengths_nth by assumption. unfold nrows at 1 3. cbn.
      rewrite slice_length. pose proof (nchunks_tight (nrows d) Hrc Hi). unfold nrows in *. lia. }
    destruct (Nat.leb_spec (ncols d) cc) as [Ec|Ec].
    - split.
      + cbn [length map]. assert (nchunks (ncols d) cc <= 1); [|lia].
        destruct (Nat.le_gt_cases (nchunks (ncols d) cc) 1) as [|G]; auto.
        pose proof (nchunks_tight (ncols d) Hcc G). lia.
      + intros [|j] b Eb; [|cbn in Eb; destruct j; discriminate]. cbn in Eb. injection Eb as <-.
        destruct (Hri (0, ncols d)) as [Hr1 Hr2]. split; [exact Hr1|]. split; [|exact Hr2].
        unfold ncols at 1; cbn. rewrite slice_length.
        destruct (Nat.eq_dec (ncols d) 0) as [Z|Z].
        * rewrite Z. replace (reported_lengths 0 cc) with (@nil nat); [cbn; lia|].
          symmetry. apply length_zero_iff_nil. rewrite reported_lengths_length.
          unfold nchunks. rewrite Nat.div_0_l, Nat.mod_0_l by lia. reflexivity.
        * rewrite reported_lengths_nth; auto.
          -- unfold ncols in *. lia.
          -- destruct (nchunks (ncols d) cc) eqn:En; [|lia].
             pose proof (nchunks_cover (ncols d) Hcc). lia.
    - split.
      + rewrite !map_length, range_step_length.
        destruct (nchunks (ncols d) cc) eqn:En; [|lia].
        pose proof (nchunks_cover (ncols d) Hcc). lia.
      + intros j b Eb. rewrite nth_error_map in Eb.
        destruct (nth_error (map (fun i => (i, i + cc)) (range_step 0 (ncols d) cc)) j) as [ci|] eqn:Eci;
          [|discriminate].
        injection Eb as <-. apply nth_error_range_iv in Eci as [Hj ->]; auto.
        destruct (Hri (j * cc, j * cc + cc)) as [Hr1 Hr2]. split; [exact Hr1|]. split; [|exact Hr2].
        rewrite reported_lengths_nth by assumption. unfold ncols at 1; cbn. rewrite slice_length.
        unfold ncols. lia.
  Qed.
End Report.
