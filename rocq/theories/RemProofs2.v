(** Removing rows and columns: filtering block by block. *)
From Verif Require Import Base Table ChunkModel ChunkSpec ChunkProofs GridModel GridSpec FrameSpec GridProofs GridProofs2 GridProofs3 GridProofs5 SelSpec SelModel
  SelProofs JoinModel JoinProofs3 RemSpec RemModel RemProofs.

(** * Marked parts of slices *)
Lemma skipn_skipn {X} a b (l : list X) : skipn a (skipn b l) = skipn (a + b) l.
Proof. revert l. induction b as [|b IH]; intros l; [now rewrite Nat.add_0_r|]. rewrite Nat.add_succ_r. destruct l; [now rewrite !skipn_nil|]. cbn [skipn]. apply IH. Qed.
Lemma bounds_le a lens iv : In iv (bounds a lens) -> fst iv <= snd iv.
Proof. revert a. induction lens as [|n lens IH]; intros a I; [easy|]. destruct I as [<-|I]; cbn; [lia|]. eapply IH; exact I. Qed.
Lemma slice_mid {X} (x y z : list X) : slice (x ++ y ++ z) (length x) (length x + length y) = y.
Proof. unfold slice. rewrite skipn_app, skipn_all, Nat.sub_diag. cbn [app skipn]. replace (length x + length y - length x) with (length y) by lia.
  rewrite firstn_app, firstn_all, Nat.sub_diag, firstn_O. apply app_nil_r. Qed.
Lemma slice_kept {X} m (l : list X) a b : length m = length l -> a <= b -> b <= length l ->
  slice (kept m l) (marks (firstn a m)) (marks (firstn b m)) = kept (slice m a b) (slice l a b).
Proof. intros E Hab Hb.
  assert (Em : m = firstn a m ++ slice m a b ++ skipn b m).
  { rewrite <- (firstn_skipn a m) at 1. f_equal. unfold slice. rewrite <- (firstn_skipn (b - a) (skipn a m)) at 1. f_equal. rewrite skipn_skipn. f_equal. lia. }
  assert (El : l = firstn a l ++ slice l a b ++ skipn b l).
  { rewrite <- (firstn_skipn a l) at 1. f_equal. unfold slice. rewrite <- (firstn_skipn (b - a) (skipn a l)) at 1. f_equal. rewrite skipn_skipn. f_equal. lia. }
  assert (Ls : length (slice m a b) = length (slice l a b)) by (rewrite !slice_length; lia).
  assert (La : length (firstn a m) = length (firstn a l)) by (rewrite !firstn_length; lia).
  assert (K : kept m l = kept (firstn a m) (firstn a l) ++ kept (slice m a b) (slice l a b) ++ kept (skipn b m) (skipn b l)).
  { rewrite Em at 1. rewrite El at 1. rewrite kept_app by exact La. now rewrite kept_app by exact Ls. }
  assert (Mb : marks (firstn b m) = marks (firstn a m) + marks (slice m a b)).
  { rewrite <- marks_app. f_equal. replace b with (a + (b - a)) at 1 by lia. rewrite <- (firstn_skipn a m) at 1. rewrite firstn_app, firstn_length.
    replace (Nat.min a (length m)) with a by lia. replace (a + (b - a) - a) with (b - a) by lia. rewrite firstn_firstn. now replace (Nat.min (a + (b - a)) a) with a by lia. }
  rewrite K, Mb, <- (kept_marks (firstn a m) (firstn a l) La), <- (kept_marks _ _ Ls). apply slice_mid. Qed.

(** the number of marks in each piece *)
Definition piece_marks (m : list bool) (lens : list nat) : list nat := map (fun iv => marks (slice m (fst iv) (snd iv))) (bounds 0 lens).
Lemma bounds_marks m a lens : a + list_sum lens <= length m ->
  bounds (marks (firstn a m)) (map (fun iv => marks (slice m (fst iv) (snd iv))) (bounds a lens))
  = map (fun iv => (marks (firstn (fst iv) m), marks (firstn (snd iv) m))) (bounds a lens).
Proof. revert a. induction lens as [|n lens IH]; intros a Hs; [reflexivity|]. lsum. cbn [bounds map fst snd].
  assert (E : marks (firstn (a + n) m) = marks (firstn a m) + marks (slice m a (a + n))).
  { rewrite <- marks_app. f_equal. unfold slice. replace (a + n - a) with n by lia. rewrite <- (firstn_skipn a m) at 1. rewrite firstn_app, firstn_length.
    replace (Nat.min a (length m)) with a by lia. replace (a + n - a) with n by lia. rewrite firstn_firstn. now replace (Nat.min (a + n) a) with a by lia. }
  rewrite <- E. f_equal. apply IH. lia. Qed.
Lemma bounds_piece_marks m lens : list_sum lens <= length m ->
  bounds 0 (piece_marks m lens) = map (fun iv => (marks (firstn (fst iv) m), marks (firstn (snd iv) m))) (bounds 0 lens).
Proof. exact (@bounds_marks m 0 lens). Qed.
Lemma piece_marks_sum m lens : list_sum lens = length m -> list_sum (piece_marks m lens) = marks m.
Proof. intros E. unfold piece_marks. assert (G : forall a, a + list_sum lens <= length m ->
    list_sum (map (fun iv => marks (slice m (fst iv) (snd iv))) (bounds a lens)) = marks (slice m a (a + list_sum lens))).
  { clear E. induction lens as [|n lens IH]; intros a Ha; lsum.
    - cbn. replace (slice m a (a + 0)) with (@nil bool); [reflexivity|]. unfold slice. now replace (a + 0 - a) with 0 by lia.
    - cbn [bounds map fst snd]. lsum. rewrite IH by lia. rewrite <- marks_app. f_equal. unfold slice.
      replace (a + n - a) with n by lia. replace (a + (n + list_sum lens) - a) with (n + list_sum lens) by lia. replace (a + n + list_sum lens - (a + n)) with (list_sum lens) by lia.
      replace (skipn (a + n) m) with (skipn n (skipn a m)) by (rewrite skipn_skipn; f_equal; lia).
      generalize (skipn a m). clear. intros l. revert l. induction n as [|n IH]; intros l; cbn; [reflexivity|]. destruct l; cbn; [now rewrite firstn_nil|]. now rewrite IH. }
  rewrite G by lia. cbn. rewrite E. f_equal. apply slice_full. lia. Qed.

Section Filter.
  Context {L H A : Type}.
  Variable leqb : L -> L -> bool.
  Variable heqb : H -> H -> bool.
  Hypothesis leqb_ok : forall x y, leqb x y = true <-> x = y.
  Hypothesis heqb_ok : forall x y, heqb x y = true <-> x = y.
  Notation dframe := (df L H A).
  Notation pf := (@pframe L H A).

  Lemma wf_keep_rows m (d : dframe) : wf d -> length m = nrows d -> wf (keep_rows m d).
  Proof. intros [W1 W2] E. split; cbn [keep_rows dindex dcols dcells].
    - rewrite !kept_length; auto. unfold nrows in *. lia.
    - apply Forall_forall. intros r I%in_kept. rewrite Forall_forall in W2. now apply W2. Qed.
  Lemma wf_keep_columns m (d : dframe) : wf d -> length m = ncols d -> wf (keep_columns m d).
  Proof. intros [W1 W2] E. split; cbn [keep_columns dindex dcols dcells]; [now rewrite map_length|].
    apply Forall_forall. intros r (r' & <- & I)%in_map_iff. rewrite Forall_forall in W2. specialize (W2 r' I). rewrite !kept_length; unfold ncols in *; congruence. Qed.
  Lemma nrows_keep m (d : dframe) : length m = nrows d -> nrows (keep_rows m d) = marks m.
  Proof. intros E. unfold nrows. cbn. now rewrite kept_marks. Qed.
  Lemma ncols_keep m (d : dframe) : length m = ncols d -> ncols (keep_columns m d) = marks m.
  Proof. intros E. unfold ncols. cbn. now rewrite kept_marks. Qed.

  (** the kept rows of a range of rows are a range of the kept rows *)
  Lemma keep_rows_slice m (d : dframe) a b : wf d -> length m = nrows d -> a <= b -> b <= nrows d ->
    keep_rows (slice m a b) (iloc_rows d a b) = iloc_rows (keep_rows m d) (marks (firstn a m)) (marks (firstn b m)).
  Proof. intros [W1 W2] E Hab Hb. unfold keep_rows, iloc_rows. cbn [dindex dcols dcells]. f_equal; symmetry; apply slice_kept; unfold nrows in *; try lia; congruence. Qed.
  Lemma keep_columns_slice m (d : dframe) a b : wf d -> length m = ncols d -> a <= b -> b <= ncols d ->
    keep_columns (slice m a b) (iloc_cols d a b) = iloc_cols (keep_columns m d) (marks (firstn a m)) (marks (firstn b m)).
  Proof. intros [W1 W2] E Hab Hb. unfold keep_columns, iloc_cols. cbn [dindex dcols dcells]. f_equal.
    - symmetry; apply slice_kept; unfold ncols in *; try lia; congruence.
    - rewrite !map_map. apply map_ext_in. intros r I. rewrite Forall_forall in W2. specialize (W2 r I). symmetry. apply slice_kept; unfold ncols in *; try lia; congruence. Qed.

  Lemma cut_keep_rows m rl cl (d : dframe) : wf d -> length m = nrows d -> list_sum rl = nrows d ->
    map (fun ri => map (fun ci => iloc_cols (keep_rows (slice m (fst ri) (snd ri)) (iloc_rows d (fst ri) (snd ri))) (fst ci) (snd ci)) (bounds 0 cl)) (bounds 0 rl)
    = cut_table (piece_marks m rl) cl (keep_rows m d).
  Proof. intros W E Hs. unfold cut_table. rewrite bounds_piece_marks by lia. rewrite map_map.
    apply map_ext_in. intros ri I. apply map_ext. intros ci. unfold block. cbn [fst snd].
    pose proof (bounds_within 0 rl) as F. rewrite Forall_forall in F. specialize (F ri I).
    assert (Hle := bounds_le _ _ _ I).
    rewrite keep_rows_slice by (auto; lia). reflexivity. Qed.
  Lemma cut_keep_columns m rl cl (d : dframe) : wf d -> length m = ncols d -> list_sum cl = ncols d ->
    map (fun ri => map (fun ci => keep_columns (slice m (fst ci) (snd ci)) (block d ri ci)) (bounds 0 cl)) (bounds 0 rl)
    = cut_table rl (piece_marks m cl) (keep_columns m d).
  Proof. intros W E Hs. unfold cut_table. rewrite bounds_piece_marks by lia.
    apply map_ext. intros ri. rewrite map_map.
    apply map_ext_in. intros ci I. cbn [fst snd].
    pose proof (bounds_within 0 cl) as F. rewrite Forall_forall in F. specialize (F ci I).
    assert (Hle := bounds_le _ _ _ I).
    change (block d ri ci) with (iloc_cols (iloc_rows d (fst ri) (snd ri)) (fst ci) (snd ci)).
    rewrite keep_columns_slice; auto using wf_iloc_rows; try (unfold ncols in *; cbn; lia).
    unfold block. cbn [fst snd]. unfold iloc_cols, keep_columns, iloc_rows. cbn [dindex dcols dcells]. f_equal.
    now rewrite !slice_map. Qed.

  (** * [filter] *)
  Lemma deploy_any_rows (func : dframe -> res dframe) (d : dframe) ri cl (R : dframe) mb : wf d -> cl <> [] -> list_sum cl = ncols d -> 0 < mb ->
    func (iloc_rows d (fst ri) (snd ri)) = Ok R -> wf R -> ncols R = ncols d ->
    deploy_axis_func leqb heqb true func (length cl) true (map (fun ci => block d ri ci) (bounds 0 cl)) mb None false
    = Ok (map (fun ci => iloc_cols R (fst ci) (snd ci)) (bounds 0 cl)).
  Proof. intros W Hne Hs Hm E WR HR. unfold deploy_axis_func.
    rewrite (concat_cols_blocks_bounds leqb heqb leqb_ok) by assumption. cbn [rbind]. rewrite Nat.add_0_l, Hs, block_cols_full by assumption. rewrite E. cbn [rbind].
    assert (Hl : 0 < length cl) by (destruct cl; [easy|cbn; lia]).
    rewrite split_eff; auto.
    assert (Hold : map (axis_size true) (map (fun ci => block d ri ci) (bounds 0 cl)) = cl).
    { rewrite map_map. cbn [axis_size]. unfold ncols in *. cbn.
      rewrite <- (@bounds_sizes (length (dcols d)) 0 cl) at 2 by lia.
      apply map_ext. intros iv. now rewrite slice_length. }
    rewrite Hold. rewrite !map_length, bounds_length.
    change (eff_lens (axis_size true R) (length cl) mb
      (if length cl =? 1 then None
       else if negb (length cl =? length cl) || negb true then None
       else if list_sum cl =? axis_size true R then Some cl else None))
      with (deploy_lens (ncols R) (length cl) mb true cl None false).
    destruct (@deploy_lens_ok (ncols R) (length cl) mb true cl None false) as (_ & _ & D & _); auto; [discriminate|]. rewrite D by (auto; lia). reflexivity. Qed.
  Lemma deploy_any_cols (func : dframe -> res dframe) (d : dframe) ci rl (R : dframe) mb : wf d -> rl <> [] -> list_sum rl = nrows d -> 0 < mb ->
    func (iloc_cols d (fst ci) (snd ci)) = Ok R -> wf R -> nrows R = nrows d ->
    deploy_axis_func leqb heqb false func (length rl) true (map (fun ri => block d ri ci) (bounds 0 rl)) mb None false
    = Ok (map (fun ri => iloc_rows R (fst ri) (snd ri)) (bounds 0 rl)).
  Proof. intros W Hne Hs Hm E WR HR. unfold deploy_axis_func.
    rewrite (concat_rows_blocks leqb heqb heqb_ok) by assumption. cbn [rbind]. rewrite Nat.add_0_l, Hs, block_rows_full by assumption. rewrite E. cbn [rbind].
    assert (Hl : 0 < length rl) by (destruct rl; [easy|cbn; lia]).
    rewrite split_eff; auto.
    assert (Hold : map (axis_size false) (map (fun ri => block d ri ci) (bounds 0 rl)) = rl).
    { rewrite map_map. cbn [axis_size]. unfold nrows in *. cbn.
      rewrite <- (@bounds_sizes (length (dindex d)) 0 rl) at 2 by lia.
      apply map_ext. intros iv. now rewrite slice_length. }
    rewrite Hold. rewrite !map_length, bounds_length.
    change (eff_lens (axis_size false R) (length rl) mb
      (if length rl =? 1 then None
       else if negb (length rl =? length rl) || negb true then None
       else if list_sum rl =? axis_size false R then Some rl else None))
      with (deploy_lens (nrows R) (length rl) mb true rl None false).
    destruct (@deploy_lens_ok (nrows R) (length rl) mb true rl None false) as (_ & _ & D & _); auto; [discriminate|]. rewrite D by (auto; lia). reflexivity. Qed.

  Variables min_row min_col nparts : nat.
  Hypothesis mr : 0 < min_row.
  Hypothesis mc : 0 < min_col.
  Hypothesis np : 0 < nparts.

  Lemma piece_marks_nil m lens : lens <> [] -> piece_marks m lens <> [].
  Proof. unfold piece_marks. destruct lens; [easy|]. discriminate. Qed.

  Lemma finish_rows (f : pf) d rl cl m : holds f d rl cl -> rl <> [] -> cl <> [] -> length m = nrows d ->
    exists f' rl' cl', construct (mkpf (cut_table (piece_marks m rl) cl (keep_rows m d)) None (pcols f) None (pcl f)) = Ok f'
      /\ holds f' (keep_rows m d) rl' cl' /\ rl' <> [] /\ cl' <> [].
  Proof. intros [Hg [Hi Hc]] Hr Hcl E. destruct Hg as (W & Hsr & Hsc & Hgr & Hli & Hlc & Crl & Ccl).
    set (x := mkpf _ _ _ _ _). assert (G : gridded x (keep_rows m d) (piece_marks m rl) cl).
    { unfold gridded, x; cbn [pgrid pindex pcols prl pcl]. split; [now apply wf_keep_rows|]. split; [rewrite piece_marks_sum by congruence; now rewrite nrows_keep|].
      split; [exact Hsc|]. split; [reflexivity|]. split; [discriminate|]. split; [exact Hlc|]. split; [now left|exact Ccl]. }
    destruct (construct_gridded G) as (f' & rl' & cl' & E1 & G' & N1 & N2 & P1 & P2); auto using piece_marks_nil.
    exists f', rl', cl'. split; [exact E1|]. split; [|auto]. split; [exact G'|]. rewrite P1, P2. split; [now left|]. exact Hc. Qed.
  Lemma finish_cols (f : pf) d rl cl m : holds f d rl cl -> rl <> [] -> cl <> [] -> length m = ncols d ->
    exists f' rl' cl', construct (mkpf (cut_table rl (piece_marks m cl) (keep_columns m d)) (pindex f) None (prl f) None) = Ok f'
      /\ holds f' (keep_columns m d) rl' cl' /\ rl' <> [] /\ cl' <> [].
  Proof. intros [Hg [Hi Hc]] Hr Hcl E. destruct Hg as (W & Hsr & Hsc & Hgr & Hli & Hlc & Crl & Ccl).
    set (x := mkpf _ _ _ _ _). assert (G : gridded x (keep_columns m d) rl (piece_marks m cl)).
    { unfold gridded, x; cbn [pgrid pindex pcols prl pcl]. split; [now apply wf_keep_columns|]. split; [exact Hsr|]. split; [rewrite piece_marks_sum by congruence; now rewrite ncols_keep|].
      split; [reflexivity|]. split; [exact Hli|]. split; [discriminate|]. split; [exact Crl|now left]. }
    destruct (construct_gridded G) as (f' & rl' & cl' & E1 & G' & N1 & N2 & P1 & P2); auto using piece_marks_nil.
    exists f', rl', cl'. split; [exact E1|]. split; [|auto]. split; [exact G'|]. rewrite P1, P2. split; [exact Hi|]. now left. Qed.

  Lemma filter_rows_ok func (f : pf) d rl cl m : holds f d rl cl -> rl <> [] -> cl <> [] -> length m = nrows d ->
    (forall a b, a <= b -> b <= nrows d -> func (iloc_rows d a b) = Ok (keep_rows (slice m a b) (iloc_rows d a b))) ->
    exists f' rl' cl', frame_filter leqb heqb min_row min_col nparts true func f = Ok f'
      /\ holds f' (keep_rows m d) rl' cl' /\ rl' <> [] /\ cl' <> [].
  Proof. intros Hh Hr Hcl E EF. assert (Hh' := Hh). destruct Hh' as [Hg _]. destruct Hg as (W & Hsr & Hsc & Hgr & _).
    unfold frame_filter, map_axis_partitions. cbn [andb]. rewrite Hgr. rewrite cut_table_width by assumption.
    unfold cut_table at 1.
    rewrite (rmap_map_ok _ _ (fun ri => map (fun ci => iloc_cols (keep_rows (slice m (fst ri) (snd ri)) (iloc_rows d (fst ri) (snd ri))) (fst ci) (snd ci)) (bounds 0 cl))).
    2:{ intros ri I. pose proof (bounds_within 0 rl) as F. rewrite Forall_forall in F. specialize (F ri I). assert (Hle := bounds_le _ _ _ I).
        apply deploy_any_rows; auto.
        - apply EF; lia.
        - apply wf_keep_rows; [now apply wf_iloc_rows|]. unfold nrows in *. cbn. rewrite !slice_length. lia. }
    cbn [rbind]. rewrite cut_keep_rows by auto. now apply finish_rows. Qed.

  Lemma filter_cols_ok func (f : pf) d rl cl m : holds f d rl cl -> rl <> [] -> cl <> [] -> length m = ncols d ->
    (forall a b, a <= b -> b <= ncols d -> func (iloc_cols d a b) = Ok (keep_columns (slice m a b) (iloc_cols d a b))) ->
    exists f' rl' cl', frame_filter leqb heqb min_row min_col nparts false func f = Ok f'
      /\ holds f' (keep_columns m d) rl' cl' /\ rl' <> [] /\ cl' <> [].
  Proof. intros Hh Hr Hcl E EF. assert (Hh' := Hh). destruct Hh' as [Hg _]. destruct Hg as (W & Hsr & Hsc & Hgr & _).
    unfold frame_filter, map_axis_partitions. cbn [andb]. rewrite Hgr. rewrite cut_table_width by assumption.
    assert (Et : transp (length cl) (cut_table rl cl d) = map (fun ci => map (fun ri => block d ri ci) (bounds 0 rl)) (bounds 0 cl)).
    { unfold cut_table. rewrite <- (bounds_length 0 cl) at 1. apply transp_fun. }
    rewrite Et. replace (length (cut_table rl cl d)) with (length rl) by (unfold cut_table; now rewrite map_length, bounds_length).
    rewrite (rmap_map_ok _ _ (fun ci => map (fun ri => iloc_rows (keep_columns (slice m (fst ci) (snd ci)) (iloc_cols d (fst ci) (snd ci))) (fst ri) (snd ri)) (bounds 0 rl))).
    2:{ intros ci I. pose proof (bounds_within 0 cl) as F. rewrite Forall_forall in F. specialize (F ci I). assert (Hle := bounds_le _ _ _ I).
        apply deploy_any_cols; auto.
        - apply EF; lia.
        - apply wf_keep_columns; [now apply wf_iloc_cols|]. unfold ncols in *. cbn. rewrite !slice_length. lia. }
    cbn [rbind].
    erewrite (@grid_width_map _ _ _ _ (length rl)). 2:{ now rewrite bounds_nil_iff. } 2:{ intros; now rewrite map_length, bounds_length. }
    replace (length rl) with (length (bounds 0 rl)) by apply bounds_length. rewrite transp_fun.
    match goal with |- context [construct (mkpf ?g _ _ _ _)] => replace g with (cut_table rl (piece_marks m cl) (keep_columns m d)); [now apply finish_cols|] end.
    rewrite <- cut_keep_columns by auto. apply map_ext. intros ri. apply map_ext. intros ci. unfold keep_columns, block, iloc_cols, iloc_rows. cbn [dindex dcols dcells fst snd]. f_equal.
    now rewrite !slice_map. Qed.

  Lemma shown_holds (f : pf) d rl cl : holds f d rl cl -> rl <> [] -> cl <> [] -> shown leqb heqb f = Ok d.
  Proof. intros Hh Hr Hc. unfold shown. rewrite (row_labels_holds Hh Hc), (col_labels_holds Hh (or_introl Hr)).
    apply (@pf_to_pandas_holds L H A leqb heqb leqb_ok heqb_ok _ d rl cl); [|cbn; split; discriminate].
    destruct Hh as [Hg _]. destruct Hg as (W & Hsr & Hsc & Hgr & Hli & Hlc & Crl & Ccl).
    split; [|cbn; auto]. unfold gridded. cbn [pgrid pindex pcols prl pcl]. repeat split; auto.
    - apply W.
    - apply W.
    - intros i Ei. injection Ei as <-. reflexivity.
    - intros i Ei. injection Ei as <-. reflexivity. Qed.
End Filter.
