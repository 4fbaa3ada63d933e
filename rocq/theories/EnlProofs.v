(** Reindexing: proofs. *)
From Verif Require Import Base Table ChunkModel ChunkSpec GridModel GridSpec FrameSpec GridProofs GridProofs2 GridProofs3 GridProofs5 SelSpec SelModel
  SelProofs SelProofs2 SelProofs3 SelProofs4 SelProofs5 SetSpec SetModel LocSpec LocModel LocProofs EnlSpec EnlModel.

Section Reindex.
  Context {L A : Type}.
  Variable leqb : L -> L -> bool.
  Hypothesis leqb_ok : forall x y, leqb x y = true <-> x = y.
  Notation dframe := (df L L A).
  Notation pf := (@pframe L L A).

  Lemma distinct_ok ls : distinct leqb ls = true <-> NoDup ls.
  Proof. induction ls as [|l ls IH]; cbn [distinct]; [split; auto; constructor|]. rewrite andb_true_iff, negb_true_iff, IH. split.
    - intros [X N]. constructor; auto. intros I. rewrite <- not_true_iff_false in X. apply X, existsb_exists. exists l. split; auto. now apply leqb_ok.
    - intros N. inversion N as [|? ? N1 N2]; subst. split; auto. apply not_true_iff_false. intros X. apply existsb_exists in X. destruct X as (y & I & E). apply leqb_ok in E. now subst y. Qed.

  Lemma everywhere_lt labels l p q : everywhere leqb labels l = p :: q -> p < length labels.
  Proof. intros E. pose proof (everywhere_bound leqb leqb_ok labels l) as B. rewrite E in B. now inversion B. Qed.

  Lemma reindex_rows_wf fill ls (d : dframe) : wf d -> wf (reindex_rows leqb fill ls d).
  Proof. intros [W1 W2]. unfold reindex_rows. destruct (list_eqb leqb (dindex d) ls); [now split|]. split; cbn [dcells dindex dcols]; [now rewrite map_length|].
    apply Forall_map, Forall_forall. intros l _. destruct (everywhere leqb (dindex d) l) as [|p q] eqn:E; [now rewrite repeat_length|].
    apply everywhere_lt in E. rewrite Forall_forall in W2. apply W2. apply nth_In. lia. Qed.
  Lemma reindex_cols_wf fill ls (d : dframe) : wf d -> wf (reindex_cols leqb fill ls d).
  Proof. intros [W1 W2]. unfold reindex_cols. destruct (list_eqb leqb (dcols d) ls); [now split|]. split; cbn [dcells dindex dcols]; [now rewrite map_length|].
    apply Forall_map, Forall_forall. intros r _. now rewrite map_length. Qed.

  Lemma reindex_rows_column_wise fill ls : column_wise (@reindex_rows L A leqb fill ls).
  Proof. intros d W. split; [now apply reindex_rows_wf|]. split; [unfold reindex_rows; now destruct (list_eqb leqb (dindex d) ls)|]. intros a b.
    unfold reindex_rows. cbn [iloc_cols dindex]. destruct (list_eqb leqb (dindex d) ls); [reflexivity|]. unfold iloc_cols; cbn [dindex dcols dcells]. f_equal.
    rewrite map_map. apply map_ext. intros l. destruct (everywhere leqb (dindex d) l) as [|p q].
    - unfold ncols. cbn [dcols]. rewrite slice_repeat, slice_length. reflexivity.
    - assert (Z : [] = (fun r : list A => slice r a b) []) by (unfold slice; now rewrite skipn_nil, firstn_nil). rewrite Z at 1. now rewrite (map_nth (fun r : list A => slice r a b)). Qed.
  Lemma reindex_cols_row_wise fill ls : row_wise (@reindex_cols L A leqb fill ls).
  Proof. intros d W. split; [now apply reindex_cols_wf|]. split; [unfold reindex_cols; now destruct (list_eqb leqb (dcols d) ls)|]. intros a b.
    unfold reindex_cols. cbn [iloc_rows dcols]. destruct (list_eqb leqb (dcols d) ls); [reflexivity|]. unfold iloc_rows; cbn [dindex dcols dcells]. f_equal. now rewrite slice_map. Qed.

  Lemma reindex_rows_labels fill ls (d : dframe) : dindex (reindex_rows leqb fill ls d) = ls /\ dcols (reindex_rows leqb fill ls d) = dcols d.
  Proof. unfold reindex_rows. destruct (list_eqb leqb (dindex d) ls) eqn:E; auto. apply list_eqb_spec in E; auto. Qed.
  Lemma reindex_cols_labels fill ls (d : dframe) : dcols (reindex_cols leqb fill ls d) = ls /\ dindex (reindex_cols leqb fill ls d) = dindex d.
  Proof. unfold reindex_cols. destruct (list_eqb leqb (dcols d) ls) eqn:E; auto. apply list_eqb_spec in E; auto. Qed.

  Lemma everywhere_unique labels l p : NoDup labels -> nth_error labels p = Some l -> everywhere leqb labels l = [p].
  Proof. intros N E. pose proof (everywhere_in leqb leqb_ok labels l) as EI.
    assert (X : forall k, In k (everywhere leqb labels l) -> k = p).
    { intros k I. apply EI in I. apply (proj1 (NoDup_nth_error labels) N); [apply nth_error_Some; congruence|congruence]. }
    assert (ND : NoDup (everywhere leqb labels l)).
    { unfold everywhere. assert (Y : NoDup (map fst (combine (seq 0 (length labels)) labels))) by (rewrite SetProofs4.combine_fst by (now rewrite seq_length); apply seq_NoDup).
      revert Y. generalize (combine (seq 0 (length labels)) labels). intros c. induction c as [|x c IHc]; cbn; intros Y; [constructor|]. inversion Y as [|? ? X1 X2]; subst.
      destruct (leqb (snd x) l); cbn; auto. constructor; auto. intros I. apply X1. apply in_map_iff in I. destruct I as (y & <- & [I _]%filter_In). now apply in_map. }
    apply EI in E. destruct (everywhere leqb labels l) as [|a [|b q]]; [contradiction|f_equal; apply X; now left|].
    exfalso. pose proof (X a (or_introl eq_refl)). pose proof (X b (or_intror (or_introl eq_refl))). subst. inversion ND as [|? ? ND1 _]; subst. apply ND1. now left. Qed.
  Lemma everywhere_nil labels l : ~ In l labels -> everywhere leqb labels l = [].
  Proof. intros N. destruct (everywhere leqb labels l) as [|p q] eqn:E; auto. exfalso. apply N. apply (nth_error_In _ p). apply (everywhere_in leqb leqb_ok). rewrite E. now left. Qed.

  Lemma reindex_rows_meaning fill ls (d : dframe) : wf d -> NoDup (dindex d) -> reindexed_rows fill ls d (reindex_rows leqb fill ls d).
  Proof. intros W N. destruct (reindex_rows_labels fill ls d) as [E1 E2]. split; [now apply reindex_rows_wf|]. split; auto. split; auto.
    intros i l q Hi Hq. destruct W as [W1 W2]. unfold reindex_rows. destruct (list_eqb leqb (dindex d) ls) eqn:E.
    - apply list_eqb_spec in E; auto. subst ls. split.
      + intros p Hp. assert (i = p) by (apply (proj1 (NoDup_nth_error _) N); [apply nth_error_Some; congruence|congruence]). now subst.
      + intros Ni. exfalso. apply Ni. now apply nth_error_In in Hi.
    - unfold cell. cbn [dcells]. rewrite nth_error_map, Hi. cbn [option_map]. split.
      + intros p Hp. rewrite (everywhere_unique _ N Hp). assert (Hl : p < length (dcells d)) by (rewrite W1; apply nth_error_Some; congruence).
        now rewrite (nth_error_nth' _ [] Hl).
      + intros Ni. rewrite (everywhere_nil _ _ Ni). apply (nth_error_repeat fill). exact Hq. Qed.
  Lemma reindex_cols_meaning fill ls (d : dframe) : wf d -> NoDup (dcols d) -> reindexed_cols fill ls d (reindex_cols leqb fill ls d).
  Proof. intros W N. destruct (reindex_cols_labels fill ls d) as [E1 E2]. split; [now apply reindex_cols_wf|]. split; auto. split; auto.
    intros p j l Hp Hj. destruct W as [W1 W2]. unfold reindex_cols. destruct (list_eqb leqb (dcols d) ls) eqn:E.
    - apply list_eqb_spec in E; auto. subst ls. split.
      + intros q Hq. assert (j = q) by (apply (proj1 (NoDup_nth_error _) N); [apply nth_error_Some; congruence|congruence]). now subst.
      + intros Ni. exfalso. apply Ni. now apply nth_error_In in Hj.
    - unfold cell. cbn [dcells]. rewrite nth_error_map. unfold nrows in Hp. rewrite <- W1 in Hp. destruct (nth_error (dcells d) p) as [r|] eqn:Er; [|apply nth_error_None in Er; lia].
      cbn [option_map]. rewrite nth_error_map, Hj. cbn [option_map]. split.
      + intros q Hq. rewrite (everywhere_unique _ N Hq). assert (Hl : q < length r). { rewrite Forall_forall in W2. rewrite (W2 r) by (now apply nth_error_In in Er). apply nth_error_Some; congruence. }
        now rewrite (nth_error_nth' _ fill Hl).
      + intros Ni. now rewrite (everywhere_nil _ _ Ni). Qed.

  Variables min_row min_col nparts : nat.
  Hypothesis min_row_pos : 0 < min_row.
  Hypothesis min_col_pos : 0 < min_col.
  Hypothesis nparts_pos : 0 < nparts.
  Notation qcr := (qc_reindex leqb min_row min_col nparts).

  Definition reindexable (old ls : list L) : Prop := NoDup old \/ old = ls.
  Lemma index_reindex_ok old ls : reindexable old ls -> index_reindex leqb old ls = Ok ls.
  Proof. intros H. unfold index_reindex. destruct (list_eqb leqb old ls) eqn:E; auto. destruct H as [N| ->]; [now rewrite (proj2 (distinct_ok old) N)|].
    rewrite list_eqb_refl in E; [discriminate|]. intros x. now apply leqb_ok. Qed.

  Lemma qc_reindex_rows_ok fill ls (f : pf) d rl cl : shows f d rl cl -> reindexable (dindex d) ls ->
    exists f' rl' cl', qcr false fill ls f = Ok f' /\ shows f' (reindex_rows leqb fill ls d) rl' cl'.
  Proof. intros ((G & _) & Hr & Hc & Hi & Hcc) R. unfold qc_reindex. rewrite Hi, Hcc. cbn [labels rbind]. rewrite (index_reindex_ok R). cbn [rbind].
    destruct (reindex_rows_labels fill ls d) as [E1 E2].
    destruct (@apply_full_axis_columns L L A L L A leqb leqb leqb_ok (reindex_rows leqb fill ls) (reindex_rows_column_wise fill ls) nparts min_row min_col (Some ls) (Some (dcols d)) true None f d rl cl)
      as (f' & rl' & cl' & E & G' & Hr' & Hc' & P1 & P2); auto; try discriminate.
    { intros i X. injection X as <-. unfold nrows. now rewrite E1. } { intros c X. injection X as <-. unfold ncols. now rewrite E2. }
    exists f', rl', cl'. split; auto. split; [|rewrite E1, E2; auto]. split; auto. rewrite E1, E2. auto. Qed.
  Lemma qc_reindex_cols_ok fill ls (f : pf) d rl cl : shows f d rl cl -> reindexable (dcols d) ls ->
    exists f' rl' cl', qcr true fill ls f = Ok f' /\ shows f' (reindex_cols leqb fill ls d) rl' cl'.
  Proof. intros ((G & _) & Hr & Hc & Hi & Hcc) R. unfold qc_reindex. rewrite Hi, Hcc. cbn [labels rbind]. rewrite (index_reindex_ok R). cbn [rbind].
    destruct (reindex_cols_labels fill ls d) as [E1 E2].
    destruct (@apply_full_axis_rows L L A L L A leqb leqb leqb_ok (reindex_cols leqb fill ls) (reindex_cols_row_wise fill ls) nparts min_row min_col (Some (dindex d)) (Some ls) true None f d rl cl)
      as (f' & rl' & cl' & E & G' & Hr' & Hc' & P1 & P2); auto; try discriminate.
    { intros i X. injection X as <-. unfold nrows. now rewrite E2. } { intros c X. injection X as <-. unfold ncols. now rewrite E1. }
    exists f', rl', cl'. split; auto. split; [|rewrite E1, E2; auto]. split; auto. rewrite E1, E2. auto. Qed.
End Reindex.
