(** Quantiles and ranks over blocks. *)
From Verif Require Import Base Table GridSpec ChunkModel ChunkSpec FrameSpec GridModel GridProofs GridProofs3 GridProofs4 GridProofs5 SelSpec SelModel SelProofs SelProofs5 RemSpec RemModel RemProofs ItmModel ItmProofs KeyProofs FilSpec FilProofs QntSpec QntModel.

Section Wise.
  Context {L A B : Type}.
  Variable qs : list L.
  Variable quants : list A -> list B.
  Hypothesis quants_length : forall l, length (quants l) = length qs.

  Definition of_rows (t : df L L A) : df L L B := mkdf (dindex t) qs (map quants (dcells t)).
  Lemma of_rows_rw : row_wise of_rows.
  Proof. intros d [W1 W2]. split; [|split; [reflexivity|]].
    - split; cbn; [now rewrite map_length|]. apply Forall_forall. intros r (l & <- & _)%in_map_iff. apply quants_length.
    - intros a b. unfold of_rows, iloc_rows; cbn. now rewrite slice_map. Qed.
  Lemma of_columns_cw : column_wise (quantile_table qs quants false).
  Proof. intros d W.
    assert (LC := columns_length W).
    assert (Rows : Forall (fun c => length c = length qs) (map quants (columns d))).
    { apply Forall_forall. intros c (l & <- & _)%in_map_iff. apply quants_length. }
    split; [|split; [reflexivity|]].
    - split; cbn; [now rewrite transp_length|]. pose proof (transp_rows Rows) as T. rewrite map_length, LC in T. exact T.
    - intros a b. unfold quantile_table, iloc_cols; cbn. f_equal.
      rewrite <- transp_slice by exact Rows. rewrite slice_map. f_equal. f_equal.
      unfold columns, ncols; cbn. rewrite slice_length, transp_map_slice. reflexivity. Qed.
  Lemma of_rows_T d : wf d -> df_T (of_rows d) = quantile_table qs quants true d.
  Proof. reflexivity. Qed.
End Wise.

Section Quantile.
  Context {L A B : Type}.
  Variable leqb : L -> L -> bool.
  Hypothesis leqb_ok : forall x y, leqb x y = true <-> x = y.
  Variable order : list L -> list L.
  Hypothesis order_ok : forall l, Permutation (order l) l.
  Variables min_row min_col nparts : nat.
  Hypothesis min_row_pos : 0 < min_row.
  Hypothesis min_col_pos : 0 < min_col.
  Hypothesis nparts_pos : 0 < nparts.
  Variables known_l known_w : nat -> nat -> bool.
  Variable argsort : list Z -> list nat.
  Hypothesis argsort_ok : forall l, sorts l (argsort l).
  Variable qs : list L.
  Variable quants : list A -> list B.
  Hypothesis quants_length : forall l, length (quants l) = length qs.
  Notation quantile_for := (quantile_for_list_of_values leqb min_row min_col nparts known_l known_w argsort qs quants).

  Lemma gridded_shows {X} (f : @pframe L L X) d rl cl : gridded f d rl cl -> rl <> [] -> cl <> [] -> pindex f = Some (dindex d) -> pcols f = Some (dcols d) -> shows f d rl cl.
  Proof. clear. intros G Hr Hc I C. repeat split; auto; try apply G; try (right; assumption). Qed.

  Lemma kept_all {X} m (l : list X) : Forall (fun b => b = true) m -> length m = length l -> kept m l = l.
  Proof. clear. revert l. induction m as [|b m IH]; intros [|x l] F E; try discriminate; [reflexivity|]. inversion F; subst. cbn in *. now rewrite IH by (auto; lia). Qed.

  Lemma in_place_seq {X} (l : list X) : forall pre ps, Forall2 (fun c p => nth_error (pre ++ l) p = Some c) l ps -> NoDup (pre ++ l) -> ps = seq (length pre) (length l).
  Proof. clear. induction l as [|x l IH]; intros pre ps F D; inversion F; subst; [reflexivity|]. cbn [length seq]. f_equal.
    - apply (proj1 (NoDup_nth_error _) D).
      + apply nth_error_Some. congruence.
      + rewrite H1. rewrite nth_error_app2 by lia. now rewrite Nat.sub_diag.
    - specialize (IH (pre ++ [x]) l'). rewrite <- app_assoc, app_length, Nat.add_1_r in IH. cbn [app] in IH. now apply IH. Qed.

  Lemma quantile_for_ok axis ts (f : @pframe L L A) d rl cl : shows f d rl cl -> 0 < nrows d -> (axis = true -> NoDup (dcols d)) -> length ts = ncols d ->
    forallb ordered ts = true ->
    exists f' rl' cl', quantile_for axis ts f = Ok f' /\ shows f' (quantile_table qs quants axis d) rl' cl'.
  Proof. intros S N D Lt O. assert (S' := S). destruct S' as (Hh & Hr & Hc & Hi & Hcol).
    unfold quantile_for_list_of_values. rewrite Hcol. cbn [labels rbind].
    rewrite (@kept_all L) by (rewrite ?map_length; auto; apply Forall_forall; intros b (t & <- & I)%in_map_iff; rewrite forallb_forall in O; auto).
    destruct axis.
    - specialize (D eq_refl). destruct (@getitem_columns_ok L L A leqb leqb leqb_ok leqb_ok min_row min_col nparts min_row_pos min_col_pos nparts_pos known_l known_w argsort argsort_ok f d rl cl (dcols d) S N D D) as (g & rl1 & cl1 & ps & E1 & S1 & F).
      { apply Forall_forall. auto. }
      assert (ps = seq 0 (ncols d)) as ->.
      { now apply (@in_place_seq L (dcols d) []). }
      rewrite take2d_all in S1 by apply Hh. rewrite E1. cbn [rbind]. rewrite Hi. cbn [labels rbind].
      destruct S1 as (Hh1 & Hr1 & Hc1 & Hi1 & Hcol1).
      destruct (@apply_full_axis_rows L L A L L B leqb leqb leqb_ok (of_rows qs quants) (of_rows_rw qs quants quants_length) nparts min_row min_col (Some (dindex d)) (Some qs) true None g d rl1 cl1
        (proj1 Hh1) Hr1 Hc1 nparts_pos min_row_pos min_col_pos) as (x & rl2 & cl2 & E2 & G2 & Hr2 & Hc2 & Hi2 & Hcol2); try easy.
      { intros i [= <-]. reflexivity. }
      { intros c [= <-]. reflexivity. }
      change (quantile_builder qs quants true) with (fun t : df L L A => Ok (of_rows qs quants t)). rewrite E2. cbn [rbind].
      destruct (@transpose_holds L B x (of_rows qs quants d) rl2 cl2) as (y & rl3 & cl3 & E3 & H3 & Hr3 & Hc3 & Hi3 & Hcol3); auto.
      { split; [exact G2|]. rewrite Hi2, Hcol2. auto. }
      exists y, cl3, rl3. split; [exact E3|]. change (quantile_table qs quants true d) with (df_T (of_rows qs quants d)).
      split; [exact H3|]. split; [assumption|]. split; [assumption|]. split; [rewrite Hi3; exact Hcol2|rewrite Hcol3; exact Hi2].
    - destruct (@apply_full_axis_columns L L A L L B leqb leqb leqb_ok (quantile_table qs quants false) (of_columns_cw qs quants quants_length) nparts min_row min_col (Some qs) (Some (dcols d)) true None f d rl cl
        (proj1 Hh) Hr Hc nparts_pos min_row_pos min_col_pos) as (x & rl2 & cl2 & E2 & G2 & Hr2 & Hc2 & Hi2 & Hcol2); try easy.
      { intros i [= <-]. reflexivity. }
      { intros c [= <-]. reflexivity. }
      exists x, rl2, cl2. split; [exact E2|]. now apply gridded_shows. Qed.

  Lemma filter_one {X} (cts : list (L * X)) l t : NoDup (map fst cts) -> In (l, t) cts -> filter (fun ct => leqb l (fst ct)) cts = [(l, t)].
  Proof. clear - leqb_ok. induction cts as [|[l' t'] cts IH]; intros D I; [easy|]. cbn in D. inversion D as [|? ? N D']; subst. cbn [filter fst].
    destruct I as [[= -> ->]|I].
    - rewrite (proj2 (leqb_ok l l) eq_refl). f_equal. clear - N leqb_ok. induction cts as [|[l' t'] cts IH]; [reflexivity|]. cbn in *.
      destruct (leqb l l') eqn:E; [apply leqb_ok in E; subst; tauto|]. apply IH. tauto.
    - destruct (leqb l l') eqn:E; [|now apply IH]. apply leqb_ok in E; subst. exfalso. apply N. apply in_map_iff. now exists (l', t). Qed.
  Lemma numeric_flags cols ts : NoDup cols -> length ts = length cols -> map (label_numeric leqb cols ts) cols = map is_num ts.
  Proof. clear - leqb_ok. intros D E. assert (C : map fst (combine cols ts) = cols) by (clear - E; revert ts E; induction cols; intros [|t ts] E; try discriminate; cbn; f_equal; auto).
    assert (C2 : map snd (combine cols ts) = ts) by (clear - E; revert ts E; induction cols; intros [|t ts] E; try discriminate; cbn; f_equal; auto).
    transitivity (map (fun ct => label_numeric leqb cols ts (fst ct)) (combine cols ts)); [rewrite <- (map_map fst (label_numeric leqb cols ts)), C; reflexivity|].
    transitivity (map (fun ct => is_num (snd ct)) (combine cols ts)); [|rewrite <- (map_map snd is_num), C2; reflexivity]. apply map_ext_in. intros [l t] I. cbn [fst snd].
    unfold label_numeric. rewrite (@filter_one dtype _ l t); [reflexivity| |exact I]. now rewrite C. Qed.
  Lemma dropped_flags cols ts : NoDup cols -> length ts = length cols ->
    without leqb cols (filter (fun l => negb (label_numeric leqb cols ts l)) cols) = map is_num ts.
  Proof. clear - leqb_ok. intros D E. rewrite <- (numeric_flags ts D E). unfold without. apply map_ext_in. intros l I.
    destruct (label_numeric leqb cols ts l) eqn:N.
    - destruct (inb leqb l _) eqn:X; [|reflexivity]. apply (RemProofs.inb_in leqb leqb_ok) in X. apply filter_In in X as [_ X]. now rewrite N in X.
    - replace (inb leqb l _) with true; [reflexivity|]. symmetry. apply (RemProofs.inb_in leqb leqb_ok). apply filter_In. split; [exact I|]. now rewrite N. Qed.

  Lemma kept_filter (ts : list dtype) : kept (map is_num ts) ts = filter is_num ts.
  Proof. clear. induction ts as [|t ts IH]; [reflexivity|]. cbn. destruct (is_num t); now rewrite IH. Qed.
  Lemma kept_incl {X} m (l : list X) : incl (kept m l) l.
  Proof. clear. revert l. induction m as [|[|] m IH]; intros [|x l] y I; cbn in *; try easy.
    - destruct I as [->|I]; [now left|right; now apply IH].
    - right. now apply IH. Qed.
  Lemma kept_nodup {X} m (l : list X) : NoDup l -> NoDup (kept m l).
  Proof. clear. revert l. induction m as [|[|] m IH]; intros [|x l] D; cbn; try constructor; inversion D; subst; auto.
    intros I. apply kept_incl in I. tauto. Qed.
  Lemma kept_num_length {X} ts (l : list X) : length ts = length l -> length (filter is_num ts) = length (kept (map is_num ts) l).
  Proof. clear. revert l. induction ts as [|t ts IH]; intros [|x l] E; try discriminate; [reflexivity|]. cbn in *. destruct (is_num t); cbn; rewrite (IH l); lia. Qed.

  Lemma drop_ok ls (f : @pframe L L A) d rl cl : shows f d rl cl -> 0 < nrows d -> incl ls (dcols d) ->
    exists f' rl' cl', drop leqb order min_row min_col nparts known_l known_w argsort false true None (Some (DMany ls)) f = Ok f'
      /\ shows f' (keep_columns (without leqb (dcols d) ls) d) rl' cl'.
  Proof. intros S N I. assert (S' := S). destruct S' as (Hh & Hr & Hc & Hi & Hcol).
    unfold RemModel.drop. rewrite Hi, Hcol. cbn [labels rbind check remaining option_map as_list].
    assert (difference leqb order ls (dcols d) = []) as ->.
    { destruct (@check_ok L leqb leqb_ok order order_ok true (dcols d) (DMany ls) ls) as (o & E & _); [now left|reflexivity|].
      cbn in E. destruct (difference leqb order ls (dcols d)); [reflexivity|discriminate]. }
    cbn [rbind remaining option_map]. rewrite (remaining_ok leqb leqb_ok order order_ok).
    destruct (@take_some L L A leqb leqb leqb_ok leqb_ok min_row min_col nparts min_row_pos min_col_pos nparts_pos known_l known_w argsort argsort_ok f d rl cl (marked (without leqb (dcols d) ls)) S N)
      as (f' & rl' & cl' & E & S2).
    { apply marked_nodup. }
    { unfold ncols. rewrite <- (without_length leqb (dcols d) ls). apply marked_bound. }
    exists f', rl', cl'. split; [exact E|].
    replace (keep_columns (without leqb (dcols d) ls) d) with (take2d (seq 0 (nrows d)) (marked (without leqb (dcols d) ls)) d); [exact S2|].
    rewrite <- (marked_true 0 (nrows d)). rewrite <- keep_take2d by (try apply Hh; try apply repeat_length; apply without_length).
    unfold keep_rows, keep_columns. cbn. f_equal; apply kept_all; try (apply Forall_forall; intros b X; now apply repeat_spec in X); rewrite repeat_length; [reflexivity|].
    rewrite map_length. symmetry. apply Hh. Qed.
End Quantile.
