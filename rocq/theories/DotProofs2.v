From Verif Require Import Base Table ChunkModel ChunkSpec ChunkProofs GridModel GridSpec FrameSpec
  GridProofs GridProofs3 GridProofs5 JoinModel JoinProofs3 RemModel RemProofs2 SelProofs5 DotSpec DotModel DotProofs.

Section Dot.
  Context {L A : Type}.
  Variable leqb : L -> L -> bool.
  Hypothesis leqb_ok : forall x y, leqb x y = true <-> x = y.
  Variables (nan : A) (inner : list A -> list A -> A).
  Variables (num : nat -> L) (union : list L -> list L -> list L).
  Hypothesis union_again : forall a b, union a (union a b) = union a b.
  Variable reduced : L.
  Notation dframe := (df L L A).
  Notation pf := (@pframe L L A).
  Notation other := (other L A).
  Notation pdot := (p_dot leqb nan inner num union).
  Notation psdot := (p_sdot leqb nan inner union).

  (** what the API hands to the query compiler *)
  Definition prep (mine : list L) (o : other) : res other :=
    match o with
    | OFrame t => if too_long union mine (dindex t) then Err ValueError else reindexed leqb nan o (union mine (dindex t))
    | OSeries ix _ => if too_long union mine ix then Err ValueError else reindexed leqb nan o (union mine ix)
    | OMatrix _ rows => if length mine =? length rows then Ok o else Err ValueError
    | OVector vs => if length mine =? length vs then Ok o else Err ValueError
    end.

  Lemma list_eqb_id (l : list L) : list_eqb leqb l l = true.
  Proof. induction l as [|x l IH]; cbn; auto. rewrite IH, andb_true_r. now apply leqb_ok. Qed.
  Lemma arranged {X} (dflt : X) ls vs : arrange leqb dflt ls vs ls = vs.
  Proof. unfold arrange. now rewrite list_eqb_id. Qed.

  Lemma matching_again mine theirs : too_long union mine theirs = false -> rearrangeable leqb theirs (union mine theirs) = true ->
    matching leqb union mine (union mine theirs) = matching leqb union mine theirs.
  Proof. intros T R. unfold matching, too_long in *. rewrite union_again. apply orb_false_iff in T as [T1 T2].
    apply Nat.ltb_ge in T1, T2. rewrite R, !andb_true_r, Nat.leb_refl, andb_true_r.
    replace (length (union mine theirs) <=? length theirs) with true by (symmetry; now apply Nat.leb_le). rewrite andb_true_r.
    unfold rearrangeable at 2. rewrite list_eqb_id. cbn [orb]. now rewrite andb_true_r. Qed.
  Lemma matching_long mine theirs : too_long union mine theirs = true -> matching leqb union mine theirs = false.
  Proof. unfold too_long, matching. intros T. apply orb_true_iff in T as [T|T]; apply Nat.ltb_lt, Nat.leb_gt in T; rewrite T; cbn; auto.
    now rewrite andb_false_r. Qed.
  Lemma matching_stuck mine theirs : rearrangeable leqb theirs (union mine theirs) = false -> matching leqb union mine theirs = false.
  Proof. unfold matching. intros ->. now rewrite andb_false_r. Qed.

  Lemma prep_ok mine o o' : prep mine o = Ok o' ->
    num_cols o' = num_cols o /\ (forall d, dcols d = mine -> pdot d o' = pdot d o) /\ (forall name vals, psdot name mine vals o' = psdot name mine vals o).
  Proof. destruct o as [t|ix vs|w rows|vs]; cbn [prep reindexed]; intros E.
    - destruct (too_long union mine (dindex t)) eqn:T; [discriminate|]. destruct (rearrangeable leqb (dindex t) _) eqn:R; [|discriminate].
      injection E as <-. split; [reflexivity|]. split; [intros d <-|intros name vals]; cbn [p_dot p_sdot dindex dcols dcells];
        rewrite union_again, matching_again by assumption; destruct (matching leqb union _ _); auto; now rewrite arranged.
    - destruct (too_long union mine ix) eqn:T; [discriminate|]. destruct (rearrangeable leqb ix _) eqn:R; [|discriminate].
      injection E as <-. split; [reflexivity|]. split; [intros d <-|intros name vals]; cbn [p_dot p_sdot dindex dcols dcells];
        rewrite union_again, matching_again by assumption; destruct (matching leqb union _ _); auto; now rewrite arranged.
    - destruct (length mine =? length rows); [|discriminate]. injection E as <-. auto.
    - destruct (length mine =? length vs); [|discriminate]. injection E as <-. auto. Qed.
  Lemma prep_err mine o e : prep mine o = Err e ->
    (forall d, dcols d = mine -> pdot d o = Err ValueError) /\ (forall name vals, psdot name mine vals o = Err ValueError).
  Proof. destruct o as [t|ix vs|w rows|vs]; cbn [prep reindexed]; intros E.
    - destruct (too_long union mine (dindex t)) eqn:T.
      + apply matching_long in T. split; [intros d <-|intros name vals]; cbn [p_dot p_sdot]; now rewrite T.
      + destruct (rearrangeable leqb (dindex t) _) eqn:R; [discriminate|]. apply matching_stuck in R.
        split; [intros d <-|intros name vals]; cbn [p_dot p_sdot]; now rewrite R.
    - destruct (too_long union mine ix) eqn:T.
      + apply matching_long in T. split; [intros d <-|intros name vals]; cbn [p_dot p_sdot]; now rewrite T.
      + destruct (rearrangeable leqb ix _) eqn:R; [discriminate|]. apply matching_stuck in R.
        split; [intros d <-|intros name vals]; cbn [p_dot p_sdot]; now rewrite R.
    - destruct (length mine =? length rows) eqn:T; [discriminate|]. split; [intros d <-|intros name vals]; cbn [p_dot p_sdot]; [unfold ncols|]; now rewrite T.
    - destruct (length mine =? length vs) eqn:T; [discriminate|]. split; [intros d <-|intros name vals]; cbn [p_dot p_sdot]; [unfold ncols|]; now rewrite T. Qed.

  Lemma lines_length w rows : length (lines nan w rows) = w.
  Proof. unfold lines. now rewrite map_length, seq_length. Qed.

  (** the product of a frame is computed row by row *)
  Lemma p_dot_rows o cols :
    (forall t : dframe, dcols t = cols -> pdot t o = Err ValueError)
    \/ exists cs g, length cs = num_cols o /\ (forall r, length (g r) = num_cols o)
       /\ forall t : dframe, dcols t = cols -> exists a, pdot t o = Ok a /\ to_frame num a = mkdf (dindex t) cs (map g (dcells t)).
  Proof. destruct o as [t0|ix vs|w rows|vs]; cbn [p_dot num_cols].
    - destruct (matching leqb union cols (dindex t0)) eqn:M; [right|left; intros t ->; now rewrite M].
      eexists (dcols t0), (fun r => map (inner (arrange leqb nan cols r (union cols (dindex t0)))) _). split; [reflexivity|]. split.
      2:{ intros t ->. rewrite M. eexists. split; [reflexivity|]. reflexivity. }
      intros r. now rewrite map_length, lines_length.
    - destruct (matching leqb union cols ix) eqn:M; [right|left; intros t ->; now rewrite M].
      exists [num 0], (fun r => [inner (arrange leqb nan cols r (union cols ix)) (arrange leqb nan ix vs (union cols ix))]). split; [reflexivity|]. split; [reflexivity|].
      intros t ->. rewrite M. eexists. split; [reflexivity|]. cbn [to_frame]. now rewrite map_map.
    - destruct (length cols =? length rows) eqn:M; [right|left; intros t <-; unfold ncols; now rewrite M].
      exists (map num (seq 0 w)), (fun r => map (inner r) (lines nan w rows)). split; [now rewrite map_length, seq_length|]. split.
      + intros r. now rewrite map_length, lines_length.
      + intros t <-. unfold ncols. rewrite M. eexists. split; reflexivity.
    - destruct (length cols =? length vs) eqn:M; [right|left; intros t <-; unfold ncols; now rewrite M].
      exists [num 0], (fun r => [inner r vs]). split; [reflexivity|]. split; [reflexivity|].
      intros t <-. unfold ncols. rewrite M. eexists. split; [reflexivity|]. cbn [to_frame]. now rewrite map_map. Qed.

  Lemma wf_rows (ix : list L) (cs : list L) (g : list A -> list A) rows : length rows = length ix -> (forall r, length (g r) = length cs) -> wf (mkdf ix cs (map g rows)).
  Proof. intros E G. split; cbn [dindex dcols dcells]; [now rewrite map_length|]. apply Forall_forall. intros r I. apply in_map_iff in I as (r0 & <- & _). apply G. Qed.

  Variables nparts min_row min_col : nat.
  Hypothesis (nparts_pos : 0 < nparts) (min_row_pos : 0 < min_row) (min_col_pos : 0 < min_col).
  Notation qcdot := (qc_dot leqb nan inner num union reduced nparts min_row min_col).

  Definition with_columns (b : bool) (t : dframe) : dframe := if b then mkdf (dindex t) [reduced] (dcells t) else t.
  Definition with_index (b : bool) (t : dframe) : dframe := if b then mkdf [reduced] (dcols t) (dcells t) else t.

  Lemma dot_rows o (f : pf) d rl cl : shows f d rl cl -> ncols d <> 1 ->
    match pdot d o with
    | Ok a => exists f', qcdot false o f = Ok f' /\ shown leqb leqb f' = Ok (with_columns (num_cols o =? 1) (to_frame num a))
    | Err _ => exists e, qcdot false o f = Err e
    end.
  Proof. intros (Hh & Nr & Nc & I & C) N1. unfold qc_dot.
    rewrite (row_labels_holds Hh Nc), (col_labels_holds Hh (or_introl Nr)).
    replace (length (dcols d) =? 1) with false by (symmetry; now apply Nat.eqb_neq).
    pose proof (proj1 Hh) as G. pose proof (proj1 G) as W.
    destruct (p_dot_rows o (dcols d)) as [B|(cs & g & Lc & Lg & B)].
    - rewrite (B d eq_refl). eapply rows_fail with (e := ValueError); eauto. intros a b. unfold dot_block. now rewrite B.
    - destruct (B d eq_refl) as (a & -> & Ea). rewrite Ea.
      set (F := fun t : dframe => with_columns (num_cols o =? 1) (mkdf (dindex t) cs (map g (dcells t)))).
      assert (EF : forall x y, dot_block leqb nan inner num union reduced false (num_cols o =? 1) false o (iloc_rows d x y) = Ok (F (iloc_rows d x y))).
      { intros x y. unfold dot_block. destruct (B (iloc_rows d x y) eq_refl) as (a' & -> & Ea'). cbn [rbind]. rewrite Ea'. unfold F, with_columns, ncols. cbn [dcols dindex dcells iloc_rows]. rewrite Lc.
        now destruct (num_cols o =? 1). }
      rewrite (@rows_congr L L A leqb leqb leqb_ok _ (fun t => Ok (F t)) nparts min_row min_col _ _ f d rl cl G Nc EF).
      assert (RW : row_wise F).
      { intros t Wt. unfold F, with_columns. destruct (Nat.eqb_spec (num_cols o) 1) as [E1|E1].
        - split; [apply wf_rows; [apply Wt|]; intros; rewrite Lg; now cbn|]. split; [reflexivity|]. intros x y. unfold iloc_rows. cbn. now rewrite slice_map.
        - split; [apply wf_rows; [apply Wt|]; intros; rewrite Lg; now symmetry|]. split; [reflexivity|]. intros x y. unfold iloc_rows. cbn. now rewrite slice_map. }
      assert (Hix : dindex (F d) = dindex d) by (unfold F, with_columns; now destruct (_ =? 1)).
      destruct (@apply_full_axis_rows L L A L L A leqb leqb leqb_ok F RW nparts min_row min_col (Some (dindex d)) (if num_cols o =? 1 then Some [reduced] else None) true None f d rl cl G Nr Nc)
        as (f' & rl' & cl' & E & G' & Nr' & Nc' & I' & C'); auto; try discriminate.
      { intros i [= <-]. unfold nrows. now rewrite Hix. }
      { intros c. unfold F, with_columns. destruct (_ =? 1); [intros [= <-]; reflexivity|discriminate]. }
      exists f'. split; [exact E|]. fold (F d). apply (@shown_holds L L A leqb leqb leqb_ok leqb_ok f' (F d) rl' cl'); auto.
      split; [exact G'|]. rewrite I', C', Hix. split; [auto|]. unfold F, with_columns. destruct (_ =? 1); auto. Qed.

  (** one column: the whole frame is one block *)
  Lemma dot_column sq o (f : pf) d rl cl R : shows f d rl cl -> ncols d = 1 -> Forall (fun c => 0 < c) cl ->
    let one := num_cols o =? 1 in
    let wi := ((nrows d =? 1) || sq) && one in
    dot_block leqb nan inner num union reduced sq (sq && one) wi o d = Ok R -> wf R ->
    (wi = true -> dindex R = [reduced]) -> (sq && one = true -> dcols R = [reduced]) ->
    exists f', qcdot sq o f = Ok f' /\ shown leqb leqb f' = Ok R.
  Proof. intros (Hh & Nr & Nc & I & C) N1 P one wi E WR Ei Ec. unfold qc_dot.
    rewrite (row_labels_holds Hh Nc), (col_labels_holds Hh (or_introl Nr)).
    replace (length (dcols d) =? 1) with true by (symmetry; now apply Nat.eqb_eq).
    assert (cl = [ncols d]) as ->.
    { destruct Hh as ((_ & _ & Hs & _) & _). rewrite N1 in *. destruct cl as [|c [|c' cl]]; [easy|f_equal; revert Hs; lsum; lia|].
      inversion P as [|? ? P1 P2]; subst. inversion P2; subst. revert Hs. lsum. lia. }
    fold (nrows d). fold one. fold wi.
    destruct (@one_column L L A leqb leqb leqb_ok _ nparts min_row min_col (if wi then Some [reduced] else None) (if sq && one then Some [reduced] else None) f d rl R min_row_pos Nr (proj1 Hh) E WR)
      as (f' & rl' & cl' & E' & Hh' & Nr' & Nc').
    - destruct wi; auto. right. now rewrite Ei.
    - destruct (sq && one); auto. right. now rewrite Ec.
    - exists f'. split; [exact E'|]. now apply (@shown_holds L L A leqb leqb leqb_ok leqb_ok f' R rl' cl'). Qed.
  Lemma dot_column_fails sq o (f : pf) d rl cl e : shows f d rl cl -> ncols d = 1 -> Forall (fun c => 0 < c) cl ->
    (forall wc wi, dot_block leqb nan inner num union reduced sq wc wi o d = Err e) -> qcdot sq o f = Err e.
  Proof. intros (Hh & Nr & Nc & I & C) N1 P E. unfold qc_dot.
    rewrite (row_labels_holds Hh Nc), (col_labels_holds Hh (or_introl Nr)).
    replace (length (dcols d) =? 1) with true by (symmetry; now apply Nat.eqb_eq).
    assert (cl = [ncols d]) as ->.
    { destruct Hh as ((_ & _ & Hs & _) & _). rewrite N1 in *. destruct cl as [|c [|c' cl]]; [easy|f_equal; revert Hs; lsum; lia|].
      inversion P as [|? ? P1 P2]; subst. inversion P2; subst. revert Hs. lsum. lia. }
    apply (@one_column_fails L L A leqb leqb leqb_ok _ e nparts min_row min_col _ _ f d rl Nr (proj1 Hh)). apply E. Qed.

  (** a frame with one column *)
  Lemma dot_one o (f : pf) d rl cl : shows f d rl cl -> ncols d = 1 -> Forall (fun c => 0 < c) cl ->
    match pdot d o with
    | Ok a => exists f', qcdot false o f = Ok f'
                /\ shown leqb leqb f' = Ok (with_index ((nrows d =? 1) && (num_cols o =? 1)) (to_frame num a))
    | Err _ => exists e, qcdot false o f = Err e
    end.
  Proof. intros S N1 P. destruct (p_dot_rows o (dcols d)) as [B|(cs & g & Lc & Lg & B)].
    - rewrite (B d eq_refl). exists ValueError. eapply dot_column_fails; eauto. intros wc wi. unfold dot_block. now rewrite (B d eq_refl).
    - destruct (B d eq_refl) as (a & Ep & Ea). rewrite Ep. eapply dot_column; eauto.
      + unfold dot_block. rewrite Ep. cbn [rbind andb]. rewrite Ea, orb_false_r. destruct ((nrows d =? 1) && _) eqn:E; [|reflexivity].
        unfold nrows in E |- *. cbn [dindex]. apply andb_true_iff in E as [-> _]. reflexivity.
      + rewrite Ea. destruct S as (((W & _) & _) & _). unfold with_index. destruct ((nrows d =? 1) && _) eqn:E; apply wf_rows; auto; try apply W; try (intros; now rewrite Lg).
        apply andb_true_iff in E as [E _]. apply Nat.eqb_eq in E. unfold nrows in E. cbn [length]. rewrite <- E. apply W.
      + rewrite orb_false_r. now intros ->.
      + discriminate. Qed.

  Definition api_finish (o : other) (t : dframe) :=
    match o with OFrame _ | OMatrix _ _ => AFrame t | _ => series_of leqb nan reduced t end.
  Lemma api_dot_prep o (f : pf) : api_dot leqb nan inner num union reduced nparts min_row min_col o f
    = (do o' <- prep (col_labels f) o; do f' <- qcdot false o' f; do t <- shown leqb leqb f'; Ok (api_finish o t)).
  Proof. destruct o; cbn [api_dot prep api_finish]; try (destruct (too_long _ _ _); reflexivity); destruct (_ =? _); reflexivity. Qed.

  (** [df.dot(o)] in terms of what pandas returns *)
  Lemma api_dot_ok o (f : pf) d rl cl : shows f d rl cl -> (ncols d = 1 -> Forall (fun c => 0 < c) cl) ->
    match pdot d o with
    | Ok a => api_dot leqb nan inner num union reduced nparts min_row min_col o f
              = Ok (api_finish o (if ncols d =? 1 then with_index ((nrows d =? 1) && (num_cols o =? 1)) (to_frame num a)
                                  else with_columns (num_cols o =? 1) (to_frame num a)))
    | Err _ => exists e, api_dot leqb nan inner num union reduced nparts min_row min_col o f = Err e
    end.
  Proof. intros S P. rewrite api_dot_prep. pose proof S as (Hh & Nr & Nc & _). rewrite (col_labels_holds Hh (or_introl Nr)).
    destruct (prep (dcols d) o) as [o'|e] eqn:E.
    - apply prep_ok in E as (En & Ed & _). cbn [rbind]. rewrite <- (Ed d eq_refl), <- En. destruct (Nat.eqb_spec (ncols d) 1) as [N1|N1].
      + assert (X := @dot_one o' f d rl cl S N1 (P N1)). destruct (pdot d o').
        * destruct X as (f' & -> & X). cbn [rbind]. now rewrite X.
        * destruct X as (e1 & ->). cbn. eauto.
      + assert (X := @dot_rows o' f d rl cl S N1). destruct (pdot d o').
        * destruct X as (f' & -> & X). cbn [rbind]. now rewrite X.
        * destruct X as (e1 & ->). cbn. eauto.
    - destruct (prep_err _ _ E) as [E1 _]. rewrite (E1 d eq_refl). cbn. eauto. Qed.
End Dot.
