From Verif Require Import Base Table ChunkModel ChunkSpec ChunkProofs GridModel GridSpec FrameSpec
  GridProofs GridProofs3 GridProofs5 JoinModel JoinProofs3 RemModel RemProofs2 SelProofs5 DotSpec DotModel DotProofs DotProofs2.

Section Series.
  Context {L A : Type}.
  Variable leqb : L -> L -> bool.
  Hypothesis leqb_ok : forall x y, leqb x y = true <-> x = y.
  Variables (nan : A) (inner : list A -> list A -> A).
  Variables (num : nat -> L) (union : list L -> list L -> list L).
  Hypothesis union_again : forall a b, union a (union a b) = union a b.
  Variable reduced : L.
  Notation dframe := (df L L A).
  Notation pf := (@pframe L L A).
  Notation other := (other L A).
  Notation pdot := (p_dot leqb nan inner num union).
  Notation psdot := (p_sdot leqb nan inner union).
  Notation ser := (series_of leqb nan reduced).
  Notation nm := (name_of leqb reduced).

  Lemma hd_singles (vs : list A) : map (hd nan) (map (fun v => [v]) vs) = vs.
  Proof. rewrite map_map. cbn. apply map_id. Qed.

  Lemma series_of_column (ix : list L) c (vs : list A) : length vs = length ix ->
    exists name ix', ser (mkdf ix [c] (map (fun v => [v]) vs)) = ASeries name ix' vs
      /\ (c = reduced -> name = None /\ ix' = ix) /\ (length ix <> 1 -> name = nm c /\ ix' = ix).
  Proof. intros E. unfold series_of, ncols. cbn [dcols length Nat.eqb negb orb dindex].
    assert (Nr : nm reduced = None). { unfold name_of. replace (leqb reduced reduced) with true; auto. symmetry. now apply leqb_ok. }
    destruct (list_eqb leqb ix [reduced]) eqn:B.
    - assert (ix = [reduced]) as ->.
      { destruct ix as [|x [|y ix]]; try discriminate; [|cbn in B; now rewrite andb_false_r in B]. cbn in B. rewrite andb_true_r in B. apply leqb_ok in B. now subst. }
      destruct vs as [|v [|v' vs]]; try discriminate. exists None, [c]. split; [|split].
      + unfold df_T, squeezed, ncols. cbn. now rewrite Nr.
      + now intros ->.
      + cbn. lia.
    - exists (nm c), ix. split; [|split; [intros ->|]; auto]. unfold squeezed. cbn [dcells dindex dcols hd]. now rewrite hd_singles. Qed.

  Lemma psdot_frame name ix vals o a : psdot name ix vals o = Ok a ->
    exists ix' c vs, to_frame num a = mkdf ix' [c] (map (fun v => [v]) vs) /\ length vs = num_cols o /\ length ix' = num_cols o
      /\ match o with
         | OFrame t => a = ASeries name ix' vs /\ c = match name with Some n => n | None => num 0 end
         | OMatrix _ _ => a = AArray vs
         | _ => exists v, vs = [v] /\ a = AScalar v
         end.
  Proof. destruct o as [t|jx us|w rows|us]; cbn [p_sdot num_cols].
    - destruct (matching _ _ _ _); [|discriminate]. intros [= <-]. eexists _, _, _. split; [reflexivity|].
      rewrite map_length, lines_length. repeat split; reflexivity.
    - destruct (matching _ _ _ _); [|discriminate]. intros [= <-]. eexists _, _, [_]. split; [reflexivity|]. repeat split. eauto.
    - destruct (_ =? _); [|discriminate]. intros [= <-]. eexists _, _, _. split; [reflexivity|].
      rewrite !map_length, seq_length, ?map_length, !lines_length. repeat split; reflexivity.
    - destruct (_ =? _); [|discriminate]. intros [= <-]. eexists _, _, [_]. split; [reflexivity|]. repeat split. eauto. Qed.

  (** only the name of the result depends on the name of the Series *)
  Lemma psdot_name n1 n2 ix vals o :
    match psdot n1 ix vals o, psdot n2 ix vals o with
    | Ok a, Ok b => match o with OFrame _ => exists jx vs, a = ASeries n1 jx vs /\ b = ASeries n2 jx vs | _ => a = b end
    | Err e, Err e' => e = e'
    | _, _ => False
    end.
  Proof. destruct o; cbn [p_sdot]; [destruct (matching _ _ _ _); eauto|destruct (matching _ _ _ _)|destruct (_ =? _)|destruct (_ =? _)]; auto. Qed.

  Variables nparts min_row min_col : nat.
  Hypothesis (nparts_pos : 0 < nparts) (min_row_pos : 0 < min_row) (min_col_pos : 0 < min_col).
  Notation qcdot := (qc_dot leqb nan inner num union reduced nparts min_row min_col).

  Lemma sdot_qc o (f : pf) d rl cl : shows f d rl cl -> ncols d = 1 -> Forall (fun c => 0 < c) cl ->
    match psdot (Some (hd reduced (dcols d))) (dindex d) (squeezed nan d) o with
    | Ok a => exists f', qcdot true o f = Ok f'
                /\ shown leqb leqb f' = Ok (with_index reduced (num_cols o =? 1) (with_columns reduced (num_cols o =? 1) (to_frame num a)))
    | Err _ => exists e, qcdot true o f = Err e
    end.
  Proof. intros S N1 P. destruct (psdot _ _ _ o) as [a|e] eqn:Ep.
    - destruct (psdot_frame _ _ _ _ Ep) as (ix' & c & vs & Et & L1 & L2 & _).
      eapply dot_column; eauto; rewrite ?orb_true_r; cbn [andb].
      + unfold dot_block. rewrite Ep. cbn [rbind]. rewrite Et. unfold with_index, with_columns. destruct (Nat.eqb_spec (num_cols o) 1) as [E|E]; [|reflexivity].
        cbn [ncols dcols length Nat.eqb rbind nrows dindex]. unfold ncols, nrows. cbn [ncols dcols length Nat.eqb rbind nrows dindex]. now rewrite L2, E.
      + rewrite Et. unfold with_index, with_columns. destruct (Nat.eqb_spec (num_cols o) 1) as [E|E]; split; cbn [dindex dcols dcells]; rewrite ?map_length; try lia.
        all: try (rewrite L1, E; reflexivity).
        all: apply Forall_forall; intros r I; apply in_map_iff in I as (v & <- & _); reflexivity.
      + intros E. unfold with_index. now rewrite E.
      + intros E. unfold with_index, with_columns. now rewrite E.
    - exists e. eapply dot_column_fails; eauto. intros wc wi. unfold dot_block. now rewrite Ep. Qed.

  Definition sfinish (o : other) (t : dframe) :=
    match o with OFrame _ => Ok (ser t) | OMatrix _ _ => array_of nan t | _ => scalar_of t end.
  Notation sapi := (api_sdot leqb nan inner num union reduced nparts min_row min_col).
  Lemma api_sdot_prep o (f : pf) : sapi o f
    = (do o' <- prep leqb nan union (row_labels f) o; do f' <- qcdot true o' f; do t <- shown leqb leqb f'; sfinish o t).
  Proof. destruct o; cbn [api_sdot prep sfinish]; try (destruct (too_long _ _ _); reflexivity); destruct (_ =? _); reflexivity. Qed.

  Lemma api_sdot_ok o (f : pf) d rl cl : shows f d rl cl -> ncols d = 1 -> Forall (fun c => 0 < c) cl ->
    match psdot (Some (hd reduced (dcols d))) (dindex d) (squeezed nan d) o with
    | Ok a => sapi o f = sfinish o (with_index reduced (num_cols o =? 1) (with_columns reduced (num_cols o =? 1) (to_frame num a)))
    | Err _ => exists e, sapi o f = Err e
    end.
  Proof. intros S N1 P. rewrite api_sdot_prep. pose proof S as (Hh & Nr & Nc & _). rewrite (row_labels_holds Hh Nc).
    destruct (prep leqb nan union (dindex d) o) as [o'|e] eqn:E.
    - apply (@prep_ok L A leqb leqb_ok nan inner num union union_again) in E as (En & _ & Es). cbn [rbind]. rewrite <- Es, <- En.
      assert (X := @sdot_qc o' f d rl cl S N1 P). destruct (psdot _ _ _ o').
      + destruct X as (f' & -> & X). cbn [rbind]. now rewrite X.
      + destruct X as (e1 & ->). cbn. eauto.
    - destruct (@prep_err L A leqb nan inner num union _ _ _ E) as [_ E1]. rewrite E1. cbn. eauto. Qed.
End Series.
