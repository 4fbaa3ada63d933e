(** C71: [df[key] = value]. *)
From Verif Require Import Base Table ChunkModel ChunkSpec ChunkProofs GridModel GridSpec FrameSpec GridProofs GridProofs2 GridProofs3 GridProofs5 SelSpec SelModel
  SelProofs SelProofs2 SelProofs3 SelProofs4 SelProofs5 SelProofs6 SelProofs7 JoinSpec JoinModel JoinProofs JoinProofs2 JoinProofs3 JoinProofs4 JoinProofs5 JoinProps
  SetSpec SetModel SetProofs SetProofs2 SetProofs3 SetProofs4 SetProofs5 SetProofs6 SetProofs7 InsSpec InsModel InsProofs InsProofs2 InsProps ItmSpec ItmModel ItmProofs.

Section C71.
  Context {L H A : Type}.
  Variable leqb : L -> L -> bool.
  Variable heqb : H -> H -> bool.
  Hypothesis leqb_ok : forall x y, leqb x y = true <-> x = y.
  Hypothesis heqb_ok : forall x y, heqb x y = true <-> x = y.
  Variables min_row min_col nparts : nat.
  Hypothesis min_row_pos : 0 < min_row.
  Hypothesis min_col_pos : 0 < min_col.
  Hypothesis nparts_pos : 0 < nparts.
  Variables known_l known_w : nat -> nat -> bool.
  Variable argsort : list Z -> list nat.
  Hypothesis argsort_ok : forall l, sorts l (argsort l).
  Variable fill : A.
  Variable outer : list (list L) -> list L * list (list (option nat)).
  Variable first_known : bool.
  Notation df_assign := (df_assign leqb heqb min_row min_col nparts known_l known_w argsort fill outer first_known).
  Notation df_insert := (df_insert leqb heqb min_row min_col nparts known_l known_w argsort fill first_known).
  Notation seen := (pf_to_pandas leqb heqb).

  Lemma has_rows (d : df L H A) : 0 < nrows d -> (length (dindex d) =? 0) = false.
  Proof using. clear. unfold nrows. intros. apply Nat.eqb_neq. lia. Qed.
  Lemma is_there (d : df L H A) p c : nth_error (dcols d) p = Some c -> existsb (heqb c) (dcols d) = true.
  Proof using heqb_ok. clear - heqb_ok. intros Hc. apply existsb_exists. exists c. split; [eapply nth_error_In; eassumption|now apply heqb_ok]. Qed.

  (** C71, values without labels (partial): the table with the values in the column of that name, one for each row (a
      scalar in every row); every other object stays as it is.
      Missing: an array that is too long (refuted); a name that several columns have (refuted). *)
  Theorem C71_values_partial :
    forall (s : store L H A) r d rl cl p c value vals,
      shows (s r) d rl cl -> 0 < nrows d -> nth_error (dcols d) p = Some c -> (forall q, nth_error (dcols d) q = Some c -> q = p) ->
      match value with
      | GList l => vals = l /\ length l = nrows d
      | GArray (Scalar a) => vals = repeat a (nrows d)
      | GArray (Vector n v) => n = nrows d /\ vals = map v (seq 0 n)
      | GArray (Matrix n m v) => n = nrows d /\ m = 1 /\ vals = map (fun i => v i 0) (seq 0 n)
      | _ => False
      end ->
      exists s', df_assign (One c) value r s = Ok s'
        /\ seen (s' r) = Ok (replaced p vals d)
        /\ forall i, i <> r -> s' i = s i.
  Proof.
    intros s r d rl cl p c value vals Sh Hn Hp Hu Hv.
    assert (Pi : pindex (s r) = Some (dindex d)) by apply Sh. assert (Pc : pcols (s r) = Some (dcols d)) by apply Sh. assert (W : wf d) by apply Sh.
    assert (Lt : p < ncols d) by (unfold ncols; apply nth_error_Some; congruence).
    unfold ItmModel.df_assign. rewrite Pi, Pc. cbn [labels rbind]. rewrite has_rows, (is_there d p Hp) by assumption. cbn [negb].
    pose proof (fun v => @put_replaced L H A heqb heqb_ok min_row min_col nparts min_row_pos min_col_pos nparts_pos known_l known_w d p v W Lt) as PR.
    assert (VR : forall v vals', vals' = map v (seq 0 (nrows d)) ->
      exists s', (do new <- setitem_column leqb heqb min_row min_col nparts known_l known_w argsort fill (first_labels leqb) first_known c (Vector (nrows d) v) (s r); Ok (assign s r new)) = Ok s'
        /\ seen (s' r) = Ok (replaced p vals' d) /\ forall i, i <> r -> s' i = s i).
    { intros v vals' ->.
      destruct (@setitem_column_list_ok L H A leqb heqb leqb_ok heqb_ok min_row min_col nparts min_row_pos min_col_pos nparts_pos known_l known_w argsort argsort_ok fill
                  (first_labels leqb) first_known (s r) d rl cl p c v Sh Hn Hp Hu) as (f' & rl' & cl' & E & Sh').
      rewrite E. cbn [rbind]. eexists. split; [reflexivity|]. rewrite assign_same. rewrite PR in Sh'. split; [|intros i Hi; now apply assign_other].
      now apply (@shows_seen L H A leqb heqb leqb_ok heqb_ok) in Sh'. }
    destruct value as [[a|n v|n m v]|l|k|k]; try contradiction.
    - unfold df_setitem. rewrite Pi. cbn [labels rbind].
      destruct (@setitem_column_scalar_ok L H A leqb heqb heqb_ok min_col min_col_pos min_row nparts known_l known_w argsort fill (first_labels leqb) first_known
                  (s r) d rl cl p c a Sh Hp Hu) as (f' & rl' & cl' & E & Sh').
      rewrite E. cbn [rbind]. eexists. split; [reflexivity|]. rewrite assign_same. rewrite (PR (fun _ => a)) in Sh'. split; [|intros i Hi; now apply assign_other].
      apply (@shows_seen L H A leqb heqb leqb_ok heqb_ok) in Sh'. rewrite Sh', Hv. do 2 f_equal.
      clear. generalize 0. induction (nrows d) as [|n IH]; intros x; [reflexivity|]. cbn. now rewrite IH.
    - destruct Hv as [-> ->]. unfold df_setitem. rewrite Pi. cbn [labels rbind]. fold (nrows d). rewrite Nat.min_id. now apply VR.
    - destruct Hv as (-> & -> & ->). unfold df_setitem. rewrite Pi. cbn [labels rbind]. fold (nrows d). rewrite Nat.mul_1_r, Nat.min_id. apply VR.
      apply map_ext_in. intros i Hi. apply in_seq in Hi. rewrite Nat.mod_small, Nat.div_small by lia. reflexivity.
    - destruct Hv as [-> Hl]. rewrite Hl. apply VR. clear - Hl.
      apply nth_error_ext. intros i. rewrite nth_error_map. destruct (Nat.lt_ge_cases i (nrows d)) as [Hi|Hi].
      + rewrite (nth_error_nth' l fill) by lia. rewrite (nth_error_nth' (seq 0 (nrows d)) 0) by (rewrite seq_length; lia). cbn. now rewrite seq_nth by lia.
      + rewrite (proj2 (nth_error_None l i)) by lia. rewrite (proj2 (nth_error_None (seq 0 (nrows d)) i)) by (rewrite seq_length; lia). reflexivity.
  Qed.

  (** C71, values without labels: a list of another length, or an array that is too short, is a ValueError. *)
  Theorem C71_wrong_length :
    forall (s : store L H A) r d rl cl p c value,
      shows (s r) d rl cl -> 0 < nrows d -> nth_error (dcols d) p = Some c ->
      match value with
      | GList l => length l <> nrows d
      | GArray (Vector n v) => n < nrows d
      | GArray (Matrix n m v) => n * m < nrows d
      | _ => False
      end ->
      df_assign (One c) value r s = Err ValueError.
  Proof.
    intros s r d rl cl p c value Sh Hn Hp Hv.
    assert (Pi : pindex (s r) = Some (dindex d)) by apply Sh. assert (Pc : pcols (s r) = Some (dcols d)) by apply Sh.
    unfold ItmModel.df_assign. rewrite Pi, Pc. cbn [labels rbind]. rewrite has_rows, (is_there d p Hp) by assumption. cbn [negb].
    unfold df_setitem. rewrite Pi. cbn [labels rbind]. fold (nrows d).
    destruct value as [[a|n v|n m v]|l|k|k]; try contradiction; unfold setitem_column; rewrite Pi, Pc; cbn [labels rbind]; fold (nrows d);
      match goal with |- context [negb (?x =? ?y)] => replace (x =? y) with false; [reflexivity|symmetry; apply Nat.eqb_neq; lia] end.
  Qed.

  (** C71, a Series (partial): the table with the values of the Series at their labels in the column of that name; every
      other object stays as it is, and the Series keeps its values.
      Missing: that the Series keeps its name (refuted); a name that several columns have (refuted); repeated labels that
      differ from the frame's. *)
  Theorem C71_series_partial :
    forall (s : store L H A) r k d e rl cl rl1 cl1 p c,
      k <> r -> shows (s r) d rl cl -> shows (s k) e rl1 cl1 -> 0 < nrows d -> ncols e = 1 ->
      nth_error (dcols d) p = Some c -> (forall q, nth_error (dcols d) q = Some c -> q = p) ->
      dindex e = dindex d \/ NoDup (dindex d) /\ NoDup (dindex e) ->
      exists s' vals, df_assign (One c) (GSeries k) r s = Ok s'
        /\ aligned fill d e vals
        /\ seen (s' r) = Ok (replaced p vals d)
        /\ seen (s' k) = Ok (mkdf (dindex e) [c] (dcells e))
        /\ forall i, i <> r -> i <> k -> s' i = s i.
  Proof.
    intros s r k d e rl cl rl1 cl1 p c Nk Sh She Hn He Hp Hu Hi.
    assert (Pi : pindex (s r) = Some (dindex d)) by apply Sh. assert (Pc : pcols (s r) = Some (dcols d)) by apply Sh.
    unfold ItmModel.df_assign. rewrite Pi, Pc. cbn [labels rbind]. rewrite has_rows, (is_there d p Hp) by assumption. cbn [negb].
    destruct (@set_columns_ok L H A heqb heqb_ok (s k) e rl1 cl1 [c] She) as (v & rl2 & cl2 & E1 & S1); [now rewrite He|].
    rewrite E1. cbn [rbind]. rewrite assign_same, assign_other by auto. rewrite (@indexer_unique _ heqb heqb_ok (dcols d) c p Hp Hu).
    set (e' := mkdf (dindex e) [c] (dcells e)) in *.
    destruct (@insert_item_ok L H A leqb heqb leqb_ok heqb_ok min_row min_col nparts min_row_pos min_col_pos nparts_pos known_l known_w argsort argsort_ok fill first_known
                (s r) v d e' rl cl rl2 cl2 p c Sh S1 eq_refl Hn Hp Hi) as (f' & rl' & cl' & vals & E2 & Sh' & Al).
    rewrite E2. cbn [rbind]. eexists; exists vals. split; [reflexivity|]. split; [exact Al|]. rewrite assign_same.
    split; [now apply (@shows_seen L H A leqb heqb leqb_ok heqb_ok) in Sh'|]. split.
    - rewrite assign_other, assign_same by auto. now apply (@shows_seen L H A leqb heqb leqb_ok heqb_ok) in S1.
    - intros i H1 H2. now rewrite !assign_other by auto. Qed.

  (** C71, a frame of one column for a column that exists (partial): if the labels are the same, the table with its
      values.  Missing: other labels, a frame of several columns (both refuted). *)
  Theorem C71_frame_partial :
    forall (s : store L H A) r k d e rl cl rl1 cl1 p c vals,
      shows (s r) d rl cl -> shows (s k) e rl1 cl1 -> 0 < nrows d -> ncols e = 1 -> dindex e = dindex d -> dcells e = map (fun v => [v]) vals ->
      nth_error (dcols d) p = Some c -> (forall q, nth_error (dcols d) q = Some c -> q = p) ->
      exists s', df_assign (One c) (GFrame k) r s = Ok s'
        /\ seen (s' r) = Ok (replaced p vals d)
        /\ forall i, i <> r -> s' i = s i.
  Proof.
    intros s r k d e rl cl rl1 cl1 p c vals Sh She Hn He Hi Hv Hp Hu.
    assert (Lv : length vals = nrows d). { assert (We : wf e) by apply She. destruct We as [We _]. rewrite Hv, map_length in We. unfold nrows. congruence. }
    destruct (@C71_values_partial s r d rl cl p c (GList vals) vals Sh Hn Hp Hu (conj eq_refl Lv)) as (s' & E & R).
    exists s'. split; [|exact R]. rewrite <- E. unfold ItmModel.df_assign.
    assert (Pi : pindex (s r) = Some (dindex d)) by apply Sh. assert (Pc : pcols (s r) = Some (dcols d)) by apply Sh.
    rewrite Pi, Pc. cbn [labels rbind]. rewrite has_rows, (is_there d p Hp) by assumption. cbn [negb].
    rewrite (@shows_seen L H A leqb heqb leqb_ok heqb_ok _ _ _ _ She). cbn [rbind]. unfold ncols in He. destruct (dcols e) as [|c0 [|c1 cs]]; try discriminate.
    cbn [existsb]. replace (nrows e) with (length vals) by (unfold nrows in *; congruence).
    unfold setitem_column. rewrite Pi, Pc. cbn [labels rbind]. fold (nrows d). rewrite Lv, Nat.eqb_refl. cbn [negb].
    replace (map (fun i => [nth 0 (nth i (dcells e) []) fill]) (seq 0 (nrows d))) with (map (fun i => [nth i vals fill]) (seq 0 (nrows d))); [reflexivity|].
    apply map_ext_in. intros i Hi'. apply in_seq in Hi'. f_equal. rewrite Hv.
    rewrite (nth_indep (map (fun v => [v]) vals) [] [fill]) by (rewrite map_length; lia). change [fill] with ((fun v : A => [v]) fill). now rewrite map_nth.
  Qed.

  (** C71, a new column (partial): at the end, with the values (a scalar in every row, a Series or a one-column frame by
      label).  Missing: frames without columns (refuted) or rows. *)
  Theorem C71_new_column_partial :
    forall (s : store L H A) r d rl cl c value,
      shows (s r) d rl cl -> 0 < nrows d -> 0 < ncols d -> ~ In c (dcols d) ->
      (forall l, value = GList l -> length l = nrows d ->
        exists s', df_assign (One c) value r s = Ok s' /\ seen (s' r) = Ok (with_column (ncols d) c l d) /\ forall i, i <> r -> s' i = s i)
      /\ (forall a, value = GArray (Scalar a) ->
        exists s', df_assign (One c) value r s = Ok s' /\ seen (s' r) = Ok (with_column (ncols d) c (repeat a (nrows d)) d) /\ forall i, i <> r -> s' i = s i)
      /\ (forall k e rl1 cl1, value = GSeries k \/ value = GFrame k -> k <> r -> shows (s k) e rl1 cl1 -> ncols e = 1 ->
        dindex e = dindex d \/ NoDup (dindex d) /\ NoDup (dindex e) ->
        exists s' vals, df_assign (One c) value r s = Ok s' /\ aligned fill d e vals
          /\ seen (s' r) = Ok (with_column (ncols d) c vals d) /\ seen (s' k) = Ok (mkdf (dindex e) [c] (dcells e))
          /\ forall i, i <> r -> i <> k -> s' i = s i).
  Proof.
    intros s r d rl cl c value Sh Hn Hm Hc.
    assert (Pi : pindex (s r) = Some (dindex d)) by apply Sh. assert (Pc : pcols (s r) = Some (dcols d)) by apply Sh.
    assert (B : (0 <= Z.of_nat (ncols d) <= Z.of_nat (ncols d))%Z) by lia.
    assert (Hm' : (length (dcols d) =? 0) = false) by (apply Nat.eqb_neq; unfold ncols in Hm; lia).
    unfold ItmModel.df_assign. rewrite Pi, Pc. cbn [labels rbind]. rewrite has_rows, (@not_there L H A heqb heqb_ok d c Hc) by assumption. cbn [negb]. fold (ncols d).
    split; [|split].
    - intros l -> Hl.
      destruct (@C67_list L H A leqb heqb leqb_ok heqb_ok min_row min_col nparts min_row_pos min_col_pos nparts_pos known_l known_w argsort argsort_ok fill first_known
        s r d rl cl (Z.of_nat (ncols d)) c l false Sh Hn Hm Hl B (or_intror Hc)) as (s' & E & R). exists s'. rewrite Nat2Z.id in R. auto.
    - intros a ->.
      destruct (@C67_scalar_partial L H A leqb heqb leqb_ok heqb_ok min_row min_col nparts min_row_pos known_l known_w argsort fill first_known
        s r d rl cl (Z.of_nat (ncols d)) c a false Sh Hn Hm B Hc) as (s' & E & R). exists s'. rewrite Nat2Z.id in R. auto.
    - intros k e rl1 cl1 Hv Nk She He Hi.
      destruct (@C67_object_partial L H A leqb heqb leqb_ok heqb_ok min_row min_col nparts min_row_pos min_col_pos nparts_pos known_l known_w argsort argsort_ok fill first_known
        s r k d e rl cl rl1 cl1 (Z.of_nat (ncols d)) c false Nk Sh She Hn Hm He Hi B (or_intror Hc)) as (s' & vals & E & R). exists s', vals. rewrite Nat2Z.id in R.
      unfold ncols in *. destruct Hv as [-> | ->]; rewrite ?Hm'; auto.
  Qed.

  (** C71, several columns that exist from a frame with the same row labels (partial): the first key gets the first
      column of the frame and so on, whatever the frame calls it; the other columns stay.
      Missing: other row labels (refuted); that the frame keeps its column names (refuted). *)
  Theorem C71_columns_partial :
    forall (s : store L H A) r k d e rl cl rl1 cl1 cs,
      k <> r -> shows (s r) d rl cl -> shows (s k) e rl1 cl1 -> 0 < nrows d -> 0 < ncols d ->
      dindex e = dindex d -> NoDup (dcols d) -> NoDup cs -> Forall (fun c => In c (dcols d)) cs -> length cs = ncols e ->
      exists s' D, df_assign (Many cs) (GFrame k) r s = Ok s'
        /\ seen (s' r) = Ok D /\ columns_from cs d e D
        /\ seen (s' k) = Ok (mkdf (dindex e) cs (dcells e))
        /\ forall i, i <> r -> i <> k -> s' i = s i.
  Proof.
    intros s r k d e rl cl rl1 cl1 cs Nk Sh She Hn Hm Hi Nd Nc Sub Hl.
    assert (Pi : pindex (s r) = Some (dindex d)) by apply Sh. assert (Pc : pcols (s r) = Some (dcols d)) by apply Sh. assert (Pe : pcols (s k) = Some (dcols e)) by apply She.
    unfold ItmModel.df_assign. rewrite Pi, Pc, Pe. cbn [labels rbind]. rewrite has_rows by assumption.
    replace (forallb (fun c => existsb (heqb c) (dcols d)) cs) with true.
    2:{ symmetry. apply forallb_forall. intros c Hc. rewrite Forall_forall in Sub. apply existsb_exists. exists c. split; [now apply Sub|now apply heqb_ok]. }
    fold (ncols e). rewrite Hl, Nat.eqb_refl. cbn [negb].
    destruct (@set_columns_ok L H A heqb heqb_ok (s k) e rl1 cl1 cs She Hl) as (v & rl2 & cl2 & E1 & S1).
    rewrite E1. cbn [rbind]. rewrite assign_same, assign_other by auto.
    set (e' := mkdf (dindex e) cs (dcells e)) in *.
    destruct (@mix_ok L H A leqb heqb leqb_ok heqb_ok min_row min_col nparts min_row_pos min_col_pos nparts_pos known_l known_w argsort argsort_ok fill outer first_known
                cs v (s r) d e' rl cl rl2 cl2 Sh S1 eq_refl Hi Hn Hm Nd Nc) as (f' & rl' & cl' & D & E2 & Sh' & C).
    rewrite E2. cbn [rbind]. eexists; exists D. split; [reflexivity|]. rewrite assign_same.
    split; [now apply (@shows_seen L H A leqb heqb leqb_ok heqb_ok) in Sh'|]. split; [exact C|]. split.
    - rewrite assign_other, assign_same by auto. now apply (@shows_seen L H A leqb heqb leqb_ok heqb_ok) in S1.
    - intros i H1 H2. now rewrite !assign_other by auto. Qed.

  (** C71, several new columns from a frame (partial): at the end, by row label; no other object changes.
      Missing: repeated row labels that differ from the frame's. *)
  Theorem C71_new_columns_partial :
    forall (s : store L H A) r k d e rl cl rl1 cl1 cs,
      shows (s r) d rl cl -> shows (s k) e rl1 cl1 -> 0 < nrows d -> cs <> [] ->
      dindex e = dindex d \/ NoDup (dindex d) /\ NoDup (dindex e) -> Forall (fun c => ~ In c (dcols d)) cs -> length cs = ncols e ->
      exists s' rows, df_assign (Many cs) (GFrame k) r s = Ok s'
        /\ aligned_rows fill d e rows
        /\ seen (s' r) = Ok (with_columns cs rows d)
        /\ forall i, i <> r -> s' i = s i.
  Proof.
    intros s r k d e rl cl rl1 cl1 cs Sh She Hn Hcs Hi New Hl.
    assert (Pi : pindex (s r) = Some (dindex d)) by apply Sh. assert (Pc : pcols (s r) = Some (dcols d)) by apply Sh. assert (Pe : pcols (s k) = Some (dcols e)) by apply She.
    unfold ItmModel.df_assign. rewrite Pi, Pc, Pe. cbn [labels rbind]. rewrite has_rows by assumption.
    replace (forallb (fun c => existsb (heqb c) (dcols d)) cs) with false.
    2:{ symmetry. destruct cs as [|c cs]; [easy|]. inversion New; subst. cbn [forallb]. now rewrite (@not_there L H A heqb heqb_ok). }
    replace (forallb (fun c => negb (existsb (heqb c) (dcols d))) cs) with true.
    2:{ symmetry. apply forallb_forall. intros c Hc. rewrite Forall_forall in New. rewrite (@not_there L H A heqb heqb_ok); auto. }
    fold (ncols e). rewrite Hl, Nat.eqb_refl. cbn [negb].
    destruct (@set_columns_ok L H A heqb heqb_ok (s k) e rl1 cl1 cs She Hl) as (v & rl2 & cl2 & E1 & S1). rewrite E1. cbn [rbind].
    set (e' := mkdf (dindex e) cs (dcells e)) in *.
    destruct (@append_columns_ok L H A leqb heqb leqb_ok heqb_ok min_row nparts min_row_pos nparts_pos fill first_known (s r) v d e' rl cl rl2 cl2 Sh S1 Hi) as (f' & rl' & cl' & rows & E2 & Sh' & Al).
    rewrite E2. cbn [rbind]. eexists; exists rows. split; [reflexivity|]. split.
    - destruct Al as (A1 & A2 & A3). split; [exact A1|]. split; [exact A2|]. intros Ne i x Hx. destruct (A3 Ne i x Hx) as [B1 B2]. split; [exact B1|].
      intros N. rewrite (B2 N). unfold ncols, e'. cbn. unfold ncols in Hl. now rewrite Hl.
    - rewrite assign_same. split; [now apply (@shows_seen L H A leqb heqb leqb_ok heqb_ok) in Sh'|]. intros i H1. now rewrite !assign_other by auto. Qed.
End C71.
Print Assumptions C71_values_partial.
Print Assumptions C71_wrong_length.
Print Assumptions C71_series_partial.
Print Assumptions C71_frame_partial.
Print Assumptions C71_new_column_partial.
Print Assumptions C71_columns_partial.
Print Assumptions C71_new_columns_partial.

(** ** Where the frame is not the expected one, and examples *)
Definition itm_d : df nat nat nat := mkdf [0;1;2] [10;11;12] [[1;2;3];[4;5;6];[7;8;9]].
Definition itm_run := @df_assign nat nat nat Nat.eqb Nat.eqb 1 1 2 (fun _ _ => true) (fun _ _ => true) zargsort 99 outer true.
Definition itm_store e cl1 : store nat nat nat := ins_store [ins_frame itm_d [2;1] [2;1]; ins_frame e [nrows e] cl1].
Definition itm_series : df nat nat nat := mkdf [2;0;5] [7] [[21];[22];[23]].
Definition itm_frame : df nat nat nat := mkdf [0;1;2] [7;8] [[21;31];[22;32];[23;33]].
Definition itm_shifted : df nat nat nat := mkdf [1;2;3] [7;8] [[21;31];[22;32];[23;33]].
Definition itm_same_frame : df nat nat nat := mkdf [0;1] [10;10] [[1;2];[3;4]].
Definition itm_bare : @pframe nat nat nat := ins_frame (mkdf [0;1;2] [] [[];[];[]]) [3] [].

(** df[11] = s with a Series [s] called 7: the user's [s] is called 11 afterwards. *)
Theorem C71_series_renamed_refuted : exists s', itm_run (One 11) (GSeries 1) 0 (itm_store itm_series [1]) = Ok s'
  /\ ins_seen (itm_store itm_series [1] 1) = Ok itm_series
  /\ ins_seen (s' 1) = Ok (mkdf [2;0;5] [11] [[21];[22];[23]]).
Proof. eexists. split; [vm_compute; reflexivity|]. split; vm_compute; reflexivity. Qed.
Print Assumptions C71_series_renamed_refuted.

(** df[11] = frame, of two columns and with other labels: the first column by position, the second dropped. *)
Theorem C71_frame_refuted : exists s', itm_run (One 11) (GFrame 1) 0 (itm_store itm_shifted [2]) = Ok s'
  /\ ins_seen (s' 0) = Ok (replaced 1 [21;22;23] itm_d) /\ dindex itm_shifted <> dindex itm_d /\ ncols itm_shifted = 2
  /\ exists vals, (forall i x v w, nth_error (dindex itm_d) i = Some x -> row_is itm_shifted x [v;w] -> nth_error vals i = Some v) /\ vals <> [21;22;23].
Proof.
  eexists. split; [vm_compute; reflexivity|]. split; [vm_compute; reflexivity|]. split; [discriminate|]. split; [reflexivity|].
  exists [99;21;22]. split; [|discriminate]. intros i x v w Hx (p & P1 & P2).
  destruct i as [|[|[|i]]]; cbn in Hx; try (injection Hx as <-); try discriminate.
  - destruct p as [|[|[|p]]]; cbn in P1; try discriminate. destruct p; discriminate.
  - destruct p as [|[|[|p]]]; cbn in P1, P2; try discriminate; [now injection P2 as <- <-|destruct p; discriminate].
  - destruct p as [|[|[|p]]]; cbn in P1, P2; try discriminate; [now injection P2 as <- <-|destruct p; discriminate].
  - destruct i; discriminate.
Qed.
Print Assumptions C71_frame_refuted.

(** df[[10, 11]] = frame whose rows are called otherwise: rows are added to the frame (here the join is the plain
    union of the labels). *)
Theorem C71_columns_add_rows_refuted : exists s', itm_run (Many [10;11]) (GFrame 1) 0 (itm_store itm_shifted [2]) = Ok s'
  /\ ins_seen (s' 0) = Ok (mkdf [1;2;3;0] [10;11;12] [[21;31;6];[22;32;9];[23;33;99];[99;99;3]]).
Proof. eexists. split; [vm_compute; reflexivity|]. vm_compute. reflexivity. Qed.
Print Assumptions C71_columns_add_rows_refuted.

(** df[[12, 10]] = frame: the user's frame has these column names afterwards. *)
Theorem C71_columns_renamed_refuted : exists s', itm_run (Many [12;10]) (GFrame 1) 0 (itm_store itm_frame [1;1]) = Ok s'
  /\ ins_seen (itm_store itm_frame [1;1] 1) = Ok itm_frame
  /\ ins_seen (s' 1) = Ok (mkdf [0;1;2] [12;10] [[21;31];[22;32];[23;33]]).
Proof. eexists. split; [vm_compute; reflexivity|]. split; vm_compute; reflexivity. Qed.
Print Assumptions C71_columns_renamed_refuted.

(** df[11] = array of five values on three rows, or of three rows and two columns: cut, no error. *)
Theorem C71_long_array_refuted : exists s' s'',
  itm_run (One 11) (GArray (Vector 5 (fun i => 40 + i))) 0 (itm_store itm_series [1]) = Ok s'
  /\ ins_seen (s' 0) = Ok (replaced 1 [40;41;42] itm_d)
  /\ itm_run (One 11) (GArray (Matrix 3 2 (fun i j => 40 + 10 * j + i))) 0 (itm_store itm_series [1]) = Ok s''
  /\ ins_seen (s'' 0) = Ok (replaced 1 [40;41;42] itm_d).
Proof. eexists. eexists. split; [vm_compute; reflexivity|]. split; [vm_compute; reflexivity|]. split; [vm_compute; reflexivity|]. vm_compute. reflexivity. Qed.
Print Assumptions C71_long_array_refuted.

(** df[10] = s where two columns are called 10: only the first gets the values; with a scalar both do. *)
Theorem C71_same_name_refuted : exists s' s'',
  itm_run (One 10) (GSeries 1) 0 (ins_store [ins_frame itm_same_frame [2] [2]; ins_frame itm_series [3] [1]]) = Ok s'
  /\ ins_seen (s' 0) = Ok (mkdf [0;1] [10;10] [[22;2];[99;4]])
  /\ itm_run (One 10) (GArray (Scalar 5)) 0 (ins_store [ins_frame itm_same_frame [2] [2]]) = Ok s''
  /\ ins_seen (s'' 0) = Ok (mkdf [0;1] [10;10] [[5;5];[5;5]]).
Proof. eexists. eexists. split; [vm_compute; reflexivity|]. split; [vm_compute; reflexivity|]. split; [vm_compute; reflexivity|]. vm_compute. reflexivity. Qed.
Print Assumptions C71_same_name_refuted.

(** df[7] = s where the frame has rows 0, 1, 2 and no columns: the frame takes the labels of the Series. *)
Theorem C71_no_columns_refuted : exists s', itm_run (One 7) (GSeries 1) 0 (ins_store [itm_bare; ins_frame itm_series [3] [1]]) = Ok s'
  /\ pindex itm_bare = Some [0;1;2] /\ ins_seen (s' 0) = Ok itm_series.
Proof. eexists. split; [vm_compute; reflexivity|]. split; vm_compute; reflexivity. Qed.
Print Assumptions C71_no_columns_refuted.

Lemma itm_shows_d : shows (ins_frame itm_d [2;1] [2;1]) itm_d [2;1] [2;1].
Proof. split; [|repeat split; discriminate]. apply holds_intro; cbn; auto. split; [reflexivity|]. repeat (apply Forall_cons; [reflexivity|]). apply Forall_nil. Qed.
Lemma itm_shows_e : shows (ins_frame itm_series [3] [1]) itm_series [3] [1] /\ shows (ins_frame itm_frame [3] [1;1]) itm_frame [3] [1;1].
Proof. split; (split; [|repeat split; discriminate]); apply holds_intro; cbn; auto; split; try reflexivity; repeat (apply Forall_cons; [reflexivity|]); apply Forall_nil. Qed.
Example itm_ex_series : exists s', itm_run (One 11) (GSeries 1) 0 (itm_store itm_series [1]) = Ok s'
  /\ ins_seen (s' 0) = Ok (mkdf [0;1;2] [10;11;12] [[1;22;3];[4;99;6];[7;21;9]]).
Proof. eexists. split; [vm_compute; reflexivity|]. vm_compute. reflexivity. Qed.
Example itm_ex_columns : exists s', itm_run (Many [12;10]) (GFrame 1) 0 (itm_store itm_frame [1;1]) = Ok s'
  /\ ins_seen (s' 0) = Ok (mkdf [0;1;2] [10;11;12] [[31;2;21];[32;5;22];[33;8;23]]).
Proof. eexists. split; [vm_compute; reflexivity|]. vm_compute. reflexivity. Qed.
Example itm_ex_new_columns : exists s', itm_run (Many [20;21]) (GFrame 1) 0 (itm_store itm_shifted [2]) = Ok s'
  /\ ins_seen (s' 0) = Ok (mkdf [0;1;2] [10;11;12;20;21] [[1;2;3;99;99];[4;5;6;21;31];[7;8;9;22;32]]).
Proof. eexists. split; [vm_compute; reflexivity|]. vm_compute. reflexivity. Qed.
Example itm_ex_hyps : NoDup (dcols itm_d) /\ NoDup [12;10] /\ Forall (fun c => In c (dcols itm_d)) [12;10] /\ NoDup (dindex itm_d) /\ NoDup (dindex itm_series) /\ dindex itm_frame = dindex itm_d.
Proof. repeat split; try (repeat constructor; cbn; intuition discriminate); repeat (apply Forall_cons; [cbn; auto|]); apply Forall_nil. Qed.
