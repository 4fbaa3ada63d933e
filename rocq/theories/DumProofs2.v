(** [get_dummies] on partitioned frames. *)
From Verif Require FilProofs2 MelProofs2 GroupProofs2.
From Verif Require Import Base Table ChunkModel ChunkSpec ChunkProofs GridModel GridSpec FrameSpec GridProofs GridProofs2 GridProofs3 GridProofs4 GridProofs5 SelSpec SelModel
  SelProofs SelProofs2 SelProofs3 SelProofs4 SelProofs5 SelProofs6 SelProofs7 LocSpec LocModel JoinSpec JoinModel JoinProofs JoinProofs2 JoinProofs3 JoinProofs4 JoinProofs5
  InsProofs2 RemSpec RemModel RemProofs RemProofs2 RemProofs3 ResetSpec ResetModel ResetProofs ExplProofs2 SetProofs4 KeyProofs ItmProofs DumSpec DumModel DumProofs.

Section Dum.
  Context {L H A P : Type}.
  Variables (leqb : L -> L -> bool) (heqb : H -> H -> bool).
  Hypothesis leqb_ok : forall x y, leqb x y = true <-> x = y.
  Hypothesis heqb_ok : forall x y, heqb x y = true <-> x = y.
  Variable own : H -> P.
  Variable label : P -> A -> H.
  Variable levels : list A -> list A.
  Variable same : A -> A -> bool.
  Variables (missing one zero fill : A).
  Variables (dummy_na drop_first : bool).
  Variable order : list H -> list H.
  Hypothesis order_ok : forall l, Permutation (order l) l.
  Variable left : list (list L) -> list L * list (list (option nat)).
  Variables min_row min_col nparts : nat.
  Hypothesis (mr : 0 < min_row) (mc : 0 < min_col) (np : 0 < nparts).
  Variables known_l known_w : nat -> nat -> bool.
  Variable argsort : list Z -> list nat.
  Hypothesis argsort_ok : forall l, sorts l (argsort l).
  Notation pf := (@pframe L H A).
  Notation dframe := (df L H A).
  Notation dummies := (dummies label levels same missing one zero dummy_na drop_first).
  Notation get_dummies := (get_dummies heqb own label levels same missing one zero dummy_na drop_first).
  Notation map_fn := (map_fn heqb own label levels same missing one zero dummy_na drop_first).

  (** a function on whole columns that keeps the row labels: the results side by side *)
  Lemma bands_ok func (f : pf) d rl cl (R : nat * nat -> dframe) : shows f d rl cl ->
    (forall ci, In ci (bounds 0 cl) -> func (iloc_cols d (fst ci) (snd ci)) = Ok (R ci) /\ wf (R ci) /\ dindex (R ci) = dindex d) ->
    exists f' rl' cl', apply_full_axis leqb heqb nparts min_row min_col false func (Some (dindex d)) None true None f = Ok f'
      /\ holds f' (glue (dindex d) (map R (bounds 0 cl))) rl' cl' /\ rl' <> [] /\ cl' <> [] /\ pindex f' = Some (dindex d).
  Proof. intros (((W & Hsr & Hsc & Hgr & Hli & Hlc & Crl & Ccl) & Ki & Kc) & Hr & Hc & Pi & Pc) F.
    unfold apply_full_axis, map_axis_partitions. cbn [andb negb]. rewrite Hgr. rewrite cut_table_width by assumption.
    assert (Et : transp (length cl) (cut_table rl cl d) = map (fun ci => map (fun ri => block d ri ci) (bounds 0 rl)) (bounds 0 cl)).
    { unfold cut_table. rewrite <- (bounds_length 0 cl) at 1. apply transp_fun. }
    rewrite Et. replace (length (cut_table rl cl d)) with (length rl) by (unfold cut_table; now rewrite map_length, bounds_length).
    rewrite (rmap_map_ok _ _ (fun ci => map (fun ri => iloc_rows (R ci) (fst ri) (snd ri)) (bounds 0 rl))).
    2:{ intros ci I. destruct (F ci I) as (E & WR & IR). apply (@deploy_any_cols L H A leqb heqb heqb_ok); auto. unfold nrows. now rewrite IR. }
    cbn [rbind].
    erewrite (@grid_width_map _ _ _ _ (length rl)). 2:{ now rewrite bounds_nil_iff. } 2:{ intros; now rewrite map_length, bounds_length. }
    replace (length rl) with (length (bounds 0 rl)) by apply bounds_length. rewrite transp_fun.
    set (ts := map R (bounds 0 cl)).
    assert (FR : Forall (fun t => wf t /\ dindex t = dindex d) ts).
    { apply Forall_forall. intros t I. apply in_map_iff in I as (ci & <- & I). now apply F. }
    destruct (@rows_of_glue L H A (dindex d) rl ts Hr FR) as [Eg Sg].
    match goal with |- context [construct (mkpf ?g _ _ ?r _)] => replace g with (cut_table rl (map (@ncols L H A) ts) (glue (dindex d) ts)) by (rewrite <- Eg; apply map_ext; intros ri; unfold ts; now rewrite map_map); set (rows := r) end.
    destruct (@construct_gridded L H A (mkpf (cut_table rl (map (@ncols L H A) ts) (glue (dindex d) ts)) (Some (dindex d)) None rows None) (glue (dindex d) ts) rl (map (@ncols L H A) ts)) as (f' & rl' & cl' & E & G' & N1 & N2 & I1 & I2); auto.
    - unfold gridded. cbn [pgrid pindex pcols prl pcl]. split; [now apply glue_wf|]. split; [exact Hsr|]. split; [exact Sg|]. split; [reflexivity|].
      split; [now intros i [= <-]|]. split; [discriminate|]. split; [|now left]. unfold rows. destruct Crl as [-> | ->]; [now left|]. destruct (_ && _); auto.
    - unfold ts. intros X. apply map_eq_nil, map_eq_nil in X. now apply bounds_nil_iff in X.
    - exists f', rl', cl'. split; [exact E|]. split; [|auto]. split; [exact G'|]. rewrite I1, I2. cbn [pindex pcols]. split; [now right|now left]. Qed.

  Definition pref (pre : prefix H P) (h : H) : P := match pre with PText p => p | _ => own h end.
  Notation plain pre := (pre = PNone \/ exists p, pre = PText p).
  Definition encoding (ix : list L) (pre : prefix H P) (c : H * list A) : dframe := dummies ix (pref pre (fst c)) (snd c).

  Lemma plain_prefixes pre cs : plain pre -> prefixes heqb own pre cs = Ok (map (pref pre) cs).
  Proof. now intros [-> | (p & ->)]. Qed.

  Lemma wf_encoding ix pre c : length (snd c) = length ix -> wf (encoding ix pre c) /\ dindex (encoding ix pre c) = ix.
  Proof. intros E. unfold encoding, DumSpec.dummies. split; [|reflexivity]. split; cbn [dindex dcols dcells].
    - now rewrite map_length.
    - apply Forall_forall. intros r I. apply in_map_iff in I as (x & <- & _). now rewrite !map_length. Qed.
  Lemma wf_encodings (d : dframe) pre cs : wf d -> incl cs (columns_of d) -> Forall (fun t => wf t /\ dindex t = dindex d) (map (encoding (dindex d) pre) cs).
  Proof. intros W I. apply Forall_map. apply Forall_forall. intros c Ic. apply wf_encoding. apply I in Ic. unfold columns_of in Ic. destruct c as [h v]. apply in_combine_r in Ic.
    destruct W as [W1 W2]. assert (F := transp_rows W2). rewrite Forall_forall in F. rewrite <- W1. now apply F. Qed.

  Lemma combine_encodings ix pre (cs : list (H * list A)) :
    map (fun pv => dummies ix (fst pv) (snd pv)) (combine (map (pref pre) (map fst cs)) (map snd cs)) = map (encoding ix pre) cs.
  Proof. induction cs as [|c cs IH]; [reflexivity|]. cbn [map combine]. now rewrite IH. Qed.

  (** pandas, when the labels are there and the prefix is not a list *)
  Lemma get_dummies_at (d : dframe) cs ps pre : wf d -> NoDup (dcols d) -> plain pre -> Forall2 (fun c p => nth_error (dcols d) p = Some c) cs ps ->
    get_dummies cs pre d = Ok (glue (dindex d) (keep_columns (map (fun c => negb (existsb (heqb c) cs)) (dcols d)) d :: map (encoding (dindex d) pre) (pick (columns_of d) ps))).
  Proof. intros W N Pl F. unfold DumSpec.get_dummies. destruct (@columns_at L H A heqb heqb_ok d cs ps W N F) as [E1 E2]. rewrite E1. cbn [rbind].
    rewrite plain_prefixes by exact Pl. cbn [rbind]. replace (map (pref pre) cs) with (map (pref pre) (map fst (pick (columns_of d) ps))) by now rewrite E2. now rewrite combine_encodings. Qed.

  Lemma kept_false {X Y} (m : list X) (r : list Y) : kept (map (fun _ => false) m) r = [].
  Proof. revert r. induction m as [|x m IH]; intros [|y r]; cbn; auto. Qed.

  Lemma all_at (cs : list H) : Forall2 (fun c p => nth_error cs p = Some c) cs (seq 0 (length cs)).
  Proof. assert (X := @pick_at H cs (seq 0 (length cs))). rewrite pick_all in X by reflexivity. apply X. apply Forall_forall. intros p I. apply in_seq in I. lia. Qed.

  (** every column encoded *)
  Lemma get_dummies_all (d : dframe) pre : wf d -> NoDup (dcols d) -> plain pre ->
    get_dummies (dcols d) pre d = Ok (glue (dindex d) (map (encoding (dindex d) pre) (columns_of d))).
  Proof. intros W N Pl. rewrite (@get_dummies_at d (dcols d) (seq 0 (length (dcols d))) pre W N Pl (all_at (dcols d))).
    assert (Lc : length (columns_of d) = length (dcols d)) by (rewrite <- (columns_fst W), map_length; reflexivity).
    rewrite <- Lc, pick_all by reflexivity. f_equal.
    assert (Em : map (fun c => negb (existsb (heqb c) (dcols d))) (dcols d) = map (fun _ => false) (dcols d)).
    { apply map_ext_in. intros c I. apply negb_false_iff. now apply (in_existsb heqb heqb_ok). }
    apply glue_no_columns; auto.
    - apply wf_keep_columns; [exact W|]. now rewrite map_length.
    - cbn. rewrite Em. apply kept_false.
    - apply wf_encodings; [exact W|apply incl_refl]. Qed.

  Lemma encode_frame (f : pf) d rl cl cs pre : shows f d rl cl -> NoDup (dcols d) -> plain pre -> incl (dcols d) cs ->
    exists f' rl' cl', apply_full_axis leqb heqb nparts min_row min_col false (map_fn cs pre) (Some (dindex d)) None true None f = Ok f'
      /\ holds f' (glue (dindex d) (map (encoding (dindex d) pre) (columns_of d))) rl' cl' /\ rl' <> [] /\ cl' <> [] /\ pindex f' = Some (dindex d).
  Proof. intros Sh N Pl I. assert (W : wf d) by apply Sh. assert (Hsc : list_sum cl = ncols d) by apply Sh.
    set (Rs := fun ci : nat * nat => map (encoding (dindex d) pre) (slice (columns_of d) (fst ci) (snd ci))).
    assert (Fs : forall ci, Forall (fun t => wf t /\ dindex t = dindex d) (Rs ci)).
    { intros ci. apply wf_encodings; [exact W|]. intros x Ix. eapply FilProofs2.slice_incl; eauto. }
    destruct (@bands_ok (map_fn cs pre) f d rl cl (fun ci => glue (dindex d) (Rs ci)) Sh) as (f' & rl' & cl' & E & Hh & N1 & N2 & Pi).
    - intros ci Ic. split; [|split; [now apply glue_wf|reflexivity]]. unfold DumModel.map_fn.
      assert (B := bounds_within 0 cl). rewrite Forall_forall in B. specialize (B ci Ic). assert (Hle := bounds_le _ _ _ Ic).
      assert (Wt : wf (iloc_cols d (fst ci) (snd ci))) by now apply wf_iloc_cols.
      assert (Nt : NoDup (dcols (iloc_cols d (fst ci) (snd ci)))) by (cbn [iloc_cols dcols]; now apply MelProofs2.NoDup_slice).
      replace (filter _ _) with (dcols (iloc_cols d (fst ci) (snd ci))).
      + rewrite (get_dummies_all Wt Nt Pl). rewrite columns_cut by (auto; lia). reflexivity.
      + symmetry. apply GroupProofs2.filter_all. intros c Hc. apply (in_existsb heqb heqb_ok). apply I. eapply FilProofs2.slice_incl. exact Hc.
    - exists f', rl', cl'. split; [exact E|]. split; [|auto].
      replace (glue (dindex d) (map (encoding (dindex d) pre) (columns_of d))) with (glue (dindex d) (map (fun ci => glue (dindex d) (Rs ci)) (bounds 0 cl))); [exact Hh|].
      rewrite <- (map_map Rs (glue (dindex d))). rewrite glue_flat by (apply Forall_map; apply Forall_forall; intros; apply Fs). f_equal.
      unfold Rs. rewrite <- (map_map (fun ci => slice (columns_of d) (fst ci) (snd ci)) (map (encoding (dindex d) pre))), <- concat_map. f_equal.
      apply JoinProofs3.slices_bounds. rewrite Hsc. unfold ncols. rewrite <- (columns_fst W), map_length. reflexivity. Qed.

  Lemma look_ok (f : pf) d rl cl : shows f d rl cl -> look leqb heqb f = Ok d.
  Proof. intros (Hh & Hr & Hc & _). now apply (@look_holds L H A leqb heqb leqb_ok heqb_ok f d rl cl). Qed.

  Notation qc_get_dummies := (qc_get_dummies leqb heqb own label levels same missing one zero fill dummy_na drop_first order left min_row min_col nparts known_l known_w argsort).

  Lemma some_columns cs (d : dframe) : NoDup (dcols d) -> incl cs (dcols d) -> exists ps, Forall2 (fun c p => nth_error (dcols d) p = Some c) cs ps.
  Proof. intros N I. induction cs as [|c cs IH]; [exists []; constructor|]. destruct IH as (ps & F); [intros x Hx; apply I; now right|].
    destruct (In_nth_error (dcols d) c) as (p & E); [apply I; now left|]. exists (p :: ps). now constructor. Qed.

  (** the columns of the list [cs] encoded, the others put before *)
  Lemma listed_ok (f : pf) d rl cl cs pre fk : shows f d rl cl -> 0 < nrows d -> NoDup (dcols d) -> NoDup cs -> incl cs (dcols d) ->
    (length cs = ncols d -> cs = dcols d) -> plain pre ->
    exists f' D, (if length cs =? length (dcols d) then
        apply_full_axis leqb heqb nparts min_row min_col false (map_fn cs pre) (Some (dindex d)) None true None f
      else
        do chosen <- take_2d_positional leqb heqb min_row min_col nparts known_l known_w argsort false None (Some (IList (get_indexer heqb (dcols d) cs))) f;
        do encoded <- apply_full_axis leqb heqb nparts min_row min_col false (map_fn cs pre) (Some (dindex d)) None true None chosen;
        do untouched <- take_2d_positional leqb heqb min_row min_col nparts known_l known_w argsort false None (Some (IList (np_sort (get_indexer heqb (dcols d) (difference heqb order (dcols d) cs))))) f;
        concat_frames_cols leqb heqb fill left nparts min_row fk untouched [with_columns encoded]) = Ok f'
      /\ get_dummies cs pre d = Ok D /\ look leqb heqb f' = Ok D.
  Proof. intros Sh Hn N Nc I Full Pl. assert (W : wf d) by apply Sh. destruct (Nat.eqb_spec (length cs) (length (dcols d))) as [El|El].
    - rewrite (Full El) in *. destruct (@encode_frame f d rl cl (dcols d) pre Sh N Pl (incl_refl _)) as (f' & rl' & cl' & E & Hh & N1 & N2 & _).
      eexists; eexists. split; [exact E|]. split; [now apply get_dummies_all|]. now apply (@look_holds L H A leqb heqb leqb_ok heqb_ok f' _ rl' cl').
    - destruct (@some_columns cs d N I) as (ps & F).
      destruct (@at_pick H (dcols d) cs ps F) as [Ep Bp]. assert (Np := @at_nodup H (dcols d) cs ps Nc F).
      rewrite (@get_indexer_at H heqb heqb_ok (dcols d) cs ps N F).
      destruct (@take_some L H A leqb heqb leqb_ok heqb_ok min_row min_col nparts mr mc np known_l known_w argsort argsort_ok f d rl cl ps Sh Hn Np Bp) as (f1 & rl1 & cl1 & E1 & S1).
      rewrite E1. cbn [rbind]. set (d1 := take2d (seq 0 (nrows d)) ps d) in *.
      assert (I1 : dindex d1 = dindex d) by (unfold d1, take2d; cbn [dindex]; now apply pick_all).
      assert (C1 : dcols d1 = cs) by exact Ep.
      destruct (@encode_frame f1 d1 rl1 cl1 cs pre S1 ltac:(now rewrite C1) Pl ltac:(rewrite C1; apply incl_refl)) as (f2 & rl2 & cl2 & E2 & H2 & N21 & N22 & P2).
      rewrite I1 in E2, H2, P2. rewrite E2. cbn [rbind].
      rewrite (@remaining_ok H heqb heqb_ok order order_ok). unfold without.
      set (m := map (fun c => negb (inb heqb c cs)) (dcols d)).
      assert (Hm : length m = ncols d) by (unfold m; now rewrite map_length).
      assert (Bm : Forall (fun p => p < ncols d) (marked m)) by (rewrite <- Hm; apply marked_bound).
      destruct (@take_some L H A leqb heqb leqb_ok heqb_ok min_row min_col nparts mr mc np known_l known_w argsort argsort_ok f d rl cl (marked m) Sh Hn (marked_nodup 0 m) Bm) as (f3 & rl3 & cl3 & E3 & S3).
      rewrite E3. cbn [rbind]. rewrite <- (@keep_columns_take2d L H A m d W Hm) in S3.
      set (D2 := glue (dindex d) (map (encoding (dindex d) pre) (columns_of d1))) in *.
      assert (S2 : shows (with_columns f2) D2 rl2 cl2).
      { unfold with_columns. rewrite (col_labels_holds H2 (or_introl N21)).
        destruct H2 as [(W2 & Hsr & Hsc & Hgr & Hli & Hlc & Crl & Ccl) [Ki Kc]]. split; [|split; [exact N21|split; [exact N22|split; [exact P2|reflexivity]]]].
        split; [|split; [exact Ki|now right]]. unfold gridded. cbn [pgrid pindex pcols prl pcl]. split; [exact W2|]. repeat split; auto. intros c [= <-]. reflexivity. }
      destruct (@concat_same L H A leqb heqb leqb_ok heqb_ok min_row nparts mr np fill left fk (mkslot f3 (keep_columns m d) rl3 cl3) [mkslot (with_columns f2) D2 rl2 cl2]) as (f' & rl' & cl' & E & S').
      + constructor; [exact S3|]. constructor; [exact S2|constructor].
      + constructor; [reflexivity|constructor].
      + cbn [sf sd map] in E, S'. eexists; eexists. split; [exact E|]. split; [|exact (look_ok S')].
        rewrite (@get_dummies_at d cs ps pre W N Pl F). f_equal.
        cbn [keep_columns dindex]. unfold D2, d1. rewrite (@columns_take L H A heqb) by auto. symmetry. apply glue_cons_glue.
        * apply wf_keep_columns; auto.
        * reflexivity.
        * apply wf_encodings; [exact W|]. intros x Hx. apply in_pick in Hx as (p & _ & Hx). now apply nth_error_In in Hx. Qed.

  Lemma qc_get_dummies_ok (f : pf) d rl cl numeric categorical columns pre fk : shows f d rl cl -> 0 < nrows d -> NoDup (dcols d) ->
    (forall cs, columns = Some cs -> NoDup cs /\ incl cs (dcols d) /\ (length cs = ncols d -> cs = dcols d)) ->
    (columns = None -> forall c, In c (dcols d) -> numeric c = negb (categorical c)) -> plain pre ->
    exists f' D, qc_get_dummies numeric fk columns pre f = Ok f' /\ get_dummies (encoded categorical columns d) pre d = Ok D /\ look leqb heqb f' = Ok D.
  Proof. intros Sh Hn N HS HN Pl. assert (W : wf d) by apply Sh. assert (Pc : pcols f = Some (dcols d)) by apply Sh. assert (Pi : pindex f = Some (dindex d)) by apply Sh.
    unfold DumModel.qc_get_dummies. rewrite Pc, Pi. cbn [labels rbind]. destruct columns as [cs|].
    - destruct (HS cs eq_refl) as (Nc & I & Full). exact (@listed_ok f d rl cl cs pre fk Sh Hn N Nc I Full Pl).
    - assert (Ec : filter (fun c => negb (numeric c)) (dcols d) = filter categorical (dcols d)).
      { apply filter_ext_in. intros c Hc. rewrite (HN eq_refl c Hc). apply negb_involutive. }
      rewrite Ec. cbn [encoded]. set (cs := filter categorical (dcols d)).
      destruct (Nat.eqb_spec (length cs) 0) as [E0|E0].
      + exists f. apply length_zero_iff_nil in E0. rewrite E0. eexists. split; [reflexivity|]. split; [|exact (look_ok Sh)].
        rewrite (@get_dummies_at d [] [] pre W N Pl) by constructor. f_equal.
        change (pick (columns_of d) []) with (@nil (H * list A)). cbn [map existsb negb].
        assert (Ek : keep_columns (map (fun _ => true) (dcols d)) d = d).
        { clear - W. destruct W as [_ W]. unfold keep_columns. destruct d as [i c x]. cbn [dindex dcols dcells] in *. f_equal; [now apply kept_none|].
          transitivity (map (fun r => r) x); [|apply map_id]. apply map_ext_in. intros r I. rewrite Forall_forall in W. apply kept_none. symmetry. now apply W. }
        rewrite Ek. clear Ek.
        destruct d as [i c x]. unfold glue. cbn [map fold_right concat dcols dcells dindex]. rewrite app_nil_r. f_equal.
        destruct W as [W1 _]. cbn [dcells dindex] in W1. rewrite <- W1. apply zipapp_nil_r.
      + apply (@listed_ok f d rl cl cs pre fk Sh Hn N); auto.
        * now apply NoDup_filter.
        * intros c Hc. unfold cs in Hc. now apply filter_In in Hc.
        * intros El. unfold cs in *. clear - El. unfold ncols in El. revert El. generalize (dcols d). intros l. induction l as [|c l IH]; [reflexivity|]. cbn. destruct (categorical c); cbn; intros E; [f_equal; apply IH; lia|].
          exfalso. assert (X : forall l, length (filter categorical l) <= length l) by (clear; intros l; induction l as [|y l IH]; cbn; [lia|]; destruct (categorical y); cbn; lia). specialize (X l). lia. Qed.
End Dum.
