(** A list or an object of the user inserted as a column. *)
From Verif Require Import Base Table ChunkModel ChunkSpec ChunkProofs GridModel GridSpec FrameSpec GridProofs GridProofs2 GridProofs3 GridProofs5 SelSpec SelModel
  SelProofs SelProofs2 SelProofs3 SelProofs4 SelProofs5 SelProofs6 SelProofs7 JoinSpec JoinModel JoinProofs JoinProofs2 JoinProofs3 JoinProofs4 JoinProofs5 JoinProps
  SetSpec SetModel SetProofs SetProofs2 SetProofs3 SetProofs4 SetProofs5 SetProofs6 SetProofs7 RemProofs3 InsSpec InsModel InsProofs.

Section InsObject.
  Context {L H A : Type}.
  Notation dframe := (df L H A).
  Notation pf := (@pframe L H A).
  Variable leqb : L -> L -> bool.
  Variable heqb : H -> H -> bool.
  Hypothesis leqb_ok : forall x y, leqb x y = true <-> x = y.
  Hypothesis heqb_ok : forall x y, heqb x y = true <-> x = y.
  Variables min_row min_col nparts : nat.
  Hypothesis mr : 0 < min_row.
  Hypothesis mc : 0 < min_col.
  Hypothesis np : 0 < nparts.
  Variables known_l known_w : nat -> nat -> bool.
  Variable argsort : list Z -> list nat.
  Hypothesis argsort_ok : forall l, sorts l (argsort l).
  Variable fill : A.

  (** the rows of [d] in the order of the labels [idx] *)
  Definition at_labels (idx : list L) (d : dframe) : dframe :=
    if list_eqb leqb idx (dindex d) then d else pick_rows fill idx (map (fun x => position leqb x (dindex d)) idx) d.

  Definition slot_shows (t : @slot L H A) : Prop := shows (sf t) (sd t) (sl t) (so t).

  Lemma at_labels_nodup idx (d : dframe) : wf d -> NoDup (dindex d) ->
    pick_rows fill idx (map (fun x => position leqb x (dindex d)) idx) d = at_labels idx d.
  Proof.
    clear - leqb_ok. intros W Nd. unfold at_labels. destruct (list_eqb leqb idx (dindex d)) eqn:E; [|reflexivity].
    apply (list_eqb_spec leqb leqb_ok) in E. subst idx.
    destruct (@C13_unique_labels_join L leqb [dindex d] (dindex d) leqb_ok) as [_ J]; [now repeat constructor|].
    destruct (J 0 (dindex d) (map (fun x => position leqb x (dindex d)) (dindex d)) eq_refl eq_refl) as (_ & _ & _ & X).
    rewrite (X eq_refl). now apply pick_rows_id.
  Qed.

  Lemma concat_first fk (t0 : @slot L H A) ts : Forall slot_shows (t0 :: ts) ->
    Forall (fun t => dindex (sd t) = dindex (sd t0)) ts \/ Forall (fun t => NoDup (dindex (sd t))) (t0 :: ts) ->
    exists f' rl' cl', concat_frames_cols leqb heqb fill (first_labels leqb) nparts min_row fk (sf t0) (map sf ts) = Ok f'
      /\ shows f' (glue (dindex (sd t0)) (map (at_labels (dindex (sd t0))) (map sd (t0 :: ts)))) rl' cl'.
  Proof.
    intros F Hc. set (idx := dindex (sd t0)) in *.
    assert (G : Forall good_operand (t0 :: ts)).
    { eapply Forall_impl; [|exact F]. intros t (X1 & X2 & X3 & _). split; auto. }
    assert (W : Forall (fun t => wf (sd t)) (t0 :: ts)).
    { eapply Forall_impl; [|exact F]. intros t (((X1 & _) & _) & _). exact X1. }
    assert (Fin : forall (f' : pf) (D : dframe) rl' cl', holds f' D rl' cl' -> rl' <> [] -> cl' <> [] ->
       (Forall (fun t => pcols (sf t) <> None) (t0 :: ts) -> pcols f' <> None) -> (pindex (sf t0) <> None -> pindex f' <> None) -> shows f' D rl' cl').
    { intros f' D rl' cl' K2 K3 K4 K5 K6. split; [exact K2|]. split; [exact K3|]. split; [exact K4|]. destruct K2 as (_ & Ki & Kc). split.
      - destruct Ki as [Ki|Ki]; [|exact Ki]. exfalso. apply K6; [|exact Ki]. apply Forall_inv in F. destruct F as (_ & _ & _ & X & _). congruence.
      - destruct Kc as [Kc|Kc]; [|exact Kc]. exfalso. apply K5; [|exact Kc]. eapply Forall_impl; [|exact F]. intros t (_ & _ & _ & _ & X). congruence. }
    destruct (forallb (list_eqb leqb idx) (map (fun t => dindex (sd t)) ts)) eqn:Eall.
    - assert (Fi : Forall (fun t => dindex (sd t) = idx) (t0 :: ts)).
      { constructor; [reflexivity|]. rewrite forallb_forall in Eall. apply Forall_forall. intros t Ht.
        symmetry. apply (list_eqb_spec leqb leqb_ok), Eall, in_map_iff. eauto. }
      set (join' := fun ls : list (list L) => (nth 0 ls [], map (fun l => map Some (seq 0 (length l))) ls)).
      assert (Elab : map row_labels (sf t0 :: map sf ts) = map (fun t => dindex (sd t)) (t0 :: ts)).
      { change (sf t0 :: map sf ts) with (map sf (t0 :: ts)). rewrite map_map. apply map_ext_in. intros t Ht. rewrite Forall_forall in F.
        destruct (F _ Ht) as (Hh & _ & Hcl & _). now rewrite (row_labels_holds Hh Hcl). }
      assert (Ej : concat_frames_cols leqb heqb fill (first_labels leqb) nparts min_row fk (sf t0) (map sf ts)
                 = concat_frames_cols leqb heqb fill join' nparts min_row fk (sf t0) (map sf ts)).
      { unfold concat_frames_cols, copartition_rows, copartition. rewrite Elab. unfold join_index_objects. cbn [map]. fold idx. now rewrite Eall. }
      rewrite Ej.
      assert (Eid : map (at_labels idx) (map sd (t0 :: ts)) = map sd (t0 :: ts)).
      { rewrite map_map. apply map_ext_in. intros t Ht. rewrite Forall_forall in Fi. unfold at_labels. now rewrite (Fi _ Ht), (list_eqb_refl leqb leqb_ok). }
      rewrite Eid.
      set (ixs := map (fun l : list L => map Some (seq 0 (length l))) (map (fun t => dindex (sd t)) (t0 :: ts))).
      destruct (@concat_cols_ok L H A leqb heqb leqb_ok heqb_ok fill join' nparts min_row fk t0 ts idx ixs)
        as (f' & rl' & cl' & K1 & K2 & K3 & K4 & K5 & K6); auto.
      + unfold joins_well, join'. cbn [fst snd nth map]. fold idx. change (map Some (seq 0 (length idx)) :: _) with ixs.
        split; [unfold ixs; now rewrite map_length|]. intros i lab ix Hlab Hix. unfold ixs in Hix. change (idx :: map (fun t : slot => dindex (sd t)) ts) with (map (fun t => dindex (sd t)) (t0 :: ts)) in Hlab.
        rewrite nth_error_map, Hlab in Hix. cbn in Hix. injection Hix as <-.
        assert (lab = idx) as ->. { apply nth_error_In, in_map_iff in Hlab as (t & <- & Ht). rewrite Forall_forall in Fi. now apply Fi. }
        rewrite map_length, seq_length. split; [reflexivity|]. split; [|split; [|reflexivity]].
        * intros k p Hk. rewrite nth_error_map in Hk. destruct (nth_error (seq 0 (length idx)) k) as [q|] eqn:Eq; [|discriminate].
          cbn in Hk. injection Hk as ->. assert (Hk : k < length (seq 0 (length idx))) by (apply nth_error_Some; congruence).
          rewrite seq_length in Hk. apply (nth_error_nth _ _ 0) in Eq. rewrite seq_nth in Eq by assumption. cbn in Eq. subst p. auto.
        * intros k x Hk. rewrite nth_error_map in Hk. destruct (nth_error (seq 0 (length idx)) k); discriminate.
      + unfold join_index_objects. cbn [map]. fold idx. now rewrite Eall.
      + assert (Elen : length ixs = length (t0 :: ts)) by (unfold ixs; now rewrite !map_length).
        rewrite (@its_map _ _ _ _ (pick_rows fill idx) sd ixs [] (t0 :: ts) Elen) in K2.
        assert (Ep : map2 (pick_rows fill idx) ixs (map sd (t0 :: ts)) = map sd (t0 :: ts)).
        { apply nth_error_ext. intros i. rewrite nth_error_map2. unfold ixs. rewrite !nth_error_map. destruct (nth_error (t0 :: ts) i) as [t|] eqn:Et; [|reflexivity].
          cbn. f_equal. apply nth_error_In in Et. rewrite Forall_forall in Fi, W. rewrite <- (Fi _ Et) at 1. apply pick_rows_id. auto. }
        rewrite Ep in K2. exists f', rl', cl'. split; [exact K1|]. now apply Fin.
    - destruct Hc as [Hc|Nd].
      { exfalso. apply not_true_iff_false in Eall. apply Eall. apply forallb_forall. intros y (t & <- & Ht)%in_map_iff.
        rewrite Forall_forall in Hc. rewrite (Hc _ Ht). apply (list_eqb_refl leqb leqb_ok). }
      set (labs := map (fun t : @slot L H A => dindex (sd t)) (t0 :: ts)).
      destruct (@concat_cols_ok L H A leqb heqb leqb_ok heqb_ok fill (first_labels leqb) nparts min_row fk t0 ts idx (indexers leqb idx labs))
        as (f' & rl' & cl' & K1 & K2 & K3 & K4 & K5 & K6); auto.
      + unfold joins_well, first_labels. cbn [fst snd nth map]. apply C13_unique_labels_join; [exact leqb_ok|].
        now apply (proj2 (Forall_map (fun t : @slot L H A => dindex (sd t)) _ (t0 :: ts))).
      + unfold join_index_objects. cbn [map]. fold idx. rewrite Eall. reflexivity.
      + assert (Elen : length (indexers leqb idx labs) = length (t0 :: ts)) by (unfold indexers, labs; now rewrite !map_length).
        rewrite (@its_map _ _ _ _ (pick_rows fill idx) sd _ [] (t0 :: ts) Elen) in K2.
        assert (Ep : map2 (pick_rows fill idx) (indexers leqb idx labs) (map sd (t0 :: ts)) = map (at_labels idx) (map sd (t0 :: ts))).
        { apply nth_error_ext. intros i. rewrite nth_error_map2. unfold indexers, labs. rewrite !nth_error_map. destruct (nth_error (t0 :: ts) i) as [t|] eqn:Et; [|reflexivity].
          cbn. f_equal. apply nth_error_In in Et. rewrite Forall_forall in Nd, W. apply at_labels_nodup; auto. }
        rewrite Ep in K2. exists f', rl', cl'. split; [exact K1|]. now apply Fin.
  Qed.

  (** new labels for the columns *)
  Lemma set_columns_ok (f : pf) e rl cl cols : shows f e rl cl -> length cols = ncols e ->
    exists f' rl' cl', set_columns heqb cols f = Ok f' /\ shows f' (mkdf (dindex e) cols (dcells e)) rl' cl'.
  Proof.
    intros Sh Hl. unfold set_columns. destruct Sh as ((G & Gi & Gc) & Nr & Nc & Pi & Pc). rewrite Pc. cbn [labels rbind].
    destruct (list_eqb heqb (dcols e) cols) eqn:E.
    - apply (list_eqb_spec heqb heqb_ok) in E. subst cols. exists f, rl, cl. split; [reflexivity|]. destruct e. cbn.
      split; [|auto]. split; auto.
    - unfold ncols in Hl. rewrite Hl, Nat.eqb_refl. cbn [negb].
      assert (G' : gridded (mkpf (pgrid f) (pindex f) (Some cols) (prl f) (pcl f)) e rl cl).
      { destruct G as (W & Sr & Sc & Eg & Li & Lc & Cr & Cc). repeat split; auto; try apply W. cbn. intros c' [= <-]. exact Hl. }
      destruct (@propagate_ok_ne L H A (Some true) _ e rl cl (dindex e) cols G' Nr Nc Pi eq_refl) as (rl' & cl' & N1 & N2 & S1 & S2 & E1).
      rewrite E1. cbn [rbind relabel]. rewrite Pi.
      eexists; exists rl', cl'. split; [reflexivity|].
      assert (We : wf (mkdf (dindex e) cols (dcells e))).
      { destruct G as ((W1 & W2) & _). split; cbn; auto. rewrite Hl. exact W2. }
      split; [|auto]. apply holds_intro; cbn; auto. unfold ncols. cbn. now rewrite Hl.
  Qed.

  Lemma zip_vals (g h : list A -> list A) : forall vals rows, length vals = length rows ->
    fold_right zipapp (repeat [] (length rows)) [map g rows; map (fun v => [v]) vals; map h rows]
    = map (fun vr => g (snd vr) ++ fst vr :: h (snd vr)) (combine vals rows).
  Proof.
    clear. induction vals as [|v vals IH]; intros [|r rows] E; try discriminate; [reflexivity|].
    injection E as E. cbn [length repeat map combine fst snd]. rewrite <- IH by assumption. cbn [fold_right]. unfold zipapp. cbn [combine map fst snd]. now rewrite app_nil_r.
  Qed.
  Lemma zip_vals2 : forall (vals : list A) rows, length vals = length rows ->
    fold_right zipapp (repeat [] (length rows)) [rows; map (fun v => [v]) vals] = map (fun vr => snd vr ++ [fst vr]) (combine vals rows).
  Proof.
    clear. induction vals as [|v vals IH]; intros [|r rows] E; try discriminate; [reflexivity|].
    injection E as E. cbn [length repeat map combine fst snd]. rewrite <- IH by assumption. cbn [fold_right]. unfold zipapp. cbn [combine map fst snd]. now rewrite ?app_nil_r.
  Qed.

  Lemma glue_mid (d : dframe) p c vals : wf d -> p <= ncols d -> length vals = nrows d ->
    glue (dindex d) [take2d (seq 0 (nrows d)) (seq 0 p) d; mkdf (dindex d) [c] (map (fun v => [v]) vals);
                     take2d (seq 0 (nrows d)) (seq p (ncols d - p)) d] = with_column p c vals d.
  Proof.
    clear. intros [W1 W2] Hp Hv. unfold glue, with_column, insert_at. cbn [map dcols dcells take2d concat app]. f_equal.
    - rewrite app_nil_r. rewrite !pick_seq by (unfold ncols in *; lia). cbn [plus].
      replace (p + (ncols d - p)) with (ncols d) by lia. unfold slice, ncols. rewrite Nat.sub_0_r. cbn [skipn].
      f_equal. f_equal. rewrite firstn_all2; [reflexivity|]. rewrite skipn_length. lia.
    - assert (Er : pick (dcells d) (seq 0 (nrows d)) = dcells d) by (apply pick_all; exact W1). rewrite Er.
      rewrite <- W1. rewrite zip_vals by (unfold nrows in *; lia). apply map_ext_in. intros [v r] Hin. apply in_combine_r in Hin. cbn [fst snd].
      rewrite Forall_forall in W2. specialize (W2 _ Hin). unfold ncols in *. rewrite !pick_seq by lia. cbn [plus].
      unfold slice. rewrite Nat.sub_0_r. cbn [skipn]. f_equal. f_equal. rewrite firstn_all2; [reflexivity|]. rewrite skipn_length. lia.
  Qed.
  Lemma glue_end (d : dframe) c vals : wf d -> length vals = nrows d ->
    glue (dindex d) [d; mkdf (dindex d) [c] (map (fun v => [v]) vals)] = with_column (ncols d) c vals d.
  Proof.
    clear. intros [W1 W2] Hv. unfold glue, with_column, insert_at. cbn [map dcols dcells concat app]. f_equal.
    - unfold ncols. now rewrite firstn_all, skipn_all.
    - rewrite <- W1. rewrite zip_vals2 by (unfold nrows in *; lia). apply map_ext_in. intros [v r] Hin. apply in_combine_r in Hin. cbn [fst snd].
      rewrite Forall_forall in W2. specialize (W2 _ Hin). unfold ncols in *. rewrite <- W2. now rewrite firstn_all, skipn_all.
  Qed.

  Lemma take2d_everything (d : dframe) : wf d -> take2d (seq 0 (nrows d)) (seq 0 (ncols d)) d = d.
  Proof.
    clear. intros [W1 W2]. unfold take2d. destruct d as [i c t]. unfold nrows, ncols in *. cbn [dindex dcols dcells] in *. rewrite (@pick_all _ i), (@pick_all _ c), (@pick_all _ t) by auto. f_equal.
    rewrite <- (map_id t) at 2. apply map_ext_in. intros r Hr. rewrite Forall_forall in W2. apply pick_all. auto.
  Qed.

  (** one column in the order of other labels *)
  Lemma at_labels_one idx (e : dframe) c : wf e -> dcols e = [c] -> exists vals, length vals = length idx
    /\ at_labels idx e = mkdf idx [c] (map (fun v => [v]) vals)
    /\ (dindex e = idx -> map (fun v => [v]) vals = dcells e)
    /\ (dindex e <> idx -> NoDup (dindex e) -> forall i x, nth_error idx i = Some x ->
         (forall v, row_is e x [v] -> nth_error vals i = Some v) /\ (~ In x (dindex e) -> nth_error vals i = Some fill)).
  Proof.
    clear - leqb_ok. intros W Hc. assert (One : forall rows : list (list A), Forall (fun r => length r = 1) rows -> map (fun v => [v]) (map (fun r => hd fill r) rows) = rows).
    { intros rows F. rewrite map_map. rewrite <- (map_id rows) at 2. apply map_ext_in. intros r Hr. rewrite Forall_forall in F. specialize (F _ Hr).
      destruct r as [|v [|w r]]; try discriminate. reflexivity. }
    assert (Wl : Forall (fun r => length r = 1) (dcells e)). { destruct W as [_ W2]. unfold ncols in W2. rewrite Hc in W2. exact W2. }
    assert (Fl : Forall (fun r => length r = 1) (dcells (at_labels idx e))).
    { unfold at_labels. destruct (list_eqb leqb idx (dindex e)); [exact Wl|]. cbn [pick_rows dcells]. apply Forall_map, Forall_forall. intros o _.
      assert (Hf : length (repeat fill (ncols e)) = 1) by (rewrite repeat_length; unfold ncols; now rewrite Hc).
      destruct o as [q|]; [|exact Hf]. destruct (nth_in_or_default q (dcells e) (repeat fill (ncols e))) as [Hin|E]; [|congruence].
      rewrite Forall_forall in Wl. now apply Wl. }
    assert (Il : dindex (at_labels idx e) = idx).
    { unfold at_labels. destruct (list_eqb leqb idx (dindex e)) eqn:E; [|reflexivity]. apply (list_eqb_spec leqb leqb_ok) in E. congruence. }
    assert (Cl : dcols (at_labels idx e) = [c]).
    { unfold at_labels. destruct (list_eqb leqb idx (dindex e)); exact Hc. }
    assert (Ll : length (dcells (at_labels idx e)) = length idx).
    { unfold at_labels. destruct (list_eqb leqb idx (dindex e)) eqn:E.
      - apply (list_eqb_spec leqb leqb_ok) in E. subst idx. apply W.
      - cbn. now rewrite !map_length. }
    exists (map (fun r => hd fill r) (dcells (at_labels idx e))). rewrite map_length, One by assumption. split; [exact Ll|].
    split; [rewrite <- Il at 2; rewrite <- Cl; now destruct (at_labels idx e)|]. split.
    - intros E. unfold at_labels. rewrite E, (list_eqb_refl leqb leqb_ok). reflexivity.
    - intros Ne Nd i x Hx. unfold at_labels. destruct (list_eqb leqb idx (dindex e)) eqn:E; [apply (list_eqb_spec leqb leqb_ok) in E; congruence|].
      pose proof (@C13_unique_labels_join L leqb [dindex e] idx leqb_ok (Forall_cons _ Nd (Forall_nil _))) as J.
      destruct (@C13_by_label L H A fill e [dindex e] 0 idx _ (map (fun x => position leqb x (dindex e)) idx) W Nd J eq_refl eq_refl) as (_ & _ & B).
      destruct (B i x Hx) as [B1 B2]. rewrite nth_error_map. split.
      + intros v Hr. now rewrite (B1 _ Hr).
      + intros Hn. rewrite (B2 Hn). unfold ncols. now rewrite Hc.
  Qed.

  Lemma insert_column_ok fk (f v : pf) d e rl cl rl1 cl1 p c : shows f d rl cl -> shows v e rl1 cl1 -> dcols e = [c] ->
    0 < nrows d -> p <= ncols d -> dindex e = dindex d \/ NoDup (dindex d) /\ NoDup (dindex e) ->
    exists f' rl' cl' vals, insert_column leqb heqb min_row min_col nparts known_l known_w argsort fill fk p v f = Ok f'
      /\ shows f' (with_column p c vals d) rl' cl' /\ aligned fill d e vals.
  Proof.
    intros Sf Sv Hc Hn Hp Hi. assert (Wd : wf d) by apply Sf. assert (We : wf e) by apply Sv.
    destruct (@at_labels_one (dindex d) e c We Hc) as (vals & V1 & V2 & V3 & V4).
    assert (Al : aligned fill d e vals).
    { split; [exact V1|]. split; [exact V3|]. intros Ne. apply V4; [exact Ne|]. destruct Hi as [Hi|[_ Hi]]; [congruence|exact Hi]. }
    assert (Atd : forall x : dframe, dindex x = dindex d -> at_labels (dindex d) x = x).
    { intros x E. unfold at_labels. now rewrite E, (list_eqb_refl leqb leqb_ok). }
    assert (It : forall q, dindex (take2d (seq 0 (nrows d)) q d) = dindex d). { intros q. cbn. now apply pick_all. }
    assert (Hh : pcols f = Some (dcols d)) by apply Sf.
    unfold insert_column. rewrite Hh. cbn [labels rbind]. fold (ncols d).
    destruct (Nat.ltb_spec p (ncols d)) as [Lt|Ge].
    - rewrite seq_length. replace (p =? ncols d) with false by (symmetry; apply Nat.eqb_neq; lia).
      destruct (@mask_shows L H A leqb heqb leqb_ok heqb_ok min_row min_col nparts mr mc np known_l known_w argsort argsort_ok f d rl cl 0 p Sf Hn ltac:(lia)) as (f0 & rl0 & cl0 & E0 & S0).
      rewrite E0. cbn [rbind].
      assert (M2 : exists f2 rl2 cl2, (if length (seq p (ncols d - p)) =? ncols d then Ok f
                    else take_2d_positional leqb heqb min_row min_col nparts known_l known_w argsort false None (Some (IList (map Z.of_nat (seq p (ncols d - p))))) f) = Ok f2
                  /\ shows f2 (take2d (seq 0 (nrows d)) (seq p (ncols d - p)) d) rl2 cl2).
      { rewrite seq_length. destruct (Nat.eqb_spec (ncols d - p) (ncols d)) as [E|E].
        - exists f, rl, cl. split; [reflexivity|]. replace p with 0 by lia. rewrite Nat.sub_0_r, take2d_everything by assumption. exact Sf.
        - apply (@mask_shows L H A leqb heqb leqb_ok heqb_ok min_row min_col nparts mr mc np known_l known_w argsort argsort_ok f d rl cl p (ncols d - p) Sf Hn). lia. }
      destruct M2 as (f2 & rl2 & cl2 & E2 & S2). rewrite E2. cbn [rbind].
      destruct (@concat_first fk (mkslot f0 (take2d (seq 0 (nrows d)) (seq 0 p) d) rl0 cl0) [mkslot v e rl1 cl1; mkslot f2 (take2d (seq 0 (nrows d)) (seq p (ncols d - p)) d) rl2 cl2]) as (f' & rl' & cl' & K1 & K2).
      + repeat apply Forall_cons; [exact S0|exact Sv|exact S2|apply Forall_nil].
      + cbn [sd]. rewrite It. destruct Hi as [Hi|[Nd Ne]].
        * left. repeat apply Forall_cons; [exact Hi|apply It|apply Forall_nil].
        * right. repeat apply Forall_cons; try apply Forall_nil; cbn [sd]; rewrite ?It; auto.
      + cbn [sf sd map] in K1, K2. rewrite It in K2. rewrite (Atd _ (It (seq 0 p))), (Atd _ (It (seq p (ncols d - p)))) in K2. rewrite V2, glue_mid in K2 by auto.
        exists f', rl', cl', vals. auto.
    - destruct (@concat_first fk (mkslot f d rl cl) [mkslot v e rl1 cl1]) as (f' & rl' & cl' & K1 & K2).
      + repeat apply Forall_cons; [exact Sf|exact Sv|apply Forall_nil].
      + cbn [sd]. destruct Hi as [Hi|[Nd Ne]]; [left|right]; repeat apply Forall_cons; try apply Forall_nil; auto.
      + cbn [sf sd map] in K1, K2. rewrite (Atd d eq_refl), V2, glue_end in K2 by auto. replace p with (ncols d) by lia.
        exists f', rl', cl', vals. auto.
  Qed.
End InsObject.
