(** Stacking frames ([_merge_dtypes], concat(axis=1) of dtypes): when the inferred dtypes are right. *)
From Verif Require Import Base DtypeSpec DtypeModel DtypeProofs DtypeProofs2 DtypeProofs3 DtypeProofs4.

Section Proofs.
  Context {H T : Type}.
  Variable hdec : forall a b : H, {a = b} + {a <> b}.
  Variable common : list T -> T.
  Variable tfloat : T.
  Notation has := (has hdec).
  Notation dup := (dup hdec).
  Notation dtype_of := (dtype_of hdec).
  Notation init := (init hdec).
  Notation desc := (@desc H T).
  Notation dval := (@dval H T).
  Notation good := (good hdec).
  Notation val_sound := (val_sound hdec).
  Notation matrix := (@matrix H T).
  Notation appearing := (appearing hdec).
  Notation merge_step := (@merge_step H T hdec).

  (** * Names in order of appearance *)
  Lemma appearing_in ns c : In c (appearing ns) <-> In c ns.
  Proof. induction ns as [|x ns IH]; cbn; [reflexivity|]. rewrite filter_In, IH. destruct (hdec x c) as [->|n]; [tauto|].
    split; [tauto|]. intros [->|I]; [easy | now right]. Qed.
  Lemma appearing_NoDup ns : NoDup (appearing ns).
  Proof. induction ns as [|x ns IH]; cbn; constructor; [|now apply NoDup_filter].
    rewrite filter_In. destruct (hdec x x); [easy | congruence]. Qed.
  Lemma filter_filter {A} (p q : A -> bool) l : filter p (filter q l) = filter (fun x => q x && p x) l.
  Proof. induction l as [|x l IH]; cbn; [reflexivity|]. destruct (q x); cbn; [|assumption]. now rewrite IH. Qed.
  Lemma appearing_app a b : appearing (a ++ b) = appearing a ++ filter (fun c => negb (has c a)) (appearing b).
  Proof. induction a as [|x a IH]; cbn [app DtypeSpec.appearing].
    - cbn. induction (appearing b) as [|y l IHl]; cbn; [reflexivity | now f_equal].
    - cbn. f_equal. rewrite IH, filter_app, filter_filter. f_equal. apply filter_ext. intros c.
      apply eq_true_iff_eq. rewrite andb_true_iff, !negb_true_iff, !has_false. cbn. destruct (hdec x c); [split; [easy | tauto]|].
      tauto. Qed.
  Lemma filter_true {A} (p : A -> bool) l : (forall x, In x l -> p x = true) -> filter p l = l.
  Proof. induction l as [|x l IH]; intros P; cbn; [reflexivity|]. rewrite (P x) by now left. f_equal. apply IH. intros y Hy. apply P. now right. Qed.
  Lemma filter_none {A} (p : A -> bool) l : (forall x, In x l -> p x = false) -> filter p l = [].
  Proof. induction l as [|x l IH]; intros P; cbn; [reflexivity|]. rewrite (P x) by now left. apply IH. intros y Hy. apply P. now right. Qed.
  Lemma subseq_trans {A} (k l m : list A) : subseq k l -> subseq l m -> subseq k m.
  Proof. intros S1 S2. revert k S1. induction S2 as [l|x l m S2 IH|x l m S2 IH]; intros k S1.
    - inversion S1. constructor.
    - inversion_clear S1; [constructor | constructor; auto | constructor; auto].
    - constructor. auto. Qed.
  Lemma appearing_id l : NoDup l -> appearing l = l.
  Proof. induction 1 as [|x l N1 N2 IH]; cbn; [reflexivity|]. f_equal. rewrite IH.
    apply filter_true. intros y Hy. now destruct (hdec x y) as [->|]. Qed.
  Lemma subseq_filter2 {A} (p q : A -> bool) k l :
    subseq k l -> (forall x, In x k -> p x = true -> q x = true) -> subseq (filter p k) (filter q l).
  Proof. induction 1 as [l|x k l S IH|x k l S IH]; intros PQ; cbn; [constructor| |].
    - destruct (p x) eqn:P.
      + rewrite (PQ x (or_introl eq_refl) P). constructor. apply IH. intros y Hy. apply PQ. now right.
      + destruct (q x); [constructor|]; apply IH; intros y Hy; apply PQ; now right.
    - destruct (q x); [constructor|]; now apply IH. Qed.

  (** * Which values may follow an incomplete one *)
  Definition val_names (v : dval) : list H :=
    match v with VDesc d => names d | VSeries s => header s | VNone => [] end.
  Definition val_complete (v : dval) : Prop :=
    match v with VDesc d => know_all d = true /\ remaining d = None | _ => True end.
  (** A value that does not list all its columns is followed only by values that list no further names. *)
  Fixpoint no_late (seen : list H) (vs : list dval) : Prop :=
    match vs with
    | [] => True
    | v :: vs => (val_complete v \/ Forall (fun v' => incl (val_names v') (seen ++ val_names v)) vs)
                 /\ no_late (seen ++ val_names v) vs
    end.

  (** * One step *)
  Definition fix_cell (d : desc) (x : option (@cell T)) : option cell :=
    match x with None => if incomplete d then Some Unk else None | _ => x end.
  Definition new_cells (m : matrix) (d : desc) : list (H * cell) :=
    filter (fun cx => negb (has (fst cx) (map fst m))) (desc_cells d).
  Definition step_rows (w : nat) (m : matrix) (d : desc) : matrix :=
    map (fun r => (fst r, snd r ++ [fix_cell d (cell_of hdec (fst r) (desc_cells d))])) m
    ++ map (fun cx => (fst cx, repeat None w ++ [Some (snd cx)])) (new_cells m d).

  Lemma merge_step_rows w m know lost d :
    Forall (fun r => length (snd r) = w) m ->
    merge_step (w, m, know, lost) (VDesc d) =
    (S w, step_rows w m d, know && know_all d && match remaining d with None => true | Some _ => false end, lost).
  Proof. intros L. cbn. f_equal. f_equal. f_equal. unfold step_rows, fix_cell. destruct (incomplete d).
    - unfold fill_unknown, add_column. rewrite map_app, !map_map. f_equal.
      + apply map_ext_in. intros r Hr. cbn. f_equal. rewrite Forall_forall in L. specialize (L r Hr).
        rewrite firstn_app, L, Nat.sub_diag, firstn_O, app_nil_r, (firstn_all2 (snd r)) by lia.
        rewrite skipn_app, L, Nat.sub_diag, (skipn_all2 (snd r)) by lia. cbn. now destruct (cell_of _ _ _).
      + apply map_ext. intros cx. cbn. f_equal.
        rewrite firstn_app, repeat_length, Nat.sub_diag, firstn_O, app_nil_r, firstn_all2 by (rewrite repeat_length; lia).
        rewrite skipn_app, repeat_length, Nat.sub_diag, skipn_all2 by (rewrite repeat_length; lia). reflexivity.
    - unfold add_column. f_equal. apply map_ext. intros r. now destruct (cell_of _ _ _). Qed.
  Lemma merge_step_series st s : merge_step st (VSeries s) = merge_step st (VDesc (series_desc s)).
  Proof. destruct st as [[[w m] know] lost]. cbn. unfold desc_cells. cbn. rewrite app_nil_r. now rewrite !andb_true_r. Qed.

  Lemma cell_of_typ c t (d : desc) : cell_of hdec c (desc_cells d) = Some (Typ t) -> In (c, t) (known d).
  Proof. unfold desc_cells. intros E.
    assert (X : In (c, Typ t) (map (fun ct => (fst ct, Typ (snd ct))) (known d) ++ map (fun c => (c, Unk)) (unknown d))).
    { revert E. generalize (map (fun ct : H * T => (fst ct, Typ (snd ct))) (known d) ++ map (fun c => (c, Unk)) (unknown d)).
      intros l. induction l as [|[c' x] l IH]; cbn; [discriminate|]. destruct (hdec c c') as [->|]; [intros [= ->]; now left | auto]. }
    apply in_app_iff in X as [X|X]; apply in_map_iff in X as [y [E1 X]]; [|discriminate].
    destruct y as [c' t']. cbn in E1. injection E1 as -> ->. exact X. Qed.
  Lemma cell_of_none c (d : desc) : cell_of hdec c (desc_cells d) = None <-> ~ In c (names d).
  Proof. unfold names. replace (map fst (known d) ++ unknown d) with (map fst (desc_cells d)).
    - generalize (desc_cells d). intros l. induction l as [|[c' x] l IH]; cbn; [easy|].
      destruct (hdec c c') as [->|n]; [split; [discriminate | intros X; destruct X; now left]|].
      rewrite IH. split; [intros X [->|Y]; [now apply n | now apply X] | tauto].
    - unfold desc_cells. rewrite map_app, !map_map. cbn. now rewrite map_id. Qed.
  Lemma desc_cells_names (d : desc) : map fst (desc_cells d) = names d.
  Proof. unfold names, desc_cells. rewrite map_app, !map_map. cbn. now rewrite map_id. Qed.

  Lemma step_rows_names w (m : matrix) (d : desc) : map fst (step_rows w m d) = map fst m ++ filter (fun c => negb (has c (map fst m))) (names d).
  Proof. unfold step_rows, new_cells. rewrite map_app, !map_map. cbn [fst]. f_equal.
    rewrite <- desc_cells_names. generalize (desc_cells d). intros l. induction l as [|x l IH]; cbn; [reflexivity|].
    destruct (negb (has (fst x) (map fst m))); cbn; now rewrite ?IH. Qed.

  Lemma filter_fst_nil m (l : list (H * @cell T)) :
    incl (map fst l) m -> filter (fun cx => negb (has (fst cx) m)) l = [].
  Proof. induction l as [|x l IH]; intros I; cbn; [reflexivity|].
    rewrite (proj2 (has_true hdec (fst x) m)) by (apply I; now left). cbn. apply IH. intros y Hy. apply I. now right. Qed.

  (** * The loop *)
  Definition row_ok (css : list (list (H * T))) (r : H * list (option (@cell T))) : Prop :=
    Forall2 (fun cs x => match x with
                         | Some (Typ t) => dtype_of (fst r) cs = Some t
                         | Some Unk => True
                         | None => ~ In (fst r) (header cs)
                         end) css (snd r).
  Definition unk_free (r : H * list (option (@cell T))) : bool :=
    negb (existsb (fun x => match x with Some Unk => true | _ => false end) (snd r)).
  Definition heads (css : list (list (H * T))) : list H := concat (map header css).
  Record minv (m : matrix) (know : bool) (css : list (list (H * T))) : Prop := MInv {
    m_rows : Forall (row_ok css) m;
    m_nodup : NoDup (map fst m);
    m_heads : incl (map fst m) (heads css);
    m_know : know = true -> incl (heads css) (map fst m);
    m_order : subseq (map fst (filter unk_free m)) (appearing (heads css)) }.

  Lemma heads_app a b : heads (a ++ b) = heads a ++ heads b.
  Proof. unfold heads. now rewrite map_app, concat_app. Qed.

  Lemma step_desc_inv m know css (d : desc) cs :
    minv m know css -> sound d cs -> inorder d cs -> (know = true \/ incl (names d) (map fst m)) ->
    minv (step_rows (length css) m d) (know && know_all d && match remaining d with None => true | Some _ => false end) (css ++ [cs]).
  Proof. intros M S I KN.
    assert (NI : incl (names d) (header cs)) by (apply names_incl; apply S).
    assert (HA : heads (css ++ [cs]) = heads css ++ header cs) by (rewrite heads_app; unfold heads at 2; cbn; now rewrite app_nil_r).
    assert (NEW : forall c, In c (names d) -> ~ In c (map fst m) -> know = true).
    { intros c Hc Hn. destruct KN as [KN|KN]; [assumption | destruct Hn; auto]. }
    split.
    - unfold step_rows. apply Forall_app. split; apply Forall_forall; intros r Hr; apply in_map_iff in Hr as [y [<- Hy]].
      + unfold row_ok. cbn [fst snd]. apply Forall2_app; [exact (proj1 (Forall_forall _ _) (m_rows M) y Hy)|].
        constructor; [|constructor]. unfold fix_cell. destruct (cell_of hdec (fst y) (desc_cells d)) as [[t|]|] eqn:E.
        * apply cell_of_typ in E. apply dtype_of_in; [apply S|]. now apply (s_known S).
        * exact Logic.I.
        * destruct (incomplete d) eqn:EI; [exact Logic.I|]. apply cell_of_none in E.
          unfold incomplete in EI. rewrite negb_false_iff, andb_true_iff in EI. destruct EI as [E1 E2].
          destruct (remaining d) eqn:ER; [discriminate|]. intros X. apply E. now apply (s_all S E1 ER).
      + unfold new_cells in Hy. apply filter_In in Hy as [Hy1 Hy2]. rewrite negb_true_iff, has_false in Hy2.
        assert (HN : In (fst y) (names d)) by (rewrite <- desc_cells_names; now apply in_map).
        pose proof (NEW _ HN Hy2) as K. unfold row_ok. cbn [fst snd]. apply Forall2_app.
        * assert (NH : ~ In (fst y) (heads css)) by (intros X; apply Hy2; now apply (m_know M K)).
          clear - NH. unfold heads in NH. induction css as [|c css IH]; cbn; constructor.
          -- intros X. apply NH. cbn. apply in_app_iff. now left.
          -- apply IH. intros X. apply NH. cbn. apply in_app_iff. now right.
        * constructor; [|constructor]. destruct y as [c [t|]]; cbn; [|exact Logic.I].
          apply dtype_of_in; [apply S|]. apply (s_known S). unfold desc_cells in Hy1.
          apply in_app_iff in Hy1 as [X|X]; apply in_map_iff in X as [y [E X]]; [|discriminate].
          destruct y as [c' t']. cbn in E. injection E as -> ->. exact X.
    - rewrite step_rows_names. apply NoDup_app_disjoint; [apply M | apply NoDup_filter, S |].
      intros c Hc Hc'. apply filter_In in Hc' as [_ Hc']. rewrite negb_true_iff, has_false in Hc'. contradiction.
    - rewrite step_rows_names, HA. apply incl_app; [apply incl_appl, (m_heads M)|].
      intros c Hc. apply filter_In in Hc as [Hc _]. apply in_app_iff. right. auto.
    - rewrite !andb_true_iff. intros [[K1 K2] K3]. destruct (remaining d) eqn:ER; [discriminate|].
      rewrite step_rows_names, HA. intros c Hc. apply in_app_iff. destruct (in_dec hdec c (map fst m)) as [J|J]; [now left|].
      right. apply filter_In. split; [|now rewrite negb_true_iff, has_false].
      apply in_app_iff in Hc as [Hc|Hc]; [destruct J; now apply (m_know M K1) | now apply (s_all S K2 ER)].
    - rewrite HA, appearing_app, (appearing_id (s_truth S)). unfold step_rows. rewrite filter_app, map_app. apply subseq_app.
      + apply (subseq_trans (l := map fst (filter unk_free m))); [|apply M]. clear.
        induction m as [|r m IH]; cbn; [constructor|].
        destruct (unk_free r) eqn:U.
        * destruct (unk_free (fst r, _)); cbn; [constructor | constructor]; exact IH.
        * replace (unk_free (fst r, _)) with false; [exact IH|]. symmetry. unfold unk_free in *. cbn [snd].
          rewrite negb_false_iff in *. now rewrite existsb_app, U.
      + unfold new_cells, desc_cells. rewrite filter_app, map_app, filter_app.
        rewrite (filter_none unk_free (map _ (filter _ (map (fun c => (c, Unk)) (unknown d))))).
        2: { intros r Hr. apply in_map_iff in Hr as [cx [<- Hr]]. apply filter_In in Hr as [Hr _].
             apply in_map_iff in Hr as [c [<- _]]. unfold unk_free. cbn. rewrite existsb_app. cbn. now rewrite orb_true_r. }
        rewrite app_nil_r.
        assert (X : map fst (filter unk_free (map (fun cx => (fst cx, repeat None (length css) ++ [Some (snd cx)]))
                      (filter (fun cx => negb (has (fst cx) (map fst m))) (map (fun ct => (fst ct, Typ (snd ct))) (known d)))))
                    = filter (fun c => negb (has c (map fst m))) (map fst (known d))).
        { clear. induction (known d) as [|[c t] k IH]; cbn; [reflexivity|]. destruct (negb (has c (map fst m))); cbn; [|exact IH].
          match goal with |- context [unk_free ?r] => assert (U : unk_free r = true) end.
          { unfold unk_free. cbn. rewrite existsb_app. cbn. rewrite !orb_false_r. clear. induction (length css); cbn; auto.
 }
          rewrite U. cbn. now f_equal. }
        rewrite X. apply subseq_filter2; [apply (subseq_map fst I)|]. intros c Hc. rewrite !negb_true_iff, !has_false. intros Hn Hh.
        apply Hn. apply (m_know M); [|assumption]. apply (NEW c); [apply in_app_iff; now left | assumption]. Qed.

  Lemma merge_loop vs vcs : Forall2 val_sound vs vcs -> Forall (fun cs => NoDup (header cs)) vcs -> Forall (fun v => v <> VNone) vs ->
    forall m know css seen,
    minv m know css -> incl seen (map fst m) -> no_late seen vs -> (know = true \/ Forall (fun v => incl (val_names v) (map fst m)) vs) ->
    exists m' know', fold_left merge_step vs (length css, m, know, false) = (length (css ++ vcs), m', know', false) /\
      minv m' know' (css ++ vcs).
  Proof. induction 1 as [|v cs vs vcs V F IH]; intros NS NV m know css seen M SE NL KN; cbn [fold_left].
    - exists m, know. rewrite app_nil_r. now split.
    - inversion_clear NS as [|? ? NS1 NS2]. inversion_clear NV as [|? ? NV1 NV2]. destruct NL as [NL1 NL2].
      assert (X : exists d, (forall st, merge_step st v = merge_step st (VDesc d)) /\ sound d cs /\ inorder d cs /\
                  names d = val_names v /\ (val_complete v -> know_all d = true /\ remaining d = None)).
      { destruct v as [d|s|]; [| |easy].
        - exists d. destruct V as (V1 & V2 & V3). split; [reflexivity|]. split; [assumption|]. split; [assumption|]. split; [reflexivity | easy].
        - cbn in V. subst s. exists (series_desc cs). destruct (series_sound hdec cs NS1) as (V1 & V2 & V3).
          split; [intros st; apply merge_step_series|]. split; [assumption|]. split; [assumption|]. split; [|easy].
          unfold names. cbn. apply app_nil_r. }
      destruct X as (d & ES & SD & ID & ND & CD). rewrite ES.
      rewrite merge_step_rows.
      2: { apply Forall_forall. intros r Hr. pose proof (proj1 (Forall_forall _ _) (m_rows M) r Hr) as RO.
           unfold row_ok in RO. clear - RO. induction RO; cbn; [reflexivity | now f_equal]. }
      assert (KD : know = true \/ incl (names d) (map fst m)).
      { destruct KN as [KN|KN]; [now left | right; rewrite ND; now inversion KN]. }
      pose proof (step_desc_inv M SD ID KD) as M'.
      assert (ROWS : incl (map fst m ++ names d) (map fst (step_rows (length css) m d))).
      { rewrite step_rows_names. intros c Hc. apply in_app_iff. destruct (in_dec hdec c (map fst m)) as [J|J]; [now left|].
        right. apply filter_In. rewrite negb_true_iff, has_false. split; [|assumption]. apply in_app_iff in Hc as [Hc|Hc]; [easy | assumption]. }
      assert (SE' : incl (seen ++ val_names v) (map fst (step_rows (length css) m d))).
      { intros c Hc. apply ROWS. rewrite ND. apply in_app_iff in Hc. apply in_app_iff. destruct Hc; [left; auto | now right]. }
      replace (S (length css)) with (length (css ++ [cs])) by (rewrite app_length; cbn; lia).
      destruct (IH NS2 NV2 _ _ (css ++ [cs]) (seen ++ val_names v) M' SE' NL2) as (m' & know' & E & M'').
      { destruct KN as [KN|KN].
        - destruct NL1 as [NL1|NL1].
          + left. destruct (CD NL1) as [C1 C2]. now rewrite KN, C1, C2.
          + right. apply Forall_forall. intros v' Hv'. rewrite Forall_forall in NL1. intros c Hc. apply SE'. now apply (NL1 v' Hv').
        - right. inversion_clear KN as [|? ? KN1 KN2]. apply Forall_forall. intros v' Hv'. rewrite Forall_forall in KN2.
          intros c Hc. apply ROWS, in_app_iff. left. now apply (KN2 v' Hv'). }
      exists m', know'. rewrite <- app_assoc in E, M''. now split. Qed.

  (** When a value is missing altogether, only names are kept. *)
  Lemma merge_lost vs vcs : Forall2 val_sound vs vcs -> Forall (fun cs => NoDup (header cs)) vcs ->
    forall w m know lost css, Forall (fun r => length (snd r) = w) m -> NoDup (map fst m) -> incl (map fst m) (heads css) ->
    (lost = true -> know = false) ->
    exists w' m' know' lost', fold_left merge_step vs (w, m, know, lost) = (w', m', know', lost') /\
      NoDup (map fst m') /\ incl (map fst m') (heads (css ++ vcs)) /\ (lost' = true -> know' = false) /\
      (lost' = false -> Forall (fun v => v <> VNone) vs).
  Proof. induction 1 as [|v cs vs vcs V F IH]; intros NS w m know lost css L N I K; cbn [fold_left].
    - exists w, m, know, lost. rewrite app_nil_r. repeat (split; [assumption || reflexivity|]). constructor.
    - inversion_clear NS as [|? ? NS1 NS2].
      assert (X : v = VNone \/ exists d, (forall st, merge_step st v = merge_step st (VDesc d)) /\ sound d cs).
      { destruct v as [d|s|]; [| |now left]; right.
        - exists d. split; [reflexivity | apply V].
        - cbn in V. subst s. exists (series_desc cs). destruct (series_sound hdec cs NS1) as (V1 & V2 & V3).
          split; [intros st; apply merge_step_series | assumption]. }
      assert (IC : forall m' : matrix, incl (map fst m') (heads css) -> incl (map fst m') (heads (css ++ [cs]))).
      { intros m' X'. rewrite heads_app. now apply incl_appl. }
      destruct X as [->|(d & ES & SD)].
      + cbn [DtypeModel.merge_step]. destruct (IH NS2 w m false true (css ++ [cs]) L N (IC _ I)) as (w' & m' & k' & l' & E & A1 & A2 & A3 & A4); [easy|].
        exists w', m', k', l'. rewrite <- app_assoc in A2. split; [assumption|]. split; [assumption|]. split; [assumption|]. split; [assumption|].
        intros ->. exfalso. clear - E. assert (Y : forall st, snd st = true -> snd (fold_left merge_step vs st) = true).
        { clear E. induction vs as [|v vs IH]; intros st; cbn [fold_left]; [easy|]. intros Y. apply IH. destruct st as [[[a b] c] l]. cbn in Y. subst l. now destruct v. }
        specialize (Y (w, m, false, true) eq_refl). rewrite E in Y. discriminate.
      + rewrite ES, (merge_step_rows _ _ _ L).
        destruct (IH NS2 (S w) (step_rows w m d) (know && know_all d && match remaining d with None => true | Some _ => false end) lost (css ++ [cs]))
          as (w' & m' & k' & l' & E & A1 & A2 & A3 & A4).
        * unfold step_rows. apply Forall_app. split; apply Forall_forall; intros r Hr; apply in_map_iff in Hr as [y [<- Hy]]; cbn.
          -- rewrite app_length. rewrite Forall_forall in L. rewrite (L y Hy). cbn. lia.
          -- rewrite app_length, repeat_length. cbn. lia.
        * rewrite step_rows_names. apply NoDup_app_disjoint; [assumption | apply NoDup_filter, SD |].
          intros c Hc Hc'. apply filter_In in Hc' as [_ Hc']. rewrite negb_true_iff, has_false in Hc'. contradiction.
        * rewrite step_rows_names, heads_app. apply incl_app; [now apply incl_appl|]. apply incl_appr. unfold heads. cbn. rewrite app_nil_r.
          intros c Hc. apply filter_In in Hc as [Hc _]. revert c Hc. apply names_incl; apply SD.
        * intros ->. now rewrite (K eq_refl).
        * exists w', m', k', l'. rewrite <- app_assoc in A2. split; [assumption|]. split; [assumption|]. split; [assumption|]. split; [assumption|].
          intros X. constructor; [|now apply A4]. destruct v; try discriminate.
          specialize (ES (0, [], true, false)). cbn in ES. congruence. Qed.

  Lemma stacked_header css : header (stacked hdec common tfloat css) = appearing (heads css).
  Proof. unfold stacked, header at 1. rewrite map_map. cbn. now rewrite map_id. Qed.

  Lemma flat_map_known (f : H -> T) m :
    (forall r, In r m -> unk_free r = true -> combine_dtypes common tfloat (snd r) = Typ (f (fst r))) ->
    flat_map (fun cx => match snd cx with Typ t => [(fst cx, t)] | Unk => [] end)
      (map (fun r => (fst r, combine_dtypes common tfloat (snd r))) m)
    = map (fun c => (c, f c)) (map fst (filter unk_free m)).
  Proof. induction m as [|r m IH]; intros E; cbn; [reflexivity|].
    assert (IH' := IH (fun r' Hr' => E r' (or_intror Hr'))).
    destruct (unk_free r) eqn:U.
    - rewrite (E r (or_introl eq_refl) U). cbn. now rewrite IH'.
    - unfold combine_dtypes at 1. unfold unk_free in U. rewrite negb_false_iff in U. rewrite U. exact IH'. Qed.

  Theorem merge_good vs css d :
    Forall2 val_sound vs css -> Forall (fun cs => NoDup (header cs)) css -> (no_late [] vs \/ In VNone vs) ->
    merge_dtypes hdec common tfloat vs = Ok d -> good d (stacked hdec common tfloat css) false.
  Proof. intros F N NL E. unfold merge_dtypes in E.
    destruct (merge_lost F N) with (w := 0) (m := @nil (H * list (option (@cell T)))) (know := true) (lost := false) (css := @nil (list (H * T)))
      as (w' & m' & know' & lost' & EF & A1 & A2 & A3 & A4); [constructor | constructor | easy | easy |].
    rewrite EF in E. set (ts := stacked hdec common tfloat css).
    assert (HD : header ts = appearing (heads css)) by apply stacked_header.
    assert (ND : NoDup (header ts)) by (rewrite HD; apply appearing_NoDup).
    cbn [app] in A2. destruct lost'.
    - (* only names *)
      assert (ED : known d = [] /\ remaining d = None).
      { revert E. unfold DtypeModel.init. destruct (_ && _); [discriminate|]. destruct (dup _); [discriminate|].
        destruct (dup _); [discriminate|]. unfold DtypeModel.columns_order. cbn. now intros [= <-]. }
      eapply (@init_sound H T hdec _ _ _ _ _ _ _ _ ts) in E; cbn; try easy.
      + destruct E as (S & A & _ & _). destruct ED as [ED1 ED2]. split; [assumption|]. split; [left; unfold inorder; rewrite ED1; constructor|].
        split; [intros r X; congruence|]. split; [congruence | assumption].
      + intros c Hc. rewrite HD. apply appearing_in. auto.
      + rewrite A3 by reflexivity. discriminate.
    - assert (NV : Forall (fun v => v <> VNone) vs) by now apply A4.
      destruct NL as [NL|NL]; [|rewrite Forall_forall in NV; now destruct (NV _ NL)].
      assert (M0 : minv [] true []) by (split; [constructor | constructor | easy | easy | constructor]).
      destruct (merge_loop F N NV (seen := []) M0) as (m & know & EF' & M); [easy | assumption | now left |].
      cbn [app] in EF', M. pose proof (eq_trans (eq_sym EF) EF') as EE. injection EE as -> -> ->.
      set (f := fun c => common (map (fun cs => match dtype_of c cs with Some t => t | None => tfloat end) css)).
      rewrite (flat_map_known f) in E.
      2: { intros r Hr U. unfold combine_dtypes. unfold unk_free in U. rewrite negb_true_iff in U. rewrite U. f_equal.
           unfold f. f_equal. pose proof (proj1 (Forall_forall _ _) (m_rows M) r Hr) as RO. unfold row_ok in RO. clear - RO U.
           revert U. induction RO as [|cs x css xs X RO IH]; cbn; [reflexivity|]. intros U. apply orb_false_iff in U as [U1 U2].
           f_equal; [|now apply IH]. destruct x as [[t|]|]; [now rewrite X | discriminate |].
           now rewrite (proj2 (dtype_of_none hdec (fst r) cs) X). }
      set (K := map (fun c => (c, f c)) (map fst (filter unk_free m))) in E.
      set (U := flat_map _ _) in E.
      assert (TS : ts = map (fun c => (c, f c)) (appearing (heads css))) by reflexivity.
      assert (SK : subseq K ts) by (rewrite TS; apply subseq_map, (m_order M)).
      assert (KN : map fst K = map fst (filter unk_free m)) by (unfold K; rewrite map_map; cbn; now rewrite map_id).
      assert (UN : U = map fst (filter (fun r => negb (unk_free r)) m)).
      { unfold U. clear. induction m as [|r m IH]; cbn; [reflexivity|]. unfold combine_dtypes at 1, unk_free at 1.
        destruct (existsb _ (snd r)); cbn; now rewrite IH. }
      assert (KU : forall c, In c (map fst K ++ U) <-> In c (map fst m)).
      { intros c. rewrite KN, UN, in_app_iff, !in_map_iff. split.
        - intros [[r [E1 X]]|[r [E1 X]]]; apply filter_In in X as [X _]; now exists r.
        - intros [r [E1 X]]. destruct (unk_free r) eqn:EU; [left | right]; exists r; rewrite filter_In, EU; now split. }
      assert (ED : known d = K /\ remaining d = None).
      { revert E. unfold DtypeModel.init. destruct (_ && _); [discriminate|]. destruct (dup _); [discriminate|].
        destruct (dup _); [discriminate|]. unfold DtypeModel.columns_order. cbn. now intros [= <-]. }
      eapply (@init_sound H T hdec _ _ _ _ _ _ _ _ ts) in E; cbn; try easy.
      + destruct E as (S & A & _ & _). destruct ED as [ED1 ED2]. split; [assumption|]. split; [left; unfold inorder; now rewrite ED1|].
        split; [intros r X; congruence|]. split; [congruence | assumption].
      + intros c Hc Hc'. rewrite KN in Hc. rewrite UN in Hc'. clear - Hc Hc' M. pose proof (m_nodup M) as N. clear M.
        induction m as [|r m IH]; cbn in *; [easy|]. inversion_clear N as [|? ? N1 N2].
        assert (XF : forall q, In c (map fst (filter q m)) -> In c (map fst m)).
        { intros q X. apply in_map_iff in X as [y [<- X]]. apply filter_In in X as [X _]. now apply in_map. }
        destruct (unk_free r); cbn in *.
        * destruct Hc as [<-|Hc]; [apply N1; now apply XF in Hc' | now apply IH].
        * destruct Hc' as [<-|Hc']; [apply N1; now apply XF in Hc | now apply IH].
      + now apply subseq_incl.
      + intros c Hc. rewrite HD. apply appearing_in. apply (m_heads M). apply KU. apply in_app_iff. now right.
      + intros X _. rewrite HD. intros c Hc. rewrite appearing_in in Hc. apply KU. exact (m_know M X c Hc). Qed.
End Proofs.
