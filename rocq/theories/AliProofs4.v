(** Careful histories, step by step; and writing through a selected column. *)
From Verif Require Import Base AliSpec AliModel AliProofs AliProofs2 AliProofs3.

Section Careful.
Variables (L A : Type) (leqb : L -> L -> bool) (nan zero : A) (lab : nat -> L).
Notation table := (table L A).
Notation op := (op L A).
Notation mst := (mst L A).
Notation pst := (pst L A).
Notation pread := (pread nan).
Notation update_inplace := (update_inplace leqb nan zero).
Notation m_step := (m_step leqb nan zero lab).
Notation m_run := (m_run leqb nan zero lab).
Notation p_step := (p_step leqb nan lab).
Notation p_run := (p_run leqb nan lab).
Notation sim := (sim nan).

Lemma fams_same (h : list op) : careful h -> fams true h = fams false h.
Proof. induction 1 as [|h x C IH O]; [reflexivity|]. rewrite !fams_snoc.
  destruct x; cbn [creates shares careful_op] in *; try easy; rewrite IH; reflexivity. Qed.

Lemma proper_empty : proper (empty_table L A).
Proof. split; [reflexivity | constructor]. Qed.

Lemma touched_unknown P (s s' : mst) o : touched P s s' -> size s <= o -> mread s' o = mread s o.
Proof. intros T H. unfold mread, known. fold (size s') (size s). rewrite (same_size T).
  destruct (Nat.ltb_spec o (size s)); [lia | reflexivity]. Qed.

Lemma pick_length X (ks : list nat) (l : list X) n : length l = n ->
  length (pick_rows ks l) = length (pick_rows ks (repeat tt n)).
Proof. intros <-. induction ks as [|k ks IH]; [reflexivity|]. unfold pick_rows in *. cbn [flat_map].
  rewrite !app_length, IH. f_equal.
  destruct (nth_error l k) eqn:E, (nth_error (repeat tt (length l)) k) eqn:E'; auto; exfalso.
  - apply nth_error_None in E'. rewrite repeat_length in E'. assert (k < length l) by (apply nth_error_Some; congruence). lia.
  - apply nth_error_None in E. assert (k < length (repeat tt (length l))) by (apply nth_error_Some; congruence).
    rewrite repeat_length in H. lia. Qed.

Lemma where_lt l ls j : where_ leqb l ls = Some j -> j < length ls.
Proof. clear nan zero lab. revert j; induction ls as [|x ls IH]; intros j H; cbn in *; [easy|].
  destruct (leqb x l); [injection H as <-; lia|]. destruct (where_ leqb l ls) as [k|]; [|easy].
  cbn in H. injection H as <-. specialize (IH k eq_refl). lia. Qed.

Lemma in_put X j (x y : X) l : In y (put j x l) -> y = x \/ In y l.
Proof. revert j; induction l as [|z l IH]; intros [|j] H; cbn in *; auto.
  - destruct H as [->|H]; auto.
  - destruct H as [->|H]; auto. destruct (IH j H); auto. Qed.
Lemma map_put_out X Y (f : X -> Y) j x l : map f (put j x l) = put j (f x) (map f l).
Proof. revert j; induction l as [|z l IH]; intros [|j]; cbn; auto. now rewrite IH. Qed.
Lemma nodup_put (l : list nat) j x : NoDup l -> ~ In x l -> NoDup (put j x l).
Proof. revert j; induction l as [|z l IH]; intros [|j] N H; cbn; auto.
  - inversion N; subst. constructor; auto. intros C. apply H. now right.
  - inversion N; subst. constructor.
    + intros C. apply in_put in C. destruct C as [->|C]; auto. apply H. now left.
    + apply IH; auto. intros C. apply H. now right. Qed.
Lemma nodup_snoc (l : list nat) x : NoDup l -> ~ In x l -> NoDup (l ++ [x]).
Proof. intros N H. apply NoDup_rev in N. rewrite <- (rev_involutive (l ++ [x])). apply NoDup_rev.
  rewrite rev_app_distr. cbn. constructor; auto. now rewrite <- in_rev. Qed.

Lemma proper_item l vals (t : table) : proper t -> length vals = length (t_rows t) -> proper (item_set leqb l vals t).
Proof. intros [N F] E. unfold item_set. destruct (where_ leqb l (t_names t)) as [j|]; split; cbn [t_names t_cols t_rows].
  - now rewrite length_put.
  - rewrite Forall_forall in *. intros c Ic. apply in_put in Ic. destruct Ic as [->|Ic]; auto.
  - rewrite !app_length. cbn. lia.
  - apply Forall_app. split; auto. Qed.

Lemma proper_rows ks (t : table) : proper t -> proper (rows_kept ks t).
Proof. intros [N F]. split; cbn [rows_kept t_names t_cols t_rows]; [now rewrite map_length|].
  rewrite Forall_forall in *. intros c Ic. apply in_map_iff in Ic. destruct Ic as (c0 & <- & I0).
  rewrite (pick_length ks c0 (F c0 I0)). symmetry. now apply pick_length. Qed.

(** An update in place of an object alone, seen from both sides. *)
Lemma alone_update (h : list op) (p : pst) (s : mst) o t ext x :
  inv (kinds h) (fams false h) (fams false h) s -> sim (fams false h) p s -> o < size s ->
  (forall y, y < size s -> nth y (fams false h) 0 = nth o (fams false h) 0 -> y = o) ->
  proper t -> p_kind x = mkind s o -> p_rows x = t_rows t -> p_names x = t_names t ->
  map (cells nan (PSt (p_buf p ++ ext) (put o x (p_objs p)))) (p_refs x) = t_cols t ->
  wf_refs (p_buf p ++ ext) (p_refs x) ->
  (forall r, In r (p_refs x) -> In (fst r) (map fst (refs p o)) \/ length (p_buf p) <= fst r) ->
  sim (fams false h) (PSt (p_buf p ++ ext) (put o x (p_objs p))) (update_inplace o t s).
Proof. intros I S Ho Al Pt Kx Rx Nx Cx Wx Fr.
  pose proof (update_inv leqb nan zero o t I) as T.
  refine (sim_alone _ ext x S Ho Al _ _ _ _ _ Pt Kx Rx Nx Cx Wx Fr).
  - apply (same_size T).
  - apply (same_kind T).
  - apply (same_parent T).
  - eapply update_seen; eauto.
  - intros y N. destruct (Nat.lt_ge_cases y (size s)) as [Hy|Hy].
    + apply (touched_read T); [apply I|]. intros C. apply N. now apply Al.
    + eapply touched_unknown; eauto. Qed.

Lemma sim_objs sf (p : pst) (s : mst) ext o x : sim sf p s -> size s <= o ->
  sim sf (PSt (p_buf p ++ ext) (put o x (p_objs p))) s.
Proof. intros [c1 c2 c3 c4 c5 c6 c7 c8 c9] Ho. rewrite put_out by lia.
  assert (R : forall y, pread (PSt (p_buf p ++ ext) (p_objs p)) y = pread p y).
  { intros y. unfold AliSpec.pread. change (pobject (PSt (p_buf p ++ ext) (p_objs p)) y) with (pobject p y).
    f_equal. apply map_ext_in. intros r Hr. destruct (c7 y) as [_ W]. destruct (W r Hr) as [W1 _].
    unfold cells. cbn [p_buf]. now rewrite app_nth1. }
  split; auto.
  - intros y. rewrite R. apply c5.
  - intros y. apply wf_more. apply (c7 y). Qed.

Lemma sim_same sf (p : pst) (s s' : mst) : sim sf p s -> size s' = size s ->
  (forall o, mkind s' o = mkind s o) -> (forall o, parent s' o = parent s o) -> (forall o, mread s' o = mread s o) ->
  sim sf p s'.
Proof. intros [c1 c2 c3 c4 c5 c6 c7 c8 c9] E1 E2 E3 E4. split; auto.
  - congruence.
  - intros o. now rewrite E2.
  - intros o. now rewrite E2.
  - intros o. now rewrite E3.
  - intros o. now rewrite E4.
  - intros o. now rewrite E4.
  - intros x y. rewrite E1, !E4. apply c8.
  - intros x y r r'. rewrite E1. apply c9. Qed.

Lemma sim_unknown (h : list op) (p : pst) (s : mst) o t ext x :
  inv (kinds h) (fams false h) (fams false h) s -> sim (fams false h) p s -> size s <= o ->
  sim (fams false h) (PSt (p_buf p ++ ext) (put o x (p_objs p))) (update_inplace o t s).
Proof. intros I S Ho. pose proof (update_unknown_touched leqb nan zero (fun _ => False) t (length (m_objs s)) Ho (i_pointed I)) as T.
  apply sim_same with (s := s); [now apply sim_objs | apply (same_size T) | apply (same_kind T) | apply (same_parent T)|].
  intros y. apply (touched_read T); [apply I | easy]. Qed.

Lemma relabel_facts (s : mst) o t : pointed s ->
  size (relabel o t s) = size s /\ (forall y, mkind (relabel o t s) y = mkind s y) /\
  (forall y, parent (relabel o t s) y = parent s y) /\ (o < size s -> mread (relabel o t s) o = t).
Proof. intros Pt. unfold relabel. destruct (known s o) eqn:K; repeat split; auto.
  - intros Ho. unfold mread. unfold known in *. cbn [m_objs] in *. rewrite K. cbn [m_qcs].
    apply nth_put_same. apply (Pt o Ho).
  - intros Ho. unfold known in K. apply Nat.ltb_ge in K. unfold size in Ho. lia. Qed.

Lemma alone_relabel (h : list op) (p : pst) (s : mst) o rows names :
  inv (kinds h) (fams false h) (fams false h) s -> sim (fams false h) p s ->
  (forall y, y < size s -> o < size s -> nth y (fams false h) 0 = nth o (fams false h) 0 -> y = o) ->
  length rows = length (t_rows (mread s o)) -> length names = length (t_names (mread s o)) ->
  sim (fams false h) (PSt (p_buf p) (put o (PObj (p_kind (pobject p o)) rows names (p_refs (pobject p o))) (p_objs p)))
      (relabel o (Tab rows names (t_cols (mread s o))) s).
Proof. intros I S Al Er En. rewrite <- (app_nil_r (p_buf p)) at 1.
  destruct (Nat.lt_ge_cases o (size s)) as [Ho|Ho].
  2: { unfold relabel, known. destruct (Nat.ltb_spec o (length (m_objs s))); [unfold size in Ho; lia|].
       now apply sim_objs. }
  destruct (relabel_facts o (Tab rows names (t_cols (mread s o))) (i_pointed I)) as (F1 & F2 & F3 & F4).
  eapply sim_alone with (t := Tab rows names (t_cols (mread s o))); eauto.
  - intros y Ny. destruct (Nat.lt_ge_cases y (size s)) as [Hy|Hy].
    + eapply relabel_read; eauto.
    + unfold relabel. destruct (known s o); auto. unfold mread, known. cbn [m_objs].
      destruct (Nat.ltb_spec y (length (m_objs s))); [unfold size in Hy; lia | reflexivity].
  - destruct (s_proper S o) as [P1 P2]. split; cbn [t_names t_cols t_rows]; [congruence|]. now rewrite Er.
  - apply (s_kind S).
  - cbn [p_refs t_cols]. rewrite <- (s_read S o). rewrite app_nil_r. reflexivity.
  - rewrite app_nil_r. apply (s_refs S o).
  - intros r Ir. left. now apply in_map. Qed.

Lemma careful_sim (h : list op) : careful h -> sim (fams false h) (p_run h) (m_run h).
Proof. induction 1 as [|h x C S O].
  - split; cbn; auto; try (intros; unfold size in *; cbn in *; lia).
    + now intros [|o]. + intros [|o]; discriminate. + now intros [|o]. + now intros [|o].
    + intros [|o]; apply proper_empty.
    + intros [|o]; apply wf_nil.
  - pose proof (run_inv leqb nan zero lab h) as I. rewrite (fams_same C) in I.
    unfold AliSpec.p_run, AliModel.m_run in *. rewrite !fold_left_app. cbn [fold_left].
    fold (p_run h) (m_run h) in *. unfold AliSpec.p_run, AliModel.m_run in *.
    set (p := fold_left p_step h (PSt [] [])) in *. set (s := fold_left m_step h (MSt [] [])) in *.
    rewrite fams_snoc.
    pose proof (s_kind S) as K. pose proof (s_read S) as R. pose proof (i_sf I) as Lsf.
    assert (Alone : forall o, alone h o -> forall y, y < size s -> o < size s ->
              nth y (fams false h) 0 = nth o (fams false h) 0 -> y = o).
    { intros o Al y Hy Ho E. apply Al. unfold related. rewrite (fams_same C), <- Lsf. auto. }
    assert (Rep : forall y, y < size s -> nth y (fams false h) 0 <> size s).
    { intros y Hy. pose proof (i_rep I Hy). lia. }
    assert (NEW : forall k (t : table), k <> Arr -> proper t ->
              sim (fams false h ++ [length (fams false h)]) (p_new p k t) (create s k t None)).
    { intros k t Ka Pt. rewrite <- Lsf. unfold p_new.
      change (create s k t None) with (appended s [t] (MObj k (length (m_qcs s)) [] None)).
      eapply sim_snoc with (k := k) (t := t); eauto.
      - apply app_size. - apply mkind_app. - apply par_app.
      - intros o. rewrite mread_app by apply I. destruct (o =? size s); auto.
        cbn [m_qc]. now rewrite app_nth2, Nat.sub_diag by lia.
      - apply fresh_cells.
      - apply fresh_wf.
      - exists 0. right. split; auto. split; auto. apply fresh_wf. }
    assert (DEAD : forall k, k <> Arr -> sim (fams false h ++ [length (fams false h)]) (p_share p (dead k)) (nothing s k)).
    { intros k Ka. specialize (NEW k (empty_table L A) Ka proper_empty). unfold p_new in NEW. cbn in NEW.
      rewrite app_nil_r in NEW. exact NEW. }
    assert (LINK : forall o k qs q, o < size s -> k = mkind s o ->
              (q = length (m_qcs s) /\ qs = [mread s o] \/ q = qc s o /\ qs = []) ->
              sim (fams false h ++ [nth o (fams false h) (length (fams false h))]) (p_share p (pobject p o))
                  (add_sibling (appended s qs (MObj k q [] None)) o (size s))).
    { intros o k qs q Ho -> Hq. rewrite (nth_tf_default (fams false h)) by lia. unfold p_share.
      rewrite <- (app_nil_r (p_buf p)).
      destruct (@add_ok L A (appended s qs (MObj (mkind s o) q [] None)) o (size s)) as [B _].
      { rewrite app_size. lia. } { rewrite app_size. lia. } { lia. } { unfold sibs. now rewrite app_new. }
      { intros y Hy. unfold sibs in Hy. rewrite app_old in Hy by lia. rewrite app_size.
        destruct (i_sibs I y Ho Hy). lia. }
      pose proof B as (B1 & B2 & B3).
      eapply sim_snoc with (k := mkind s o) (t := mread s o); eauto.
      - rewrite B1. apply app_size.
      - intros y. destruct (B3 y) as (-> & _). apply mkind_app.
      - intros y. destruct (B3 y) as (_ & _ & ->). apply par_app.
      - intros y. rewrite (mread_but _ B), mread_app by apply I. destruct (y =? size s); auto. cbn [m_qc].
        destruct Hq as [[-> ->]|[-> ->]].
        + now rewrite app_nth2, Nat.sub_diag by lia.
        + rewrite app_nil_r. unfold mread, known. fold (size s). destruct (Nat.ltb_spec o (size s)); [reflexivity | lia].
      - apply (s_noarr S).
      - apply (s_proper S).
      - rewrite <- R. reflexivity.
      - rewrite <- R. reflexivity.
      - rewrite <- R, app_nil_r. reflexivity.
      - rewrite app_nil_r. apply (s_refs S o).
      - exists o. left. auto. }
    destruct x as [k t|o|o|o|o|o l|o j|o a b|o i j v|o l vals|o kk|o ls|o ls];
      cbn [creates shares careful_op AliModel.m_step AliSpec.p_step] in *; try easy.
    + destruct O. now apply NEW.
    + rewrite K, R. pose proof (s_noarr S o) as Na. destruct (mkind s o) eqn:Ek; cbn [is_array]; try easy;
        apply NEW; try easy; apply (s_proper S).
    + destruct (known s o) eqn:E.
      * apply Nat.ltb_lt in E. pose proof (s_noarr S o) as Na.
        destruct (mkind s o) eqn:Ek; cbn [is_array]; try easy;
          rewrite <- (app_nil_r (m_qcs s)) at 1; apply (LINK o _ []); auto.
      * apply Nat.ltb_ge in E. fold (size s) in E. rewrite (nth_overflow (fams false h)) by lia.
        assert (D : pobject p o = dead Frame) by (apply nth_overflow; rewrite (s_size S); lia).
        rewrite D. unfold mkind. rewrite (unknown_obj s E). apply DEAD. easy.
    + assert (Kk : nth o (kinds h) Frame = mkind s o) by (symmetry; apply (i_kind I)). rewrite K, Kk.
      destruct (is_frame (mkind s o)) eqn:Ef; [|now apply DEAD].
      assert (Ek : Frame = mkind s o) by (destruct (mkind s o); easy).
      destruct (known s o) eqn:E.
      * apply Nat.ltb_lt in E. apply (LINK o _ [mread s o]); auto.
      * apply Nat.ltb_ge in E. fold (size s) in E. rewrite (nth_overflow (fams false h)) by lia.
        assert (D : pobject p o = dead Frame) by (apply nth_overflow; rewrite (s_size S); lia).
        rewrite D. apply DEAD. easy.
    + rewrite R. destruct (in_table i j (mread s o)) eqn:It; [|exact S].
      assert (Ho : o < size s).
      { unfold in_table, mread, known in It. fold (size s) in It. destruct (Nat.ltb_spec o (size s)) as [H|H]; auto.
        cbn in It. easy. }
      pose proof (update_inv leqb nan zero o (cell_set i j v (mread s o)) I) as T.
      refine (sim_write (s := s) (o := o) _ S Ho It _ _ _ _ _).
      * apply (same_size T). * apply (same_kind T). * apply (same_parent T).
      * intros y Hy E. eapply update_seen; eauto.
      * intros y Ny. destruct (Nat.lt_ge_cases y (size s)) as [Hy|Hy].
        -- apply (touched_read T); [apply I|]. tauto.
        -- eapply touched_unknown; eauto.
    + rewrite K, R. destruct (is_frame (mkind s o) && can_set leqb l vals (mread s o)) eqn:G; [|exact S].
      apply andb_true_iff in G. destruct G as [Gf G]. unfold can_set in G. apply andb_true_iff in G.
      destruct G as [G _]. apply Nat.eqb_eq in G.
      destruct (Nat.lt_ge_cases o (size s)) as [Ho|Ho]; [|now apply sim_unknown].
      assert (Names : p_names (pobject p o) = t_names (mread s o)) by (rewrite <- R; reflexivity).
      assert (Rows : p_rows (pobject p o) = t_rows (mread s o)) by (rewrite <- R; reflexivity).
      assert (Cols : map (cells nan p) (refs p o) = t_cols (mread s o)) by (rewrite <- R; reflexivity).
      destruct (s_refs S o) as [ND W].
      assert (Fresh : ~ In (length (p_buf p)) (map fst (refs p o))).
      { intros H. apply in_map_iff in H. destruct H as (r & E & Ir). destruct (W r Ir). lia. }
      assert (Cold : forall objs : list (pobj L), map (cells nan (PSt (p_buf p ++ [vals]) objs)) (refs p o) = t_cols (mread s o)).
      { intros objs. rewrite <- Cols. apply map_ext_in. intros r Ir. destruct (W r Ir) as [W1 _].
        unfold cells. cbn [p_buf]. now rewrite app_nth1. }
      assert (Cnew : forall objs : list (pobj L), cells nan (PSt (p_buf p ++ [vals]) objs) (length (p_buf p), seq 0 (length vals)) = vals).
      { intros objs. rewrite cells_whole; cbn [fst snd p_buf]; now rewrite app_nth2, Nat.sub_diag by lia. }
      assert (Wnew : forall r, r = (length (p_buf p), seq 0 (length vals)) \/ In r (refs p o) ->
                fst r < length (p_buf p ++ [vals]) /\ snd r = seq 0 (length (nth (fst r) (p_buf p ++ [vals]) []))).
      { intros r [->|Ir].
        - cbn [fst snd]. rewrite app_length, app_nth2, Nat.sub_diag by lia. cbn. split; [lia | reflexivity].
        - destruct (W r Ir) as [W1 W2]. rewrite app_length, app_nth1 by lia. split; [lia | exact W2]. }
      assert (Kf : Frame = mkind s o) by (destruct (mkind s o); easy).
      eapply alone_update; eauto.
      * now apply proper_item; [apply (s_proper S)|].
      * destruct (where_ leqb l (p_names (pobject p o))); exact Kf.
      * unfold item_set. rewrite <- Names. destruct (where_ leqb l (p_names (pobject p o))); exact Rows.
      * unfold item_set. rewrite <- Names. destruct (where_ leqb l (p_names (pobject p o))); cbn; auto.
      * unfold item_set. rewrite <- Names. destruct (where_ leqb l (p_names (pobject p o))) as [j|]; cbn [p_refs t_cols].
        -- rewrite map_put_out. fold (refs p o). now rewrite Cnew, Cold.
        -- rewrite map_app. fold (refs p o). rewrite Cold. cbn [map]. now rewrite Cnew.
      * destruct (where_ leqb l (p_names (pobject p o))) as [j|]; cbn [p_refs]; fold (refs p o); split.
        -- rewrite map_put_out. now apply nodup_put.
        -- intros r Ir. apply Wnew. now apply in_put in Ir.
        -- rewrite map_app. now apply nodup_snoc.
        -- intros r Ir. apply Wnew. apply in_app_iff in Ir. destruct Ir as [Ir|[<-|[]]]; auto.
      * intros r Ir. assert (Q : r = (length (p_buf p), seq 0 (length vals)) \/ In r (refs p o)).
        { destruct (where_ leqb l (p_names (pobject p o))) as [j|]; cbn [p_refs] in Ir; fold (refs p o) in Ir.
          - now apply in_put in Ir.
          - apply in_app_iff in Ir. destruct Ir as [Ir|[<-|[]]]; auto. }
        destruct Q as [->|Q]; [right; cbn; lia | left; now apply in_map].
    + rewrite K, R. pose proof (s_noarr S o) as Na.
      assert (Ea : is_array (mkind s o) = false) by (destruct (mkind s o); easy). rewrite Ea.
      destruct (Nat.lt_ge_cases o (size s)) as [Ho|Ho]; [|now apply sim_unknown].
      eapply alone_update; eauto.
      * apply proper_rows, (s_proper S).
      * apply fresh_cells.
      * apply fresh_wf.
      * intros r Ir. right. now apply (fresh_wf p (t_cols (rows_kept kk (mread s o)))).
    + rewrite K. assert (Names : p_names (pobject p o) = t_names (mread s o)) by (rewrite <- R; reflexivity).
      assert (Rows : p_rows (pobject p o) = t_rows (mread s o)) by (rewrite <- R; reflexivity).
      rewrite Names, Rows. destruct (_ && _) eqn:G; [|exact S].
      apply andb_true_iff in G. destruct G as [_ G]. apply Nat.eqb_eq in G. rewrite <- K.
      apply alone_relabel; auto.
    + rewrite K. assert (Names : p_names (pobject p o) = t_names (mread s o)) by (rewrite <- R; reflexivity).
      assert (Rows : p_rows (pobject p o) = t_rows (mread s o)) by (rewrite <- R; reflexivity).
      rewrite Names, Rows. destruct (_ && _) eqn:G; [|exact S].
      apply andb_true_iff in G. destruct G as [_ G]. apply Nat.eqb_eq in G. rewrite <- K.
      apply alone_relabel; auto. Qed.

End Careful.
