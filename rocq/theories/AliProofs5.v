(** Writing through a selected column. *)
From Verif Require Import Base AliSpec AliModel AliProofs AliProofs2 AliProofs3 AliProofs4.

Section View.
Variables (L A : Type) (leqb : L -> L -> bool) (nan zero : A) (lab : nat -> L).
Hypothesis leqb_ok : forall x y, leqb x y = true <-> x = y.
Notation table := (table L A).
Notation op := (op L A).
Notation mst := (mst L A).
Notation update := (update leqb nan zero).
Notation m_step := (m_step leqb nan zero lab).
Notation m_run := (m_run leqb nan zero lab).

Lemma update_frame fuel o t (s : mst) : mkind s o = Frame -> update fuel o t s = replace_qc s o t.
Proof. intros E. destruct fuel; cbn [AliModel.update]; [reflexivity|]. now rewrite E. Qed.

Lemma align_same ls vals : align leqb nan ls ls vals = Some vals.
Proof. unfold align. now rewrite list_eqb_refl. Qed.

Lemma replace_other (s : mst) o t y : pointed s -> o < size s -> ~ In y (o :: sibs s o) ->
  mread (replace_qc s o t) y = mread s y.
Proof. intros Pt Ho N. assert (T : touched (fun z => In z (o :: sibs s o)) s (replace_qc s o t)).
  { apply replace_touched; auto; [now left|]. intros x Hx. now right. }
  apply (touched_read T Pt). exact N. Qed.

Lemma times_where l ls : times leqb l ls = 1 -> exists j, where_ leqb l ls = Some j /\ j < length ls.
Proof. induction ls as [|x ls IH]; intros H; cbn in *; [easy|]. unfold times in *. cbn in H.
  destruct (leqb x l); [exists 0; split; [reflexivity | lia]|].
  destruct (IH H) as (j & -> & Hj). exists (S j). split; [reflexivity | lia]. Qed.

Variables (h : list op) (o : nat) (l : L) (j : nat).
Notation s0 := (m_run h).
Notation t0 := (mread s0 o).
Hypothesis o_known : o < length (kinds h).
Hypothesis o_frame : nth o (kinds h) Frame = Frame.
Hypothesis o_proper : proper t0.
Hypothesis l_once : times leqb l (t_names t0) = 1.
Hypothesis l_at : where_ leqb l (t_names t0) = Some j.
Notation c0 := (nth j (t_cols t0) []).
Notation n := (length (kinds h)).

Definition writes (ws : list (nat * A)) (c : list A) : list A := fold_left (fun c w => put (fst w) (snd w) c) ws c.
Definition write_ops (ws : list (nat * A)) : list op := map (fun w => Write n (fst w) 0 (snd w)) ws.
Definition with_col (c : list A) : table := Tab (t_rows t0) (t_names t0) (put j c (t_cols t0)).

Lemma writes_length ws c : length (writes ws c) = length c.
Proof. unfold writes. revert c; induction ws as [|w ws IH]; intros c; cbn; auto. now rewrite IH, length_put. Qed.

Lemma put_put X k (a b : X) ls : put k a (put k b ls) = put k a ls.
Proof. revert k; induction ls as [|x ls IH]; intros [|k]; cbn; auto. now rewrite IH. Qed.
Lemma put_nth X k (d : X) ls : put k (nth k ls d) ls = ls.
Proof. revert k; induction ls as [|x ls IH]; intros [|k]; cbn; auto. now rewrite IH. Qed.

Lemma view_history ws : let h' := h ++ Column o l :: write_ops ws in
  kinds h' = kinds h ++ [Ser] /\ fams true h' = fams true h ++ [nth o (fams true h) 0] /\
  fams false h' = fams false h ++ [n] /\ parent (m_run h') n = Some (o, true) /\
  mread (m_run h') n = Tab (t_rows t0) [l] [writes ws c0] /\
  mread (m_run h') o = with_col (writes ws c0) /\
  (forall y, y < n -> ~ related false h o y -> mread (m_run h') y = mread s0 y).
Proof. induction ws as [|[i v] ws IH] using rev_ind; intros h'.
  - unfold h'. cbn [write_ops map writes fold_left]. rewrite kinds_snoc, !fams_snoc, run_snoc.
    pose proof (run_inv leqb nan zero lab h) as I.
    pose proof (i_kinds I) as Lk. pose proof (i_tf I) as Lt. pose proof (i_sf I) as Ls.
    cbn [creates shares made kind_step AliModel.m_step]. rewrite (i_kind I), o_frame. cbn [is_frame].
    rewrite l_once, l_at.
    assert (Hj : j < length (t_cols t0)) by (destruct o_proper as [<- _]; eapply where_lt; eauto).
    rewrite (nth_error_nth' _ [] Hj). repeat split.
    + rewrite (nth_indep _ (length (fams true h)) 0) by lia. reflexivity.
    + now rewrite <- Ls, Lk.
    + change (parent (appended s0 [Tab (t_rows t0) [l] [c0]] (MObj Ser (length (m_qcs s0)) [] (Some (o, true)))) n = Some (o, true)).
      rewrite par_app, Lk, Nat.eqb_refl. reflexivity.
    + change (mread (appended s0 [Tab (t_rows t0) [l] [c0]] (MObj Ser (length (m_qcs s0)) [] (Some (o, true)))) n = Tab (t_rows t0) [l] [c0]).
      rewrite mread_app by apply I. rewrite Lk, Nat.eqb_refl. cbn [m_qc]. now rewrite app_nth2, Nat.sub_diag by lia.
    + change (mread (appended s0 [Tab (t_rows t0) [l] [c0]] (MObj Ser (length (m_qcs s0)) [] (Some (o, true)))) o = with_col c0).
      rewrite mread_app by apply I. destruct (Nat.eqb_spec o (size s0)); [lia|].
      unfold with_col. rewrite put_nth. now destruct t0.
    + intros y Hy _.
      change (mread (appended s0 [Tab (t_rows t0) [l] [c0]] (MObj Ser (length (m_qcs s0)) [] (Some (o, true)))) y = mread s0 y).
      rewrite mread_app by apply I. destruct (Nat.eqb_spec y (size s0)); [lia | reflexivity].
  - set (h1 := h ++ Column o l :: write_ops ws) in *.
    assert (Eh : h' = h1 ++ [Write n i 0 v]).
    { unfold h', h1, write_ops. rewrite map_app. cbn [map fst snd]. now rewrite <- app_assoc. }
    clearbody h'. subst h'. cbn zeta in IH. destruct IH as (Hk & Ht & Hs & Hp & Rn & Ro & Ry).
    rewrite kinds_snoc, !fams_snoc, run_snoc. cbn [kind_step creates].
    pose proof (run_inv leqb nan zero lab h1) as I. set (s := m_run h1) in *.
    assert (Sz : size s = S n) by (rewrite (i_kinds I), Hk, app_length; cbn; lia).
    assert (Kn : mkind s n = Ser).
    { rewrite (i_kind I), Hk. now rewrite nth_snoc_new. }
    assert (Ko : mkind s o = Frame) by (rewrite (i_kind I), Hk, nth_snoc_old; auto).
    assert (Wr : writes (ws ++ [(i, v)]) c0 = put i v (writes ws c0)) by (unfold writes; now rewrite fold_left_app).
    rewrite Wr. cbn [AliModel.m_step]. rewrite Rn. unfold in_table. cbn [t_rows t_cols length].
    assert (Lc : length (writes ws c0) = length (t_rows t0)).
    { rewrite writes_length. destruct o_proper as [Nl F]. rewrite Forall_forall in F. apply F. apply nth_In.
      rewrite <- Nl. eapply where_lt; eauto. }
    change (0 <? 1) with true. rewrite andb_true_r.
    destruct (Nat.ltb_spec i (length (t_rows t0))) as [Hi|Hi].
    2: { rewrite put_out by lia. repeat split; auto. }
    unfold cell_set. cbn [t_rows t_names t_cols nth put].
    set (t1 := Tab (t_rows t0) [l] [put i v (writes ws c0)]).
    assert (Sf : forall y, y < n -> nth y (fams false h1) 0 = nth y (fams false h) 0).
    { intros y Hy. rewrite Hs. apply nth_snoc_old. pose proof (i_sf (run_inv leqb nan zero lab h)).
      pose proof (i_kinds (run_inv leqb nan zero lab h)). lia. }
    assert (Ls : length (fams false h) = n).
    { pose proof (i_sf (run_inv leqb nan zero lab h)). pose proof (i_kinds (run_inv leqb nan zero lab h)). lia. }
    assert (Fn : nth n (fams false h1) 0 = n) by (rewrite Hs; rewrite <- Ls at 1; apply nth_snoc_new).
    assert (In_n : forall y, y < n -> ~ In y (n :: sibs s n)).
    { intros y Hy [C|C]; [lia|]. assert (Hq : n < size s) by lia. destruct (i_sibs I y Hq C) as (_ & _ & E).
      rewrite Fn in E. assert (Hy' : y < size s) by lia. pose proof (i_rep I Hy'). lia. }
    set (s1 := replace_qc s n t1).
    assert (R1n : mread s1 n = t1) by (apply replace_read; [now left | lia]).
    assert (R1o : mread s1 o = mread s o) by (apply replace_other; [apply I | lia | now apply In_n]).
    assert (Step : AliModel.update_inplace leqb nan zero n t1 s = replace_qc s1 o (item_set leqb l (put i v (writes ws c0)) (mread s o))).
    { unfold AliModel.update_inplace. fold (size s). rewrite Sz. cbn [AliModel.update]. rewrite Kn.
      change (m_parent (mobject s n)) with (parent s n). rewrite Hp. fold s1. unfold give_back. rewrite R1n, R1o, Ro.
      cbn [t_names t_rows t1 with_col]. rewrite l_once. cbn [Nat.leb]. unfold with_col. cbn [t_cols].
      rewrite length_put. destruct o_proper as [Nl _]. rewrite <- Nl.
      assert (Hj : j < length (t_names t0)) by (eapply where_lt; exact l_at). destruct (Nat.eqb_spec (length (t_names t0)) 0); [lia|].
      rewrite align_same. cbn [first_col t_cols t1].
      apply update_frame. unfold s1, mkind. rewrite replace_obj. destruct (_ && _); exact Ko. }
    rewrite Step. rewrite Ro. unfold item_set. cbn [with_col t_names t_rows t_cols]. rewrite l_at, put_put.
    fold (with_col (put i v (writes ws c0))).
    assert (T1 : touched (fun _ => True) s s1) by (apply replace_touched; auto; [lia | apply I]).
    assert (P1 : pointed s1) by (eapply touched_pointed; [exact T1 | apply I]).
    assert (Z1 : size s1 = S n) by (rewrite (same_size T1); exact Sz).
    assert (So : sibs s1 o = sibs s o) by apply (same_sibs T1).
    assert (Ion : ~ In n (o :: sibs s1 o)).
    { rewrite So. intros [C|C]; [lia|]. assert (Hq : o < size s) by lia. destruct (i_sibs I n Hq C) as (_ & _ & E).
      rewrite Fn in E. assert (Ho' : o < size s) by lia. pose proof (i_rep I Ho'). lia. }
    repeat split; auto.
    + assert (T2 : touched (fun _ => True) s1 (replace_qc s1 o (with_col (put i v (writes ws c0)))))
        by (apply replace_touched; auto; lia).
      rewrite (same_parent T2), (same_parent T1). exact Hp.
    + rewrite replace_other; auto; lia.
    + apply replace_read; [now left | lia].
    + intros y Hy Nr. rewrite replace_other; auto; [|lia|].
      * unfold s1. rewrite replace_other; auto; [apply I | lia].
      * rewrite So. intros [->|C]; apply Nr; unfold related; rewrite Ls.
        -- auto.
        -- assert (Hq : o < size s) by lia. destruct (i_sibs I y Hq C) as (_ & _ & E).
           rewrite !Sf in E by lia. auto. Qed.

End View.
