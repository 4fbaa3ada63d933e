(** Tables side by side. *)
From Verif Require Import Base Table ChunkModel ChunkSpec ChunkProofs GridModel GridSpec FrameSpec GridProofs GridProofs2 GridProofs3 GridProofs5
  SelSpec SelModel SelProofs JoinSpec JoinModel JoinProofs3 JoinProofs4 RemSpec RemModel RemProofs RemProofs2 ResetSpec ResetModel ResetProofs ExplProofs2 SetProofs4 DumSpec DumModel.

Lemma zipapp_cons {X} (x : list X) a y b : zipapp (x :: a) (y :: b) = (x ++ y) :: zipapp a b.
Proof. reflexivity. Qed.
Lemma zipapp_assoc {X} (a b c : list (list X)) : zipapp (zipapp a b) c = zipapp a (zipapp b c).
Proof. revert b c. induction a as [|x a IH]; intros [|y b] [|z c]; try reflexivity. rewrite !zipapp_cons, IH. now rewrite app_assoc. Qed.
Lemma zipapp_nil_l {X} (a : list (list X)) : zipapp (repeat [] (length a)) a = a.
Proof. induction a as [|x a IH]; [reflexivity|]. cbn [length repeat]. now rewrite zipapp_cons, IH. Qed.
Lemma zipapp_nil_r {X} (a : list (list X)) : zipapp a (repeat [] (length a)) = a.
Proof. induction a as [|x a IH]; [reflexivity|]. cbn [length repeat]. now rewrite zipapp_cons, IH, app_nil_r. Qed.
Lemma zipapp_fold {X} n (b : list (list X)) xs : length b = n ->
  zipapp (fold_right zipapp (repeat [] n) xs) b = fold_right zipapp b xs.
Proof. intros <-. induction xs as [|x xs IH]; cbn [fold_right]; [apply zipapp_nil_l|]. now rewrite zipapp_assoc, IH. Qed.

Section Glue.
  Context {L H A : Type}.
  Notation dframe := (df L H A).

  Lemma glue_flat idx (gss : list (list dframe)) : Forall (Forall (fun d => wf d /\ dindex d = idx)) gss ->
    glue idx (map (glue idx) gss) = glue idx (concat gss).
  Proof. intros F. induction F as [|gs gss F1 F IH]; [reflexivity|].
    assert (E1 := f_equal (@dcols L H A) IH). assert (E2 := f_equal (@dcells L H A) IH). unfold glue in E1, E2 |- *. cbn [map concat fold_right dcols dcells] in E1, E2 |- *.
    rewrite !map_app, concat_app. f_equal.
    - now rewrite <- E1.
    - rewrite fold_right_app, <- E2. apply zipapp_fold.
      assert (W : wf (glue idx (map (glue idx) gss))).
      { apply glue_wf. apply Forall_map. eapply Forall_impl; [|exact F]. intros g Fg. split; [now apply glue_wf|reflexivity]. }
      destruct W as [W _]. exact W. Qed.

  Lemma glue_cons_glue idx (d : dframe) gs : wf d -> dindex d = idx -> Forall (fun d => wf d /\ dindex d = idx) gs ->
    glue idx [d; glue idx gs] = glue idx (d :: gs).
  Proof. intros W E F. destruct (glue_wf F) as [W1 _]. unfold glue in *. cbn [map fold_right concat dcols dcells dindex] in *. rewrite app_nil_r. f_equal. f_equal.
    revert W1. generalize (fold_right zipapp (repeat [] (length idx)) (map (@dcells L H A) gs)). intros x <-. apply zipapp_nil_r. Qed.

  Lemma glue_no_columns idx (d : dframe) gs : wf d -> dindex d = idx -> dcols d = [] -> Forall (fun d => wf d /\ dindex d = idx) gs ->
    glue idx (d :: gs) = glue idx gs.
  Proof. intros [W1 W2] E C F. destruct (glue_wf F) as [V1 _]. unfold glue in *. cbn [map fold_right concat dcols dcells dindex] in *. rewrite C. cbn [app]. f_equal.
    unfold ncols in W2. rewrite C in W2. cbn [length] in W2.
    replace (dcells d) with (repeat (@nil A) (length (dcells d))).
    - rewrite W1, E. revert V1. generalize (fold_right zipapp (repeat [] (length idx)) (map (@dcells L H A) gs)). intros x <-. apply zipapp_nil_l.
    - clear - W2. induction W2 as [|r rs E _ IH]; [reflexivity|]. destruct r; [|discriminate]. cbn. now rewrite IH. Qed.

  (** one table per column band, side by side *)
  Lemma rows_of_glue idx rl (ts : list dframe) : rl <> [] -> Forall (fun t => wf t /\ dindex t = idx) ts ->
    map (fun ri => map (fun t => iloc_rows t (fst ri) (snd ri)) ts) (bounds 0 rl) = cut_table rl (map (@ncols L H A) ts) (glue idx ts)
    /\ list_sum (map (@ncols L H A) ts) = ncols (glue idx ts).
  Proof. intros Nr F. destruct (@cut_glue L H A idx rl (map (fun t => ([ncols t], t)) ts)) as [E S].
    - now apply Forall_map.
    - apply Forall_map. apply Forall_forall. intros t _. cbn [fst snd]; rewrite list_sum_cons, list_sum_nil; lia.
    - assert (E1 : map snd (map (fun t : dframe => ([ncols t], t)) ts) = ts) by (rewrite map_map; cbn [snd]; apply map_id).
      assert (E2 : map fst (map (fun t : dframe => ([ncols t], t)) ts) = map (fun t => [ncols t]) ts) by (rewrite map_map; reflexivity).
      rewrite E1, E2 in E, S. rewrite map_map in E. cbn [fst snd] in E.
      replace (concat (map (fun t => [ncols t]) ts)) with (map (@ncols L H A) ts) in E, S by (clear; induction ts as [|t ts IH]; [reflexivity|]; cbn; now rewrite IH).
      split; [|exact S]. rewrite <- E. clear E S E1 E2. rewrite <- (bounds_length 0 rl).
      assert (X : forall bs, map (fun ri : nat * nat => map (fun t : dframe => iloc_rows t (fst ri) (snd ri)) ts) bs
        = fold_right zipapp (repeat [] (length bs)) (map (fun t => map (fun ri => map (fun ci => block t ri ci) (bounds 0 [ncols t])) bs) ts)).
      { intros bs. induction F as [|t ts [W _] F IH]; [cbn; induction bs as [|b bs IHb]; [reflexivity|cbn; now rewrite IHb]|].
        cbn [map fold_right]. rewrite <- IH, zipapp_map. apply map_ext. intros ri. cbn [bounds map app]. f_equal. symmetry. now apply block_cols_full. }
      apply X. Qed.
End Glue.

Section Columns.
  Context {L H A P : Type}.
  Variable heqb : H -> H -> bool.
  Hypothesis heqb_ok : forall x y, heqb x y = true <-> x = y.
  Notation dframe := (df L H A).
  Definition columns_of (d : dframe) : list (H * list A) := combine (dcols d) (transp (ncols d) (dcells d)).

  Lemma find_at {Y} (l : list (H * Y)) c : NoDup (map fst l) -> In c l -> find (fun e => heqb (fst e) (fst c)) l = Some c.
  Proof. induction l as [|e l IH]; [easy|]. cbn [map find]. intros N I. inversion N as [|? ? N1 N2]; subst. destruct (heqb (fst e) (fst c)) eqn:E.
    - apply heqb_ok in E. destruct I as [-> |I]; [reflexivity|]. exfalso. apply N1. rewrite E. now apply in_map.
    - destruct I as [-> |I]; [|now apply IH]. assert (X : heqb (fst c) (fst c) = true) by now apply heqb_ok. now rewrite X in E. Qed.

  Lemma columns_fst (d : dframe) : wf d -> map fst (columns_of d) = dcols d.
  Proof. intros W. unfold columns_of. rewrite combine_fst; [reflexivity|]. rewrite transp_length; [reflexivity|apply W]. Qed.

  Lemma columns_at (d : dframe) cs ps : wf d -> NoDup (dcols d) -> Forall2 (fun c p => nth_error (dcols d) p = Some c) cs ps ->
    rmap (column_of heqb d) cs = Ok (map snd (pick (columns_of d) ps)) /\ map fst (pick (columns_of d) ps) = cs.
  Proof. intros W N F. assert (E1 := columns_fst W). induction F as [|c p cs ps E F [IH1 IH2]]; [split; reflexivity|].
    rewrite pick_cons. assert (X : exists v, nth_error (columns_of d) p = Some (c, v)).
    { rewrite <- E1, nth_error_map in E. destruct (nth_error (columns_of d) p) as [[c' v]|]; [|discriminate]. injection E as <-. eauto. }
    destruct X as (v & X). rewrite X. cbn [app map fst snd rmap]. rewrite IH1, IH2. split; [|reflexivity].
    unfold column_of at 1. fold (columns_of d). rewrite <- E1 in N. assert (Y := @find_at _ (columns_of d) (c, v) N (nth_error_In _ _ X)). cbn [fst] in Y. now rewrite Y. Qed.

  Lemma columns_take (d : dframe) ps : wf d -> Forall (fun p => p < ncols d) ps ->
    columns_of (take2d (seq 0 (nrows d)) ps d) = pick (columns_of d) ps.
  Proof. intros W F. destruct W as [W1 W2]. unfold columns_of, take2d, ncols. cbn [dcols dcells]. unfold nrows. rewrite <- W1, pick_all by reflexivity.
    rewrite (pick_length _ F). induction F as [|p ps Hp F IH]; [reflexivity|].
    rewrite !pick_cons.
    destruct (nth_error (dcols d) p) as [h|] eqn:Eh; [|apply nth_error_None in Eh; unfold ncols in Hp; lia].
    assert (Lt : length (transp (length (dcols d)) (dcells d)) = length (dcols d)) by now apply transp_length.
    destruct (nth_error (transp (length (dcols d)) (dcells d)) p) as [v|] eqn:Ev; [|apply nth_error_None in Ev; unfold ncols in Hp; lia].
    assert (Ec : nth_error (combine (dcols d) (transp (length (dcols d)) (dcells d))) p = Some (h, v)).
    { clear - Eh Ev. revert p Eh Ev. generalize (transp (length (dcols d)) (dcells d)). induction (dcols d) as [|x l IH]; intros [|y m] [|p] Eh Ev; try discriminate; cbn in *; [congruence|now apply IH]. }
    rewrite Ec. cbn [app length combine].
    replace (map (fun r => pick r (p :: ps)) (dcells d)) with (map2 cons v (map (fun r => pick r ps) (dcells d))).
    - rewrite transp_map2_cons; [cbn [combine]; now rewrite IH|]. rewrite map_length.
      assert (Fr := transp_rows W2). rewrite Forall_forall in Fr. apply Fr. now apply nth_error_In in Ev.
    - clear - Ev Hp W2. revert v Ev. induction W2 as [|r rs E W2 IH]; intros v Ev.
      + rewrite transp_nil in Ev. apply nth_error_In, repeat_spec in Ev. now subst.
      + rewrite transp_cons in Ev. cbn [map]. rewrite pick_cons.
        destruct (nth_error r p) as [x|] eqn:Ex; [|apply nth_error_None in Ex; unfold ncols in Hp; lia].
        assert (Lt : length (transp (length (dcols d)) rs) = length (dcols d)) by now apply transp_length.
        destruct (nth_error (transp (length (dcols d)) rs) p) as [v'|] eqn:Ev'; [|apply nth_error_None in Ev'; unfold ncols in Hp; lia].
        assert (Em : nth_error (map2 cons r (transp (length (dcols d)) rs)) p = Some (x :: v')).
        { clear - Ex Ev'. revert p Ex Ev'. generalize (transp (length (dcols d)) rs). induction r as [|x0 l IH]; intros [|y m] [|p] Eh Ev; try discriminate; rewrite map2_cons; cbn in *; [congruence|now apply IH]. }
        unfold ncols in *. rewrite Em in Ev. injection Ev as <-. rewrite map2_cons. cbn [app]. f_equal. now apply IH. Qed.

  Lemma columns_cut (d : dframe) a b : wf d -> b <= ncols d -> a <= b -> columns_of (iloc_cols d a b) = slice (columns_of d) a b.
  Proof. intros W B AB. unfold columns_of. rewrite <- combine_slice. f_equal. unfold ncols, iloc_cols in *. cbn [dcols dcells].
    rewrite <- transp_map_slice. f_equal. rewrite slice_length. lia. Qed.
End Columns.
