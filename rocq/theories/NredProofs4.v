(** argmax and argmin (C75). *)
From Coq Require Import Permutation.
From Verif Require Import Base Table ChunkModel ChunkSpec GridSpec GridModel FrameSpec GridProofs GridProofs2 GridProofs3 GridProofs4 GridProofs5
  SelSpec SelModel SelProofs SelProofs4 SelProofs5 SelProofs6 ShufProofs4 LabProofs ArrSpec ArrModel ArrProofs NbinSpec NbinProofs NbinProofs2 NbinProofs3 NredSpec NredModel NredProofs NredProofs2 NredProofs3.

Section Best.
  Context {A : Type}.
  Variable better : A -> A -> bool.
  Hypothesis irr : forall a, better a a = false.
  Hypothesis trans : forall a b c, better a b = true -> better b c = true -> better a c = true.
  Hypothesis total : forall a b, better a b = false -> better b a = false -> a = b.

  Definition first_best (l : list A) i a := nth_error l i = Some a /\ (forall b, In b l -> better b a = false)
    /\ forall j b, j < i -> nth_error l j = Some b -> better a b = true.

  Lemma first_best_unique l i a j b : first_best l i a -> first_best l j b -> i = j /\ a = b.
  Proof. clear - irr. intros (N1 & U1 & F1) (N2 & U2 & F2). assert (i = j).
    { destruct (Nat.lt_trichotomy i j) as [K|[K|K]]; [|exact K|].
      - specialize (F2 _ _ K N1). rewrite U1 in F2; [discriminate|]. eapply nth_error_In; eauto.
      - specialize (F1 _ _ K N2). rewrite U2 in F1; [discriminate|]. eapply nth_error_In; eauto. }
    subst. split; [reflexivity|]. congruence. Qed.

  Lemma unbeaten_exists l : l <> [] -> exists a, In a l /\ forall b, In b l -> better b a = false.
  Proof. clear - irr trans. induction l as [|a l IH]; [easy|]. intros _. destruct l as [|c l].
    - exists a. split; [now left|]. intros b [-> |[]]. apply irr.
    - destruct IH as (m & I & U); [discriminate|]. destruct (better a m) eqn:E.
      + exists a. split; [now left|]. intros b [-> |J]; [apply irr|]. destruct (better b a) eqn:Eb; [|reflexivity]. pose proof (trans Eb E) as T. rewrite (U _ J) in T. discriminate.
      + exists m. split; [now right|]. intros b [-> |J]; auto. Qed.

  Lemma arg_best_ok l : l <> [] -> exists a, first_best l (arg_best better l) a.
  Proof.
    intros N. unfold arg_best. destruct (unbeaten_exists N) as (m & I & U).
    assert (G : forall p q, l = p ++ q -> In m q -> (forall j b, nth_error p j = Some b -> forallb (fun c => negb (better c b)) l = false) ->
      exists a, first_best l ((fix go l' i := match l' with [] => 0 | a :: l' => if forallb (fun b => negb (better b a)) l then i else go l' (S i) end) q (length p)) a).
    { clear I N. intros p q. revert p. induction q as [|a q IH]; intros p E I B; [easy|].
      destruct (forallb (fun b => negb (better b a)) l) eqn:Ea.
      - exists a. rewrite forallb_forall in Ea. split; [|split].
        + rewrite E, nth_error_app2, Nat.sub_diag by lia. reflexivity.
        + intros b J. specialize (Ea b J). now destruct (better b a).
        + intros j b K Hj. rewrite E, nth_error_app1 in Hj by lia. specialize (B _ _ Hj).
          destruct (better a b) eqn:Eb; [reflexivity|]. exfalso. assert (T : forallb (fun c => negb (better c b)) l = true); [|congruence].
          apply forallb_forall. intros c J. destruct (better c b) eqn:Ec; [|reflexivity]. exfalso. specialize (Ea _ J). destruct (better c a) eqn:Eca; [discriminate|].
          destruct (better a c) eqn:Eac; [now rewrite (trans Eac Ec) in Eb|]. rewrite (total Eca Eac) in Ec. congruence.
      - replace (S (length p)) with (length (p ++ [a])) by (rewrite app_length; cbn; lia). apply IH.
        + now rewrite <- app_assoc.
        + destruct I as [-> |I]; [|exact I]. exfalso. assert (T : forallb (fun b => negb (better b m)) l = true); [|congruence].
          apply forallb_forall. intros b J. now rewrite U.
        + intros j b Hj. destruct (Nat.lt_ge_cases j (length p)) as [K|K].
          * rewrite nth_error_app1 in Hj by assumption. eauto.
          * rewrite nth_error_app2 in Hj by assumption. destruct (j - length p) as [|k]; [|now destruct k]. cbn in Hj. injection Hj as <-. exact Ea. }
    apply (G [] l); auto. now intros []. Qed.

  Lemma nth_concat w (rows : list (list A)) i c row : Forall (fun r => length r = w) rows -> nth_error rows i = Some row -> c < w ->
    nth_error (concat rows) (w * i + c) = nth_error row c.
  Proof. clear. intros F. revert i. induction F as [|r rows Hr F IH]; intros [|i] E K; try discriminate.
    - injection E as <-. rewrite Nat.mul_0_r. cbn [concat plus]. rewrite nth_error_app1; [reflexivity|lia].
    - cbn [concat]. rewrite nth_error_app2 by nia. rewrite Hr. replace (w * S i + c - w) with (w * i + c) by nia. now apply IH. Qed.

  Variable best : list A -> A.
  Hypothesis best_in : forall l, l <> [] -> In (best l) l.
  Hypothesis best_unbeaten : forall l b, In b l -> better b (best l) = false.

  Lemma flat_arg w rows p row : 0 < w -> rows <> [] -> Forall (fun r => length r = w) rows ->
    p = arg_best better (map best rows) -> nth_error rows p = Some row -> arg_best better (concat rows) = w * p + arg_best better row.
  Proof.
    intros P N F Ep Er.
    assert (Nr : forall r, In r rows -> r <> []). { intros r I ->. rewrite Forall_forall in F. specialize (F _ I). cbn in F. lia. }
    assert (Nm : map best rows <> []) by (now destruct rows).
    destruct (arg_best_ok Nm) as (m & M1 & M2 & M3). rewrite <- Ep in M1, M3.
    assert (Ir : In row rows) by (eapply nth_error_In; eauto).
    destruct (arg_best_ok (Nr _ Ir)) as (a & A1 & A2 & A3).
    assert (Lr : length row = w) by (rewrite Forall_forall in F; auto).
    assert (Lc : arg_best better row < w) by (rewrite <- Lr; apply nth_error_Some; congruence).
    assert (Em : m = best row). { rewrite nth_error_map, Er in M1. cbn in M1. congruence. }
    assert (Ea : a = best row). { apply total; [apply best_unbeaten; eapply nth_error_In; eauto|]. apply A2. apply best_in. auto. }
    assert (Fb : first_best (concat rows) (w * p + arg_best better row) a).
    { split; [|split].
      - rewrite (nth_concat p F Er Lc). exact A1.
      - intros b I. apply in_concat in I. destruct I as (r & I1 & I2). destruct (better b a) eqn:E; [|reflexivity]. exfalso.
        pose proof (best_unbeaten _ _ I2) as U. assert (U2 : better (best r) m = false) by (apply M2, in_map, I1).
        rewrite Em, <- Ea in U2. destruct (better (best r) b) eqn:E2; [now rewrite (trans E2 E) in U2|]. rewrite (total E2 U) in U2. congruence.
      - intros j b K Hj. assert (Dj : j = w * (j / w) + j mod w) by (apply Nat.div_mod; lia). assert (Mj : j mod w < w) by (apply Nat.mod_upper_bound; lia).
        assert (Li : j / w <= p). { apply Nat.lt_succ_r, Nat.div_lt_upper_bound; nia. }
        assert (Lp : p < length rows) by (apply nth_error_Some; congruence).
        destruct (nth_error rows (j / w)) as [r|] eqn:Er2; [|apply nth_error_None in Er2; lia].
        rewrite Dj, (nth_concat _ F Er2 Mj) in Hj. assert (Ib : In b r) by (eapply nth_error_In; eauto).
        destruct (Nat.eq_dec (j / w) p) as [Eq|Ne].
        + assert (r = row) as -> by congruence. apply (A3 (j mod w)); [nia|exact Hj].
        + assert (M : better m (best r) = true). { apply (M3 (j / w)); [lia|]. rewrite nth_error_map, Er2. reflexivity. }
          rewrite Em, <- Ea in M. destruct (better (best r) b) eqn:E2; [eapply trans; eauto|]. rewrite <- (total E2 (best_unbeaten _ _ Ib)). exact M. }
    assert (Nc : concat rows <> []). { destruct Fb as (Fb & _). destruct (concat rows); [destruct (w * p + _); discriminate|discriminate]. }
    destruct (arg_best_ok Nc) as (a' & Fb'). apply (first_best_unique Fb' Fb). Qed.
End Best.

Section Arg.
  Variables min_row min_col nparts cpus : nat.
  Variable dynamic : bool.
  Hypothesis mr : 0 < min_row.
  Hypothesis mc : 0 < min_col.
  Hypothesis np : 0 < nparts.
  Variable unnamed : nat.
  Variables known_l known_w : nat -> nat -> bool.
  Variable argsort : list Z -> list nat.
  Hypothesis argsort_ok : forall l, sorts l (argsort l).
  Variable big : bool.
  Context {A : Type}.
  Variable better : A -> A -> bool.
  Hypothesis irr : forall a, better a a = false.
  Hypothesis trans : forall a b c, better a b = true -> better b c = true -> better a c = true.
  Hypothesis total : forall a b, better a b = false -> better b a = false -> a = b.
  Variable best : list A -> A.
  Hypothesis best_law : tree_law best best best.
  Hypothesis best_in : forall l, l <> [] -> In (best l) l.
  Hypothesis best_unbeaten : forall l b, In b l -> better b (best l) = false.
  Notation np_arg := (np_arg min_row min_col nparts cpus dynamic unnamed known_l known_w argsort big).

  Lemma arg_ok (x : @arr A) v axis keep r : stands x v -> ~ In 0 (shape v) -> np_reduce (arg_best better) v axis keep = Some r ->
    (axis = None -> ndim v = 2 -> keep = true -> arg_best better (flat v) < 2) ->
    exists g, np_arg better best x axis keep = Ok g /\ got_is g r.
  Proof.
    intros S N R Kk. unfold NredModel.np_arg. rewrite (proj1 S).
    destruct (reduce_cases _ _ _ _ R) as [(l & -> & -> & ax & V & O)|(w & rows & -> & [(-> & V & ->)|(k & _ & V & ->)])]; cbn [ndim]; rewrite V; cbn [rbind Nat.eqb].
    - rewrite O. destruct (vec_full_red mr mc np unnamed (arg_best better) S (nonempty_vec N)) as (f1 & rl1 & cl1 & E1 & S1). rewrite E1. cbn [rbind].
      destruct (vec_out S1) as ((y & Y & Sy) & I). unfold NredSpec.whole. cbn [flat]. destruct keep.
      + rewrite Y. cbn. eauto.
      + rewrite I. cbn [rbind]. eexists. split; [reflexivity|]. reflexivity.
    - destruct (mat_size S N) as (_ & _ & P3 & P4). pose proof (mat_rect S) as F. assert (Nr : rows <> []) by (destruct rows; [cbn in P3; lia|discriminate]).
      destruct (mat_full mr mc np unnamed true (arg_best better) S N) as (f1 & rl1 & cl1 & E1 & S1). rewrite E1. cbn [rbind].
      destruct (mat_red cpus dynamic mr mc np unnamed true best_law S N) as (f2 & rl2 & cl2 & E2 & S2). rewrite E2. cbn [rbind].
      unfold NredProofs.reduced, reduce_rows in S1, S2. cbn [table_of dcells dindex] in S1, S2. rewrite <- (map_map best (fun a => [a])) in S2.
      destruct (column_full mr mc np unnamed (arg_best better) S2) as (f3 & rl3 & cl3 & E3 & S3); [now destruct rows|]. rewrite E3. cbn [rbind].
      destruct (vec_out S3) as (_ & I3). rewrite I3. cbn [rbind]. set (p := arg_best better (map best rows)).
      assert (Nm : map best rows <> []) by (now destruct rows).
      destruct (arg_best_ok better irr trans total Nm) as (m & M1 & _). fold p in M1. rewrite nth_error_map in M1. destruct (nth_error rows p) as [row|] eqn:Er; [|discriminate].
      assert (Lp : p < length rows) by (apply nth_error_Some; congruence).
      destruct (@take_2d_ok nat nat nat Nat.eqb Nat.eqb Nat.eqb_eq Nat.eqb_eq min_row min_col nparts mr mc np known_l known_w argsort argsort_ok big f1 _ rl1 cl1 (Some (IList [Z.of_nat p])) (Some (IList [0%Z])) [p] [0] S1) as (f4 & E4 & T4 & _).
      { split; [exact I|]. split; [reflexivity|]. unfold nrows. cbn. rewrite seq_length. auto. }
      { split; [exact I|]. split; [reflexivity|]. unfold ncols. cbn. auto. }
      { right. split; repeat constructor; intros []. }
      rewrite E4. cbn [rbind]. unfold item. rewrite T4. cbn [rbind].
      assert (Et : dcells (take2d [p] [0] (mkdf (seq 0 (length rows)) [unnamed] (map (fun r => [arg_best better r]) rows))) = [[arg_best better row]]).
      { unfold take2d, pick. cbn [dcells flat_map map app]. rewrite nth_error_map, Er. reflexivity. }
      cbn [dindex dcells] in Et. rewrite Et. cbn [rbind].
      destruct S as (Sd & rl & cl & (_ & _ & _ & _ & Pc)). rewrite Pc. cbn [labels rbind table_of dcols]. rewrite seq_length.
      rewrite <- (@flat_arg A better irr trans total best best_in best_unbeaten w rows p row P4 Nr F eq_refl Er). unfold NredSpec.whole. cbn [flat ndim] in *.
      destruct keep; [|eexists; split; reflexivity].
      assert (Eb : (if arg_best better (concat rows) =? 0 then 0 else 1) = arg_best better (concat rows)).
      { specialize (Kk eq_refl eq_refl eq_refl). destruct (arg_best better (concat rows)) as [|[|n]]; [reflexivity|reflexivity|lia]. }
      rewrite Eb. destruct (of_cell_ok (arg_best better (concat rows))) as (y & Y & Sy). unfold garr. rewrite Y. cbn [rbind]. eauto.
    - destruct (zone k) as (Z1 & Z2). rewrite Z1, Z2. destruct (mat_size S N) as (_ & _ & _ & P4).
      destruct (mat_full mr mc np unnamed k (arg_best better) S N) as (f1 & rl1 & cl1 & E1 & S1). rewrite E1. cbn [rbind].
      destruct (shaped_ok unnamed _ k keep (w:=w) (rows:=rows) P4 (stands_wf S) S1) as (y & Y & Sy). unfold garr. rewrite Y. cbn [rbind]. eauto.
  Qed.
End Arg.
