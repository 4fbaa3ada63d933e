(** Materialisation returns the truth; gluing columns keeps the invariant. *)
From Verif Require Import Base DtypeSpec DtypeModel DtypeProofs DtypeProofs2.

Section Proofs.
  Context {H T : Type}.
  Variable hdec : forall a b : H, {a = b} + {a <> b}.
  Variable tdec : forall a b : T, {a = b} + {a <> b}.
  Notation has := (has hdec).
  Notation dup := (dup hdec).
  Notation dtype_of := (dtype_of hdec).
  Notation dupdate := (dupdate hdec).
  Notation columns_order := (columns_order hdec).
  Notation init := (init hdec).
  Notation desc := (@desc H T).
  Notation tidy := (tidy hdec).
  Notation missing := (missing hdec).
  Notation good := (good hdec).

  Definition complete (k cs : list (H * T)) : Prop :=
    NoDup (map fst k) /\ incl k cs /\ incl (header cs) (map fst k).

  Lemma complete_length k cs : NoDup (header cs) -> complete k cs -> length k = length (header cs).
  Proof. intros N (C1 & C2 & C3). apply Nat.le_antisymm.
    - rewrite <- (map_length fst k). apply NoDup_incl_length; [assumption|]. now apply incl_map.
    - rewrite <- (map_length fst k). now apply NoDup_incl_length. Qed.
  Lemma complete_lookup k cs : NoDup (header cs) -> complete k cs ->
    rmap (fun c => match dtype_of c k with Some t => Ok (c, t) | None => Err KeyError end) (header cs) = Ok cs.
  Proof. intros N (C1 & C2 & C3).
    assert (E : forall c t, In (c, t) cs -> dtype_of c k = Some t).
    { intros c t I. assert (J : In c (map fst k)) by (apply C3; now apply in_header in I).
      apply in_map_iff in J as [[c' t'] [E J]]. cbn in E. subst c'.
      rewrite (header_fun hdec c t t' cs N I (C2 _ J)). now apply dtype_of_in. }
    clear N C1 C2 C3. induction cs as [|[c t] cs IH]; cbn; [reflexivity|].
    rewrite (E c t) by now left. cbn. fold (header cs). rewrite IH by (intros; apply E; now right). reflexivity. Qed.

  Lemma is_nil_true {A} (l : list A) : is_nil l = true <-> l = [].
  Proof. now destruct l. Qed.

  (** The dtypes of the columns [cols] of a frame that contains the described one. *)
  Lemma compute_part (f : frame) (cs : list (H * T)) cols kf :
    NoDup (header (ftruth f)) -> incl cs (ftruth f) -> incl cols (header cs) ->
    compute_dtypes hdec f (Some cols) = Ok kf ->
    let X := fst kf in
    ftruth (snd kf) = ftruth f /\ fmat (snd kf) = true /\
    NoDup (map fst X) /\ incl X cs /\ incl (map fst X) cols /\ incl cols (map fst X).
  Proof. intros N I IC. unfold compute_dtypes. destruct (forallb _ _) eqn:F; [|discriminate]. intros [= <-]. cbn.
    rewrite forallb_forall in F.
    set (X := filter _ _).
    assert (IX : incl X (ftruth f)) by (intros ct Hct; now apply filter_In in Hct).
    assert (XC : incl (map fst X) cols).
    { intros c Hc. apply in_map_iff in Hc as [ct [<- Hc]]. apply filter_In in Hc as [_ Hc]. now apply has_true in Hc. }
    split; [reflexivity|]. split; [reflexivity|]. split; [|split; [|split; [assumption|]]].
    - apply (subseq_NoDup (subseq_map fst (subseq_filter _ _)) N).
    - intros [c t] Hc. assert (J : In c (header cs)) by (apply IC, XC; now apply (in_map fst) in Hc).
      apply header_in in J as [t' J]. rewrite (header_fun hdec c t t' _ N (IX _ Hc) (I _ J)). exact J.
    - intros c Hc. pose proof (F c Hc) as G. apply has_true in G. apply header_in in G as [t G].
      apply in_map_iff. exists (c, t). split; [reflexivity|]. apply filter_In. split; [assumption|]. now apply has_true. Qed.

  Lemma materialize_cols_sound (d : desc) cs f d1 f1 :
    sound d cs -> attached d cs -> parent d = Some f -> materialize_cols hdec d f = Ok (d1, f1) ->
    order d1 = order d /\ remaining d1 = remaining d /\ unknown d1 = [] /\ schema d1 = schema d /\ know_all d1 = true /\
    parent d1 = Some f1 /\ ftruth f1 = ftruth f /\ NoDup (map fst (known d1)) /\ incl (known d1) cs /\
    incl (names d) (map fst (known d1)) /\ (know_all d = false -> incl (header cs) (map fst (known d1))) /\
    (fmat f = true -> fmat f1 = true) /\
    (fmat f1 = true \/ known d1 = cs \/ (known d1 = known d /\ unknown d = [] /\ know_all d = true)).
  Proof. intros S A EP E. destruct (A f EP) as (A1 & A2 & A3). unfold materialize_cols in E.
    destruct (is_nil (known d) && is_nil (unknown d) && negb (know_all d)) eqn:EN.
    - rewrite !andb_true_iff, !is_nil_true, negb_true_iff in EN. destruct EN as [[EK EU] EA].
      assert (EO : order d = None).
      { destruct (order d) as [o|] eqn:EO; [|reflexivity]. destruct (s_order S EO) as (_ & X & _). congruence. }
      assert (EF : ftruth f = cs) by (apply A3; now left).
      assert (U : dupdate [] cs = cs) by (rewrite dupdate_new; [reflexivity | apply S | easy]).
      cbn [compute_dtypes rbind fst snd] in E. rewrite EK, EF, U in E. injection E as <- <-. cbn. rewrite EF. repeat (split; [reflexivity|]). split; [apply S|]. split; [apply incl_refl|].
      split; [unfold names; rewrite EK, EU; easy|]. split; [intros _; apply incl_refl|]. split; [easy|]. right; now left.
    - destruct (materialize_all_names hdec d f) as [d2 f2] eqn:EM.
      assert (M : known d2 = known d /\ schema d2 = schema d /\ remaining d2 = remaining d /\ order d2 = order d /\
                  know_all d2 = true /\ ftruth f2 = ftruth f /\ NoDup (names d2) /\ incl (unknown d2) (header cs) /\
                  incl (names d) (names d2) /\ (know_all d = false -> incl (header cs) (names d2)) /\
                  (fmat f = true -> fmat f2 = true) /\
                  (fmat f2 = true \/ (unknown d2 = unknown d /\ know_all d = true))).
      { unfold materialize_all_names in EM. destruct (know_all d) eqn:EK.
        - injection EM as <- <-. repeat (split; [reflexivity || assumption|]). split; [apply S|]. split; [apply S|].
          split; [apply incl_refl|]. split; [easy|]. split; [easy|]. right. now split.
        - assert (EO : order d = None).
          { destruct (order d) as [o|] eqn:EO; [|reflexivity]. destruct (s_order S EO) as (_ & X & _). congruence. }
          assert (EF : ftruth f = cs) by (apply A3; now left).
          rewrite EF in EM. fold (missing d cs) in EM. injection EM as <- <-. cbn. rewrite EF.
          repeat (split; [reflexivity || (symmetry; assumption) || assumption|]).
          assert (NA : names d ++ missing d cs = map fst (known d) ++ unknown d ++ missing d cs) by (unfold names; now rewrite app_assoc).
          split; [|split; [|split; [|split; [|split; [easy | now left]]]]].
          + rewrite <- NA. apply NoDup_app_disjoint; [apply S | apply missing_NoDup, S |].
            intros c Hc Hc'. apply in_missing in Hc' as [_ N]. now apply N.
          + intros c Hc. apply in_app_iff in Hc as [Hc|Hc]; [now apply (s_unknown S)|]. now apply in_missing in Hc.
          + rewrite <- NA. intros c Hc. apply in_app_iff. now left.
          + intros _. rewrite <- NA. intros c Hc. apply in_app_iff.
            destruct (in_dec hdec c (names d)); [now left | right; now apply in_missing]. }
      destruct M as (M1 & M2 & M3 & M4 & M5 & M6 & M7 & M8 & M9 & M10 & M11 & M12).
      destruct (unknown d2) as [|u us] eqn:EU.
      + cbn in E. injection E as <- <-. cbn. rewrite M1.
        assert (ND : names d2 = map fst (known d)) by (unfold names; rewrite EU, M1, app_nil_r; reflexivity).
        repeat (split; [reflexivity || assumption|]). rewrite ND in M7. split; [assumption|].
        split; [apply S|]. rewrite ND in M9, M10. split; [assumption|]. split; [assumption|]. split; [assumption|].
        destruct M12 as [M12|[M12 M13]]; [now left|]. right. right. now repeat split.
      + rewrite <- EU in *. clear u us EU.
        assert (E' : rbind (rbind (compute_dtypes hdec f2 (Some (unknown d2)))
                      (fun cf => Ok (dupdate (known d2) (fst cf), snd cf)))
                   (fun kf => Ok (Desc (fst kf) [] (schema d2) true (remaining d2) (Some (snd kf)) (order d2), snd kf)) = Ok (d1, f1)).
        { revert E. destruct (unknown d2); intros E; [|exact E]. cbn in E |- *. exact E. }
        clear E. destruct (compute_dtypes hdec f2 (Some (unknown d2))) as [kf|] eqn:EC; [|discriminate].
        cbn [rbind] in E'. injection E' as <- <-. cbn.
        eapply compute_part in EC; [|rewrite M6; eassumption | rewrite M6; eassumption | eassumption].
        destruct EC as (C1 & C2 & C3 & C4 & C5 & C6).
        destruct (@NoDup_app_inv _ _ _ M7) as (D1 & D2 & D3).
        rewrite dupdate_new; [|assumption | intros c Hc Hc'; apply (D3 c Hc'); auto].
        assert (NN : incl (names d2) (map fst (known d2 ++ fst kf))).
        { intros c Hc. rewrite map_app, in_app_iff. apply in_app_iff in Hc as [Hc|Hc]; [now left | right; auto]. }
        repeat (split; [reflexivity || congruence|]). split; [|split; [|split; [|split; [|split]]]].
        * rewrite map_app. apply NoDup_app_disjoint; [assumption | assumption |]. intros c Hc Hc'. apply (D3 c Hc). auto.
        * intros ct Hct. apply in_app_iff in Hct as [Hct|Hct]; [|auto]. rewrite M1 in Hct. now apply (s_known S).
        * intros c Hc. auto.
        * intros X c Hc. apply NN. now apply M10.
        * easy.
        * now left. Qed.

  Lemma columns_order_full (k : list (H * T)) s ka rem f ord :
    length (header (ftruth f)) <= length k ->
    columns_order (Desc k [] s ka rem (Some f) ord) =
    match ord with
    | Some _ => Desc k [] s ka rem (Some f) ord
    | None => if fmat f then Desc k [] s true rem (Some f) (Some (header (ftruth f))) else Desc k [] s ka rem (Some f) None
    end.
  Proof. intros L. unfold DtypeModel.columns_order. cbn. destruct ord; [reflexivity|]. destruct (fmat f); [|reflexivity].
    rewrite (proj2 (Nat.ltb_ge _ _)) by lia. reflexivity. Qed.

  Lemma materialize_right (d : desc) cs d' : good d cs false -> materialize hdec d = Ok d' -> known d' = cs.
  Proof. intros (S & I & TD & U & A) E. unfold materialize in E. destruct (schema d) eqn:ES.
    { injection E as <-. destruct (s_schema S ES) as (X1 & X2 & X3 & _). unfold names in X3. rewrite X1, app_nil_r in X3.
      destruct I as [I|(_ & I2 & _)]; [|congruence]. now apply (subseq_full I); [apply S|]. }
    destruct (parent d) as [f|] eqn:EP; [|discriminate].
    destruct (materialize_cols hdec d f) as [[d1 f1]|] eqn:EM; [|discriminate]. cbn [rbind] in E.
    destruct (materialize_cols_sound S A EP EM) as (M1 & M2 & M3 & M4 & M5 & M6 & M7 & M8 & M9 & M10 & M11 & M12 & M13).
    destruct (A f EP) as (A1 & A2 & A3).
    assert (KF : exists k f2, (match remaining d1 with
          | None => (known d1, f1)
          | Some r => (dupdate (known d1) (map (fun c => (c, r))
                         (filter (fun c => negb (has c (map fst (known d1)))) (header (ftruth f1)))),
                       Frame true (ftruth f1))
          end) = (k, f2) /\ complete k cs /\ ftruth f2 = ftruth f /\ (fmat f = true -> fmat f2 = true) /\
          (fmat f2 = true \/ k = cs \/ (k = known d /\ remaining d = None /\ unknown d = [] /\ know_all d = true))).
    { rewrite M2. destruct (remaining d) as [r|] eqn:ER.
      - assert (EF : ftruth f1 = cs) by (rewrite M7; apply A3; right; congruence). rewrite EF.
        set (new := filter _ _). eexists _, _. split; [reflexivity|].
        assert (NN : forall c, In c new <-> In c (header cs) /\ ~ In c (map fst (known d1))).
        { intros c. unfold new. rewrite filter_In, negb_true_iff, has_false. reflexivity. }
        assert (ND : NoDup new) by (apply NoDup_filter, S).
        rewrite dupdate_new; [|rewrite map_map; cbn; now rewrite map_id | rewrite map_map; cbn; rewrite map_id; intros c Hc; now apply NN].
        split; [|split; [cbn; congruence | split; [easy | now left]]].
        split; [|split].
        + rewrite map_app, map_map. cbn. rewrite map_id. apply NoDup_app_disjoint; [assumption | assumption |].
          intros c Hc Hc'. apply NN in Hc' as [_ Hc']. contradiction.
        + intros ct Hct. apply in_app_iff in Hct as [Hct|Hct]; [auto|]. apply in_map_iff in Hct as [c [<- Hc]].
          apply NN in Hc as [Hc N]. apply header_in in Hc as [t Ht].
          assert (t = r) as -> by (apply (s_rem S ER c t Ht); intros X; apply N; auto). exact Ht.
        + intros c Hc. rewrite map_app, map_map. cbn. rewrite map_id, in_app_iff.
          destruct (in_dec hdec c (map fst (known d1))); [now left | right; now apply NN].
      - eexists _, _. split; [reflexivity|]. split; [|split; [assumption | split; [assumption|]]].
        + split; [assumption|]. split; [assumption|]. destruct (know_all d) eqn:EA; [|auto].
          intros c Hc. apply M10. now apply (s_all S EA ER).
        + destruct M13 as [M13|[M13|(M13 & M14 & M15)]]; [now left | right; now left | right; right; now repeat split]. }
    destruct KF as (k & f2 & EQ & C & EF2 & FM & F). rewrite EQ in E. clear EQ. cbv beta iota in E.
    set (d2 := Desc k (unknown d1) (schema d1) (know_all d1) (remaining d1) (Some f2) (order d1)) in E.
    pose proof (complete_length (s_truth S) C) as CL.
    assert (KO : known (columns_order d2) = k /\ (order (columns_order d2) = Some (header cs) \/
                 (order (columns_order d2) = None /\ k = cs))).
    { unfold d2. rewrite M3, M1. destruct (order d) as [o|] eqn:EO.
      - unfold DtypeModel.columns_order. cbn. destruct (s_order S EO) as (X1 & _). subst o. split; [reflexivity | now left].
      - assert (EF2' : ftruth f2 = cs) by (rewrite EF2; apply A3; now left).
        rewrite columns_order_full by (rewrite EF2'; lia). rewrite EF2'. destruct (fmat f2) eqn:EM2; cbn.
        + split; [reflexivity | now left].
        + split; [reflexivity|]. right. split; [reflexivity|].
          destruct F as [F|[F|(F1 & F2 & F3 & F4)]]; [congruence | assumption |].
          destruct I as [I|(I1 & _)].
          * subst k. apply (subseq_full I); [apply S|]. pose proof (s_all S F4 F2) as X. unfold names in X.
            now rewrite F3, app_nil_r in X.
          * exfalso. apply I1. unfold DtypeModel.columns_order. rewrite EO, EP.
            destruct (fmat f) eqn:EFM; [|assumption]. specialize (FM eq_refl). congruence. }
    destruct KO as [KO1 [KO2|[KO2 KO3]]]; rewrite KO2, ?KO1 in E.
    - rewrite CL, Nat.eqb_refl in E. rewrite (complete_lookup (s_truth S) C) in E. cbn in E. now injection E as <-.
    - cbn in E. injection E as <-. assumption. Qed.

  Lemma to_series_right (d : desc) cs s : good d cs false -> to_series hdec d = Ok s -> s = cs.
  Proof. intros G E. unfold to_series in E. destruct (materialize hdec d) as [d'|] eqn:M; [|discriminate].
    cbn in E. injection E as <-. now apply (materialize_right G). Qed.
  (** A stale descriptor that knows the whole schema needs no parent. *)
  Lemma to_series_schema (d : desc) cs st s : good d cs st -> schema d = true -> to_series hdec d = Ok s -> s = cs.
  Proof. intros (S & I & TD & U & A) ES E. unfold to_series, materialize in E. rewrite ES in E. cbn in E. injection E as <-.
    destruct (s_schema S ES) as (X1 & X2 & X3 & _). unfold names in X3. rewrite X1, app_nil_r in X3.
    destruct I as [I|(_ & I2 & _)]; [|congruence]. now apply (subseq_full I); [apply S|]. Qed.

  Lemma get_dtypes_set_right (d : desc) cs d1 ts : good d cs false -> get_dtypes_set hdec tdec d = Ok (d1, ts) ->
    good d1 cs false /\ NoDup ts /\ incl (map snd cs) ts /\
    incl ts (map snd cs ++ match remaining d with Some r => [r] | None => [] end).
  Proof. intros G E. unfold get_dtypes_set in E.
    assert (X : exists d2, (if negb (is_nil (unknown d)) || negb (know_all d) then
               match parent d with
               | None => Err AttributeError
               | Some f => do df <- materialize_cols hdec d f; Ok (fst df)
               end
             else Ok d) = Ok d2 /\ good d2 cs false /\ unknown d2 = [] /\ remaining d2 = remaining d /\ know_all d2 = true).
    { destruct (negb (is_nil (unknown d)) || negb (know_all d)) eqn:B.
      - destruct (parent d) as [f|] eqn:EP; [|discriminate].
        destruct (materialize_cols hdec d f) as [[d2 f2]|] eqn:EM; [|discriminate]. exists d2. split; [reflexivity|].
        destruct G as (S & I & TD & U & A).
        destruct (materialize_cols_sound S A EP EM) as (M1 & M2 & M3 & M4 & M5 & M6 & M7 & M8 & M9 & M10 & M11 & M12 & M13).
        split; [|split; [assumption | split; assumption]].
        assert (R : remaining d = None).
        { destruct (remaining d) eqn:R; [|reflexivity]. exfalso.
          rewrite U in B by discriminate. cbn in B. destruct (know_all d) eqn:K; [discriminate|].
          pose proof (s_knowrem S K). congruence. }
        assert (SF : schema d = false).
        { destruct (schema d) eqn:SD; [|reflexivity]. exfalso. destruct (s_schema S SD) as (X1 & X2 & X3 & X4).
          rewrite X1, X4 in B. discriminate. }
        assert (NM : names d2 = map fst (known d2)) by (unfold names; now rewrite M3, app_nil_r).
        assert (COV : incl (header cs) (names d2)).
        { rewrite NM. destruct (know_all d) eqn:K; [|now apply M11]. intros c Hc. apply M10. now apply (s_all S). }
        split; [|split; [|split; [|split]]].
        + split; rewrite ?NM; rewrite ?M3; try assumption; try apply S; try easy; try congruence.
          * intros _ _. now rewrite <- NM.
          * intros o X. rewrite M1 in X. split; [apply (s_order S X)|]. split; [assumption | now rewrite <- NM].
        + destruct M13 as [M13|[M13|(_ & M14 & M15)]].
          * right. split; [|split; congruence]. unfold DtypeModel.columns_order.
            destruct (order d2) eqn:EO; [congruence|]. rewrite M6, M13. cbn. discriminate.
          * left. unfold inorder. rewrite M13. apply subseq_refl.
          * rewrite M14, M15 in B. discriminate.
        + intros r X. congruence.
        + congruence.
        + intros f' X. rewrite M6 in X. injection X as <-. rewrite M7, M1, M2. now apply A.
      - apply orb_false_iff in B as [B1 B2]. rewrite negb_false_iff in B1, B2. apply is_nil_true in B1.
        exists d. split; [reflexivity|]. split; [assumption|]. split; [assumption|]. split; [reflexivity | assumption]. }
    destruct X as (d2 & X & G2 & U2 & R2 & K2). rewrite X in E. cbn [rbind] in E. injection E as <- <-.
    split; [assumption|]. split; [apply NoDup_nodup|]. pose proof (proj1 G2) as S2. split.
    - intros t Ht. apply nodup_In. apply in_app_iff. apply in_map_iff in Ht as [[c t'] [Et Ht]]. cbn in Et. subst t'.
      destruct (in_dec hdec c (map fst (known d2))) as [J|J].
      + left. apply in_map_iff in J as [[c' t'] [Ec J]]. cbn in Ec. subst c'.
        rewrite (header_fun hdec c t t' cs (s_truth S2) Ht (s_known S2 _ J)). now apply (in_map snd) in J.
      + right. assert (N : ~ In c (names d2)) by (unfold names; rewrite U2, app_nil_r; assumption).
        destruct (remaining d2) as [r|] eqn:ER.
        * left. symmetry. now apply (s_rem S2 ER c t).
        * exfalso. apply N. apply (s_all S2 K2 ER). now apply in_header in Ht.
    - intros t Ht. apply nodup_In in Ht. rewrite <- R2. rewrite in_app_iff in Ht |- *. destruct Ht as [Ht|Ht]; [left | now right].
      apply in_map_iff in Ht as [ct [<- Ht]]. apply in_map. now apply (s_known S2). Qed.
End Proofs.
