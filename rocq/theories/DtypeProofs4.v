(** Gluing columns ([concat(axis=0)] of dtypes) keeps the invariant. *)
From Verif Require Import Base DtypeSpec DtypeModel DtypeProofs DtypeProofs2 DtypeProofs3.

Section Proofs.
  Context {H T : Type}.
  Variable hdec : forall a b : H, {a = b} + {a <> b}.
  Variable tdec : forall a b : T, {a = b} + {a <> b}.
  Notation has := (has hdec).
  Notation dup := (dup hdec).
  Notation dupdate := (dupdate hdec).
  Notation columns_order := (columns_order hdec).
  Notation init := (init hdec).
  Notation desc := (@desc H T).
  Notation dval := (@dval H T).
  Notation acc := (@acc H T).
  Notation tidy := (tidy hdec).
  Notation missing := (missing hdec).
  Notation good := (good hdec).
  Notation concat_step := (concat_step hdec tdec).

  Definition val_sound (v : dval) (cs : list (H * T)) : Prop :=
    match v with
    | VDesc d => sound d cs /\ inorder d cs /\ tidy d cs
    | VSeries s => s = cs
    | VNone => True
    end.
  Definition no_known (v : dval) : Prop :=
    match v with VDesc d => known d = [] | VSeries s => s = [] | VNone => True end.
  Definition no_unknown (v : dval) : Prop := match v with VDesc d => unknown d = [] | _ => True end.
  Definition no_rem (v : dval) : Prop := match v with VDesc d => remaining d = None | _ => True end.
  (** No value tells dtypes of columns behind those described by a remaining dtype only. *)
  Fixpoint rem_last (vs : list dval) : Prop :=
    match vs with [] => True | v :: vs => (no_rem v \/ Forall no_known vs) /\ rem_last vs end.

  Definition ad (a : acc) : desc :=
    Desc (aknown a) (aunknown a) (aschema a) (aknow a) (match arem a with Some x => x | None => None end) None None.
  Record acc_ok (a : acc) (ts : list (H * T)) : Prop := AccOk {
    a_sound : sound (ad a) ts; a_inorder : inorder (ad a) ts; a_tidy : tidy (ad a) ts;
    a_lost : aknow a = false <-> arem a = Some None }.

  Lemma header_app (a b : list (H * T)) : header (a ++ b) = header a ++ header b.
  Proof. apply map_app. Qed.

  Lemma step_desc a ts d cs a' :
    acc_ok a ts -> sound d cs -> inorder d cs -> tidy d cs -> NoDup (header (ts ++ cs)) ->
    (remaining (ad a) = None \/ known d = []) -> concat_step a (VDesc d) = Ok a' ->
    acc_ok a' (ts ++ cs) /\ aunknown a' = aunknown a ++ unknown d /\
    (remaining (ad a) = None -> remaining d = None -> remaining (ad a') = None) /\
    (remaining (ad a') <> None -> remaining (ad a) <> None \/ remaining d <> None).
  Proof. intros [S I TD L] SD ID TDD N RK E. cbn in E. destruct (clash _ _ _); [discriminate|].
    rewrite header_app in N. destruct (@NoDup_app_inv _ _ _ N) as (N1 & N2 & N3).
    assert (NA : incl (names (ad a)) (header ts)) by (apply names_incl; apply S).
    assert (ND : incl (names d) (header cs)) by (apply names_incl; apply SD).
    assert (EU : dupdate (aknown a) (known d) = aknown a ++ known d).
    { apply dupdate_new; [pose proof (s_names SD) as X; now apply NoDup_app_inv in X|].
      intros c Hc Hc'. apply (N3 c); [apply NA; apply in_app_iff; now left | apply ND; apply in_app_iff; now left]. }
    rewrite EU in E.
    set (R := if aknow a && know_all d then _ else _) in E.
    destruct R as [rem know] eqn:ER. injection E as <-.
    set (a' := Acc _ _ _ _ _).
    assert (NM : forall c, In c (names (ad a')) <-> In c (names (ad a)) \/ In c (names d)).
    { intros c. unfold names, a'. cbn. rewrite map_app, !in_app_iff. tauto. }
    assert (HT : forall c, In c (header ts) -> In c (names (ad a')) <-> In c (names (ad a))).
    { intros c Hc. rewrite NM. split; [|now left]. intros [X|X]; [assumption|]. exfalso. apply (N3 c Hc). auto. }
    assert (HC : forall c, In c (header cs) -> In c (names (ad a')) <-> In c (names d)).
    { intros c Hc. rewrite NM. split; [|now right]. intros [X|X]; [|assumption]. exfalso. apply (N3 c); auto. }
    (* the possible outcomes *)
    assert (CASES : (know = false /\ rem = Some None /\ (aknow a = false \/ know_all d = false \/ remaining d <> None)) \/
                    (know = true /\ aknow a = true /\ know_all d = true /\
                      ((arem a = None /\ remaining d = None /\ rem = None) \/
                       (exists r, rem = Some (Some r) /\
                          ((arem a = None /\ remaining d = Some r) \/
                           (arem a = Some (Some r) /\ remaining d = Some r) \/
                           (arem a = Some (Some r) /\ remaining d = None)))))).
    { unfold R in ER. destruct (aknow a) eqn:KA; destruct (know_all d) eqn:KD; cbn in ER;
        try (left; split; [congruence | split; [congruence | tauto]]).
      assert (X : arem a <> Some None) by (intros X; apply L in X; discriminate).
      destruct (arem a) as [[x|]|] eqn:EA; [| easy |]; destruct (remaining d) as [r|] eqn:RD.
      - destruct (tdec x r) as [->|]; [|left; split; [congruence | split; [congruence | right; right; discriminate]]]. right. injection ER as <- <-. repeat (split; [reflexivity|]).
        right. exists r. split; [reflexivity|]. right; now left.
      - right. injection ER as <- <-. repeat (split; [reflexivity|]). right. exists x. split; [reflexivity|]. right; now right.
      - right. injection ER as <- <-. repeat (split; [reflexivity|]). right. exists r. split; [reflexivity|]. now left.
      - right. injection ER as <- <-. repeat (split; [reflexivity|]). now left. }
    clear ER R.
    assert (ALLA : aknow a = true -> arem a = None -> incl (header ts) (names (ad a))).
    { intros X Y. apply (s_all S); [assumption | cbn; now rewrite Y]. }
    assert (MA : forall r, remaining (ad a) = Some r -> forall c t, In (c, t) ts -> ~ In c (names (ad a')) -> t = r).
    { intros r X c t Hc X'. apply (s_rem S X c t Hc). intros Y. apply X'. apply NM. now left. }
    assert (MD : forall r, remaining d = Some r -> forall c t, In (c, t) cs -> ~ In c (names (ad a')) -> t = r).
    { intros r X c t Hc X'. apply (s_rem SD X c t Hc). intros Y. apply X'. apply NM. now right. }
    assert (S' : sound (ad a') (ts ++ cs)).
    { split.
      - rewrite header_app. assumption.
      - unfold names, a'. cbn. rewrite map_app.
        apply (Permutation_NoDup (l := (map fst (aknown a) ++ aunknown a) ++ (map fst (known d) ++ unknown d))).
        + rewrite <- !app_assoc. apply Permutation_app_head. rewrite !app_assoc. apply Permutation_app_tail, Permutation_app_comm.
        + apply NoDup_app_disjoint; [apply (s_names S) | apply (s_names SD) |]. intros c Hc Hc'. apply (N3 c); [now apply NA | now apply ND].
      - unfold a'. cbn. apply incl_app; [apply incl_appl, (s_known S) | apply incl_appr, (s_known SD)].
      - unfold a'. cbn. rewrite header_app. apply incl_app; [apply incl_appl, (s_unknown S) | apply incl_appr, (s_unknown SD)].
      - intros r X c t Hc Hn. unfold a' in X. cbn in X. destruct CASES as [(C1 & C2 & _)|(C1 & C2 & C3 & C4)]; [rewrite C2 in X; discriminate|].
        destruct C4 as [(D1 & D2 & D3)|(r' & D1 & D2)]; rewrite ?D3, ?D1 in X; [discriminate|]. injection X as ->.
        apply in_app_iff in Hc as [Hc|Hc].
        + destruct D2 as [(D2 & D3)|[(D2 & D3)|(D2 & D3)]].
          * exfalso. apply Hn. apply NM. left. apply (ALLA C2 D2). now apply in_header in Hc.
          * apply (MA r) with c; [cbn; now rewrite D2 | assumption | assumption].
          * apply (MA r) with c; [cbn; now rewrite D2 | assumption | assumption].
        + destruct D2 as [(D2 & D3)|[(D2 & D3)|(D2 & D3)]]; [now apply (MD r D3 c) | now apply (MD r D3 c) |].
          exfalso. apply Hn. apply NM. right. apply (s_all SD C3 D3). now apply in_header in Hc.
      - intros X Y. unfold a' in X, Y. cbn in X, Y. destruct CASES as [(C1 & C2)|(C1 & C2 & C3 & C4)]; [congruence|].
        destruct C4 as [(D1 & D2 & D3)|(r' & D1 & D2)]; [|rewrite D1 in Y; discriminate].
        intros c Hc. rewrite header_app in Hc. apply NM. apply in_app_iff in Hc as [Hc|Hc]; [left; now apply ALLA | right; now apply (s_all SD)].
      - unfold a'. cbn [schema ad aschema]. rewrite andb_true_iff. intros [X Y].
        destruct (s_schema S X) as (X1 & X2 & X3 & X4). destruct (s_schema SD Y) as (Y1 & Y2 & Y3 & Y4).
        cbn in X1, X2, X4. cbn. rewrite X1, Y1.
        destruct CASES as [(C1 & C2)|(C1 & C2 & C3 & C4)].
        + exfalso. destruct C2 as [_ [C2|[C2|C2]]]; congruence.
        + split; [reflexivity|]. destruct C4 as [(D1 & D2 & D3)|(r' & D1 & [(D2 & D3)|[(D2 & D3)|(D2 & D3)]])]; try congruence.
          * rewrite D3. split; [reflexivity|]. split; [|assumption]. intros c Hc. rewrite header_app in Hc. apply in_app_iff in Hc.
            enough (In c (names (ad a'))) by (unfold a' in *; cbn in *; unfold names in *; cbn in *; now rewrite X1, Y1 in *).
            apply NM. destruct Hc; auto.
          * rewrite D2 in X2. discriminate.
      - discriminate.
      - intros X. unfold a' in X |- *. cbn in X |- *. destruct CASES as [(C1 & C2 & _)|(C1 & _)]; [now rewrite C2 | congruence]. }
    assert (MISS : missing (ad a') (ts ++ cs) = missing (ad a) ts ++ missing d cs).
    { unfold DtypeProofs.missing. rewrite header_app, filter_app. f_equal; apply filter_ext_in; intros c Hc;
        apply eq_true_iff_eq; rewrite !andb_true_iff, !negb_true_iff, !has_false.
      - pose proof (HT c Hc) as X. unfold names in X. rewrite !in_app_iff in X. tauto.
      - pose proof (HC c Hc) as X. unfold names in X. rewrite !in_app_iff in X. tauto. }
    assert (NOMISS : forall (d0 : desc) cs0, incl (header cs0) (names d0) -> missing d0 cs0 = []).
    { intros d0 cs0 X. destruct (missing d0 cs0) as [|c l] eqn:EQ; [reflexivity|]. exfalso.
      assert (Y : In c (missing d0 cs0)) by (rewrite EQ; now left). apply in_missing in Y as [Y1 Y2]. auto. }
    assert (I' : inorder (ad a') (ts ++ cs)) by (apply subseq_app; assumption).
    split; [split|split; [reflexivity|split]].
    - exact S'.
    - exact I'.
    - intros r X. rewrite MISS, map_app. unfold a' in X |- *. cbn in X. cbn [known ad aknown].
      destruct CASES as [(C1 & C2 & _)|(C1 & C2 & C3 & C4)]; [rewrite C2 in X; discriminate|].
      destruct C4 as [(D1 & D2 & D3)|(r' & D1 & D2)]; rewrite ?D3, ?D1 in X; [discriminate|]. injection X as ->.
      destruct D2 as [(D2 & D3)|[(D2 & D3)|(D2 & D3)]].
      + rewrite (NOMISS (ad a) ts (ALLA C2 D2)). cbn. rewrite <- app_assoc. apply subseq_app; [exact I | now apply TDD].
      + destruct RK as [RK|RK]; [cbn in RK; rewrite D2 in RK; discriminate|]. rewrite RK, app_nil_r.
        rewrite app_assoc. apply subseq_app; [apply TD; cbn; now rewrite D2|]. pose proof (TDD r D3) as X. now rewrite RK in X.
      + destruct RK as [RK|RK]; [cbn in RK; rewrite D2 in RK; discriminate|]. rewrite RK, app_nil_r.
        rewrite (NOMISS d cs (s_all SD C3 D3)). cbn. rewrite app_nil_r.
        rewrite <- (app_nil_r (aknown a ++ _)). apply subseq_app; [apply TD; cbn; now rewrite D2 | constructor].
    - unfold a'. cbn. destruct CASES as [(C1 & C2 & _)|(C1 & C2 & C3 & C4)]; [now rewrite C1, C2|].
      rewrite C1. destruct C4 as [(D1 & D2 & D3)|(r' & D1 & D2)]; rewrite ?D3, ?D1; easy.
    - unfold a'. cbn. intros X Y. destruct CASES as [(C1 & C2 & _)|(C1 & C2 & C3 & C4)]; [now rewrite C2|].
      destruct C4 as [(D1 & D2 & D3)|(r' & D1 & [(D2 & D3)|[(D2 & D3)|(D2 & D3)]])]; [now rewrite D3 | congruence..|].
      rewrite D2 in X. discriminate.
    - unfold a'. cbn. intros X. destruct CASES as [(C1 & C2 & _)|(C1 & C2 & C3 & C4)]; [now rewrite C2 in X|].
      destruct C4 as [(D1 & D2 & D3)|(r' & D1 & [(D2 & D3)|[(D2 & D3)|(D2 & D3)]])]; [now rewrite D3 in X | right; congruence | right; congruence |].
      left. rewrite D2. discriminate. Qed.

  Definition series_desc (s : list (H * T)) : desc := Desc s [] true true None None None.
  Lemma step_series a ts s : acc_ok a ts -> concat_step a (VSeries s) = concat_step a (VDesc (series_desc s)).
  Proof. intros [_ _ _ L]. unfold DtypeModel.concat_step, series_desc. cbn [known unknown know_all schema remaining].
    rewrite app_nil_r. destruct (clash _ _ _); [reflexivity|]. rewrite !andb_true_r, app_nil_r.
    destruct (aknow a) eqn:K; [|now rewrite (proj1 L eq_refl)]. destruct (arem a); reflexivity. Qed.
  Lemma series_sound s : NoDup (header s) ->
    sound (series_desc s) s /\ inorder (series_desc s) s /\ tidy (series_desc s) s.
  Proof. intros N. split; [|split].
    - split; unfold names; cbn; rewrite ?app_nil_r; try assumption; try easy; try apply incl_refl.
    - apply subseq_refl.
    - discriminate. Qed.

  Lemma step_ok a ts v cs a' :
    acc_ok a ts -> val_sound v cs -> NoDup (header (ts ++ cs)) -> (remaining (ad a) = None \/ no_known v) ->
    concat_step a v = Ok a' ->
    acc_ok a' (ts ++ cs) /\ (no_unknown v -> aunknown a' = aunknown a) /\
    (remaining (ad a') <> None -> remaining (ad a) <> None \/ ~ no_rem v).
  Proof. intros A V N RK E. assert (NC : NoDup (header cs)) by (rewrite header_app in N; now apply NoDup_app_inv in N).
    destruct v as [d|s|].
    - destruct V as (V1 & V2 & V3). destruct (step_desc A V1 V2 V3 N RK E) as (X1 & X2 & X3 & X4).
      split; [assumption|]. split; [intros Y; rewrite X2; cbn in Y; now rewrite Y, app_nil_r | assumption].
    - cbn in V. subst s. rewrite (step_series _ A) in E. destruct (@series_sound cs NC) as (V1 & V2 & V3).
      destruct (step_desc A V1 V2 V3 N RK E) as (X1 & X2 & X3 & X4).
      split; [assumption|]. split; [intros _; rewrite X2; now rewrite app_nil_r|]. intros Y. destruct (X4 Y) as [Z|Z]; [now left | easy].
    - cbn in E. injection E as <-. destruct A as [S I TD L]. split; [split|split; [reflexivity | easy]].
      + split; try apply S; try easy.
        * cbn. apply incl_appl, (s_known S).
        * cbn. rewrite header_app. apply incl_appl, (s_unknown S).
      + unfold inorder. cbn. rewrite <- (app_nil_r (aknown a)). apply subseq_app; [exact I | constructor].
      + discriminate.
      + easy. Qed.

  Lemma loop_ok vs css : Forall2 val_sound vs css -> rem_last vs -> forall a ts a',
    acc_ok a ts -> NoDup (header (ts ++ concat css)) -> (remaining (ad a) = None \/ Forall no_known vs) ->
    concat_loop hdec tdec a vs = Ok a' ->
    acc_ok a' (ts ++ concat css) /\ (Forall no_unknown vs -> aunknown a' = aunknown a) /\
    (Forall no_rem vs -> remaining (ad a) = None -> remaining (ad a') = None).
  Proof. induction 1 as [|v cs vs css V F IH]; intros RL a ts a' A N RK E; cbn in E.
    - injection E as <-. cbn. rewrite app_nil_r. split; [assumption|]. now split.
    - destruct (concat_step a v) as [a1|] eqn:E1; [|discriminate]. cbn [rbind] in E. cbn [concat] in N |- *.
      destruct RL as [RL1 RL2].
      assert (N1 : NoDup (header (ts ++ cs))).
      { rewrite app_assoc, header_app in N. now apply NoDup_app_inv in N. }
      destruct (@step_ok a ts v cs a1 A V N1) as (X1 & X2 & X3); [destruct RK as [RK|RK]; [now left | right; now inversion RK] | assumption |].
      assert (RK1 : remaining (ad a1) = None \/ Forall no_known vs).
      { destruct (remaining (ad a1)) eqn:R1; [|now left]. right. destruct X3 as [X3|X3]; [discriminate| |].
        - destruct RK as [RK|RK]; [congruence | now inversion RK].
        - destruct RL1 as [RL1|RL1]; [contradiction | assumption]. }
      rewrite app_assoc in N. destruct (IH RL2 a1 (ts ++ cs) a' X1 N RK1 E) as (Y1 & Y2 & Y3).
      rewrite app_assoc. split; [assumption|]. split.
      + intros Z. inversion_clear Z as [|? ? Z1 Z2]. rewrite (Y2 Z2). auto.
      + intros Z R. inversion_clear Z as [|? ? Z1 Z2]. apply Y3; [assumption|].
        destruct (remaining (ad a1)) eqn:R1; [|reflexivity]. destruct X3 as [X3|X3]; [discriminate | congruence | contradiction]. Qed.

  Theorem concat_good vs css d :
    Forall2 val_sound vs css -> NoDup (header (concat css)) -> rem_last vs -> (Forall no_unknown vs \/ Forall no_rem vs) ->
    concat_dtypes hdec tdec vs = Ok d -> good d (concat css) false.
  Proof. intros F N RL MX E. unfold concat_dtypes in E.
    destruct (concat_loop hdec tdec _ vs) as [a|] eqn:EL; [|discriminate]. cbn [rbind] in E.
    assert (A0 : acc_ok (Acc [] [] true None true) ([] : list (H * T))).
    { split; [split|..]; unfold names; cbn; try easy; try constructor; try easy. }
    destruct (@loop_ok vs css F RL _ _ a A0) as (X1 & X2 & X3); [assumption | now left | assumption |]. cbn [app] in X1.
    destruct X1 as [S I TD L].
    assert (ED : d = ad a).
    { revert E. unfold DtypeModel.init. destruct (_ && _); [discriminate|]. destruct (dup _); [discriminate|].
      destruct (dup _); [discriminate|]. unfold DtypeModel.columns_order. cbn. intros [= <-]. reflexivity. }
    subst d. split; [assumption|]. split; [now left|]. split; [assumption|]. split; [|discriminate].
    intros R. destruct MX as [MX|MX]; [exact (X2 MX) | exfalso; apply R; now apply X3]. Qed.
End Proofs.
