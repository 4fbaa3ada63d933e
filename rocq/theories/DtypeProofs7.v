(** Histories of frames. *)
From Verif Require Import Base DtypeSpec DtypeModel DtypeFrames DtypeHist DtypeProofs DtypeProofs2 DtypeProofs3 DtypeProofs4 DtypeProofs5 DtypeProofs6.

Section Proofs.
  Context {H T : Type}.
  Variable hdec : forall a b : H, {a = b} + {a <> b}.
  Variable tdec : forall a b : T, {a = b} + {a <> b}.
  Variable common : list T -> T.
  Variable tfloat : T.
  Notation desc := (@desc H T).
  Notation good := (good hdec).
  Notation columns_order := (columns_order hdec).
  Notation df := (@df H T).
  Notation fgood := (@fgood H T hdec).
  Notation exec := (exec hdec tdec common tfloat).
  Notation step := (step hdec tdec common tfloat).
  Notation run := (run hdec tdec common tfloat).

  (** * One column replaced *)
  Lemma lazy_get_plain (d : desc) cs st ids d' : good d cs st -> incl ids (header cs) -> lazy_get hdec d ids = Ok d' ->
    inorder d' (selected hdec cs ids) /\ remaining d' = None.
  Proof. intros G I E. unfold lazy_get in E.
    destruct (dup hdec ids); [discriminate|]. destruct (init_ord hdec _ _ _ _ _ _ _ E) as (_ & _ & E2 & _ & E4 & _).
    split; [|assumption]. unfold inorder. rewrite E2, get_known_guess. clear E E2 E4. destruct G as (S & _).
    induction ids as [|c ids IH]; cbn; [constructor|].
    assert (J : In c (header cs)) by (apply I; now left).
    apply subseq_app; [|apply IH; intros x Hx; apply I; now right]. destruct (guess hdec d c) as [t|] eqn:EG; [|constructor].
    rewrite (@guess_right H T hdec d cs c t S J EG). apply subseq_refl. Qed.

  Lemma replaced_header cs c t : header (replaced hdec cs c t) = header (T := T) cs.
  Proof. unfold header, replaced. rewrite map_map. apply map_ext. intros [c' t']. cbn. now destruct (hdec c c') as [->|]. Qed.

  Lemma setitem_parts sorted x c t y : fgood x -> (forall l, Permutation (sorted l) l) -> setitem hdec tdec sorted x c t = Ok y ->
    exists new cs0 new', mgood hdec new cs0 false /\ incl (header (truth x)) (header cs0) /\ m_lazy_get hdec new (header (truth x)) = Ok new' /\
      selected hdec cs0 (header (truth x)) = replaced hdec (truth x) c t /\
      make hdec (Frame true (replaced hdec (truth x) c t)) (Some new') = Ok y.
  Proof. intros G P E. unfold setitem in E. destruct (touch_good G) as [[N G'] TE]. rewrite TE in *. revert E.
    set (tx := touch x) in *. intros E. set (cs := truth x) in *.
    destruct (has hdec c (header cs)) eqn:HC; [|discriminate]. apply has_true in HC. cbn [negb] in E.
    destruct (dcache tx) as [m|] eqn:ED; [|discriminate]. specialize (G' m eq_refl).
    set (olds := sorted _) in E.
    assert (OI : forall c', In c' olds <-> In c' (header cs) /\ c' <> c).
    { intros c'. unfold olds. transitivity (In c' (filter (fun c' => if hdec c c' then false else true) (header cs))).
      { split; apply Permutation_in; [apply P | apply Permutation_sym, P]. }
      rewrite filter_In. destruct (hdec c c') as [->|n]; [easy|].
      split; [intros [A _]; split; [assumption | congruence] | easy]. }
    assert (ON : NoDup olds) by (unfold olds; apply (Permutation_NoDup (Permutation_sym (P _))); now apply NoDup_filter).
    assert (OH : incl olds (header cs)) by (intros c' Hc; now apply OI).
    destruct (m_lazy_get hdec m olds) as [old|] eqn:EO; [|discriminate]. cbn [rbind] in E.
    pose proof (@m_lazy_get_good H T hdec m cs false olds old G' OH EO) as GO.
    destruct (init hdec (Some [(c, t)]) (Some []) None None None true None) as [dn|] eqn:EN; [|discriminate]. cbn [rbind] in E.
    destruct (unwrap (Some old)) as [v|] eqn:EV; [|discriminate]. cbn [rbind] in E.
    destruct (concat_dtypes hdec tdec [v; VDesc dn]) as [d|] eqn:EC; [|discriminate]. cbn [rbind] in E.
    destruct (wrap hdec d) as [new|] eqn:EW; [|discriminate]. cbn [rbind] in E.
    destruct (m_lazy_get hdec new (header cs)) as [new'|] eqn:EL; [|discriminate]. cbn [rbind] in E.
    assert (DN : dn = Desc [(c, t)] [] true true None None None).
    { revert EN. unfold init. cbn. unfold dup. cbn. now intros [= <-]. }
    set (A := selected hdec cs olds). assert (HA : header A = olds) by now apply selected_header.
    assert (V : val_sound hdec v A /\ no_rem v).
    { destruct m as [r|s|d0]; cbn [m_lazy_get] in EO.
      - injection EO as <-. discriminate.
      - destruct (series_get hdec s olds) as [s'|]; [|discriminate]. injection EO as <-. cbn in EV. injection EV as <-. now split.
      - destruct (lazy_get hdec d0 olds) as [d1|] eqn:E1; [|discriminate]. cbn [rbind] in EO.
        destruct (@lazy_get_plain d0 cs false olds d1 G' OH E1) as [I1 I2].
        destruct old as [|s|d2]; [discriminate | |].
        + injection EV as <-. now split.
        + injection EV as <-. apply wrap_desc in EO as [-> _]. cbn in GO |- *. destruct GO as (S & _ & TD & _). split; [split; [assumption | now split] | assumption]. }
    destruct V as [V1 V2].
    assert (NA : NoDup (header (A ++ [(c, t)]))).
    { rewrite header_app, HA. cbn. apply NoDup_app_disjoint; [assumption | constructor; [easy | constructor] |].
      intros c' Hc [<-|[]]. now apply OI in Hc. }
    assert (GD : good d (A ++ [(c, t)]) false).
    { replace (A ++ [(c, t)]) with (concat [A; [(c, t)]]) by (cbn; reflexivity).
      apply (@concat_good H T hdec tdec [v; VDesc dn]); try assumption.
      - constructor; [assumption|]. constructor; [|constructor]. subst dn. cbn. split; [|split].
        + split; unfold names; cbn; try easy.
          * constructor; [easy | constructor]. * constructor; [easy | constructor].
        + apply subseq_refl.
        + intros r X. discriminate.
      - cbn. split; [now left|]. split; [|exact Logic.I]. left. now subst dn.
      - right. constructor; [assumption|]. constructor; [now subst dn | constructor]. }
    pose proof (@wrap_good H T hdec d _ false new GD EW) as GN.
    assert (IH : incl (header cs) (header (A ++ [(c, t)]))).
    { intros c' Hc. rewrite header_app, HA, in_app_iff. cbn. destruct (hdec c c') as [->|n]; [right; now left|]. left. apply OI. split; [assumption | congruence]. }
    assert (EQ : selected hdec (A ++ [(c, t)]) (header cs) = replaced hdec cs c t).
    { rewrite <- (replaced_header cs c t). apply selected_header_of; [assumption|]. intros [c' t'] Hc. apply in_map_iff in Hc as [[c0 t0] [E0 Hc]].
      cbn in E0. apply in_app_iff. destruct (hdec c c0) as [->|n]; injection E0 as <- <-; [right; now left|]. left. apply selected_in.
      split; [apply OI; split; [now apply in_header in Hc | congruence] | now apply dtype_of_in]. }
    exists new, (A ++ [(c, t)]), new'. repeat (split; [assumption|]). exact E. Qed.
  Lemma setitem_good sorted x c t y : fgood x -> (forall l, Permutation (sorted l) l) -> setitem hdec tdec sorted x c t = Ok y ->
    fgood y /\ dframe y = Frame true (replaced hdec (truth x) c t).
  Proof. intros G P E. destruct (@setitem_parts sorted x c t y G P E) as (new & cs0 & new' & GN & I & EL & EQ & EM).
    apply make_good in EM; [exact EM | cbn [ftruth]; rewrite replaced_header; apply G |].
    intros m [= <-]. exists false. cbn [ftruth]. rewrite <- EQ. now apply (@m_lazy_get_good H T hdec new). Qed.

  (** * The ghost follows the specification *)
  Lemma make_frame f c (x : df) : make hdec f c = Ok x -> dframe x = f.
  Proof. unfold make. match goal with |- rbind ?r _ = _ -> _ => destruct r as [c'|]; [|discriminate] end. now intros [= <-]. Qed.
  Lemma touch_truth (x : df) : truth (touch x) = truth x.
  Proof. reflexivity. Qed.
  Lemma look_nth (st : list df) i x : look st i = Ok x -> nth_error st i = Some x.
  Proof. unfold look. destruct (nth_error st i); [now intros [= <-] | discriminate]. Qed.
  Lemma look_at (st : list df) i x : look st i = Ok x -> at_ (map truth st) i = truth x.
  Proof. intros E. apply look_nth in E. unfold at_. apply nth_error_nth. now apply map_nth_error. Qed.
  Lemma looks_at (st : list df) is xs : rmap (look st) is = Ok xs -> map (at_ (map truth st)) is = map truth xs.
  Proof. intros E. apply rmap_forall2 in E. induction E as [|i x is xs X E IH]; cbn; [reflexivity|]. rewrite IH. f_equal. now apply look_at. Qed.
  Lemma put_truth (st : list df) i x y : look st i = Ok x -> truth y = truth x -> map truth (put st i y) = map truth st.
  Proof. intros E T'. apply look_nth in E. unfold put. revert i E. induction st as [|z st IH]; intros [|i] E; cbn in *; try discriminate.
    - injection E as ->. now rewrite T'.
    - f_equal. now apply IH. Qed.

  Lemma exec_truths st o st' b : exec st o = Ok (st', b) -> map truth st' = truths hdec common tfloat (map truth st) o.
  Proof. destruct o as [mat cs s|i ps|i ps|i n|is|is|i so c t|i|i|i|i]; cbn [DtypeFrames.exec truths]; intros E.
    - destruct (source_cache _ _ _) as [m|]; [|discriminate]. cbn in E. destruct (make _ _ _) as [x|] eqn:EM; [|discriminate]. injection E as <- <-.
      rewrite map_app. cbn. unfold truth at 2. now rewrite (make_frame _ _ EM).
    - destruct (look st i) as [x|] eqn:EL; [|discriminate]. cbn in E. destruct (take_columns hdec x ps) as [y|] eqn:ET; [|discriminate].
      injection E as <- <-. rewrite map_app, (put_truth _ _ _ EL) by reflexivity. cbn. rewrite (look_at _ _ EL). do 2 f_equal.
      unfold take_columns in ET. destruct (negb (forallb _ ps)); [discriminate|].
      match type of ET with rbind ?r _ = _ => destruct r; [|discriminate] end. cbn [rbind] in ET.
      unfold truth at 1. now rewrite (make_frame _ _ ET).
    - destruct (look st i) as [x|] eqn:EL; [|discriminate]. cbn in E. destruct (reorder_columns hdec x ps) as [y|] eqn:ET; [|discriminate].
      injection E as <- <-. rewrite map_app, (put_truth _ _ _ EL) by reflexivity. cbn. rewrite (look_at _ _ EL). do 2 f_equal.
      unfold reorder_columns in ET. destruct (negb (forallb _ ps)); [discriminate|].
      match type of ET with rbind ?r _ = _ => destruct r; [|discriminate] end. cbn [rbind] in ET.
      unfold truth at 1. now rewrite (make_frame _ _ ET).
    - destruct (look st i) as [x|] eqn:EL; [|discriminate]. cbn in E. destruct (set_columns hdec x n) as [y|] eqn:ET; [|discriminate].
      injection E as <- <-. unfold put. rewrite map_app, firstn_map. cbn [map]. rewrite skipn_map. do 2 f_equal.
      rewrite (look_at _ _ EL). unfold set_columns in ET. destruct (negb _); [discriminate|].
      match type of ET with rbind ?r _ = _ => destruct r; [|discriminate] end. cbn [rbind] in ET.
      unfold truth at 1. now rewrite (make_frame _ _ ET).
    - destruct (rmap (look st) is) as [xs|] eqn:EL; [|discriminate]. cbn in E. destruct (concat_columns _ _ _) as [y|] eqn:ET; [|discriminate].
      injection E as <- <-. rewrite map_app, (looks_at _ _ EL). cbn. do 2 f_equal. unfold concat_columns in ET.
      destruct (rmap (copy_cache hdec) xs); [|discriminate]. cbn [rbind] in ET.
      match type of ET with rbind ?r _ = _ => destruct r; [|discriminate] end. cbn [rbind] in ET.
      unfold truth at 1. now rewrite (make_frame _ _ ET).
    - destruct (rmap (look st) is) as [xs|] eqn:EL; [|discriminate]. cbn in E. destruct (concat_rows _ _ _ _) as [y|] eqn:ET; [|discriminate].
      injection E as <- <-. rewrite map_app, (looks_at _ _ EL). cbn. do 2 f_equal. unfold concat_rows in ET.
      match type of ET with rbind ?r _ = _ => destruct r; [|discriminate] end. cbn [rbind] in ET.
      unfold truth at 1. rewrite (make_frame _ _ ET). cbn. now rewrite map_map.
    - destruct (look st i) as [x|] eqn:EL; [|discriminate]. cbn in E. destruct (setitem _ _ _ _ _ _) as [y|] eqn:ET; [|discriminate].
      injection E as <- <-. rewrite map_app, (put_truth _ _ _ EL) by reflexivity. cbn. rewrite (look_at _ _ EL). do 2 f_equal.
      unfold setitem in ET. destruct (negb _); [discriminate|]. destruct (dcache (touch x)); [|discriminate].
      repeat match type of ET with rbind ?r _ = _ => destruct r; [|discriminate]; cbn [rbind] in ET end.
      unfold truth at 1. now rewrite (make_frame _ _ ET).
    - destruct (look st i) as [x|] eqn:EL; [|discriminate]. injection E as <- <-. now apply (put_truth _ _ _ EL).
    - destruct (look st i) as [x|] eqn:EL; [|discriminate]. injection E as <- <-. apply (put_truth _ _ _ EL).
      unfold reorder. now destruct (dcache x) as [[]|].
    - destruct (look st i) as [x|] eqn:EL; [|discriminate]. cbn in E. unfold get_dtypes in E.
      destruct (frame_get _ _ _); [|discriminate]. injection E as <- <-. now apply (put_truth _ _ _ EL).
    - destruct (look st i) as [x|] eqn:EL; [|discriminate]. cbn in E. destruct (get_types _ _ _) as [[y ts]|] eqn:EG; [|discriminate].
      injection E as <- <-. apply (put_truth _ _ _ EL). unfold get_types in EG. destruct (dcache x) as [m|].
      + destruct (m_dtypes_set _ _ _); [|discriminate]. now injection EG as <- <-.
      + unfold get_dtypes in EG. destruct (frame_get _ _ _); [|discriminate]. now injection EG as <- <-. Qed.

  (** * One step of a history *)
  Definition careful (st : list df) (o : @op H T) : Prop :=
    match o with
    | ConcatCols is => forall xs, rmap (look st) is = Ok xs -> careful_cols hdec xs
    | ConcatRows is => forall xs, rmap (look st) is = Ok xs -> careful_rows xs
    | _ => True
    end.

  Lemma source_good mat (cs : list (H * T)) s c x : NoDup (header cs) -> honest cs s -> source_cache hdec cs s = Ok c -> make hdec (Frame mat cs) c = Ok x ->
    fgood x.
  Proof. intros N HS EC EM. apply make_good in EM; [apply EM | exact N |]. intros m ->. exists false. cbn [ftruth].
    destruct s as [| | |kn un know|t]; cbn [source_cache] in EC.
    - discriminate.
    - injection EC as <-. reflexivity.
    - injection EC as <-. cbn. congruence.
    - destruct (init hdec kn un None None None know None) as [d|] eqn:EI; [|discriminate]. cbn [rbind] in EC.
      destruct (wrap hdec d) as [m'|] eqn:EW; [|discriminate]. injection EC as <-. apply (@wrap_good H T hdec d); [|assumption].
      destruct HS as ([p KP] & UI & DJ & KA).
      assert (ED : known d = (match kn with Some k => k | None => [] end) /\ remaining d = None).
      { revert EI. unfold init. destruct (_ && _); [discriminate|]. destruct (dup _ _); [discriminate|]. destruct (dup _ _); [discriminate|].
        unfold DtypeModel.columns_order. cbn. now intros [= <-]. }
      assert (SK : subseq (match kn with Some k => k | None => [] end) cs) by (rewrite KP; apply subseq_filter).
      eapply (@init_sound H T hdec _ _ _ _ _ _ _ _ cs) in EI; cbn; try easy.
      + destruct EI as (S & A & _). destruct ED as [E1 E2]. split; [assumption|]. split; [left; unfold inorder; now rewrite E1|].
        split; [intros r X; congruence|]. split; [congruence | assumption].
      + now apply subseq_incl.
      + intros K _. now apply KA.
    - destruct (init hdec None None (Some t) None None true None) as [d|] eqn:EI; [|discriminate]. cbn [rbind] in EC.
      destruct (wrap hdec d) as [m'|] eqn:EW; [|discriminate]. injection EC as <-. apply (@wrap_good H T hdec d); [|assumption].
      assert (ED : d = Desc [] [] false true (Some t) None None).
      { revert EI. unfold init. cbn. now intros [= <-]. }
      eapply (@init_sound H T hdec _ _ _ _ _ _ _ _ cs) in EI; cbn; try easy.
      + destruct EI as (S & A & _). subst d. split; [assumption|]. split; [left; unfold inorder; constructor|].
        split; [|split; [reflexivity | assumption]]. intros r [= <-]. cbn.
        assert (X : map (fun c => (c, t)) (missing hdec (Desc [] [] false true (Some t) None None) cs) = cs).
        { unfold missing. cbn. cbn in HS. clear - HS. unfold header. induction cs as [|[c t'] cs IH]; cbn; [reflexivity|].
          rewrite IH by (intros ct Hct; apply HS; now right). f_equal. f_equal. symmetry. exact (HS (c, t') (or_introl eq_refl)). }
        rewrite X. apply subseq_refl.
      + intros r [= <-] c t' Hc _. apply (HS (c, t') Hc). Qed.

  Lemma put_good st i x : Forall fgood st -> fgood x -> Forall fgood (put st i x).
  Proof. intros F G. unfold put. apply Forall_app. split; [|constructor; [assumption|]]; rewrite Forall_forall in *; intros y Hy.
    - apply F. rewrite <- (firstn_skipn i st). apply in_app_iff. now left.
    - apply F. rewrite <- (firstn_skipn (S i) st). apply in_app_iff. now right. Qed.
  Lemma look_good st i x : Forall fgood st -> look st i = Ok x -> fgood x.
  Proof. intros F E. apply look_nth, nth_error_In in E. rewrite Forall_forall in F. auto. Qed.
  Lemma looks_good st is xs : Forall fgood st -> rmap (look st) is = Ok xs -> Forall fgood xs.
  Proof. intros F E. apply rmap_forall2 in E. induction E as [|i x is xs X E IH]; constructor; [|assumption]. now apply look_good in X. Qed.

  Lemma step_good st o : Forall fgood st -> admissible st o -> careful st o ->
    Forall fgood (fst (step st o)) /\ right st (snd (step st o)).
  Proof. intros F A C. unfold DtypeFrames.step. destruct (exec st o) as [[st' b]|e] eqn:E; [|now split]. cbn [fst snd].
    destruct o as [mat cs s|i ps|i ps|i n|is|is|i so c t|i|i|i|i]; cbn [DtypeFrames.exec admissible careful] in *.
    - destruct (source_cache _ _ _) as [m|] eqn:ES; [|discriminate]. cbn in E. destruct (make _ _ _) as [x|] eqn:EM; [|discriminate]. injection E as <- <-.
      split; [|exact I]. apply Forall_app. split; [assumption|]. constructor; [|constructor]. now apply (@source_good mat cs s m).
    - destruct (look st i) as [x|] eqn:EL; [|discriminate]. cbn in E. destruct (take_columns hdec x ps) as [y|] eqn:ET; [|discriminate].
      injection E as <- <-. split; [|exact I]. pose proof (look_good _ F EL) as G. apply Forall_app. split; [apply put_good; [assumption | now apply touch_good]|].
      constructor; [|constructor]. now apply (@take_columns_good H T hdec x ps y G A ET).
    - destruct (look st i) as [x|] eqn:EL; [|discriminate]. cbn in E. destruct (reorder_columns hdec x ps) as [y|] eqn:ET; [|discriminate].
      injection E as <- <-. split; [|exact I]. pose proof (look_good _ F EL) as G. apply Forall_app. split; [apply put_good; [assumption | now apply touch_good]|].
      constructor; [|constructor]. now apply (@reorder_columns_good H T hdec x ps y G A ET).
    - destruct (look st i) as [x|] eqn:EL; [|discriminate]. cbn in E. destruct (set_columns hdec x n) as [y|] eqn:ET; [|discriminate].
      injection E as <- <-. split; [|exact I]. pose proof (look_good _ F EL) as G. apply put_good; [assumption|]. now apply (@set_columns_good H T hdec x n y G A ET).
    - destruct (rmap (look st) is) as [xs|] eqn:EL; [|discriminate]. cbn in E. destruct (concat_columns _ _ _) as [y|] eqn:ET; [|discriminate].
      injection E as <- <-. split; [|exact I]. apply Forall_app. split; [assumption|]. constructor; [|constructor].
      apply (@concat_columns_good H T hdec tdec xs y); auto. now apply (@looks_good st is).
    - destruct (rmap (look st) is) as [xs|] eqn:EL; [|discriminate]. cbn in E. destruct (concat_rows _ _ _ _) as [y|] eqn:ET; [|discriminate].
      injection E as <- <-. split; [|exact I]. apply Forall_app. split; [assumption|]. constructor; [|constructor].
      apply (@concat_rows_good H T hdec common tfloat xs y); auto. now apply (@looks_good st is).
    - destruct (look st i) as [x|] eqn:EL; [|discriminate]. cbn in E. destruct (setitem _ _ _ _ _ _) as [y|] eqn:ET; [|discriminate].
      injection E as <- <-. split; [|exact I]. pose proof (look_good _ F EL) as G. apply Forall_app. split; [apply put_good; [assumption | now apply touch_good]|].
      constructor; [|constructor]. now apply (@setitem_good so x c t y G A ET).
    - destruct (look st i) as [x|] eqn:EL; [|discriminate]. injection E as <- <-. split; [|exact I]. apply put_good; [assumption|].
      apply touch_good. now apply (@look_good st i).
    - destruct (look st i) as [x|] eqn:EL; [|discriminate]. injection E as <- <-. split; [|exact I]. apply put_good; [assumption|].
      apply reorder_good. now apply (@look_good st i).
    - destruct (look st i) as [x|] eqn:EL; [|discriminate]. cbn in E. destruct (get_dtypes hdec x) as [[y s]|] eqn:EG; [|discriminate].
      injection E as <- <-. pose proof (look_good _ F EL) as G. destruct (get_dtypes_good G EG) as (X1 & X2 & _). split; [now apply put_good|].
      exists x. split; [now apply look_nth | assumption].
    - destruct (look st i) as [x|] eqn:EL; [|discriminate]. cbn in E. destruct (get_types _ _ x) as [[y ts]|] eqn:EG; [|discriminate].
      injection E as <- <-. pose proof (look_good _ F EL) as G. destruct (@get_types_good H T hdec tdec x y ts G EG) as (X1 & X2 & _). split; [now apply put_good|].
      exists x. split; [now apply look_nth | exact X1]. Qed.

  Lemma fgood_claims x : fgood x -> incl (claims x) (truth x).
  Proof. intros [N G]. unfold claims. destruct (dcache x) as [[[s|]|s|d]|]; try easy.
    - now rewrite (G _ eq_refl s eq_refl).
    - rewrite (G _ eq_refl). apply incl_refl.
    - specialize (G _ eq_refl). apply G. Qed.

  Lemma run_good os : forall st, Forall fgood st -> follows hdec tdec common tfloat (fun st o => admissible st o /\ careful st o) st os ->
    Forall fgood (fst (run st os)).
  Proof. induction os as [|o os IH]; intros st F FO; cbn; [assumption|]. destruct FO as [[A C] FO].
    destruct (step_good o F A C) as [F' _]. destruct (step st o) as [st' b] eqn:ES. cbn in FO, F'.
    specialize (IH st' F' FO). destruct (run st' os). exact IH. Qed.
  Lemma follows_app P os o : forall st, follows hdec tdec common tfloat P st (os ++ [o]) ->
    follows hdec tdec common tfloat P st os /\ P (fst (run st os)) o.
  Proof. induction os as [|o' os IH]; intros st FO; cbn in *; [now split|]. destruct FO as [A FO].
    destruct (IH _ FO) as [X Y]. destruct (step st o') as [st' b]. cbn in *. destruct (run st' os). now split. Qed.
End Proofs.
