(** Histories in which the column names are always known. *)
From Verif Require Import Base DtypeSpec DtypeModel DtypeFrames DtypeHist DtypeProofs DtypeProofs2 DtypeProofs3 DtypeProofs4 DtypeProofs5 DtypeProofs6 DtypeProofs7.

Section Proofs.
  Context {H T : Type}.
  Variable hdec : forall a b : H, {a = b} + {a <> b}.
  Variable tdec : forall a b : T, {a = b} + {a <> b}.
  Variable common : list T -> T.
  Variable tfloat : T.
  Notation desc := (@desc H T).
  Notation good := (good hdec).
  Notation columns_order := (columns_order hdec).
  Notation df := (@df H T).
  Notation fgood := (@fgood H T hdec).
  Notation mgood := (@mgood H T hdec).
  Notation exec := (exec hdec tdec common tfloat).
  Notation step := (step hdec tdec common tfloat).
  Notation run := (run hdec tdec common tfloat).
  Notation inorder := (@inorder H T).

  Definition mplain (m : @mdtypes H T) (cs : list (H * T)) : Prop :=
    match m with MDesc d => inorder d cs /\ remaining d = None | _ => True end.
  Definition pf (x : df) : Prop :=
    fmat (dframe x) = true /\
    forall d, dcache x = Some (MDesc d) -> inorder d (truth x) /\ remaining d = None /\ order d <> None.

  Lemma wrap_plain (d : desc) cs m : inorder d cs -> remaining d = None -> wrap hdec d = Ok m -> mplain m cs.
  Proof. intros I R E. destruct m as [| |d']; try exact Logic.I. apply wrap_desc in E as [-> _]. now split. Qed.
  Lemma m_copy_plain m cs m' : mplain m cs -> m_copy hdec m = Ok m' -> mplain m' cs.
  Proof. destruct m as [r|s|d]; cbn [m_copy]; intros P E; [now injection E as <- | now injection E as <- |].
    destruct (copy hdec d) as [d'|] eqn:EC; [|discriminate]. cbn [rbind] in E. destruct P as [P1 P2].
    destruct (copy_known hdec _ EC P2) as [K R]. apply (@wrap_plain d'); [unfold DtypeProofs.inorder; now rewrite K | assumption | assumption]. Qed.
  Lemma m_lazy_get_plain m cs st ids m' : mgood m cs st -> incl ids (header cs) -> m_lazy_get hdec m ids = Ok m' -> mplain m' (selected hdec cs ids).
  Proof. destruct m as [r|s|d]; cbn [m_lazy_get]; intros G I E.
    - now injection E as <-.
    - destruct (series_get hdec s ids); [|discriminate]. now injection E as <-.
    - destruct (lazy_get hdec d ids) as [d'|] eqn:EL; [|discriminate]. cbn [rbind] in E.
      destruct (@lazy_get_plain H T hdec d cs st ids d' G I EL). now apply (@wrap_plain d'). Qed.
  Lemma lazy_get_at_plain (d : desc) cs st ps d' : good d cs st -> lazy_get_at hdec d ps = Ok d' -> inorder d' (selected_at cs ps) /\ remaining d' = None.
  Proof. intros G E. unfold lazy_get_at in E. destruct (negb _); [discriminate|].
    apply columns_order_good in G. destruct (order (columns_order d)) as [o|] eqn:EO; [|discriminate].
    destruct (rmap _ ps) as [ids|] eqn:ER; [|discriminate]. cbn in E. apply rmap_nth_error in ER.
    assert (X : o = header cs) by (apply G; assumption). subst o.
    destruct (@selected_at_labels H T hdec cs ps ids (s_truth (proj1 G)) ER) as [<- I].
    now apply (@lazy_get_plain H T hdec _ cs st ids d' G I). Qed.
  Lemma m_lazy_get_at_plain m cs st ps m' : mgood m cs st -> m_lazy_get_at hdec m ps = Ok m' -> mplain m' (selected_at cs ps).
  Proof. destruct m as [r|s|d]; cbn [m_lazy_get_at]; intros G E.
    - now injection E as <-.
    - destruct (series_get_at s ps); [|discriminate]. now injection E as <-.
    - destruct (lazy_get_at hdec d ps) as [d'|] eqn:EL; [|discriminate]. cbn [rbind] in E.
      destruct (@lazy_get_at_plain d cs st ps d' G EL). now apply (@wrap_plain d'). Qed.
  Lemma m_set_index_plain m cs n m' : mgood m cs false -> mplain m cs -> length n = length cs -> m_set_index hdec m n = Ok m' ->
    mplain m' (renamed cs n).
  Proof. destruct m as [r|s|d]; cbn [m_set_index]; intros G P L E.
    - now injection E as <-.
    - destruct (series_rename s n); [|discriminate]. now injection E as <-.
    - destruct (m_copy hdec (MDesc d)) as [m1|] eqn:EC; [|discriminate]. cbn [rbind] in E.
      pose proof (@m_copy_plain (MDesc d) cs m1 P EC) as P1. apply (@m_copy_good H T hdec (MDesc d) cs false m1 G) in EC.
      destruct m1 as [|?|d1]; try discriminate. destruct P1 as [P1 P2].
      destruct (set_index hdec d1 n) as [d2|] eqn:ES; [|discriminate]. injection E as <-.
      now apply (@set_index_good H T hdec d1 cs false n d2 EC L ES). Qed.

  Lemma make_plain f c x : fmat f = true -> (forall m, c = Some m -> mplain m (ftruth f)) -> make hdec f c = Ok x -> pf x.
  Proof. intros FM P E. pose proof (make_frame hdec _ _ E) as EF. split; [now rewrite EF|]. intros d ED. unfold truth. rewrite EF.
    unfold make in E. destruct c as [m|]; cbn [frame_dtypes] in E.
    - destruct (m_attach hdec m f) as [m'|] eqn:EA; [|discriminate]. injection E as <-. cbn in ED. injection ED as ->.
      unfold m_attach in EA. destruct (m_copy hdec m) as [m1|] eqn:EC; [|discriminate]. cbn [rbind] in EA.
      pose proof (@m_copy_plain m (ftruth f) m1 (P m eq_refl) EC) as P1. destruct m1 as [| |d1]; try discriminate. injection EA as <-.
      destruct P1 as [P1 P2]. unfold update_parent. unfold DtypeProofs.inorder. rewrite columns_order_known, columns_order_remaining_none by exact P2.
      split; [exact P1|]. split; [reflexivity|]. unfold DtypeModel.columns_order. cbn. rewrite FM.
      destruct (order d1); cbn; discriminate.
    - rewrite FM in E. destruct (init hdec None (Some (header (ftruth f))) None (Some f) None true None) as [d0|e] eqn:EI.
      + cbn [rbind] in E. destruct (wrap hdec d0) as [m'|e] eqn:EW; cbn in E.
        * injection E as <-. cbn in ED. injection ED as ->. apply wrap_desc in EW as [-> _].
          revert EI. unfold init. cbn. destruct (dup _ _); [discriminate|]. unfold DtypeModel.columns_order. cbn. rewrite FM. intros [= <-].
          unfold DtypeProofs.inorder. destruct (_ <? _); cbn; (split; [constructor|]; split; [reflexivity | discriminate]).
        * destruct (not_impl e); [|discriminate]. cbn in E. injection E as <-. discriminate.
      + cbn in E. destruct (not_impl e); [|discriminate]. cbn in E. injection E as <-. discriminate. Qed.

  Lemma pf_mplain (x : df) m : pf x -> dcache x = Some m -> mplain m (truth x).
  Proof. intros [_ P] E. destruct m; try exact Logic.I. destruct (P d E) as (P1 & P2 & _). now split. Qed.
  Lemma touch_plain (x : df) : pf x -> pf (touch x).
  Proof. intros [P1 P2]. split; [reflexivity|]. intros d. unfold touch. cbn [dcache truth dframe ftruth].
    destruct (dcache x) as [[r|s|d0]|] eqn:EC; try discriminate. intros [= <-]. destruct (P2 d0 eq_refl) as (A & B & C).
    destruct (parent d0); cbn; now split. Qed.
  Lemma reorder_plain (x : df) : pf x -> pf (reorder hdec x).
  Proof. intros [P1 P2]. unfold reorder. destruct (dcache x) as [[r|s|d0]|] eqn:EC; try (split; [assumption|]; now rewrite EC).
    split; [assumption|]. intros d [= <-]. destruct (P2 d0 eq_refl) as (A & B & C). destruct (order d0) eqn:EO; [|easy].
    rewrite (columns_order_order hdec _ EO). split; [assumption|]. split; [assumption|]. congruence. Qed.

  (** Such frames can be glued without care. *)
  Lemma plain_careful_cols xs : Forall pf xs -> careful_cols hdec xs.
  Proof. intros F vs E. unfold glued in E. destruct (rmap (copy_cache hdec) xs) as [cs|] eqn:EC; [|discriminate]. cbn [rbind] in E.
    apply rmap_forall2 in EC. apply rmap_forall2 in E.
    assert (X : Forall2 (fun v x => val_inorder v (truth x)) vs xs /\ Forall no_rem vs).
    { revert vs E. induction EC as [|x c xs cs X EC IH]; intros vs E; inversion E as [|? v ? vs' E1 E2]; subst; [now split|].
      inversion_clear F as [|? ? F1 F2]. destruct (IH F2 vs' E2) as [Y1 Y2].
      enough (Z : val_inorder v (truth x) /\ no_rem v) by (destruct Z; split; now constructor).
      unfold copy_cache in X. destruct (dcache x) as [m|] eqn:ED.
      - destruct (m_copy hdec m) as [m1|] eqn:EM; [|discriminate]. injection X as <-.
        pose proof (@m_copy_plain m (truth x) m1 (pf_mplain F1 ED) EM) as P1.
        destruct m1 as [r|s|d1]; cbn in E1; try discriminate; injection E1 as <-; [easy | exact P1].
      - injection X as <-. cbn in E1. now injection E1 as <-. }
    destruct X as [X1 X2]. split; [assumption|]. split; [|now right].
    clear - X2. induction X2 as [|v vs V X2 IH]; cbn; [easy|]. split; [now left | assumption]. Qed.
  Lemma plain_careful_rows xs : Forall fgood xs -> Forall pf xs -> careful_rows xs.
  Proof. intros G F vs E. apply rmap_forall2 in E.
    assert (X : Forall2 (fun v x => val_inorder v (truth x)) vs xs /\ Forall val_complete vs).
    { revert vs E. induction xs as [|x xs IH]; intros vs E; cbn [map] in E; inversion E as [|? v ? vs' E1 E2]; subst; [now split|].
      inversion_clear F as [|? ? F1 F2]. inversion_clear G as [|? ? G1 G2]. destruct (IH G2 F2 vs' E2) as [Y1 Y2].
      enough (Z : val_inorder v (truth x) /\ val_complete v) by (destruct Z; split; now constructor).
      pose proof (touch_plain F1) as [_ P]. destruct (touch_good G1) as [[_ G'] _].
      change (unwrap (dcache (touch x)) = Ok v) in E1.
      destruct (dcache (touch x)) as [[r|s|d]|] eqn:ED; cbn [unwrap] in E1; try discriminate; injection E1 as <-; try easy.
      destruct (P d eq_refl) as (P1 & P2 & P3). split; [exact P1|]. cbn. specialize (G' _ eq_refl). destruct G' as (S & _).
      destruct (order d) as [o|] eqn:EO; [|easy]. split; [apply (s_order S EO) | assumption]. }
    destruct X as [X1 X2]. split; [assumption|]. left.
    generalize (@nil H). clear - X2. induction X2 as [|v vs V X2 IH]; cbn; [easy|]. intros seen. split; [now left | apply IH]. Qed.

  (** * Steps *)
  Lemma concat_plain vs css d : Forall2 (val_sound hdec) vs css -> NoDup (header (concat css)) -> Forall no_rem vs ->
    concat_dtypes hdec tdec vs = Ok d -> inorder d (concat css) /\ remaining d = None.
  Proof. intros F N NR E.
    assert (RL : rem_last vs) by (clear - NR; induction NR; cbn; [easy | split; [now left | assumption]]).
    destruct (@concat_good H T hdec tdec vs css d F N RL (or_intror NR) E) as (S & L & _).
    assert (P : parent d = None /\ order d = None).
    { revert E. unfold concat_dtypes. destruct (concat_loop _ _ _ _) as [a|]; [|discriminate]. cbn [rbind]. unfold init.
      destruct (_ && _); [discriminate|]. destruct (dup _ _); [discriminate|]. destruct (dup _ _); [discriminate|].
      unfold DtypeModel.columns_order. cbn. now intros [= <-]. }
    destruct P as [P1 P2]. split.
    - destruct L as [L|(L & _)]; [assumption|]. unfold DtypeModel.columns_order in L. rewrite P1, P2 in L. easy.
    - revert E. unfold concat_dtypes. destruct (concat_loop _ _ _ _) as [a|] eqn:EL; [|discriminate]. cbn [rbind].
      assert (A : match arem a with Some (Some _) => False | _ => True end).
      { revert EL. assert (A0 : match arem (Acc ([] : list (H * T)) [] true None true) with Some (Some _) => False | _ => True end) by exact I.
        revert A0. generalize (Acc ([] : list (H * T)) [] true None true). clear - NR. induction NR as [|v vs V NR IH]; intros a0 A0 EL; cbn in EL.
        - now injection EL as <-.
        - destruct (concat_step hdec tdec a0 v) as [a1|] eqn:ES; [|discriminate]. cbn [rbind] in EL. apply (IH a1); [|assumption].
          destruct v as [d|s|]; cbn in ES.
          + cbn in V. rewrite V in ES. destruct (clash _ _ _); [discriminate|].
            destruct (aknow a0 && know_all d); [|injection ES as <-; exact I].
            destruct (arem a0) as [[r|]|]; [easy | |]; injection ES as <-; exact I.
          + destruct (clash _ _ _); [discriminate|]. injection ES as <-. exact A0.
          + injection ES as <-. exact I. }
      unfold init. destruct (_ && _); [discriminate|]. destruct (dup _ _); [discriminate|]. destruct (dup _ _); [discriminate|].
      unfold DtypeModel.columns_order. cbn. intros [= <-]. cbn. destruct (arem a) as [[?|]|]; easy. Qed.
  Lemma merge_plain vs css d : Forall2 (val_sound hdec) vs css -> Forall (fun cs => NoDup (header cs)) css -> (no_late [] vs \/ In VNone vs) ->
    merge_dtypes hdec common tfloat vs = Ok d -> inorder d (stacked hdec common tfloat css) /\ remaining d = None.
  Proof. intros F N NL E. destruct (@merge_good H T hdec common tfloat vs css d F N NL E) as (S & L & _).
    assert (P : parent d = None /\ order d = None /\ remaining d = None).
    { revert E. unfold merge_dtypes. destruct (fold_left _ _ _) as [[[w m] know] lost]. unfold init.
      destruct lost; (destruct (_ && _); [discriminate|]; destruct (dup _ _); [discriminate|]; destruct (dup _ _); [discriminate|];
        unfold DtypeModel.columns_order; cbn; now intros [= <-]). }
    destruct P as (P1 & P2 & P3). split; [|assumption]. destruct L as [L|(L & _)]; [assumption|].
    unfold DtypeModel.columns_order in L. rewrite P1, P2 in L. easy. Qed.

  Lemma put_plain st i x : Forall pf st -> pf x -> Forall pf (put st i x).
  Proof. intros F G. unfold put. apply Forall_app. split; [|constructor; [assumption|]]; rewrite Forall_forall in *; intros y Hy.
    - apply F. rewrite <- (firstn_skipn i st). apply in_app_iff. now left.
    - apply F. rewrite <- (firstn_skipn (S i) st). apply in_app_iff. now right. Qed.
  Lemma look_plain st i x : Forall pf st -> look st i = Ok x -> pf x.
  Proof. intros F E. apply look_nth, nth_error_In in E. rewrite Forall_forall in F. auto. Qed.
  Lemma looks_plain st is xs : Forall pf st -> rmap (look st) is = Ok xs -> Forall pf xs.
  Proof. intros F E. apply rmap_forall2 in E. induction E as [|i x is xs X E IH]; constructor; [|assumption]. now apply look_plain in X. Qed.

  Lemma step_plain st o : Forall fgood st -> Forall pf st -> admissible st o -> named o -> Forall pf (fst (step st o)).
  Proof. intros G F A NM. unfold DtypeFrames.step. destruct (exec st o) as [[st' b]|e] eqn:E; [|assumption]. cbn [fst].
    destruct o as [mat cs s|i ps|i ps|i n|is|is|i so c t|i|i|i|i]; cbn [DtypeFrames.exec admissible named] in *.
    - destruct NM as [-> NM]. destruct (source_cache _ _ _) as [m|] eqn:ES; [|discriminate]. cbn in E. destruct (make _ _ _) as [x|] eqn:EM; [|discriminate]. injection E as <- <-.
      apply Forall_app. split; [assumption|]. constructor; [|constructor]. apply make_plain in EM; [assumption | reflexivity |].
      intros m' ->. cbn [ftruth]. destruct s as [| | |kn un know|t]; cbn [source_cache] in ES; try easy; try (now injection ES as <-).
      destruct (init hdec kn un None None None know None) as [d|] eqn:EI; [|discriminate]. cbn [rbind] in ES.
      destruct (wrap hdec d) as [m1|] eqn:EW; [|discriminate]. injection ES as <-. destruct A as [_ ([p KP] & _)].
      assert (ED : known d = (match kn with Some k => k | None => [] end) /\ remaining d = None).
      { revert EI. unfold init. destruct (_ && _); [discriminate|]. destruct (dup _ _); [discriminate|]. destruct (dup _ _); [discriminate|].
        unfold DtypeModel.columns_order. cbn. now intros [= <-]. }
      destruct ED as [E1 E2]. apply (@wrap_plain d); try assumption. unfold DtypeProofs.inorder. rewrite E1, KP. apply subseq_filter.
    - destruct (look st i) as [x|] eqn:EL; [|discriminate]. cbn in E. destruct (take_columns hdec x ps) as [y|] eqn:ET; [|discriminate].
      injection E as <- <-. pose proof (look_good _ G EL) as Gx. pose proof (look_plain _ F EL) as Px.
      apply Forall_app. split; [apply put_plain; [assumption | now apply touch_plain]|]. constructor; [|constructor].
      unfold take_columns in ET. destruct (touch_good Gx) as [[N G'] TE]. rewrite TE in *. destruct (negb (forallb _ ps)); [discriminate|].
      match type of ET with rbind ?r _ = _ => destruct r as [c|] eqn:EC; [|discriminate] end. cbn [rbind] in ET.
      apply make_plain in ET; [assumption | reflexivity |]. intros m ->. cbn [ftruth].
      destruct (dcache (touch x)) as [[r|s|d]|] eqn:ED; [| | |discriminate].
      + apply attempt_some in EC. apply (@m_lazy_get_at_plain (MCall r) (truth x) false ps); [exact (G' _ eq_refl) | assumption].
      + destruct (series_get_at s ps); [|discriminate]. now injection EC as <-.
      + apply attempt_some in EC. apply (@m_lazy_get_at_plain (MDesc d) (truth x) false ps); [exact (G' _ eq_refl) | assumption].
    - destruct (look st i) as [x|] eqn:EL; [|discriminate]. cbn in E. destruct (reorder_columns hdec x ps) as [y|] eqn:ET; [|discriminate].
      injection E as <- <-. pose proof (look_good _ G EL) as Gx. pose proof (look_plain _ F EL) as Px.
      apply Forall_app. split; [apply put_plain; [assumption | now apply touch_plain]|]. constructor; [|constructor].
      unfold reorder_columns in ET. destruct (touch_good Gx) as [[N G'] TE]. rewrite TE in *. destruct (negb (forallb _ ps)); [discriminate|].
      match type of ET with rbind ?r _ = _ => destruct r as [c|] eqn:EC; [|discriminate] end. cbn [rbind] in ET.
      apply make_plain in ET; [assumption | reflexivity |]. intros m ->. cbn [ftruth].
      assert (I : incl (header (selected_at (truth x) ps)) (header (truth x))) by apply incl_map, selected_at_incl.
      assert (SH := @selected_header_of H T hdec (truth x) (selected_at (truth x) ps) N (@selected_at_incl _ _ _ _)).
      destruct (dcache (touch x)) as [[r|s|d]|] eqn:ED; [| | |discriminate].
      + apply attempt_some in EC. rewrite <- SH. apply (@m_lazy_get_plain (MCall r) (truth x) false (header (selected_at (truth x) ps))); [exact (G' _ eq_refl) | assumption | assumption].
      + destruct (series_get_at s ps); [|discriminate]. now injection EC as <-.
      + apply attempt_some in EC. rewrite <- SH. apply (@m_lazy_get_plain (MDesc d) (truth x) false (header (selected_at (truth x) ps))); [exact (G' _ eq_refl) | assumption | assumption].
    - destruct (look st i) as [x|] eqn:EL; [|discriminate]. cbn in E. destruct (set_columns hdec x n) as [y|] eqn:ET; [|discriminate].
      injection E as <- <-. pose proof (look_good _ G EL) as [N Gx]. pose proof (look_plain _ F EL) as Px. apply put_plain; [assumption|].
      unfold set_columns in ET. destruct (length n =? length (truth x)) eqn:EN; [|discriminate]. apply Nat.eqb_eq in EN. cbn [negb] in ET.
      match type of ET with rbind ?r _ = _ => destruct r as [c|] eqn:EC; [|discriminate] end. cbn [rbind] in ET.
      apply make_plain in ET; [assumption | reflexivity |]. intros m ->. cbn [ftruth]. destruct (dcache x) as [m0|] eqn:ED; [|discriminate].
      apply attempt_some in EC. apply (@m_set_index_plain m0); auto. now apply (pf_mplain Px).
    - destruct (rmap (look st) is) as [xs|] eqn:EL; [|discriminate]. cbn in E. destruct (concat_columns _ _ _) as [y|] eqn:ET; [|discriminate].
      injection E as <- <-. pose proof (looks_good _ G EL) as Gx. pose proof (looks_plain _ F EL) as Px.
      apply Forall_app. split; [assumption|]. constructor; [|constructor]. unfold concat_columns in ET.
      destruct (rmap (copy_cache hdec) xs) as [cs|] eqn:EC; [|discriminate]. cbn [rbind] in ET.
      destruct (attempt not_impl (m_concat hdec tdec cs)) as [c|] eqn:EM; [|discriminate]. cbn [rbind] in ET.
      apply make_plain in ET; [assumption | |].
      + cbn. apply forallb_forall. intros x Hx. rewrite Forall_forall in Px. now apply Px.
      + intros m ->. cbn [ftruth]. apply attempt_some in EM. unfold m_concat in EM.
        destruct (rmap unwrap cs) as [vs|] eqn:EU; [|discriminate]. cbn [rbind] in EM.
        destruct (concat_dtypes hdec tdec vs) as [d|] eqn:ED; [|discriminate]. cbn [rbind] in EM.
        assert (GL : glued hdec xs = Ok vs) by (unfold glued; now rewrite EC).
        destruct (plain_careful_cols Px GL) as (I & _).
        assert (NR : Forall no_rem vs).
        { apply rmap_forall2 in EC. apply rmap_forall2 in EU. clear - EC EU Px. revert vs EU. induction EC as [|x c xs cs X EC IH]; intros vs EU;
            inversion EU as [|? v ? vs' E1 E2]; subst; constructor; [|now inversion_clear Px; apply IH]. inversion_clear Px as [|? ? F1 F2].
          unfold copy_cache in X. destruct (dcache x) as [m|] eqn:ED.
          - destruct (m_copy hdec m) as [m1|] eqn:EM; [|discriminate]. injection X as <-.
            pose proof (@m_copy_plain m (truth x) m1 (pf_mplain F1 ED) EM) as P1.
            destruct m1 as [r|s|d1]; cbn in E1; try discriminate; injection E1 as <-; [easy | apply P1].
          - injection X as <-. cbn in E1. now injection E1 as <-. }
        destruct (@concat_plain vs (map truth xs) d (glued_sound Gx GL I) (A xs eq_refl) NR ED). now apply (@wrap_plain d).
    - destruct (rmap (look st) is) as [xs|] eqn:EL; [|discriminate]. cbn in E. destruct (concat_rows _ _ _ _) as [y|] eqn:ET; [|discriminate].
      injection E as <- <-. pose proof (looks_good _ G EL) as Gx. pose proof (looks_plain _ F EL) as Px.
      apply Forall_app. split; [assumption|]. constructor; [|constructor]. unfold concat_rows, m_merge in ET. rewrite map_map in ET.
      destruct (rmap unwrap (map (fun x => dcache (touch x)) xs)) as [vs|] eqn:EU; [|discriminate]. cbn [rbind] in ET.
      destruct (merge_dtypes hdec common tfloat vs) as [d|] eqn:ED; [|discriminate]. cbn [rbind] in ET.
      destruct (wrap hdec d) as [m|] eqn:EW; [|discriminate]. cbn [rbind] in ET.
      assert (TT : map truth (map (@touch H T) xs) = map truth xs) by (rewrite map_map; reflexivity). rewrite TT in ET.
      destruct (plain_careful_rows Gx Px EU) as (I & NL).
      apply make_plain in ET; [assumption | reflexivity |]. intros m' [= <-]. cbn [ftruth].
      assert (VS : Forall2 (val_sound hdec) vs (map truth xs)).
      { apply rmap_forall2 in EU. clear - EU I Gx. revert vs EU I. induction xs as [|x xs IH]; intros vs EU I; cbn [map] in *.
        - inversion EU. constructor.
        - inversion EU as [|? v ? vs' E1 E2]. subst. inversion I as [|? ? ? ? I1 I2]. subst. inversion_clear Gx as [|? ? G1 G2].
          constructor; [|now apply IH]. destruct (touch_good G1) as [[_ G'] TE]. rewrite TE in G'.
          now apply (@unwrap_sound H T hdec (dcache (touch x)) v). }
      destruct (@merge_plain vs (map truth xs) d VS) as [I1 I2]; try assumption.
      { apply Forall_forall. intros cs Hcs. apply in_map_iff in Hcs as [x [<- Hx]]. rewrite Forall_forall in Gx. now apply Gx. }
      now apply (@wrap_plain d).
    - destruct (look st i) as [x|] eqn:EL; [|discriminate]. cbn in E. destruct (setitem _ _ _ _ _ _) as [y|] eqn:ET; [|discriminate].
      injection E as <- <-. pose proof (look_good _ G EL) as Gx. pose proof (look_plain _ F EL) as Px.
      apply Forall_app. split; [apply put_plain; [assumption | now apply touch_plain]|]. constructor; [|constructor].
      destruct (@setitem_parts H T hdec tdec so x c t y Gx A ET) as (new & cs0 & new' & GN & I & EL' & EQ & EM).
      apply make_plain in EM; [assumption | reflexivity |]. intros m [= <-]. cbn [ftruth]. rewrite <- EQ.
      now apply (@m_lazy_get_plain new cs0 false).
    - destruct (look st i) as [x|] eqn:EL; [|discriminate]. injection E as <- <-. apply put_plain; [assumption|].
      apply touch_plain. now apply (@look_plain st i).
    - destruct (look st i) as [x|] eqn:EL; [|discriminate]. injection E as <- <-. apply put_plain; [assumption|].
      apply reorder_plain. now apply (@look_plain st i).
    - destruct (look st i) as [x|] eqn:EL; [|discriminate]. cbn in E. unfold get_dtypes in E.
      destruct (frame_get _ _ _); [|discriminate]. injection E as <- <-. apply put_plain; [assumption|]. split; [apply (look_plain _ F EL) | discriminate].
    - easy. Qed.
End Proofs.
