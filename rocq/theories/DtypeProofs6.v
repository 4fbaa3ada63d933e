(** The caches of frames stay right. *)
From Verif Require Import Base DtypeSpec DtypeModel DtypeFrames DtypeHist DtypeProofs DtypeProofs2 DtypeProofs3 DtypeProofs4 DtypeProofs5.

Section Proofs.
  Context {H T : Type}.
  Variable hdec : forall a b : H, {a = b} + {a <> b}.
  Variable tdec : forall a b : T, {a = b} + {a <> b}.
  Variable common : list T -> T.
  Variable tfloat : T.
  Notation desc := (@desc H T).
  Notation good := (good hdec).
  Notation columns_order := (columns_order hdec).
  Notation inorder := (@inorder H T).

  Definition mgood (m : @mdtypes H T) (cs : list (H * T)) (st : bool) : Prop :=
    match m with
    | MSeries s => s = cs
    | MCall r => forall s, r = Ok s -> s = cs
    | MDesc d => good d cs st
    end.

  Lemma wrap_good (d : desc) cs st m : good d cs st -> wrap hdec d = Ok m -> mgood m cs st.
  Proof. intros G E. unfold wrap in E. destruct (schema d) eqn:ES.
    - destruct (to_series hdec d) as [s|] eqn:ET; [|discriminate]. injection E as <-. cbn. now apply (to_series_schema G ES).
    - injection E as <-. exact G. Qed.
  Lemma m_copy_good m cs st m' : mgood m cs st -> m_copy hdec m = Ok m' -> mgood m' cs st.
  Proof. destruct m as [r|s|d]; cbn [m_copy]; intros G E; [now injection E as <- | now injection E as <- |].
    destruct (copy hdec d) as [d'|] eqn:EC; [|discriminate]. cbn [rbind] in E. apply (@wrap_good d' cs st); [|assumption].
    now apply (copy_good G EC). Qed.

  Lemma columns_order_fix (d : desc) : columns_order (columns_order d) = columns_order d.
  Proof. destruct (order (columns_order d)) eqn:E.
    - apply columns_order_idem. congruence.
    - apply columns_order_none in E. now rewrite !E. Qed.
  Lemma copy_fix (d d' : desc) : copy hdec d = Ok d' -> columns_order d' = d'.
  Proof. unfold copy, init. destruct (_ && _); [discriminate|]. destruct (dup _ _); [discriminate|]. destruct (dup _ _); [discriminate|].
    destruct (order (columns_order d)).
    - destruct (remaining (columns_order d)); [discriminate|]. destruct (negb (know_all _)); [discriminate|].
      destruct (negb _); [discriminate|]. now intros [= <-].
    - intros [= <-]. apply columns_order_fix. Qed.
  Lemma wrap_desc (d d' : desc) : wrap hdec d = Ok (MDesc d') -> d' = d /\ schema d = false.
  Proof. unfold wrap. destruct (schema d); [destruct (to_series hdec d); discriminate|]. now intros [= <-]. Qed.

  Lemma m_attach_good m cs st f m' : mgood m cs st -> ftruth f = cs -> m_attach hdec m f = Ok m' -> mgood m' cs false.
  Proof. intros G F E. unfold m_attach in E. destruct (m_copy hdec m) as [m1|] eqn:EC; [|discriminate]. cbn [rbind] in E.
    pose proof (@m_copy_good _ _ _ _ G EC) as G1. destruct m1 as [r|s|d1]; [now injection E as <- | now injection E as <- |].
    injection E as <-. cbn. apply (@update_parent_good H T hdec d1 cs st f); [assumption | | assumption].
    destruct m as [r|s|d]; [discriminate | discriminate |]. cbn [m_copy] in EC.
    destruct (copy hdec d) as [d'|] eqn:ED; [|discriminate]. cbn [rbind] in EC. apply wrap_desc in EC as [-> _].
    destruct G1 as (_ & [L|(L & _)] & _); [now right|]. left. now rewrite (copy_fix _ ED) in L. Qed.

  Lemma series_get_right (cs : list (H * T)) ids s : series_get hdec cs ids = Ok s -> s = selected hdec cs ids.
  Proof. unfold series_get. revert s. induction ids as [|c ids IH]; intros s; cbn; [now intros [= <-]|].
    destruct (dtype_of hdec c cs); [|discriminate]. destruct (rmap _ ids) as [s'|]; [|discriminate]. intros [= <-]. cbn. f_equal. now apply IH. Qed.
  Lemma series_get_at_right (cs : list (H * T)) ps s : series_get_at cs ps = Ok s -> s = selected_at cs ps.
  Proof. unfold series_get_at. revert s. induction ps as [|p ps IH]; intros s; cbn; [now intros [= <-]|].
    destruct (nth_error cs p); [|discriminate]. destruct (rmap _ ps) as [s'|]; [|discriminate]. intros [= <-]. cbn. f_equal. now apply IH. Qed.

  Lemma m_lazy_get_good m cs st ids m' : mgood m cs st -> incl ids (header cs) -> m_lazy_get hdec m ids = Ok m' ->
    mgood m' (selected hdec cs ids) st.
  Proof. destruct m as [r|s|d]; cbn [m_lazy_get]; intros G I E.
    - injection E as <-. cbn. intros s. destruct r as [s'|]; [|discriminate]. cbn. rewrite (G s' eq_refl). apply series_get_right.
    - destruct (series_get hdec s ids) as [s'|] eqn:ES; [|discriminate]. injection E as <-. cbn in *. subst s. now apply series_get_right.
    - destruct (lazy_get hdec d ids) as [d'|] eqn:EL; [|discriminate]. cbn [rbind] in E.
      apply (@wrap_good d' _ st); [|assumption]. now apply (@lazy_get_good H T hdec d cs st ids d'). Qed.
  Lemma m_lazy_get_at_good m cs st ps m' : mgood m cs st -> m_lazy_get_at hdec m ps = Ok m' -> mgood m' (selected_at cs ps) st.
  Proof. destruct m as [r|s|d]; cbn [m_lazy_get_at]; intros G E.
    - injection E as <-. cbn. intros s. destruct r as [s'|]; [|discriminate]. cbn. rewrite (G s' eq_refl). apply series_get_at_right.
    - destruct (series_get_at s ps) as [s'|] eqn:ES; [|discriminate]. injection E as <-. cbn in *. subst s. now apply series_get_at_right.
    - destruct (lazy_get_at hdec d ps) as [d'|] eqn:EL; [|discriminate]. cbn [rbind] in E.
      apply (@wrap_good d' _ st); [|assumption]. now apply (@lazy_get_at_good H T hdec d cs st ps d'). Qed.

  Lemma series_rename_right (cs : list (H * T)) n s : series_rename cs n = Ok s -> s = renamed cs n.
  Proof. unfold series_rename. destruct (_ =? _); [|discriminate]. now intros [= <-]. Qed.
  Lemma m_set_index_good m cs n m' : mgood m cs false -> length n = length cs -> m_set_index hdec m n = Ok m' ->
    mgood m' (renamed cs n) true.
  Proof. destruct m as [r|s|d]; cbn [m_set_index]; intros G L E.
    - injection E as <-. cbn. intros s. destruct r as [s'|]; [|discriminate]. cbn. rewrite (G s' eq_refl). apply series_rename_right.
    - destruct (series_rename s n) as [s'|] eqn:ES; [|discriminate]. injection E as <-. cbn in *. subst s. now apply series_rename_right.
    - destruct (m_copy hdec (MDesc d)) as [m1|] eqn:EC; [|discriminate]. cbn [rbind] in E.
      apply (@m_copy_good (MDesc d) cs false m1 G) in EC. destruct m1 as [|?|d1]; try discriminate.
      destruct (set_index hdec d1 n) as [d2|] eqn:ES; [|discriminate]. injection E as <-. now apply (@set_index_good H T hdec d1 cs false n d2 EC L). Qed.

  (** * Frames *)
  Notation df := (@df H T).
  Definition fgood (x : df) : Prop :=
    NoDup (header (truth x)) /\ forall m, dcache x = Some m -> mgood m (truth x) false.

  Lemma make_good f c x :
    NoDup (header (ftruth f)) -> (forall m, c = Some m -> exists st, mgood m (ftruth f) st) -> make hdec f c = Ok x ->
    fgood x /\ dframe x = f.
  Proof. intros N G E. unfold make in E. destruct c as [m|].
    - cbn [frame_dtypes] in E. destruct (m_attach hdec m f) as [m'|] eqn:EA; [|discriminate]. injection E as <-.
      split; [|reflexivity]. split; [assumption|]. intros m1 [= <-]. destruct (G m eq_refl) as [st G']. now apply (@m_attach_good m _ st f).
    - cbn [frame_dtypes] in E. destruct (fmat f) eqn:EF.
      + destruct (init hdec None (Some (header (ftruth f))) None (Some f) None true None) as [d|e] eqn:EI.
        * cbn [rbind] in E. destruct (wrap hdec d) as [m'|e] eqn:EW; cbn in E.
          -- injection E as <-. split; [|reflexivity]. split; [assumption|]. intros m1 [= <-]. cbn. apply (@wrap_good d); [|assumption].
             assert (ED : known d = [] /\ remaining d = None).
             { revert EI. unfold init. cbn. destruct (dup _ _); [discriminate|]. intros [= <-].
               unfold DtypeModel.columns_order. cbn. rewrite EF. destruct (_ <? _); cbn; now split. }
             eapply (@init_sound H T hdec _ _ _ _ _ _ _ _ (ftruth f)) in EI; cbn; try easy.
             ++ destruct ED as [ED1 ED2]. destruct EI as (S & A & _ & _). split; [assumption|].
                split; [left; unfold DtypeProofs.inorder; rewrite ED1; constructor|]. split; [intros r X; congruence|]. split; [congruence | assumption].
             ++ intros f' [= <-]. split; [assumption|]. split; [apply incl_refl | reflexivity].
          -- unfold attempt in E. destruct (not_impl e); [|discriminate]. injection E as <-. split; [now split | reflexivity].
        * cbn in E. destruct (not_impl e); [|discriminate]. cbn in E. injection E as <-. split; [now split | reflexivity].
      + cbn in E. injection E as <-. split; [now split | reflexivity]. Qed.

  Lemma touch_good x : fgood x -> fgood (touch x) /\ truth (touch x) = truth x.
  Proof. intros [N G]. split; [|reflexivity]. split; [exact N|]. intros m. unfold touch. cbn [dcache truth dframe ftruth].
    destruct (dcache x) as [[r|s|d]|] eqn:EC; intros [= <-]; [exact (G _ eq_refl) | exact (G _ eq_refl) |].
    specialize (G _ eq_refl). cbn in G |- *. destruct (parent d) as [f|] eqn:EP; [|exact G].
    destruct G as (S & L & TD & U & A). split; [|split; [|split; [|split]]].
    - destruct S. split; assumption.
    - destruct L as [L|(L1 & L2 & L3)]; [now left|]. right. split; [|now split].
      unfold DtypeModel.columns_order, set_parent in *. cbn. destruct (order d) eqn:EO; [easy|]. discriminate.
    - exact TD. - exact U.
    - intros f' [= <-]. exact (A f EP). Qed.
  Lemma reorder_good x : fgood x -> fgood (reorder hdec x) /\ truth (reorder hdec x) = truth x.
  Proof. intros [N G]. unfold reorder. destruct (dcache x) as [[r|s|d]|] eqn:EC; (split; [|reflexivity]); try (split; [assumption|]; now rewrite EC).
    split; [assumption|]. intros m [= <-]. cbn. apply columns_order_good. exact (G _ eq_refl). Qed.

  Lemma attempt_some {A} c (r : res A) a : attempt c r = Ok (Some a) -> r = Ok a.
  Proof. destruct r; cbn; [congruence | destruct (c e); discriminate]. Qed.
  Lemma selected_at_NoDup (cs : list (H * T)) ps : NoDup (header cs) -> NoDup ps -> NoDup (header (selected_at cs ps)).
  Proof. intros N NP. induction NP as [|p ps P1 P2 IH]; cbn; [constructor|]. destruct (nth_error cs p) as [[c t]|] eqn:E; [|exact IH].
    cbn. constructor; [|exact IH]. intros I. apply in_map_iff in I as [[c' t'] [E1 I]]. cbn in E1. subst c'.
    apply in_flat_map in I as [q [Hq I]]. destruct (nth_error cs q) as [ct|] eqn:EQ; [|easy]. destruct I as [->|[]].
    assert (p = q); [|congruence]. apply (NoDup_nth_error (header cs)); [assumption| |].
    - unfold header. rewrite map_length. apply nth_error_Some. congruence.
    - unfold header. rewrite (map_nth_error fst _ _ E), (map_nth_error fst _ _ EQ). reflexivity. Qed.
  Lemma selected_at_incl (cs : list (H * T)) ps : incl (selected_at cs ps) cs.
  Proof. intros ct I. apply in_flat_map in I as [q [Hq I]]. destruct (nth_error cs q) as [x|] eqn:EQ; [|easy]. destruct I as [->|[]]. now apply nth_error_In in EQ. Qed.

  Lemma take_columns_good x ps y : fgood x -> NoDup ps -> take_columns hdec x ps = Ok y ->
    fgood y /\ dframe y = Frame true (selected_at (truth x) ps).
  Proof. intros G NP E. unfold take_columns in E. destruct (touch_good G) as [[N G'] TE]. rewrite TE in *. revert E.
    set (t := touch x) in *. intros E. destruct (negb (forallb _ ps)); [discriminate|].
    match type of E with rbind ?r _ = _ => destruct r as [c|] eqn:EC; [|discriminate] end. cbn [rbind] in E.
    apply make_good in E; [exact E | now apply selected_at_NoDup |]. intros m ->. exists false. cbn [ftruth].
    destruct (dcache t) as [[r|s|d]|] eqn:ED; [| | |discriminate].
    - apply attempt_some in EC. apply (@m_lazy_get_at_good (MCall r) (truth x) false ps); [exact (G' _ eq_refl) | assumption].
    - specialize (G' _ eq_refl). cbn in G'. subst s. destruct (series_get_at (truth x) ps) as [s|] eqn:ES; [|discriminate].
      injection EC as <-. cbn. now apply series_get_at_right.
    - apply attempt_some in EC. apply (@m_lazy_get_at_good (MDesc d) (truth x) false ps); [exact (G' _ eq_refl) | assumption]. Qed.

  Lemma selected_header_of (cs cs' : list (H * T)) : NoDup (header cs) -> incl cs' cs -> selected hdec cs (header cs') = cs'.
  Proof. intros N I. induction cs' as [|[c t] cs' IH]; cbn; [reflexivity|].
    rewrite (@dtype_of_in H T hdec c t cs N); [|apply I; now left].
    cbn. f_equal. apply IH. intros z Hz. apply I. now right. Qed.

  Lemma reorder_columns_good x ps y : fgood x -> NoDup ps -> reorder_columns hdec x ps = Ok y ->
    fgood y /\ dframe y = Frame true (selected_at (truth x) ps).
  Proof. intros G NP E. unfold reorder_columns in E. destruct (touch_good G) as [[N G'] TE]. rewrite TE in *. revert E.
    set (t := touch x) in *. intros E. destruct (negb (forallb _ ps)); [discriminate|].
    match type of E with rbind ?r _ = _ => destruct r as [c|] eqn:EC; [|discriminate] end. cbn [rbind] in E.
    apply make_good in E; [exact E | now apply selected_at_NoDup |]. intros m ->. exists false. cbn [ftruth].
    assert (I : incl (header (selected_at (truth x) ps)) (header (truth x))) by apply incl_map, selected_at_incl.
    assert (SH := @selected_header_of (truth x) (selected_at (truth x) ps) N (@selected_at_incl _ _)).
    destruct (dcache t) as [[r|s|d]|] eqn:ED; [| | |discriminate].
    - apply attempt_some in EC. rewrite <- SH. apply (@m_lazy_get_good (MCall r) (truth x) false); [exact (G' _ eq_refl) | assumption | assumption].
    - specialize (G' _ eq_refl). cbn in G'. subst s. destruct (series_get_at (truth x) ps) as [s|] eqn:ES; [|discriminate].
      injection EC as <-. cbn. now apply series_get_at_right.
    - apply attempt_some in EC. rewrite <- SH. apply (@m_lazy_get_good (MDesc d) (truth x) false); [exact (G' _ eq_refl) | assumption | assumption]. Qed.

  Lemma set_columns_good x names y : fgood x -> NoDup names -> set_columns hdec x names = Ok y ->
    fgood y /\ dframe y = Frame true (renamed (truth x) names).
  Proof. intros [N G] NN E. unfold set_columns in E. destruct (length names =? length (truth x)) eqn:EL; [|discriminate]. apply Nat.eqb_eq in EL.
    cbn [negb] in E. match type of E with rbind ?r _ = _ => destruct r as [c|] eqn:EC; [|discriminate] end. cbn [rbind] in E.
    apply make_good in E; [exact E | |].
    - cbn [ftruth]. rewrite renamed_header by (symmetry; exact EL). assumption.
    - intros m ->. exists true. cbn [ftruth]. destruct (dcache x) as [m0|]; [|discriminate]. apply attempt_some in EC.
      now apply (@m_set_index_good m0); [apply G | |]. Qed.

  (** * Side by side *)
  Lemma rmap_forall2 {A B} (f : A -> res B) l r : rmap f l = Ok r -> Forall2 (fun a b => f a = Ok b) l r.
  Proof. revert r. induction l as [|a l IH]; intros r; cbn; [intros [= <-]; constructor|].
    destruct (f a) eqn:E; [|discriminate]. destruct (rmap f l); [|discriminate]. intros [= <-]. constructor; auto. Qed.

  Definition val_inorder (v : @dval H T) (cs : list (H * T)) : Prop :=
    match v with VDesc d => inorder d cs | _ => True end.

  Lemma unwrap_sound c v cs : (forall m, c = Some m -> mgood m cs false) -> unwrap c = Ok v -> val_inorder v cs -> val_sound hdec v cs.
  Proof. destruct c as [[r|s|d]|]; cbn; intros G E I; try discriminate; injection E as <-; cbn.
    - exact (G _ eq_refl).
    - destruct (G _ eq_refl) as (S & L & TD & _). split; [assumption|]. split; assumption.
    - exact Logic.I. Qed.

  (** What the frames to be glued look like to the metadata. *)
  Definition glued (xs : list df) : res (list (@dval H T)) :=
    do cs <- rmap (copy_cache hdec) xs; rmap unwrap cs.
  Definition careful_cols (xs : list df) : Prop :=
    forall vs, glued xs = Ok vs ->
      Forall2 (fun v x => val_inorder v (truth x)) vs xs /\ rem_last vs /\ (Forall no_unknown vs \/ Forall no_rem vs).

  Lemma glued_sound xs vs : Forall fgood xs -> glued xs = Ok vs -> Forall2 (fun v x => val_inorder v (truth x)) vs xs ->
    Forall2 (val_sound hdec) vs (map truth xs).
  Proof. intros G E I. unfold glued in E. destruct (rmap (copy_cache hdec) xs) as [cs|] eqn:EC; [|discriminate]. cbn [rbind] in E.
    apply rmap_forall2 in EC. apply rmap_forall2 in E. revert vs E I. induction EC as [|x c xs cs X EC IH]; intros vs E I.
    - inversion E. subst. constructor.
    - inversion E as [|? v ? vs' E1 E2]. subst. inversion I as [|? ? ? ? I1 I2]. subst. inversion_clear G as [|? ? G1 G2].
      cbn. constructor; [|now apply IH]. apply (@unwrap_sound c v); try assumption. intros m ->.
      unfold copy_cache in X. destruct (dcache x) as [m0|] eqn:EM; [|discriminate].
      destruct (m_copy hdec m0) as [m1|] eqn:EC1; [|discriminate]. injection X as <-. apply (@m_copy_good m0); [now apply G1 | assumption]. Qed.

  Lemma concat_columns_good xs y : Forall fgood xs -> NoDup (header (concat (map truth xs))) -> careful_cols xs ->
    concat_columns hdec tdec xs = Ok y ->
    fgood y /\ dframe y = Frame (forallb (fun x => fmat (dframe x)) xs) (concat (map truth xs)).
  Proof. intros G N C E. unfold concat_columns in E. destruct (rmap (copy_cache hdec) xs) as [cs|] eqn:EC; [|discriminate]. cbn [rbind] in E.
    destruct (attempt not_impl (m_concat hdec tdec cs)) as [c|] eqn:EM; [|discriminate]. cbn [rbind] in E.
    apply make_good in E; [exact E | exact N |]. intros m ->. exists false. cbn [ftruth]. apply attempt_some in EM.
    unfold m_concat in EM. destruct (rmap unwrap cs) as [vs|] eqn:EU; [|discriminate]. cbn [rbind] in EM.
    destruct (concat_dtypes hdec tdec vs) as [d|] eqn:ED; [|discriminate]. cbn [rbind] in EM.
    assert (GL : glued xs = Ok vs) by (unfold glued; now rewrite EC).
    destruct (C vs GL) as (I & RL & MX). apply (@wrap_good d); [|assumption].
    apply (@concat_good H T hdec tdec vs); try assumption. now apply glued_sound. Qed.

  (** * On top of each other *)
  Definition careful_rows (xs : list df) : Prop :=
    forall vs, rmap unwrap (map (fun x => dcache (touch x)) xs) = Ok vs ->
      Forall2 (fun v x => val_inorder v (truth x)) vs xs /\ (no_late [] vs \/ In VNone vs).

  Lemma concat_rows_good xs y : Forall fgood xs -> careful_rows xs -> concat_rows hdec common tfloat xs = Ok y ->
    fgood y /\ dframe y = Frame true (stacked hdec common tfloat (map truth xs)).
  Proof. intros G C E. unfold concat_rows, m_merge in E. rewrite map_map in E.
    destruct (rmap unwrap (map (fun x => dcache (touch x)) xs)) as [vs|] eqn:EU; [|discriminate]. cbn [rbind] in E.
    destruct (merge_dtypes hdec common tfloat vs) as [d|] eqn:ED; [|discriminate]. cbn [rbind] in E.
    destruct (wrap hdec d) as [m|] eqn:EW; [|discriminate]. cbn [rbind] in E.
    assert (TT : map truth (map (@touch H T) xs) = map truth xs) by (rewrite map_map; reflexivity). rewrite TT in E.
    destruct (C vs EU) as (I & NL).
    assert (F : Forall2 (val_sound hdec) vs (map truth xs)).
    { apply rmap_forall2 in EU. clear - EU I G. revert vs EU I. induction xs as [|x xs IH]; intros vs EU I; cbn in *.
      - inversion EU. constructor.
      - inversion EU as [|? v ? vs' E1 E2]. subst. inversion I as [|? ? ? ? I1 I2]. subst. inversion_clear G as [|? ? G1 G2].
        constructor; [|now apply IH]. destruct (touch_good G1) as [[_ G'] TE]. rewrite TE in G'.
        now apply (@unwrap_sound (dcache (touch x)) v). }
    apply make_good in E; [exact E | |].
    - cbn [ftruth]. rewrite stacked_header. apply appearing_NoDup.
    - intros m' [= <-]. exists false. cbn [ftruth]. apply (@wrap_good d); [|assumption].
      apply (@merge_good H T hdec common tfloat vs); try assumption. apply Forall_forall. intros cs Hcs.
      apply in_map_iff in Hcs as [x [<- Hx]]. rewrite Forall_forall in G. now apply G. Qed.

  (** * Reading *)
  Lemma get_dtypes_good x y s : fgood x -> get_dtypes hdec x = Ok (y, s) -> s = truth x /\ fgood y /\ dframe y = dframe x.
  Proof. intros [N G] E. unfold get_dtypes in E.
    destruct (frame_get hdec (dframe x) (dcache x)) as [s'|] eqn:EF; [|discriminate]. cbn [rbind] in E. injection E as <- <-.
    assert (X : s' = truth x).
    { unfold frame_get in EF. destruct (dcache x) as [[r|s|d]|] eqn:ED; cbn [m_get] in EF.
      - now apply (G _ eq_refl).
      - injection EF as <-. exact (G _ eq_refl).
      - apply (to_series_right (G _ eq_refl) EF).
      - now injection EF as <-. }
    split; [assumption|]. split; [|reflexivity]. split; [assumption|]. intros m [= <-]. exact X. Qed.

  (** All dtypes of the columns are reported, and nothing else but perhaps the remaining dtype. *)
  Lemma get_types_good x y ts : fgood x -> get_types hdec tdec x = Ok (y, ts) ->
    (NoDup ts /\ incl (map snd (truth x)) ts /\ incl ts (map snd (truth x) ++ spare x)) /\ fgood y /\ dframe y = dframe x.
  Proof. intros [N G] E.
    assert (SS : forall s : list (H * T), s = truth x -> NoDup (nodup tdec (map snd s)) /\ incl (map snd (truth x)) (nodup tdec (map snd s))
                  /\ incl (nodup tdec (map snd s)) (map snd (truth x) ++ [])).
    { intros s ->. rewrite app_nil_r. split; [apply NoDup_nodup|]. split; intros t Ht; now apply nodup_In in Ht || apply nodup_In. }
    unfold get_types in E. unfold spare. destruct (dcache x) as [m|] eqn:ED.
    - specialize (G m eq_refl). destruct m as [r|s|d]; cbn [m_dtypes_set m_get rbind] in E.
      + destruct r as [s|]; [|discriminate]. cbn in E. injection E as <- <-. specialize (G s eq_refl).
        split; [now apply SS|]. split; [|reflexivity]. split; [assumption|]. intros m [= <-]. exact G.
      + injection E as <- <-. split; [now apply SS|]. split; [|reflexivity]. split; [assumption|]. intros m [= <-]. exact G.
      + destruct (get_dtypes_set hdec tdec d) as [[d1 ts1]|] eqn:EG; [|discriminate]. cbn in E. injection E as <- <-.
        destruct (@get_dtypes_set_right H T hdec tdec d (truth x) d1 ts1 G EG) as (G1 & X). split; [exact X|]. split; [|reflexivity].
        split; [assumption|]. intros m [= <-]. exact G1.
    - destruct (get_dtypes hdec x) as [[y1 s]|] eqn:EG; [|discriminate]. cbn in E. injection E as <- <-.
      assert (FG : fgood x) by (split; [assumption | rewrite ED; discriminate]).
      destruct (get_dtypes_good FG EG) as (X1 & X2 & X3). split; [now apply SS | now split]. Qed.
End Proofs.
