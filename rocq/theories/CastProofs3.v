From Coq Require Import ZArith.
From Verif Require Import Base CastSpec CastModel CastProofs CastProofs2.

Section Prepare.
  Context {B D : Type}.
  Variable beqb : B -> B -> bool.
  Hypothesis beqb_ok : forall x y, beqb x y = true <-> x = y.
  Notation qc := (qc B D).
  Notation obj := (obj B D).
  Notation heap := (@heap B D).
  Notation atom := (atom qc).
  Notation tree := (tree qc).
  Variable choose : list qc -> res B.
  Variable choose_one : qc -> B.
  Variable choose_none : B -> B.

  Definition arg_leaves (args kwargs : list tree) : list atom := flat_map leaves args ++ flat_map leaves kwargs.
  Definition no_raw (ats : list atom) : Prop := forall q, ~ In (AQC q) ats.

  Lemma no_raw_qcs (h : heap) ats : no_raw ats -> flat_map (qc_at h) ats = map (@oqc _ _) (objs_of h ats).
  Proof. induction ats as [|a ats IH]; intros Hn; [reflexivity|]. cbn [flat_map objs_of]. unfold objs_of. cbn [flat_map]. rewrite map_app, IH by (intros q Hq; apply (Hn q); now right).
    f_equal. destruct a as [o|q|n]; try reflexivity. exfalso. apply (Hn q). now left. Qed.

  Lemma two_in (l : list B) x y : length l < 2 -> In x l -> In y l -> x = y.
  Proof. destruct l as [|a [|b l]]; cbn; intros; try lia; try easy. intuition congruence. Qed.

  (** The registration result. *)
  Definition registered (h : heap) (ats : list atom) : @reg B D := snd (fold_leaves (register beqb h) ats (mkreg [] [] None false)).
  Lemma registered_ok h ats : reg_ok h ats (registered h ats).
  Proof. apply (@fold_register _ _ beqb beqb_ok h ats [] (mkreg [] [] None false)). right. cbn. repeat split; try easy; [intros (x & [] & _)|constructor]. Qed.

  Inductive prep_case (cfg : @config B) (args kwargs : list tree) (h : heap) (p : @prepared B D) : Prop :=
  | CaseSkip : p_args p = TTup args -> p_kwargs p = TMut kwargs -> p_held_args p = TTup args -> p_held_kwargs p = TMut kwargs ->
      p_heap p = h -> p_trackers p = [] ->
      (no_raw (arg_leaves args kwargs) -> forall x, In x (objs_of h (arg_leaves args kwargs)) -> qback (oqc x) = p_backend p) -> prep_case cfg args kwargs h p
  | CaseInplace track : cast_in_place cfg = true \/ length (flat_map (qc_at h) (arg_leaves args kwargs)) < 2 -> p_args p = TTup args -> p_kwargs p = TMut kwargs -> p_held_args p = TTup args -> p_held_kwargs p = TMut kwargs ->
      (p_heap p, p_trackers p) = snd (fold_leaves (cast beqb true track (p_backend p)) (arg_leaves args kwargs) (h, [])) -> prep_case cfg args kwargs h p
  | CaseCopy : cast_in_place cfg = false -> 2 <= length (flat_map (qc_at h) (arg_leaves args kwargs)) ->
      (p_heap p, p_trackers p) = snd (fold_leaves (cast beqb false true (p_backend p)) (arg_leaves args kwargs) (h, [])) ->
      (forallb tuple_free args = true -> forallb tuple_free kwargs = true ->
         leaves (p_args p) = fst (fold_leaves (cast beqb false true (p_backend p)) (flat_map leaves args) (h, []))
         /\ leaves (p_kwargs p) = fst (fold_leaves (cast beqb false true (p_backend p)) (flat_map leaves kwargs)
                                         (snd (fold_leaves (cast beqb false true (p_backend p)) (flat_map leaves args) (h, []))))) -> prep_case cfg args kwargs h p.

  Lemma prepare_inv cfg args kwargs h :
    let ats := arg_leaves args kwargs in
    let r := registered h ats in
    (rfail r = true /\ prepare beqb choose choose_one choose_none cfg args kwargs h = Err ValueError)
    \/ (rfail r = false /\ (forall p, prepare beqb choose choose_one choose_none cfg args kwargs h = Ok p ->
         prep_case cfg args kwargs h p
         /\ (p_pin p = match rpin r with Some _ => true | None => false end)
         /\ (forall b, rpin r = Some b -> p_backend p = b)
         /\ (rpin r = None -> 2 <= length (rqcs r) -> 2 <= length (rbacks r) -> choose (rqcs r) = Ok (p_backend p)))
    /\ (forall b, rpin r = Some b -> exists p, prepare beqb choose choose_one choose_none cfg args kwargs h = Ok p)).
  Proof. intros ats r. unfold prepare.
    destruct (visit_args (register beqb h) args (mkreg [] [] None false)) as (st1 & hd1 & -> & _ & _).
    destruct (visit_kwargs (register beqb h) kwargs (snd (fold_leaves (register beqb h) (flat_map leaves args) (mkreg [] [] None false)))) as (st2 & hd2 & -> & _ & _).
    assert (Er : snd (fold_leaves (register beqb h) (flat_map leaves kwargs) (snd (fold_leaves (register beqb h) (flat_map leaves args) (mkreg [] [] None false)))) = r).
    { unfold r, registered, ats, arg_leaves. now rewrite fold_leaves_app. }
    rewrite Er. clear Er st1 hd1 st2 hd2. pose proof (registered_ok h ats) as R. fold r in R.
    destruct R as [[Rf Rc]|(Rf & Rq & Rb & Rn & Rp)]; [left; rewrite Rf; auto|right]. rewrite Rf. 
    set (pinned := match rpin r with Some _ => true | None => false end).
    assert (G : forall p, (if (length (rbacks r) <? 2) && (negb (auto_switch_on cfg) || pinned)
      then Ok (mkprepared (match rpin r with Some p => p | None => match rqcs r with [] => default_backend cfg | q :: _ => qback q end end) (TTup args) (TMut kwargs) (TTup args) (TMut kwargs) h [] pinned)
      else do d <- (if length (rqcs r) <? 2
                 then Ok (match rqcs r with [] => choose_none (match rqcs r with [] => default_backend cfg | q :: _ => qback q end) | q :: _ => choose_one q end, true, false)
                 else do b <- match rpin r with Some p => Ok p | None => choose (rqcs r) end; Ok (b, cast_in_place cfg, true));
        let '(b, inplace, track) := d in
        let '(args1, held1, st1) := visit (cast beqb inplace track b) (TTup args) (h, []) in
        let '(kwargs1, held2, st2) := visit (cast beqb inplace track b) (TMut kwargs) st1 in
        Ok (mkprepared b args1 kwargs1 held1 held2 (fst st2) (snd st2) pinned)) = Ok p ->
      prep_case cfg args kwargs h p /\ p_pin p = pinned /\ (forall b, rpin r = Some b -> length (rqcs r) < 2 -> length (rbacks r) < 2 -> p_backend p = b)
      /\ (forall b, rpin r = Some b -> ~ (length (rqcs r) < 2) -> p_backend p = b)
      /\ (rpin r = None -> 2 <= length (rqcs r) -> 2 <= length (rbacks r) -> choose (rqcs r) = Ok (p_backend p))).
    { intros p. destruct ((length (rbacks r) <? 2) && (negb (auto_switch_on cfg) || pinned)) eqn:Es.
      - intros [= <-]. cbn [p_pin p_backend]. apply andb_true_iff in Es as [Es1 Es2]. apply Nat.ltb_lt in Es1.
        split; [|split; [reflexivity|split; [intros b ->; reflexivity|split; [intros b ->; reflexivity|lia]]]]. apply CaseSkip; try reflexivity. cbn [p_backend].
        fold ats. intros Nr x Hx. assert (Ix : In (qback (oqc x)) (rbacks r)) by (apply Rb; eauto).
        destruct (rpin r) as [b|].
        + destruct Rp as [(y & Hy & _ & <-) _]. eapply two_in; eauto. apply Rb. eauto.
        + rewrite Rq, (no_raw_qcs h Nr). destruct (objs_of h ats) as [|y ys] eqn:Eo; [easy|]. cbn [map]. eapply two_in; eauto. apply Rb. exists y. split; [now left|reflexivity].
      - assert (Cs : forall b inplace track, (inplace = false -> cast_in_place cfg = false /\ track = true /\ 2 <= length (rqcs r)) -> (inplace = true -> cast_in_place cfg = true \/ length (rqcs r) < 2) ->
          (let '(args1, held1, st1) := visit (cast beqb inplace track b) (TTup args) (h, []) in
           let '(kwargs1, held2, st2) := visit (cast beqb inplace track b) (TMut kwargs) st1 in
           Ok (mkprepared b args1 kwargs1 held1 held2 (fst st2) (snd st2) pinned)) = Ok p ->
          prep_case cfg args kwargs h p /\ p_pin p = pinned /\ p_backend p = b).
        { intros b inplace track Hi Hj.
          destruct (visit_args (cast beqb inplace track b) args (h, [])) as (st1 & hd1 & -> & Lv1 & Id1).
          destruct (visit_kwargs (cast beqb inplace track b) kwargs (snd (fold_leaves (cast beqb inplace track b) (flat_map leaves args) (h, [])))) as (st2 & hd2 & -> & Lv2 & Id2).
          intros [= <-]. cbn [p_pin p_backend]. split; [|split; reflexivity]. 
          assert (St : snd (fold_leaves (cast beqb inplace track b) (flat_map leaves kwargs) (snd (fold_leaves (cast beqb inplace track b) (flat_map leaves args) (h, []))))
                     = snd (fold_leaves (cast beqb inplace track b) (arg_leaves args kwargs) (h, []))) by (unfold arg_leaves; now rewrite fold_leaves_app).
          destruct inplace.
          - assert (Idc : forall (a : atom) s, fst (cast beqb true track b a s) = a).
            { intros [o|q|n] [hh tt]; cbn; auto. destruct (lookup hh o); [|reflexivity]. destruct (beqb _ _); reflexivity. }
            destruct (Id1 Idc) as [-> ->]. destruct (Id2 Idc) as [-> ->].
            apply CaseInplace with (track := track); try reflexivity; [fold ats; rewrite <- Rq; auto|]. cbn [p_heap p_trackers p_backend]. rewrite St. symmetry. apply surjective_pairing.
          - destruct (Hi eq_refl) as (Hc & -> & H2). apply CaseCopy; [exact Hc|fold ats; now rewrite <- Rq| |].
            + cbn [p_heap p_trackers p_backend]. rewrite St. symmetry. apply surjective_pairing.
            + cbn [p_args p_kwargs p_backend leaves]. intros T1 T2. rewrite Lv1, Lv2 by assumption. auto. }
        destruct (Nat.ltb_spec (length (rqcs r)) 2) as [L2|L2].
        + cbn [rbind]. intros Hp. apply Cs in Hp as (P1 & P2 & P3); [|discriminate|auto]. split; [exact P1|]. split; [exact P2|].
          split; [|split; [|lia]].
          * intros b Eb _ Lb. exfalso. assert (pinned = true) by (unfold pinned; now rewrite Eb). destruct (Nat.ltb_spec (length (rbacks r)) 2); [|lia]. rewrite H, orb_true_r in Es. discriminate.
          * intros b Eb X. lia.
        + destruct (rpin r) as [b|] eqn:Eb.
          * cbn [rbind]. intros Hp. apply Cs in Hp as (P1 & P2 & P3); [|now intros ->|now left]. split; [exact P1|]. split; [exact P2|]. split; [lia|]. split; [congruence|discriminate].
          * destruct (choose (rqcs r)) as [b|] eqn:Ec; cbn [rbind]; [|discriminate]. intros Hp. apply Cs in Hp as (P1 & P2 & P3); [|now intros ->|now left].
            split; [exact P1|]. split; [exact P2|]. split; [lia|]. split; [discriminate|]. intros _ _ _. now rewrite P3. }
    assert (Lens : length (rbacks r) <= length (rqcs r)).
    { rewrite Rq. transitivity (length (objs_of h ats)).
      - rewrite <- (map_length (fun x => qback (oqc x))). apply NoDup_incl_length; [assumption|].
        intros b Hb. apply Rb in Hb as (x & Hx & <-). apply in_map_iff. eauto.
      - generalize ats as l. unfold objs_of. induction l as [|a l IH]; [cbn; lia|]. cbn [flat_map]. rewrite !app_length.
        enough (length (obj_at h a) <= length (qc_at h a)) by lia. destruct a; cbn; [|lia|lia]. rewrite map_length. lia. }
    split; [reflexivity|]. split.
    - intros p Hp. destruct (G p Hp) as (P1 & P2 & P3 & P4 & P5). split; [exact P1|]. split; [exact P2|]. split; [|exact P5].
      intros b Eb. destruct (Nat.lt_ge_cases (length (rqcs r)) 2); [apply P3; auto; lia|apply P4; auto; lia].
    - intros b Eb. assert (Pt : pinned = true) by (unfold pinned; now rewrite Eb). clear G. rewrite Eb, Pt, orb_true_r, andb_true_r.
      destruct (Nat.ltb_spec (length (rbacks r)) 2); [eauto|]. destruct (Nat.ltb_spec (length (rqcs r)) 2); [lia|]. cbn [rbind].
      destruct (visit _ (TTup args) _) as [[? ?] ?]. destruct (visit _ (TMut kwargs) _) as [[? ?] ?]. eauto. Qed.
End Prepare.
