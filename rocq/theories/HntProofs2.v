(** Histories of calls and isin (C83). *)
From Verif Require Import Base Table GridSpec ChunkSpec ChunkModel ChunkProofs GridModel FrameSpec GridProofs GridProofs2 GridProofs3 GridProofs4 GridProofs5
  SelSpec SelModel SelProofs SelProofs5 RngProofs KeyProofs ItmModel ItmProofs FilSpec FilModel FilProofs FilProofs2 HntSpec HntModel HntProofs.

Section Hist.
  Context {L H V : Type}.
  Variables (leqb : L -> L -> bool) (heqb : H -> H -> bool).
  Hypothesis leqb_ok : forall x y, leqb x y = true <-> x = y.
  Hypothesis heqb_ok : forall x y, heqb x y = true <-> x = y.
  Variable veqb : V -> V -> bool.
  Variable as_cell : H -> option V.
  Variables (dynamic : bool) (cpus nparts min_row min_col : nat).
  Hypothesis (np : 0 < nparts) (mr : 0 < min_row) (mc : 0 < min_col).
  Variables known_l known_w : nat -> nat -> bool.
  Variable argsort : list Z -> list nat.
  Hypothesis argsort_ok : forall l, sorts l (argsort l).
  Notation cell := (option V).
  Notation dframe := (df L H cell).
  Notation pf := (@pframe L H cell).
  Notation state := (@state L H V).
  Variable distribute : dframe -> pf.
  Hypothesis distribute_ok : forall d, wf d -> 0 < nrows d -> 0 < ncols d -> exists rl cl, shows (distribute d) d rl cl.
  Notation m_call := (m_call leqb heqb dynamic cpus nparts min_row min_col known_l known_w argsort distribute).
  Notation m_calls := (m_calls leqb heqb dynamic cpus nparts min_row min_col known_l known_w argsort distribute).
  Notation q_isin := (q_isin leqb heqb veqb as_cell dynamic cpus nparts min_row min_col).
  Notation p_call := (p_call heqb).
  Notation p_calls := (p_calls heqb).

  Lemma select_take (d : dframe) cs ps : wf d -> NoDup (dcols d) -> Forall2 (fun c p => nth_error (dcols d) p = Some c) cs ps ->
    take2d (seq 0 (nrows d)) ps d = select heqb cs d.
  Proof. clear - heqb_ok. intros [W1 W2] N F. unfold take2d, select. rewrite (@pick_all _ (dindex d)) by reflexivity. rewrite (@pick_all _ (dcells d)) by exact W1. rewrite (proj1 (@at_pick H _ _ _ F)). f_equal.
    apply map_ext_in. intros row Ir. rewrite Forall_forall in W2. specialize (W2 row Ir). clear - heqb_ok N F W2.
    induction F as [|c p cs ps E F IH]; [reflexivity|]. rewrite pick_cons, IH. cbn [flat_map].
    destruct (nth_error row p) as [x|] eqn:Ex.
    - now rewrite (@lookup_nth H cell heqb heqb_ok (dcols d) row c p x N E Ex).
    - apply nth_error_None in Ex. assert (p < length (dcols d)) by (apply nth_error_Some; congruence). unfold ncols in W2. lia. Qed.

  Lemma select_ok (f : pf) d rl cl cs : shows f d rl cl -> 0 < nrows d -> selectable heqb cs d = true ->
    exists f' rl' cl', getitem_columns leqb heqb min_row min_col nparts known_l known_w argsort cs f = Ok f' /\ shows f' (select heqb cs d) rl' cl'.
  Proof. intros S Hn Hs. unfold selectable in Hs. apply andb_prop in Hs as [Hs H3]. apply andb_prop in Hs as [H1 H2].
    assert (N1 := distinct_NoDup heqb heqb_ok _ H1). assert (N2 := distinct_NoDup heqb heqb_ok _ H2).
    destruct (@getitem_columns_ok L H cell leqb heqb leqb_ok heqb_ok min_row min_col nparts mr mc np known_l known_w argsort argsort_ok f d rl cl cs S Hn N1 N2) as (f' & rl' & cl' & ps & E & S' & F).
    { apply Forall_forall. intros c Ic. rewrite forallb_forall in H3. specialize (H3 c Ic). apply existsb_exists in H3 as (y & Iy & ->%heqb_ok). exact Iy. }
    exists f', rl', cl'. split; [exact E|]. now rewrite <- (select_take (proj1 (proj1 (proj1 S))) N1 F). Qed.

  Lemma width_shows (f : pf) d rl cl : shows f d rl cl -> width f = ncols d.
  Proof. intros (_ & _ & _ & _ & C). unfold width. now rewrite C. Qed.

  (** The object [(k, i)] of a state stands for the pandas object [(k', d)].  [b]: no one-column frame was made
      out of another object. *)
  Definition stands (b : bool) (h : list (@qc L H V)) (m : kind * nat) (p : kind * dframe) : Prop :=
    fst m = fst p /\ exists q rl cl, nth_error h (snd m) = Some q /\ shows (frame q) (snd p) rl cl /\ 0 < nrows (snd p)
      /\ (fst p = KSeries -> hint q = true) /\ (hint q = true -> ncols (snd p) = 1) /\ (b = true -> fst p = KFrame -> hint q = false).
  Definition inv b (s : state) (ps : list (kind * dframe)) : Prop := Forall2 (stands b (heap s)) (objs s) ps.

  Lemma forall2_at {X Y} (R : X -> Y -> Prop) xs ys o y : Forall2 R xs ys -> nth_error ys o = Some y -> exists x, nth_error xs o = Some x /\ R x y.
  Proof. clear. intros F. revert o. induction F as [|x' y' xs ys Hr F IH]; intros [|o] E; try discriminate; cbn in *; [|now apply IH]. injection E as <-. eauto. Qed.
  Lemma forall2_impl {X Y} (R R' : X -> Y -> Prop) xs ys : (forall x y, R x y -> R' x y) -> Forall2 R xs ys -> Forall2 R' xs ys.
  Proof. clear. intros I F. induction F; constructor; auto. Qed.
  Lemma stands_app b h h' m p : stands b h m p -> stands b (h ++ h') m p.
  Proof. clear. intros (E & q & rl & cl & N & R). split; [exact E|]. exists q, rl, cl. split; [|exact R]. rewrite nth_error_app1; [exact N|]. apply nth_error_Some. congruence. Qed.
  Lemma inv_new b s ps k (q : qc) d rl cl : inv b s ps -> shows (frame q) d rl cl -> 0 < nrows d -> (k = KSeries -> hint q = true) ->
    (hint q = true -> ncols d = 1) -> (b = true -> k = KFrame -> hint q = false) -> inv b (new s k q) (ps ++ [(k, d)]).
  Proof. clear. intros I S Hn H1 H2 H3. unfold inv, new. cbn [heap objs]. apply Forall2_app.
    - eapply forall2_impl; [|exact I]. intros. now apply stands_app.
    - constructor; [|constructor]. split; [reflexivity|]. exists q, rl, cl. cbn [fst snd]. split; [|tauto].
      rewrite nth_error_app2, Nat.sub_diag by lia. reflexivity. Qed.
  Lemma set_hint_at i (h : list (@qc L H V)) j q : nth_error h j = Some q -> nth_error (set_hint i h) j = Some (if j =? i then mkqc (frame q) true else q).
  Proof. clear. intros E. unfold set_hint. rewrite nth_error_map.
    assert (X : nth_error (combine (seq 0 (length h)) h) j = Some (j, q)).
    { enough (Y : forall a, nth_error (combine (seq a (length h)) h) j = Some (a + j, q)) by exact (Y 0).
      revert j E. induction h as [|x h IH]; intros [|j] E a; try discriminate; cbn in *.
      - injection E as ->. now rewrite Nat.add_0_r.
      - rewrite (IH j E (S a)). do 2 f_equal. lia. }
    now rewrite X. Qed.
  Lemma object_ok b s ps o p : inv b s ps -> object_at ps o = Ok p ->
    exists i q rl cl, object_qc s o = Ok (fst p, i, q) /\ nth_error (heap s) i = Some q /\ shows (frame q) (snd p) rl cl /\ 0 < nrows (snd p)
      /\ (fst p = KSeries -> hint q = true) /\ (hint q = true -> ncols (snd p) = 1) /\ (b = true -> fst p = KFrame -> hint q = false).
  Proof. clear. intros I E. unfold object_at in E. destruct (nth_error ps o) as [p'|] eqn:N; [|discriminate]. injection E as ->.
    destruct (forall2_at o I N) as ((k & i) & N1 & E1 & q & rl & cl & N2 & R). cbn [fst snd] in *. subst k. exists i, q, rl, cl. split; [|tauto].
    unfold object_qc, object_at. rewrite N1. cbn [rbind snd]. rewrite N2. reflexivity. Qed.

  Lemma well_formed_ok (d : dframe) : well_formed d = true -> wf d /\ 0 < nrows d /\ 0 < ncols d.
  Proof. clear. unfold well_formed, nrows, ncols. intros E. apply andb_prop in E as [E E4]. apply andb_prop in E as [E E3]. apply andb_prop in E as [E1 E2].
    apply Nat.eqb_eq in E1. apply Nat.ltb_lt in E3, E4. repeat split; auto. apply Forall_forall. intros r Ir. rewrite forallb_forall in E2. now apply Nat.eqb_eq, E2. Qed.
  Lemma cells_ok g (f : pf) d rl cl : shows f d rl cl ->
    exists f' rl' cl', map_cells leqb heqb dynamic cpus nparts min_row min_col g f = Ok f' /\ shows f' (cellwise (fun _ _ c => g c) (fun h => h) d) rl' cl'.
  Proof. apply (@map_ok L H cell leqb heqb leqb_ok heqb_ok nparts min_row min_col np mr mc cell (fun _ _ c => g c) dynamic cpus). Qed.
  Lemma cells_ncols g (d : dframe) : ncols (cellwise (fun _ _ c => g c) (fun h : H => h) d : dframe) = ncols d.
  Proof. clear. unfold ncols. cbn. apply map_length. Qed.

  Lemma call_ok b s ps a ps' : inv b s ps -> p_call ps a = Ok ps' -> (b = true -> plain a = true) -> exists s', m_call s a = Ok s' /\ inv b s' ps'.
  Proof. intros I E Pl. destruct a as [k d|o cs|o c|o|o|o|o g|o g]; cbn [HntSpec.p_call HntModel.m_call] in *.
    - destruct (well_formed d && _) eqn:Ew; [|discriminate]. injection E as <-. apply andb_prop in Ew as [Ew Ek]. apply well_formed_ok in Ew as (W & Hn & Hc).
      destruct (distribute_ok W Hn Hc) as (rl & cl & S). destruct k; eexists; (split; [reflexivity|]); eapply inv_new; eauto; cbn [hint columnarize]; try easy.
      intros _. now apply Nat.eqb_eq.
    - destruct (object_at ps o) as [p|] eqn:Eo; [|discriminate]. cbn [rbind] in E. destruct (object_ok o I Eo) as (i & q & rl & cl & Eq & Nq & S & Hn & H1 & H2 & H3).
      destruct p as [k d]. cbn [fst snd] in *. destruct k; [|discriminate]. destruct (selectable heqb cs d) eqn:Es; [|discriminate]. injection E as <-.
      destruct (select_ok cs S Hn Es) as (f' & rl' & cl' & Ef & S'). rewrite Eq. cbn [rbind snd]. unfold getitem_array. rewrite Ef. cbn [rbind].
      eexists. split; [reflexivity|]. eapply inv_new; eauto; cbn [hint]; try easy.
      + intros X. apply Nat.eqb_eq in X. exact X.
      + intros Hb _. specialize (Pl Hb). cbn in Pl. now apply negb_true_iff.
    - destruct (object_at ps o) as [p|] eqn:Eo; [|discriminate]. cbn [rbind] in E. destruct (object_ok o I Eo) as (i & q & rl & cl & Eq & Nq & S & Hn & H1 & H2 & H3).
      destruct p as [k d]. cbn [fst snd] in *. destruct k; [|discriminate]. destruct (selectable heqb [c] d) eqn:Es; [|discriminate]. injection E as <-.
      destruct (select_ok [c] S Hn Es) as (f' & rl' & cl' & Ef & S'). rewrite Eq. cbn [rbind snd]. unfold getitem_array. rewrite Ef. cbn [rbind frame].
      rewrite (width_shows S'). cbn [ncols select dcols length Nat.eqb]. eexists. split; [reflexivity|]. eapply inv_new; eauto; cbn [hint]; easy.
    - destruct (object_at ps o) as [p|] eqn:Eo; [|discriminate]. cbn [rbind] in E. destruct (object_ok o I Eo) as (i & q & rl & cl & Eq & Nq & S & Hn & H1 & H2 & H3).
      destruct p as [k d]. cbn [fst snd] in *. destruct k; [|discriminate]. injection E as <-. rewrite Eq. cbn [rbind snd fst]. rewrite (width_shows S).
      destruct b; [discriminate (Pl eq_refl)|].
      destruct (Nat.eqb_spec (ncols d) 1) as [E1|E1]; eexists; (split; [reflexivity|]).
      + unfold inv. cbn [heap objs]. apply Forall2_app.
        * eapply forall2_impl; [|exact I]. intros [k j] [k' d'] (Ek & q' & rl' & cl' & N' & S' & Hn' & A1 & A2 & A3). cbn [fst snd] in *. split; [exact Ek|].
          exists (if j =? i then mkqc (frame q') true else q'), rl', cl'. cbn [fst snd]. split; [now apply set_hint_at|].
          destruct (Nat.eqb_spec j i) as [-> | Nj]; [|tauto]. assert (q' = q) by congruence. subst q'. cbn [frame hint].
          split; [exact S'|]. split; [exact Hn'|]. split; [auto|]. split; [|easy]. intros _. rewrite <- (width_shows S'). now rewrite (width_shows S).
        * constructor; [|constructor]. split; [reflexivity|]. exists (mkqc (frame q) true), rl, cl. cbn [fst snd frame hint].
          split; [|split; [exact S|split; [exact Hn|split; [auto|split; [auto|intros X; discriminate X]]]]]. rewrite (@set_hint_at i (heap s) i q Nq). now rewrite Nat.eqb_refl.
      + eapply inv_new; eauto.
    - destruct (object_at ps o) as [p|] eqn:Eo; [|discriminate]. cbn [rbind] in E. destruct (object_ok o I Eo) as (i & q & rl & cl & Eq & Nq & S & Hn & H1 & H2 & H3).
      destruct p as [k d]. cbn [fst snd] in *. destruct k; [discriminate|]. injection E as <-. rewrite Eq. cbn [rbind snd fst]. eexists. split; [reflexivity|].
      destruct b; [discriminate (Pl eq_refl)|]. eapply inv_new; eauto; intros X; discriminate X.
    - destruct (object_at ps o) as [p|] eqn:Eo; [|discriminate]. cbn [rbind] in E. destruct (object_ok o I Eo) as (i & q & rl & cl & Eq & Nq & S & Hn & H1 & H2 & H3).
      injection E as <-. rewrite Eq. cbn [rbind snd fst]. eexists. split; [reflexivity|]. destruct p as [k d]. eapply inv_new; eauto.
    - destruct (object_at ps o) as [p|] eqn:Eo; [|discriminate]. cbn [rbind] in E. destruct (object_ok o I Eo) as (i & q & rl & cl & Eq & Nq & S & Hn & H1 & H2 & H3).
      injection E as <-. rewrite Eq. cbn [rbind snd fst]. destruct (cells_ok g S) as (f' & rl' & cl' & Ef & S'). rewrite Ef. cbn [rbind].
      eexists. split; [reflexivity|]. destruct p as [k d]. eapply inv_new; eauto. cbn [hint snd]. intros X. rewrite cells_ncols. auto.
    - destruct (object_at ps o) as [p|] eqn:Eo; [|discriminate]. cbn [rbind] in E. destruct (object_ok o I Eo) as (i & q & rl & cl & Eq & Nq & S & Hn & H1 & H2 & H3).
      injection E as <-. rewrite Eq. cbn [rbind snd fst]. destruct (cells_ok g S) as (f' & rl' & cl' & Ef & S'). rewrite Ef. cbn [rbind].
      eexists. split; [reflexivity|]. destruct b; [discriminate (Pl eq_refl)|]. destruct p as [k d]. cbn [fst snd] in *. eapply inv_new; eauto; cbn [hint snd]; rewrite ?(width_shows S); try easy.
      + intros X. apply Nat.eqb_eq. auto.
      + intros X. apply Nat.eqb_eq in X. now rewrite cells_ncols. Qed.
  Lemma calls_ok b l s ps ps' : inv b s ps -> p_calls ps l = Ok ps' -> (b = true -> forallb (@plain L H V) l = true) -> exists s', m_calls s l = Ok s' /\ inv b s' ps'.
  Proof. revert s ps. induction l as [|a l IH]; intros s ps I E Pl; cbn [HntSpec.p_calls HntModel.m_calls] in *.
    - injection E as <-. eauto.
    - destruct (p_call ps a) as [ps1|] eqn:Ea; [|discriminate]. cbn [rbind] in E.
      destruct (call_ok a I Ea) as (s1 & E1 & I1); [intros Hb; specialize (Pl Hb); cbn in Pl; now apply andb_prop in Pl|].
      rewrite E1. cbn [rbind]. apply (IH s1 ps1 I1 E). intros Hb. specialize (Pl Hb). cbn in Pl. now apply andb_prop in Pl. Qed.

  Lemma isin_ok (q : qc) w k d rl cl : shows (frame q) d rl cl -> (k = KSeries -> hint q = true) -> (hint q = true -> ncols d = 1) ->
    (k = KSeries \/ hint q = false \/ exists vs, w = AnyOf vs) ->
    match o_isin leqb heqb veqb as_cell w (k, d) with
    | Ok D => exists f' rl' cl', q_isin q w = Ok f' /\ shows f' D rl' cl'
    | Err _ => exists e, q_isin q w = Err e
    end.
  Proof. clear distribute_ok distribute argsort_ok argsort known_l known_w. intros S H1 H2 Hc. unfold HntModel.q_isin. destruct (hint q) eqn:Eh.
    - assert (X : o_isin leqb heqb veqb as_cell w (k, d) = Ok (s_isin veqb as_cell w d)).
      { destruct k; [|reflexivity]. destruct Hc as [?|[?|(vs & ->)]]; [discriminate|discriminate|reflexivity]. }
      rewrite X. clear X.
      assert (Y : frame_map leqb heqb dynamic cpus nparts min_row min_col (isin_func leqb heqb veqb as_cell true w) None (frame q)
                  = frame_map leqb heqb dynamic cpus nparts min_row min_col (fun t => Ok (s_isin veqb as_cell w t)) None (frame q)).
      { unfold frame_map. destruct S as (((W & Sr & Sc & Gr & _) & _) & _). rewrite Gr.
        rewrite (@map_partitions_ext_on L H cell L H bool leqb heqb (isin_func leqb heqb veqb as_cell true w) (fun t => Ok (s_isin veqb as_cell w t))); [reflexivity| |].
        - intros t Ht. unfold isin_func. destruct (Nat.ltb_spec 1 (ncols t)); [lia|reflexivity].
        - apply cut_narrow; auto. rewrite (H2 eq_refl). lia. }
      rewrite Y. apply (@map_ok L H cell leqb heqb leqb_ok heqb_ok nparts min_row min_col np mr mc bool _ dynamic cpus _ d rl cl S).
    - destruct k; [|discriminate (H1 eq_refl)].
      apply (@qc_isin_ok L H V leqb heqb leqb_ok heqb_ok dynamic cpus nparts min_row min_col np mr mc veqb w (frame q) d rl cl S). Qed.
End Hist.
