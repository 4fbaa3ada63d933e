(** Soundness of selection, copying, renaming and materialisation. *)
From Verif Require Import Base DtypeSpec DtypeModel DtypeProofs.

Section Proofs.
  Context {H T : Type}.
  Variable hdec : forall a b : H, {a = b} + {a <> b}.
  Notation has := (has hdec).
  Notation dup := (dup hdec).
  Notation dtype_of := (dtype_of hdec).
  Notation dupdate := (dupdate hdec).
  Notation columns_order := (columns_order hdec).
  Notation init := (init hdec).
  Notation desc := (@desc H T).
  Notation tidy := (tidy hdec).
  Notation missing := (missing hdec).

  (** The known dtypes are in the order of the columns, or will be put in order because the order is at hand. *)
  Definition lined (d : desc) (cs : list (H * T)) : Prop :=
    inorder d cs \/ (order (columns_order d) <> None /\ schema d = false /\ remaining d = None).

  (** The invariant of a descriptor in a history; [stale]: its parent is not the described frame, as after a
      renaming, until a new parent is given. *)
  Definition good (d : desc) (cs : list (H * T)) (stale : bool) : Prop :=
    sound d cs /\ lined d cs /\ tidy d cs /\ (remaining d <> None -> unknown d = []) /\
    (if stale then order d <> None else attached d cs).

  Lemma columns_order_schema (d : desc) : remaining d = None -> schema (columns_order d) = schema d.
  Proof. intros R. unfold DtypeModel.columns_order. destruct (order d); [easy|]. destruct (parent d) as [f|]; [|easy].
    destruct (fmat f); [|easy]. destruct (_ <? _); [|easy]. now rewrite R. Qed.
  Lemma columns_order_remaining_none (d : desc) : remaining d = None -> remaining (columns_order d) = None.
  Proof. intros R. destruct (remaining (columns_order d)) as [r|] eqn:E; [|reflexivity].
    apply columns_order_remaining in E. congruence. Qed.
  Lemma columns_order_unknown (d : desc) : remaining (columns_order d) <> None -> unknown (columns_order d) = unknown d.
  Proof. unfold DtypeModel.columns_order. destruct (order d); [easy|]. destruct (parent d) as [f|]; [|easy].
    destruct (fmat f); [|easy]. destruct (_ <? _); [|easy]. destruct (remaining d); cbn; easy. Qed.
  Lemma columns_order_idem (d : desc) : order (columns_order d) <> None -> columns_order (columns_order d) = columns_order d.
  Proof. intros O. destruct (order (columns_order d)) as [o|] eqn:E; [|easy]. apply (columns_order_order hdec _ E). Qed.

  Lemma columns_order_none (d : desc) : order (columns_order d) = None -> columns_order d = d.
  Proof. unfold DtypeModel.columns_order. destruct (order d) eqn:E; [easy|]. destruct (parent d) as [f|]; [|easy].
    destruct (fmat f); [|easy]. discriminate. Qed.

  Lemma columns_order_good d cs st : good d cs st -> good (columns_order d) cs st.
  Proof. intros (S & I & TD & U & A). destruct st.
    - destruct (order d) as [o|] eqn:E; [|easy]. rewrite (columns_order_order _ _ E).
      split; [assumption|]. split; [assumption|]. split; [assumption|]. split; [assumption|]. congruence.
    - split; [now apply columns_order_sound|]. split; [|split; [now apply columns_order_tidy | split; [|now apply columns_order_attached]]].
      + destruct I as [I|(I1 & I2 & I3)]; [left; now apply columns_order_inorder|]. right.
        rewrite (columns_order_idem _ I1). split; [assumption|]. split; [now rewrite columns_order_schema|].
        now apply columns_order_remaining_none.
      + intros X. rewrite (columns_order_unknown _ X). apply U. intros R. apply X. now apply columns_order_remaining_none. Qed.

  Lemma init_ord kn un rem par o know sch (d : desc) :
    init kn un rem par (Some o) know sch = Ok d ->
    rem = None /\ know = true /\ known d = match kn with Some k => k | None => [] end /\
    unknown d = match un with Some u => u | None => [] end /\ remaining d = None /\ order d = Some o /\ parent d = par /\
    init kn un rem None (Some o) know sch = Ok (Desc (known d) (unknown d) (schema d) (know_all d) None None (Some o)).
  Proof. unfold DtypeModel.init. destruct (negb know && _); [discriminate|].
    destruct (dup (map fst _)); [discriminate|]. destruct (dup _); [discriminate|].
    destruct rem; [discriminate|]. destruct know; [|discriminate]. cbn [negb].
    destruct (negb (length o =? _)); [discriminate|]. intros [= <-]. cbn. repeat (split; [reflexivity|]). reflexivity. Qed.

  Lemma sound_parent d p (cs : list (H * T)) :
    sound (Desc (known d) (unknown d) (schema d) (know_all d) (remaining d) p (order d)) cs -> sound d cs.
  Proof. intros S. destruct S. split; assumption. Qed.

  (** * Selection *)
  Definition guess (d : desc) (c : H) : option T :=
    if has c (unknown d) then None else match dtype_of c (known d) with Some t => Some t | None => remaining d end.
  Lemma get_known_guess d ids :
    get_known hdec d ids = flat_map (fun c => match guess d c with Some t => [(c, t)] | None => [] end) ids.
  Proof. unfold get_known, guess. apply flat_map_ext. intros c. destruct (has c (unknown d)); [reflexivity|].
    destruct (dtype_of c (known d)); [reflexivity|]. now destruct (remaining d). Qed.
  Lemma get_unknown_guess d ids :
    get_unknown hdec d ids = filter (fun c => match guess d c with Some _ => false | None => true end) ids.
  Proof. unfold get_unknown, guess. apply filter_ext. intros c. destruct (has c (unknown d)); [reflexivity|].
    cbn. destruct (dtype_of c (known d)); [reflexivity|]. now destruct (remaining d). Qed.
  Lemma guess_right d cs c t : sound d cs -> In c (header cs) -> guess d c = Some t -> dtype_of c cs = Some t.
  Proof. intros S I. unfold guess. destruct (has c (unknown d)) eqn:E; [discriminate|]. apply has_false in E.
    apply header_in in I as [t' I]. destruct (dtype_of c (known d)) as [t''|] eqn:K.
    - intros [= ->]. apply dtype_of_in; [apply S|]. apply (s_known S). now apply (dtype_of_some hdec).
    - intros R. apply dtype_of_none in K. rewrite <- (s_rem S R c t' I); [now apply dtype_of_in; [apply S|]|].
      unfold names. rewrite in_app_iff. tauto. Qed.

  Lemma selected_header (cs : list (H * T)) ids : incl ids (header cs) -> header (selected hdec cs ids) = ids.
  Proof. induction ids as [|c ids IH]; intros I; cbn; [reflexivity|].
    destruct (dtype_of c cs) as [t|] eqn:E.
    - cbn. f_equal. apply IH. intros x Hx. apply I. now right.
    - apply dtype_of_none in E. destruct E. apply I. now left. Qed.
  Lemma selected_in (cs : list (H * T)) ids c t :
    In (c, t) (selected hdec cs ids) <-> In c ids /\ dtype_of c cs = Some t.
  Proof. unfold selected. rewrite in_flat_map. split.
    - intros [x [I J]]. destruct (dtype_of x cs) eqn:E; [|easy]. destruct J as [[= -> ->]|[]]. now split.
    - intros [I E]. exists c. rewrite E. split; [assumption | now left]. Qed.
  Lemma selected_incl (cs : list (H * T)) ids : incl (selected hdec cs ids) cs.
  Proof. intros [c t] I. apply selected_in in I as [_ I]. now apply (dtype_of_some hdec). Qed.

  Lemma lazy_get_good d cs st ids d' :
    good d cs st -> incl ids (header cs) -> lazy_get hdec d ids = Ok d' -> good d' (selected hdec cs ids) st.
  Proof. intros (S & I & TD & U0 & A) IN E. unfold lazy_get in E. destruct (dup ids) eqn:ED; [discriminate|].
    apply dup_false in ED. rewrite get_known_guess, get_unknown_guess in E.
    set (K := flat_map _ ids) in E. set (U := filter _ ids) in E.
    destruct (init_ord _ _ _ _ _ _ _ E) as (E1 & _ & E2 & E3 & E4 & E5 & E6 & E7).
    assert (SK : subseq K (selected hdec cs ids)).
    { subst K. clear - S IN. induction ids as [|c ids IH]; cbn; [constructor|].
      assert (J : In c (header cs)) by (apply IN; now left).
      assert (IN' : incl ids (header cs)) by (intros x Hx; apply IN; now right).
      apply subseq_app; [|now apply IH]. destruct (guess d c) as [t|] eqn:G; [|constructor].
      rewrite (@guess_right d cs c t S J G). apply subseq_refl. }
    assert (FULL : incl ids (map fst K ++ U)).
    { intros c Hc. rewrite in_app_iff. destruct (guess d c) as [t|] eqn:G.
      - left. apply in_map_iff. exists (c, t). split; [reflexivity|]. apply in_flat_map. exists c. rewrite G. split; [assumption | now left].
      - right. apply filter_In. now rewrite G. }
    pose proof (@selected_header cs ids IN) as HS.
    assert (S' : sound d' (selected hdec cs ids)).
    { apply (@sound_parent d' None). rewrite E4, E5.
      eapply (@init_sound H T hdec _ _ _ _ _ _ _ _ (selected hdec cs ids)) in E7; cbn in *; rewrite ?HS in *; try assumption.
      - apply E7.
      - intros c Hc HU. apply in_map_iff in Hc as [[c' t] [<- Hc]]. cbn in HU. apply in_flat_map in Hc as [x [_ Hc]].
        apply filter_In in HU as [_ HU]. destruct (guess d x) eqn:G; [|easy]. destruct Hc as [[= -> ->]|[]]. now rewrite G in HU.
      - now apply subseq_incl.
      - intros c Hc. now apply filter_In in Hc.
      - rewrite E1. discriminate.
      - intros _ _. exact FULL.
      - discriminate.
      - intros o [= <-]. reflexivity.
      - discriminate. }
    split; [assumption|]. split; [left; unfold inorder; now rewrite E2|]. split; [intros r R; congruence|].
    split; [congruence|]. destruct st; [congruence|]. intros f. rewrite E6. intros EP. destruct (A f EP) as (A1 & A2 & A3).
    split; [assumption|]. split; [intros ct Hct; apply A2; revert Hct; apply selected_incl|].
    rewrite E5, E4. intros [X|X]; [discriminate | now destruct X]. Qed.

  Lemma rmap_nth_error {A} (l : list A) ps ids (e : err) :
    rmap (fun p => match nth_error l p with Some c => Ok c | None => Err e end) ps = Ok ids ->
    Forall2 (fun p c => nth_error l p = Some c) ps ids.
  Proof. revert ids. induction ps as [|p ps IH]; intros ids; cbn; [intros [= <-]; constructor|].
    destruct (nth_error l p) eqn:E; [|discriminate]. cbn. destruct (rmap _ ps); [|discriminate].
    intros [= <-]. constructor; [assumption | now apply IH]. Qed.

  Lemma selected_at_labels (cs : list (H * T)) ps ids :
    NoDup (header cs) -> Forall2 (fun p c => nth_error (header cs) p = Some c) ps ids ->
    selected hdec cs ids = selected_at cs ps /\ incl ids (header cs).
  Proof. intros N. induction 1 as [|p c ps ids E F IH]; [split; [reflexivity | easy]|].
    destruct IH as [IH1 IH2]. unfold selected, selected_at in IH1 |- *. cbn [flat_map]. unfold header in E. rewrite nth_error_map in E.
    destruct (nth_error cs p) as [[c' t]|] eqn:EN; [|discriminate]. cbn in E. injection E as ->.
    apply nth_error_In in EN. rewrite (dtype_of_in hdec c t cs N EN), IH1. split; [reflexivity|].
    intros x [<-|Hx]; [now apply in_header in EN | auto]. Qed.

  Lemma lazy_get_at_good d cs st ps d' :
    good d cs st -> lazy_get_at hdec d ps = Ok d' -> good d' (selected_at cs ps) st.
  Proof. intros G E. unfold lazy_get_at in E. destruct (negb _); [discriminate|].
    apply columns_order_good in G. destruct (order (columns_order d)) as [o|] eqn:EO; [|discriminate].
    destruct (rmap _ ps) as [ids|] eqn:ER; [|discriminate]. cbn in E. apply rmap_nth_error in ER.
    assert (X : o = header cs) by (apply G; assumption). subst o.
    destruct (@selected_at_labels cs ps ids (s_truth (proj1 G)) ER) as [<- I].
    now apply (@lazy_get_good _ cs st ids d' G I). Qed.

  (** * Copies *)
  Lemma copy_good d cs st d' : good d cs st -> copy hdec d = Ok d' -> good d' cs st /\
    (forall o, order (columns_order d) = Some o -> order d' = Some o).
  Proof. intros G E. unfold copy in E. apply columns_order_good in G.
    set (d1 := columns_order d) in *. destruct G as (S & I & TD & U0 & A).
    assert (DJ : forall c, In c (map fst (known d1)) -> ~ In c (unknown d1)).
    { pose proof (s_names S) as N. now apply NoDup_app_inv in N. }
    destruct (order d1) as [o|] eqn:EO.
    - destruct (init_ord _ _ _ _ _ _ _ E) as (E1 & E0 & E2 & E3 & E4 & E5 & E6 & E7).
      assert (S' : sound d' cs).
      { apply (@sound_parent d' None). rewrite E4, E5.
        eapply (@init_sound H T hdec _ _ _ _ _ _ _ _ cs) in E7; cbn in *; try apply S; try assumption.
        - apply E7.
        - intros [= X]. now apply (s_schema S).
        - intros o' [= <-]. now apply (s_order S).
        - discriminate. }
      split; [|intros o' [= <-]; assumption].
      split; [assumption|]. split; [|split; [intros r R; congruence|]].
      { destruct I as [I|(_ & I2 & _)]; [left; unfold inorder; rewrite E2; exact I|]. right.
        rewrite (columns_order_order hdec _ E5). split; [congruence|]. split; [|assumption].
        unfold DtypeModel.init in E. rewrite I2 in E. cbn in E. destruct (negb (know_all d1) && _) in E; [discriminate|].
        destruct (dup _) in E; [discriminate|]. destruct (dup _) in E; [discriminate|]. rewrite E1, E0 in E. cbn in E.
        destruct (negb _) in E; [discriminate|]. now injection E as <-. }
      split; [congruence|]. destruct st; [congruence|]. intros f. rewrite E6. intros EP. destruct (A f EP) as (A1 & A2 & A3).
      split; [assumption|]. split; [assumption|]. rewrite E5, E4. intros [X|X]; [discriminate | now destruct X].
    - destruct st; [easy|].
      eapply (@init_sound H T hdec _ _ _ _ _ _ _ _ cs) in E; cbn in *; try apply S; try assumption.
      + destruct E as (S' & A' & X & _). destruct (X eq_refl) as (d0 & -> & S0 & A0 & K0 & U0' & R0).
        split; [|discriminate]. split; [assumption|]. split; [|split; [|split; [|assumption]]].
        * left. destruct I as [I|(I1 & _)]; [|exfalso; apply I1].
          2: { unfold d1 in EO |- *. rewrite (columns_order_none _ EO). exact EO. }
          apply columns_order_inorder; try assumption; [unfold DtypeProofs.tidy, DtypeProofs.missing; rewrite R0, K0, U0'; exact TD | unfold inorder; now rewrite K0].
        * apply columns_order_tidy. unfold DtypeProofs.tidy, DtypeProofs.missing. rewrite R0, K0, U0'. exact TD.
        * intros Y. rewrite (columns_order_unknown _ Y), U0'. apply U0. intros R. apply Y. apply columns_order_remaining_none. congruence.
      + intros [= X]. now apply (s_schema S).
      + discriminate.
      + intros f EP. destruct (A f EP) as (A1 & A2 & A3). split; [assumption|]. split; [assumption|]. intros _. apply A3. now left. Qed.

  Lemma copy_no_remaining (d d' : desc) o : order (columns_order d) = Some o -> copy hdec d = Ok d' -> remaining d' = None.
  Proof. unfold copy. intros -> E. now destruct (init_ord _ _ _ _ _ _ _ E) as (_ & _ & _ & _ & E4 & _). Qed.

  Lemma columns_order_known (d : desc) : remaining d = None -> known (columns_order d) = known d.
  Proof. intros R. unfold DtypeModel.columns_order. destruct (order d); [easy|]. destruct (parent d) as [f|]; [|easy].
    destruct (fmat f); [|easy]. destruct (_ <? _); [|easy]. now rewrite R. Qed.
  Lemma copy_known (d d' : desc) : copy hdec d = Ok d' -> remaining d = None -> known d' = known d /\ remaining d' = None.
  Proof. unfold copy, DtypeModel.init. intros E R.
    rewrite (columns_order_remaining_none _ R), (columns_order_known _ R) in E. revert E.
    destruct (_ && _); [discriminate|]. destruct (dup _); [discriminate|]. destruct (dup _); [discriminate|].
    destruct (order (columns_order d)).
    - destruct (negb (know_all _)); [discriminate|]. destruct (negb _); [discriminate|]. now intros [= <-].
    - intros [= <-]. split; [now rewrite columns_order_known | now apply columns_order_remaining_none]. Qed.

  (** * Renaming *)
  Lemma rename_nth (o n : list H) c : length o = length n -> In c o ->
    exists i, nth_error o i = Some c /\ exists m, nth_error n i = Some m /\ rename hdec (combine o n) c = Ok m.
  Proof. revert n. induction o as [|x o IH]; intros n L I; [destruct I|]. destruct n as [|y n]; [discriminate|].
    cbn. destruct (hdec c x) as [->|NE].
    - exists 0. split; [reflexivity|]. exists y. now split.
    - destruct I as [->|I]; [easy|]. destruct (IH n) as (i & E1 & m & E2 & E3); [now injection L | assumption |].
      exists (S i). split; [assumption|]. exists m. now split. Qed.

  Definition rn (o n : list H) (c : H) : H := match rename hdec (combine o n) c with Ok m => m | Err _ => c end.
  Lemma rename_rn o n c : length o = length n -> In c o -> rename hdec (combine o n) c = Ok (rn o n c).
  Proof. intros L I. destruct (@rename_nth o n c L I) as (i & _ & m & _ & E). unfold rn. now rewrite E. Qed.
  Lemma rn_inj o n c c' : length o = length n -> NoDup n -> In c o -> In c' o -> rn o n c = rn o n c' -> c = c'.
  Proof. intros L N I I' E. destruct (@rename_nth o n c L I) as (i & A1 & m & A2 & A3).
    destruct (@rename_nth o n c' L I') as (i' & B1 & m' & B2 & B3). unfold rn in E. rewrite A3, B3 in E. subst m'.
    assert (i = i'); [|congruence]. apply (proj1 (NoDup_nth_error n) N); [apply nth_error_Some; congruence | congruence]. Qed.
  Lemma map_rn o n : NoDup o -> length o = length n -> map (rn o n) o = n.
  Proof. unfold rn. revert n. induction o as [|x o IH]; intros n N L; destruct n as [|y n]; try discriminate; [reflexivity|].
    inversion_clear N as [|? ? N1 N2]. cbn. destruct (hdec x x); [|easy]. f_equal.
    transitivity (map (fun c => match rename hdec (combine o n) c with Ok m => m | Err _ => c end) o);
      [|apply IH; [assumption | now injection L]]. apply map_ext_in. intros c Hc.
    destruct (hdec c x) as [->|]; [easy | reflexivity]. Qed.

  Lemma renamed_map (cs : list (H * T)) n : NoDup (header cs) -> length cs = length n ->
    renamed cs n = map (fun ct => (rn (header cs) n (fst ct), snd ct)) cs.
  Proof. intros N L. unfold renamed. rewrite <- (@map_rn (header cs) n N) at 1 by (unfold header; now rewrite map_length).
    unfold header at 2. generalize (rn (header cs) n). intros f. clear.
    induction cs as [|ct cs IH]; cbn; [reflexivity | now f_equal]. Qed.
  Lemma renamed_header (cs : list (H * T)) n : length cs = length n -> header (renamed cs n) = n.
  Proof. unfold renamed, header. revert n. induction cs as [|ct cs IH]; intros [|x n] L; try discriminate; [reflexivity|].
    cbn. f_equal. apply IH. now injection L. Qed.

  Lemma NoDup_map_inj {A B} (f : A -> B) l :
    (forall x y, In x l -> In y l -> f x = f y -> x = y) -> NoDup l -> NoDup (map f l).
  Proof. induction l as [|x l IH]; intros J N; cbn; [constructor|]. inversion_clear N as [|? ? N1 N2]. constructor.
    - intros I. apply in_map_iff in I as [y [E I]]. apply N1. rewrite (J x y); [assumption | now left | now right | congruence].
    - apply IH; [|assumption]. intros a b Ha Hb. apply J; now right. Qed.

  Lemma set_index_good d cs st n d' : good d cs st -> length n = length cs ->
    set_index hdec d n = Ok d' -> good d' (renamed cs n) true /\
    (inorder d cs -> remaining d = None -> inorder d' (renamed cs n) /\ remaining d' = None).
  Proof. intros G L E. unfold set_index in E. destruct (dup n) eqn:ED; [discriminate|]. apply dup_false in ED.
    apply columns_order_good in G. set (d1 := columns_order d) in *.
    assert (HR : header (renamed cs n) = n) by (apply renamed_header; lia).
    destruct (order d1) as [o|] eqn:EO.
    - destruct (copy hdec d1) as [s|] eqn:EC; [|discriminate]. cbn [rbind] in E.
      destruct (copy_good G EC) as [GS OS]. rewrite (columns_order_order _ _ EO) in OS. rewrite (OS _ EO) in E.
      destruct GS as (S & I & TD & U0 & _). assert (XO : o = header cs) by apply (s_order S (OS _ EO)). subst o.
      assert (LH : length (header cs) = length n) by (unfold header; now rewrite map_length).
      rewrite (proj2 (Nat.ltb_ge _ _)) in E by lia.
      assert (IU : incl (unknown s) (header cs)) by apply S.
      assert (IK : incl (known s) cs) by apply S.
      set (f := rn (header cs) n).
      rewrite (rmap_ok _ (fun ct => (f (fst ct), snd ct))) in E.
      2: { intros [c t] Hc. cbn [fst snd]. rewrite rename_rn; [reflexivity | assumption |]. apply IK in Hc. now apply in_header in Hc. }
      cbn [rbind] in E. rewrite (rmap_ok _ f) in E by (intros c Hc; apply rename_rn; auto).
      cbn [rbind] in E. rewrite (rmap_ok _ f) in E by (intros c Hc; apply rename_rn; auto).
      cbn [rbind] in E. unfold f in E at 3. rewrite map_rn in E by (assumption || apply S). injection E as <-.
      assert (RM := @renamed_map cs n (s_truth S) (eq_sym L)). fold f in RM.
      assert (NM : map fst (map (fun ct => (f (fst ct), snd ct)) (known s)) ++ map f (unknown s) = map f (names s)).
      { unfold names. now rewrite map_app, !map_map. }
      assert (INJ : forall x y, In x (header cs) -> In y (header cs) -> f x = f y -> x = y) by (intros; now apply (@rn_inj (header cs) n)).
      assert (NI : incl (names s) (header cs)) by now apply names_incl.
      assert (FH : map f (header cs) = n) by now apply map_rn; [apply S|].
      assert (COV : incl (header cs) (names s) -> incl n (map f (names s))) by (intros C c Hc; rewrite <- FH in Hc; now apply (incl_map f C)).
      split.
      2: { intros ID RD. destruct (@copy_known d1 s EC) as [K1 K2]; [unfold d1; now apply columns_order_remaining_none|].
           unfold inorder. cbn [known remaining]. split; [|assumption]. rewrite RM. apply subseq_map. rewrite K1. unfold d1.
           now rewrite columns_order_known. }
      split; [|split; [|split; [|split]]].
      + split; cbn [known unknown schema know_all remaining parent order].
        * rewrite HR. assumption.
        * unfold names; cbn. rewrite NM. apply NoDup_map_inj; [|apply S]. intros x y Hx Hy. apply INJ; auto.
        * rewrite RM. now apply incl_map.
        * intros c Hc. rewrite HR, <- FH. now apply (incl_map f IU).
        * intros r R c t Hc NI'. rewrite RM in Hc. apply in_map_iff in Hc as [[c0 t0] [[= <- <-] Hc]].
          apply (s_rem S R c0 t0 Hc). intros X. apply NI'. unfold names; cbn. rewrite NM. now apply in_map.
        * intros X1 X2. rewrite HR. unfold names; cbn. rewrite NM. apply COV, (s_all S); assumption.
        * intros X. destruct (s_schema S X) as (X1 & X2 & X3 & X4). split; [now rewrite X1|]. split; [assumption|]. split; [|assumption].
          rewrite HR. unfold names; cbn. rewrite NM. now apply COV.
        * intros o [= <-]. destruct (s_order S (OS _ EO)) as (X1 & X2 & X3). split; [now rewrite HR|]. split; [assumption|].
          rewrite HR. unfold names; cbn. rewrite NM. now apply COV.
        * apply S.
      + destruct I as [I|(I1 & I2 & I3)]; [left; unfold inorder; cbn; rewrite RM; now apply subseq_map|].
        right. unfold DtypeModel.columns_order. cbn. now split.
      + intros r R. cbn in R. destruct (remaining s) eqn:RS; [|discriminate].
        enough (remaining s = None) by congruence. apply (@copy_no_remaining d1 s (header cs)); [now rewrite (columns_order_order _ _ EO) | assumption].
      + cbn. intros X. now rewrite (U0 X).
      + cbn. discriminate.
    - destruct (init_ord _ _ _ _ _ _ _ E) as (_ & _ & E2 & E3 & E4 & E5 & E6 & E7). cbn in E2, E3.
      split; [|intros _ _; unfold inorder; rewrite E2; split; [constructor | assumption]].
      split; [|split; [|split; [|split]]].
      + apply (@sound_parent d' None). rewrite E4, E5.
        eapply (@init_sound H T hdec _ _ _ _ _ _ _ _ (renamed cs n)) in E7; cbn in *; rewrite ?HR in *; try easy.
        intros o [= <-]; reflexivity.
      + left. unfold inorder. rewrite E2. constructor.
      + intros r R; congruence.
      + congruence.
      + congruence. Qed.

  Lemma update_parent_good d cs st f : good d cs st -> (order d <> None \/ inorder d cs) -> ftruth f = cs ->
    good (update_parent hdec d f) cs false.
  Proof. intros (S & I & TD & U & A) O E. unfold update_parent. apply columns_order_good.
    split; [|split; [|split; [|split]]].
    - destruct S. split; assumption.
    - destruct I as [I|(I1 & I2 & I3)]; [now left|]. destruct O as [O|O]; [|now left]. right.
      destruct (order d) as [o|] eqn:EO; [|easy]. unfold DtypeModel.columns_order. cbn. now split.
    - exact TD. - exact U.
    - intros f' [= <-]. rewrite E. split; [apply S|]. split; [apply incl_refl | easy]. Qed.
End Proofs.
