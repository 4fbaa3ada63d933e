(** Columns replaced and columns taken from another frame. *)
From Verif Require Import Base Table ChunkModel ChunkSpec ChunkProofs GridModel GridSpec FrameSpec GridProofs GridProofs2 GridProofs3 GridProofs5 SelSpec SelModel
  SelProofs SelProofs2 SelProofs3 SelProofs4 SelProofs5 SelProofs6 SelProofs7 JoinSpec JoinModel JoinProofs JoinProofs2 JoinProofs3 JoinProofs4 JoinProofs5 JoinProps
  SetSpec SetModel SetProofs SetProofs2 SetProofs3 SetProofs4 SetProofs5 SetProofs6 SetProofs7 InsSpec InsModel InsProofs InsProofs2 KeyProofs ItmSpec ItmModel.

Lemma NoDup_concat_in {X} (ls : list (list X)) l : NoDup (concat ls) -> In l ls -> NoDup l.
Proof.
  induction ls as [|a ls IH]; [easy|]. cbn [concat]. intros N [-> | I].
  - apply NoDup_remove_app in N || (clear - N; induction l as [|x l IHl]; [constructor|]; cbn in N; inversion N as [|? ? Nx N']; subst; constructor; [|now apply IHl]; intros I; apply Nx; apply in_or_app; now left).
  - apply IH; [|exact I]. clear - N. induction a as [|x a IHa]; [exact N|]. cbn in N. inversion N. auto.
Qed.

Lemma zipapp_nth {X} : forall (a b : list (list X)) i x y, nth_error a i = Some x -> nth_error b i = Some y -> nth_error (zipapp a b) i = Some (x ++ y).
Proof.
  induction a as [|x a IH]; intros [|y b] [|i] u v Eu Ev; try discriminate; cbn in *.
  - injection Eu as ->. injection Ev as ->. reflexivity.
  - unfold zipapp. cbn [combine map nth_error]. now apply IH.
Qed.

Section Itm.
  Context {L H A : Type}.
  Notation dframe := (df L H A).
  Notation pf := (@pframe L H A).
  Variable leqb : L -> L -> bool.
  Variable heqb : H -> H -> bool.
  Hypothesis leqb_ok : forall x y, leqb x y = true <-> x = y.
  Hypothesis heqb_ok : forall x y, heqb x y = true <-> x = y.

  Lemma runs_ok keys : forall cols b acc,
    Forall (fun c => existsb (heqb c) keys = b) acc ->
    concat (map snd (runs heqb keys cols b acc)) = acc ++ cols
    /\ Forall (fun p => Forall (fun c => existsb (heqb c) keys = fst p) (snd p)) (runs heqb keys cols b acc).
  Proof.
    clear. induction cols as [|c cols IH]; intros b acc F; cbn [runs].
    - destruct acc as [|a acc]; [split; [reflexivity|constructor]|]. split; [reflexivity|]. apply Forall_cons; [exact F|apply Forall_nil].
    - destruct (xorb (existsb (heqb c) keys) b) eqn:E.
      + assert (Eb : existsb (heqb c) keys = negb b) by (destruct (existsb (heqb c) keys), b; easy).
        destruct (IH (negb b) [c]) as [I1 I2]; [apply Forall_cons; [exact Eb|apply Forall_nil]|].
        rewrite map_app, concat_app, I1. split; [destruct acc; cbn [map snd concat app]; now rewrite ?app_nil_r|].
        apply Forall_app. split; [|exact I2]. destruct acc as [|a acc]; [constructor|]. apply Forall_cons; [exact F|apply Forall_nil].
      + assert (Eb : existsb (heqb c) keys = b) by (destruct (existsb (heqb c) keys), b; easy).
        destruct (IH b (acc ++ [c])) as [I1 I2]; [apply Forall_app; split; [exact F|apply Forall_cons; [exact Eb|apply Forall_nil]]|].
        rewrite I1, <- app_assoc. split; [reflexivity|exact I2].
  Qed.

  Lemma indexers_at labels : NoDup labels -> forall cs, Forall (fun c => In c labels) cs ->
    exists ps, flat_map (fun c => get_indexer_for heqb c labels) cs = ps /\ Forall2 (fun c p => nth_error labels p = Some c) cs ps.
  Proof.
    clear - heqb_ok. intros Nd cs F. induction F as [|c cs I F (ps & E & F2)]; [exists []; split; [reflexivity|constructor]|].
    destruct (In_nth_error _ _ I) as [p Hp]. exists (p :: ps). split; [|now constructor].
    cbn [flat_map]. rewrite E, (@indexer_unique _ heqb heqb_ok labels c p Hp); [reflexivity|].
    intros k Hk. apply (proj1 (NoDup_nth_error labels) Nd); [apply nth_error_Some; congruence|congruence].
  Qed.

  Variables min_row min_col nparts : nat.
  Hypothesis mr : 0 < min_row.
  Hypothesis mc : 0 < min_col.
  Hypothesis np : 0 < nparts.
  Variables known_l known_w : nat -> nat -> bool.
  Variable argsort : list Z -> list nat.
  Hypothesis argsort_ok : forall l, sorts l (argsort l).
  Variable fill : A.
  Notation take cols f := (take_2d_positional leqb heqb min_row min_col nparts known_l known_w argsort false None (Some (IList cols)) f).

  Lemma take_some (f : pf) d rl cl ps : shows f d rl cl -> 0 < nrows d -> NoDup ps -> Forall (fun p => p < ncols d) ps ->
    exists f' rl' cl', take (map Z.of_nat ps) f = Ok f' /\ shows f' (take2d (seq 0 (nrows d)) ps d) rl' cl'.
  Proof.
    intros Sh Hn ND F. destruct ps as [|p ps].
    - exact (@take_no_columns L H A leqb heqb min_row min_col nparts mr mc np known_l known_w argsort f d rl cl Sh).
    - destruct (@take_2d_ok L H A leqb heqb leqb_ok heqb_ok min_row min_col nparts mr mc np known_l known_w argsort argsort_ok false f d rl cl None
        (Some (IList (map Z.of_nat (p :: ps)))) (seq 0 (nrows d)) (p :: ps) Sh) as (f' & E1 & _ & E2).
      + reflexivity.
      + split; [exact I|]. split; [reflexivity|exact F].
      + right. split; [apply seq_NoDup|exact ND].
      + destruct E2 as (rl' & cl' & Sh'); [destruct (nrows d); [lia|discriminate]|discriminate|]. eauto.
  Qed.

  Lemma getitem_columns_ok (f : pf) d rl cl cs : shows f d rl cl -> 0 < nrows d -> NoDup (dcols d) -> NoDup cs -> Forall (fun c => In c (dcols d)) cs ->
    exists f' rl' cl' ps, getitem_columns leqb heqb min_row min_col nparts known_l known_w argsort cs f = Ok f'
      /\ shows f' (take2d (seq 0 (nrows d)) ps d) rl' cl' /\ Forall2 (fun c p => nth_error (dcols d) p = Some c) cs ps.
  Proof.
    intros Sh Hn Nd Nc F. destruct (@indexers_at (dcols d) Nd cs F) as (ps & E & F2).
    assert (Pc : pcols f = Some (dcols d)) by apply Sh.
    destruct (@at_pick H (dcols d) cs ps F2) as [_ Fb].
    destruct (@take_some f d rl cl ps Sh Hn (@at_nodup H (dcols d) cs ps Nc F2) Fb) as (f' & rl' & cl' & E1 & S1).
    exists f', rl', cl', ps. split; [|split; [exact S1|exact F2]].
    unfold getitem_columns. rewrite Pc. cbn [labels rbind].
    replace (forallb (fun c => existsb (heqb c) (dcols d)) cs) with true.
    - cbn [negb]. now rewrite E.
    - symmetry. apply forallb_forall. intros c Hc. apply existsb_exists. exists c. rewrite Forall_forall in F. split; [now apply F|now apply heqb_ok].
  Qed.

  (** frames with the same row labels side by side, whatever the join *)
  Lemma concat_same join fk (t0 : @slot L H A) ts : Forall slot_shows (t0 :: ts) ->
    Forall (fun t => dindex (sd t) = dindex (sd t0)) ts ->
    exists f' rl' cl', concat_frames_cols leqb heqb fill join nparts min_row fk (sf t0) (map sf ts) = Ok f'
      /\ shows f' (glue (dindex (sd t0)) (map sd (t0 :: ts))) rl' cl'.
  Proof.
    intros F Fi. set (idx := dindex (sd t0)) in *.
    assert (Elab : map row_labels (sf t0 :: map sf ts) = map (fun t => dindex (sd t)) (t0 :: ts)).
    { change (sf t0 :: map sf ts) with (map sf (t0 :: ts)). rewrite map_map. apply map_ext_in. intros t Ht. rewrite Forall_forall in F.
      destruct (F _ Ht) as (Hh & _ & Hcl & _). now rewrite (row_labels_holds Hh Hcl). }
    assert (Eall : forallb (list_eqb leqb idx) (map (fun t => dindex (sd t)) ts) = true).
    { apply forallb_forall. intros y (t & <- & Ht)%in_map_iff. rewrite Forall_forall in Fi. rewrite (Fi _ Ht). apply (list_eqb_refl leqb leqb_ok). }
    assert (Ej : concat_frames_cols leqb heqb fill join nparts min_row fk (sf t0) (map sf ts)
               = concat_frames_cols leqb heqb fill (first_labels leqb) nparts min_row fk (sf t0) (map sf ts)).
    { unfold concat_frames_cols, copartition_rows, copartition. rewrite Elab. unfold join_index_objects. cbn [map]. fold idx. now rewrite Eall. }
    rewrite Ej. destruct (@concat_first L H A leqb heqb leqb_ok heqb_ok min_row nparts mr np fill fk t0 ts F (or_introl Fi)) as (f' & rl' & cl' & K1 & K2).
    exists f', rl', cl'. split; [exact K1|]. fold idx in K2.
    replace (map (at_labels leqb fill idx) (map sd (t0 :: ts))) with (map sd (t0 :: ts)) in K2; [exact K2|].
    rewrite map_map. symmetry. apply map_ext_in. intros t Ht. unfold at_labels.
    replace (dindex (sd t)) with idx; [now rewrite (list_eqb_refl leqb leqb_ok)|]. destruct Ht as [<-|Ht]; [reflexivity|]. rewrite Forall_forall in Fi. symmetry. now apply Fi.
  Qed.

  (** one replaced column *)
  Lemma zip_replaced (g h : list A -> list A) : forall vals rows, length vals = length rows ->
    fold_right zipapp (repeat [] (length rows)) [map g rows; map (fun v => [v]) vals; map h rows]
    = map (fun vr => g (snd vr) ++ fst vr :: h (snd vr)) (combine vals rows).
  Proof. apply zip_vals. Qed.

  Lemma glue_replaced (d : dframe) p c vals : wf d -> nth_error (dcols d) p = Some c -> length vals = nrows d ->
    glue (dindex d) [take2d (seq 0 (nrows d)) (seq 0 p) d; mkdf (dindex d) [c] (map (fun v => [v]) vals);
                     take2d (seq 0 (nrows d)) (seq (S p) (ncols d - S p)) d] = replaced p vals d.
  Proof.
    clear. intros [W1 W2] Hc Hv. assert (Hp : p < ncols d) by (unfold ncols; apply nth_error_Some; congruence).
    unfold glue, replaced. cbn [map dcols dcells take2d concat app]. f_equal.
    - rewrite app_nil_r. rewrite !pick_seq by (unfold ncols in *; lia). cbn [plus].
      unfold slice, ncols in *. rewrite Nat.sub_0_r, skipn_O.
      rewrite <- (firstn_skipn p (dcols d)) at 4. f_equal.
      rewrite (firstn_all2 (skipn (S p) (dcols d))) by (rewrite skipn_length; lia).
      clear - Hc. revert p Hc. induction (dcols d) as [|x l IH]; intros [|p] Hc; try discriminate; cbn in *; [now injection Hc as ->|]. now apply IH.
    - assert (Er : pick (dcells d) (seq 0 (nrows d)) = dcells d) by (apply pick_all; exact W1). rewrite Er.
      rewrite <- W1. rewrite zip_vals by (unfold nrows in *; lia). apply map_ext_in. intros [v r] Hin. apply in_combine_r in Hin. cbn [fst snd].
      rewrite Forall_forall in W2. specialize (W2 _ Hin). unfold ncols in *. rewrite !pick_seq by lia. cbn [plus].
      unfold slice. rewrite Nat.sub_0_r, skipn_O. f_equal. f_equal. rewrite firstn_all2; [reflexivity|]. rewrite skipn_length. lia.
  Qed.

  Lemma insert_item_ok fk (f v : pf) d e rl cl rl1 cl1 p c : shows f d rl cl -> shows v e rl1 cl1 -> dcols e = [c] ->
    0 < nrows d -> nth_error (dcols d) p = Some c -> dindex e = dindex d \/ NoDup (dindex d) /\ NoDup (dindex e) ->
    exists f' rl' cl' vals, insert_item leqb heqb min_row min_col nparts known_l known_w argsort fill (first_labels leqb) fk p v f = Ok f'
      /\ shows f' (replaced p vals d) rl' cl' /\ aligned fill d e vals.
  Proof.
    intros Sf Sv Hc Hn Hp Hi. assert (Wd : wf d) by apply Sf. assert (We : wf e) by apply Sv.
    assert (Lt : p < ncols d) by (unfold ncols; apply nth_error_Some; congruence).
    destruct (@at_labels_one L H A leqb leqb_ok fill (dindex d) e c We Hc) as (vals & V1 & V2 & V3 & V4).
    assert (Al : aligned fill d e vals).
    { split; [exact V1|]. split; [exact V3|]. intros Ne. apply V4; [exact Ne|]. destruct Hi as [Hi|[_ Hi]]; [congruence|exact Hi]. }
    assert (Atd : forall x : dframe, dindex x = dindex d -> at_labels leqb fill (dindex d) x = x).
    { intros x E. unfold at_labels. now rewrite E, (list_eqb_refl leqb leqb_ok). }
    assert (It : forall q, dindex (take2d (seq 0 (nrows d)) q d) = dindex d). { intros q. cbn. now apply pick_all. }
    assert (Hh : pcols f = Some (dcols d)) by apply Sf.
    unfold SetModel.insert_item. rewrite Hh. cbn [labels rbind]. fold (ncols d). rewrite (proj2 (Nat.ltb_lt _ _) Lt), !seq_length.
    replace (p =? ncols d) with false by (symmetry; apply Nat.eqb_neq; lia).
    replace (ncols d - S p =? ncols d) with false by (symmetry; apply Nat.eqb_neq; lia).
    destruct (@mask_shows L H A leqb heqb leqb_ok heqb_ok min_row min_col nparts mr mc np known_l known_w argsort argsort_ok f d rl cl 0 p Sf Hn ltac:(lia)) as (f0 & rl0 & cl0 & E0 & S0).
    destruct (@mask_shows L H A leqb heqb leqb_ok heqb_ok min_row min_col nparts mr mc np known_l known_w argsort argsort_ok f d rl cl (S p) (ncols d - S p) Sf Hn ltac:(lia)) as (f2 & rl2 & cl2 & E2 & S2).
    rewrite E0, E2. cbn [rbind].
    destruct (@concat_first L H A leqb heqb leqb_ok heqb_ok min_row nparts mr np fill fk (mkslot f0 (take2d (seq 0 (nrows d)) (seq 0 p) d) rl0 cl0) [mkslot v e rl1 cl1; mkslot f2 (take2d (seq 0 (nrows d)) (seq (S p) (ncols d - S p)) d) rl2 cl2]) as (f' & rl' & cl' & K1 & K2).
    - repeat apply Forall_cons; [exact S0|exact Sv|exact S2|apply Forall_nil].
    - cbn [sd]. rewrite It. destruct Hi as [Hi|[Nd Ne]].
      + left. repeat apply Forall_cons; [exact Hi|apply It|apply Forall_nil].
      + right. repeat apply Forall_cons; try apply Forall_nil; cbn [sd]; rewrite ?It; auto.
    - cbn [sf sd map] in K1, K2. rewrite It in K2. rewrite (Atd _ (It (seq 0 p))), (Atd _ (It (seq (S p) (ncols d - S p)))) in K2.
      rewrite V2, glue_replaced in K2 by auto. exists f', rl', cl', vals. auto.
  Qed.

  Lemma put_replaced (d : dframe) p v : wf d -> p < ncols d ->
    put (seq 0 (nrows d)) [p] (fun i _ => v i) d = replaced p (map v (seq 0 (nrows d))) d.
  Proof.
    intros W Hp. destruct (nth_error (dcols d) p) as [c|] eqn:Ec; [|apply nth_error_None in Ec; unfold ncols in Hp; lia].
    rewrite <- (@glue_column L H A heqb heqb_ok min_row min_col nparts mr mc np known_l known_w d p c v W Hp Ec), <- (@glue_replaced d p c) by (auto; now rewrite map_length, seq_length).
    rewrite map_map. reflexivity.
  Qed.

  (** ** several columns from another frame *)
  Definition good (keys : list H) (d e : dframe) (i : nat) (c : H) (a : A) : Prop :=
    (forall k, nth_error keys k = Some c -> cell e i k = Some a)
    /\ (~ In c keys -> forall j, nth_error (dcols d) j = Some c -> cell d i j = Some a).
  Definition piece_good keys d e (cs : list H) (t : dframe) : Prop :=
    dcols t = cs /\ length (dcells t) = nrows d /\ forall i r, nth_error (dcells t) i = Some r -> Forall2 (good keys d e i) cs r.

  Lemma zipapp_inv {X} : forall (a b : list (list X)) i r, nth_error (zipapp a b) i = Some r ->
    exists x y, nth_error a i = Some x /\ nth_error b i = Some y /\ r = x ++ y.
  Proof.
    clear. induction a as [|x a IH]; intros [|y b] [|i] r E; try discriminate.
    - injection E as <-. exists x, y. auto.
    - unfold zipapp in E. cbn [combine map nth_error] in E. destruct (IH b i r E) as (u & v & E1 & E2 & E3). exists u, v. auto.
  Qed.

  Lemma glue_good keys d e css (ts : list dframe) : Forall2 (piece_good keys d e) css ts ->
    piece_good keys d e (concat css) (glue (dindex d) ts).
  Proof.
    clear. induction 1 as [|cs t css ts (P1 & P2 & P3) F (I1 & I2 & I3)].
    - split; [reflexivity|]. split; [apply repeat_length|]. cbn. intros i r E. apply nth_error_In, repeat_spec in E. subst r. constructor.
    - unfold glue in *. cbn [map concat fold_right dcols dcells] in *. split; [now rewrite P1, I1|].
      split; [transitivity (length (dcells t)); [apply zipapp_length; congruence|exact P2]|]. intros i r E. destruct (zipapp_inv _ _ _ E) as (x & y & Ex & Ey & ->). apply Forall2_app; auto.
  Qed.

  Lemma forall2_at {X Y} (P : X -> Y -> Prop) : forall xs ys, Forall2 P xs ys -> forall j x, nth_error xs j = Some x -> exists y, nth_error ys j = Some y /\ P x y.
  Proof. clear. induction 1 as [|x y xs ys Hp F IH]; intros [|j] z E; try discriminate; cbn in *; [injection E as <-; eauto|eauto]. Qed.

  Lemma good_columns_from keys d e D : wf D -> wf d -> wf e -> dindex e = dindex d -> dindex D = dindex d -> piece_good keys d e (dcols d) D -> columns_from keys d e D.
  Proof.
    clear. intros WD W We Ie Ii (P1 & P2 & P3). split; [exact WD|]. split; [exact Ii|]. split; [exact P1|].
    intros i j c Hc. destruct (nth_error (dcells D) i) as [r|] eqn:Er.
    - destruct (forall2_at (P3 i r Er) _ Hc) as (a & Ea & G1 & G2).
      assert (ED : cell D i j = Some a) by (unfold cell; now rewrite Er). rewrite ED.
      split; [intros k Hk; symmetry; now apply G1|intros Hn; symmetry; now apply G2].
    - assert (ED : cell D i j = None) by (unfold cell; now rewrite Er). rewrite ED. apply nth_error_None in Er.
      unfold nrows in P2. destruct W as [W1 _], We as [We1 _]. assert (length (dcells e) = length (dcells d)) by congruence.
      split; [intros k Hk|intros Hn]; unfold cell;
        match goal with |- context [nth_error ?l i] => replace (nth_error l i) with (@None (list A)); [reflexivity|symmetry; apply nth_error_None; lia] end.
  Qed.

  Lemma piece_ok keys (d e T : dframe) (b : bool) cs ps : wf d -> wf e -> dindex e = dindex d -> NoDup (dcols d) -> dcols e = keys -> NoDup keys ->
    T = (if b then e else d) -> Forall (fun c => existsb (heqb c) keys = b) cs -> Forall2 (fun c p => nth_error (dcols T) p = Some c) cs ps ->
    piece_good keys d e cs (take2d (seq 0 (nrows d)) ps T).
  Proof.
    clear - heqb_ok. intros W We Ie Nd Ek Nk ET F F2. assert (WT : wf T) by (subst T; destruct b; assumption).
    assert (IT : nrows T = nrows d) by (subst T; unfold nrows; destruct b; congruence).
    destruct (@at_pick H (dcols T) cs ps F2) as [Ep _]. split; [exact Ep|].
    assert (Er : pick (dcells T) (seq 0 (nrows d)) = dcells T) by (apply pick_all; rewrite <- IT; apply WT).
    unfold take2d. cbn [dcells]. rewrite Er. split; [rewrite map_length, <- IT; apply WT|].
    intros i r' E. rewrite nth_error_map in E. destruct (nth_error (dcells T) i) as [r|] eqn:Ei; [|discriminate]. injection E as <-.
    assert (Lr : length r = length (dcols T)). { destruct WT as [_ WT]. rewrite Forall_forall in WT. apply WT. eapply nth_error_In; eassumption. }
    clear Ep. revert F. induction F2 as [|c p cs ps Hp F2 IH]; intros F; [constructor|]. inversion F as [|? ? Fc F'].
    destruct (nth_error r p) as [a|] eqn:Ea.
    2:{ apply nth_error_None in Ea. assert (p < length (dcols T)) by (apply nth_error_Some; congruence). lia. }
    assert (Pk : pick r (p :: ps) = a :: pick r ps) by (unfold pick; cbn [map concat]; now rewrite Ea).
    rewrite Pk. constructor; [|apply IH; inversion F; assumption].
    assert (Ec : cell T i p = Some a) by (unfold cell; now rewrite Ei).
    inversion F as [|? ? Fc0 _]. subst x l. split.
    - intros k Hk. destruct b; subst T.
      + replace k with p; [exact Ec|]. rewrite Ek in Hp. apply (proj1 (NoDup_nth_error keys) Nk); [apply nth_error_Some; congruence|congruence].
      + exfalso. apply not_true_iff_false in Fc0. apply Fc0, existsb_exists. exists c. split; [eapply nth_error_In; eassumption|now apply heqb_ok].
    - intros Hn j Hj. destruct b; subst T.
      + exfalso. apply Hn. apply existsb_exists in Fc0. destruct Fc0 as (y & Hy & ->%heqb_ok). exact Hy.
      + replace j with p; [exact Ec|]. apply (proj1 (NoDup_nth_error (dcols d)) Nd); [apply nth_error_Some; congruence|congruence].
  Qed.

  Variable outer : list (list L) -> list L * list (list (option nat)).
  Lemma mix_ok fk keys (v f : pf) d e rl cl rl1 cl1 : shows f d rl cl -> shows v e rl1 cl1 -> dcols e = keys -> dindex e = dindex d ->
    0 < nrows d -> 0 < ncols d -> NoDup (dcols d) -> NoDup keys ->
    exists f' rl' cl' D, mix_columns leqb heqb min_row min_col nparts known_l known_w argsort fill outer fk keys v f = Ok f'
      /\ shows f' D rl' cl' /\ columns_from keys d e D.
  Proof.
    intros Sf Sv Ek Ie Hn Hm Nd Nk. assert (Pc : pcols f = Some (dcols d)) by apply Sf. assert (W : wf d) by apply Sf. assert (We : wf e) by apply Sv.
    assert (Ne : nrows e = nrows d) by (unfold nrows; now rewrite Ie).
    unfold mix_columns. rewrite Pc. cbn [labels rbind].
    destruct (@runs_ok keys (dcols d) false [] (Forall_nil _)) as [R1 R2]. cbn [app] in R1.
    set (rs := runs heqb keys (dcols d) false []) in *.
    assert (Sub : Forall (fun p => NoDup (snd p) /\ Forall (fun c => In c (dcols d)) (snd p)) rs).
    { apply Forall_forall. intros p Hp. split.
      - apply (@NoDup_concat_in H (map snd rs)); [rewrite R1; exact Nd|now apply in_map].
      - apply Forall_forall. intros c Hc. rewrite <- R1. apply in_concat. exists (snd p). split; [now apply in_map|exact Hc]. }
    assert (P : exists slots, rmap (fun p : bool * list H => getitem_columns leqb heqb min_row min_col nparts known_l known_w argsort (snd p) (if fst p then v else f)) rs = Ok (map sf slots)
              /\ Forall slot_shows slots /\ Forall (fun t : @slot L H A => wf (sd t) /\ dindex (sd t) = dindex d) slots /\ Forall2 (piece_good keys d e) (map snd rs) (map sd slots)).
    { clearbody rs. clear R1. induction rs as [|[b cs] rs IH]; [exists []; repeat split; constructor|].
      inversion R2 as [|? ? Rb R2']; subst. inversion Sub as [|? ? [Sn Si] Sub']; subst. destruct (IH R2' Sub') as (slots & K1 & K2 & K3 & K4). cbn [fst snd] in *.
      assert (G : exists f' rl' cl' ps, getitem_columns leqb heqb min_row min_col nparts known_l known_w argsort cs (if b then v else f) = Ok f'
                /\ shows f' (take2d (seq 0 (nrows d)) ps (if b then e else d)) rl' cl'
                /\ Forall2 (fun c p => nth_error (dcols (if b then e else d)) p = Some c) cs ps).
      { destruct b.
        - rewrite <- Ne. apply (getitem_columns_ok Sv); auto; [lia|]. apply Forall_forall. intros c Hc. rewrite Forall_forall in Rb. specialize (Rb c Hc).
          apply existsb_exists in Rb. destruct Rb as (y & Hy & ->%heqb_ok). exact Hy.
        - apply (getitem_columns_ok Sf); auto. }
      destruct G as (f' & rl' & cl' & ps & G1 & G2 & G3).
      exists (mkslot f' (take2d (seq 0 (nrows d)) ps (if b then e else d)) rl' cl' :: slots).
      cbn [rmap map fst snd sf sd]. rewrite G1. cbn [rbind]. rewrite K1. cbn [rbind]. split; [reflexivity|]. split; [apply Forall_cons; [exact G2|exact K2]|].
      split; [|constructor; [|exact K4]].
      - apply Forall_cons; [|exact K3]. split; [apply G2|]. cbn [sd]. assert (E : dindex (if b then e else d) = dindex d) by (now destruct b).
        cbn [take2d dindex]. rewrite E. now apply pick_all.
      - apply (@piece_ok (dcols e) d e (if b then e else d) b); auto. }
    destruct P as (slots & K1 & K2 & K3 & K4). rewrite K1. cbn [rbind].
    destruct slots as [|t0 ts].
    { inversion K4 as [E|]. symmetry in E. rewrite E in R1. cbn in R1. unfold ncols in Hm. rewrite <- R1 in Hm. cbn in Hm. lia. }
    cbn [map]. inversion K3 as [|? ? [_ It0] Kt]; subst.
    destruct (@concat_same outer fk t0 ts K2) as (f' & rl' & cl' & C1 & C2).
    { eapply Forall_impl; [|exact Kt]. cbn. intros t [_ ->]. now rewrite It0. }
    exists f', rl', cl', (glue (dindex d) (map sd (t0 :: ts))). split; [exact C1|]. rewrite It0 in C2. split; [exact C2|].
    apply good_columns_from; auto; [apply C2|]. pose proof (glue_good K4) as G. now rewrite R1 in G.
  Qed.

  (** ** columns at the end *)
  Lemma at_labels_rows (d e : dframe) : wf e -> dindex e = dindex d \/ NoDup (dindex e) ->
    dindex (at_labels leqb fill (dindex d) e) = dindex d /\ dcols (at_labels leqb fill (dindex d) e) = dcols e
    /\ aligned_rows fill d e (dcells (at_labels leqb fill (dindex d) e)).
  Proof.
    clear - leqb_ok. intros W Hi. unfold at_labels, aligned_rows. destruct (list_eqb leqb (dindex d) (dindex e)) eqn:E.
    - apply (list_eqb_spec leqb leqb_ok) in E. split; [congruence|]. split; [reflexivity|]. split; [unfold nrows; rewrite E; apply W|]. split; [reflexivity|congruence].
    - assert (Ne : dindex e <> dindex d) by (intros Q; rewrite Q, (list_eqb_refl leqb leqb_ok) in E; discriminate).
      destruct Hi as [Hi|Nd]; [congruence|]. cbn [pick_rows dindex dcols]. split; [reflexivity|]. split; [reflexivity|].
      pose proof (@C13_unique_labels_join L leqb [dindex e] (dindex d) leqb_ok (Forall_cons _ Nd (Forall_nil _))) as J.
      destruct (@C13_by_label L H A fill e [dindex e] 0 (dindex d) _ (map (fun x => position leqb x (dindex e)) (dindex d)) W Nd J eq_refl eq_refl) as (_ & _ & B).
      split; [unfold pick_rows, nrows; cbn; now rewrite !map_length|]. split; [congruence|]. intros _ i x Hx. apply (B i x Hx).
  Qed.

  Lemma glue_two (d : dframe) cs rows : wf d -> length rows = nrows d -> glue (dindex d) [d; mkdf (dindex d) cs rows] = with_columns cs rows d.
  Proof.
    clear. intros [W1 _] Hr. unfold glue, with_columns. cbn [map dcols dcells concat fold_right]. rewrite app_nil_r. f_equal.
    replace (zipapp rows (repeat [] (length (dindex d)))) with rows; [reflexivity|].
    clear W1. unfold nrows in Hr. rewrite <- Hr. clear. unfold zipapp. induction rows as [|r rows IH]; [reflexivity|]. cbn. now rewrite app_nil_r, <- IH.
  Qed.

  Lemma append_columns_ok fk (f v : pf) d e rl cl rl1 cl1 : shows f d rl cl -> shows v e rl1 cl1 ->
    dindex e = dindex d \/ NoDup (dindex d) /\ NoDup (dindex e) ->
    exists f' rl' cl' rows, concat_frames_cols leqb heqb fill (first_labels leqb) nparts min_row fk f [v] = Ok f'
      /\ shows f' (with_columns (dcols e) rows d) rl' cl' /\ aligned_rows fill d e rows.
  Proof.
    intros Sf Sv Hi. assert (W : wf d) by apply Sf. assert (We : wf e) by apply Sv.
    destruct (@at_labels_rows d e We) as (A1 & A2 & A3); [destruct Hi as [Hi|[_ Hi]]; auto|].
    destruct (@concat_first L H A leqb heqb leqb_ok heqb_ok min_row nparts mr np fill fk (mkslot f d rl cl) [mkslot v e rl1 cl1]) as (f' & rl' & cl' & K1 & K2).
    - repeat apply Forall_cons; [exact Sf|exact Sv|apply Forall_nil].
    - cbn [sd]. destruct Hi as [Hi|[N1 N2]]; [left; apply Forall_cons; [exact Hi|apply Forall_nil]|right; repeat apply Forall_cons; auto].
    - cbn [sf sd map] in K1, K2. assert (Ad : at_labels leqb fill (dindex d) d = d) by (unfold at_labels; now rewrite (list_eqb_refl leqb leqb_ok)).
      rewrite Ad in K2. destruct (at_labels leqb fill (dindex d) e) as [ai ac ar]. cbn [dindex dcols dcells] in *. subst ai ac.
      rewrite glue_two in K2 by (auto; apply A3). exists f', rl', cl', ar. auto.
  Qed.
End Itm.
