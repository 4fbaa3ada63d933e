(** Selecting rows with a mask: the whole operations. *)
From Coq Require Import Permutation.
From Verif Require Import Base Table ChunkModel ChunkSpec ChunkProofs GridModel GridSpec FrameSpec GridProofs GridProofs2 GridProofs3 GridProofs4 GridProofs5 SelSpec SelModel
  SelProofs SelProofs4 SelProofs5 SelProofs6 JoinSpec JoinModel JoinProofs2 JoinProofs3 RemSpec RemModel RemProofs RemProofs2 RemProofs3 SetModel MaskSpec MaskModel MaskProofs.

Lemma bounds_cover base : forall a k, a <= k < a + list_sum base -> exists ri, In ri (bounds a base) /\ fst ri <= k < snd ri.
Proof. induction base as [|n base IH]; intros a k Hk; [change (list_sum []) with 0 in Hk; lia|]. change (list_sum (n :: base)) with (n + list_sum base) in Hk. cbn [bounds].
  destruct (Nat.lt_ge_cases k (a + n)) as [C|C]; [exists (a, a + n); cbn; split; [now left|lia]|].
  destruct (IH (a + n) k) as (ri & I & B); [lia|]. exists ri. split; [now right|exact B]. Qed.
Lemma nth_error_firstn2 {X} (l : list X) : forall n i, i < n -> nth_error (firstn n l) i = nth_error l i.
Proof. induction l as [|x l IH]; intros [|n] [|i] Hi; try reflexivity; try lia. cbn. apply IH. lia. Qed.
Lemma nth_error_skipn2 {X} (l : list X) : forall n i, nth_error (skipn n l) i = nth_error l (n + i).
Proof. induction l as [|x l IH]; intros [|n] i; try reflexivity; [now destruct i|]. cbn. apply IH. Qed.
Lemma rmap_err {X Y} (g : X -> res Y) x l : In x l -> (exists e, g x = Err e) -> exists e, rmap g l = Err e.
Proof. intros I (e & E). induction l as [|y l IH]; [easy|]. cbn [rmap]. destruct I as [->|I]; [rewrite E; cbn; eauto|].
  destruct (g y); cbn [rbind]; eauto. destruct (IH I) as (e' & E'). rewrite E'. cbn. eauto. Qed.
Lemma in_combine_seq {X} (l : list X) i x : nth_error l i = Some x -> In (i, x) (combine (seq 0 (length l)) l).
Proof. intros E. assert (G : forall k, nth_error (combine (seq k (length l)) l) i = Some (k + i, x)).
  { clear - E. revert i E. induction l as [|y l IH]; intros [|i] E k; try discriminate; cbn in *; [injection E as ->; now rewrite Nat.add_0_r|]. rewrite (IH i E). do 2 f_equal. lia. }
  exact (nth_error_In _ _ (G 0)). Qed.

Section Mask.
  Context {L H A : Type}.
  Variable leqb : L -> L -> bool.
  Variable heqb : H -> H -> bool.
  Hypothesis leqb_ok : forall x y, leqb x y = true <-> x = y.
  Hypothesis heqb_ok : forall x y, heqb x y = true <-> x = y.
  Variable truth : A -> option bool.
  Variable fill : A.
  Hypothesis truth_fill : truth fill = None.
  Variable sorted : list L -> list nat.
  Hypothesis sorted_ok : forall ls, Permutation (sorted ls) (seq 0 (length ls)).
  Hypothesis sorted_stable : forall ls, pick ls (sorted ls) = ls -> sorted ls = seq 0 (length ls).
  Variables min_row min_col nparts : nat.
  Hypothesis mr : 0 < min_row.
  Hypothesis mc : 0 < min_col.
  Hypothesis np : 0 < nparts.
  Notation dframe := (df L H A).
  Notation pf := (@pframe L H A).
  Notation left_join := (left_join leqb sorted).
  Notation joined_mask := (joined_mask leqb fill sorted).
  Notation joined_marks := (@joined_marks L H A leqb sorted).
  Notation df_getitem_mask := (df_getitem_mask leqb heqb truth fill sorted min_row nparts).
  Notation says := (@says L H A truth).

  (** the common start: lengths and labels pass the checks, both frames are cut alike *)
  Lemma getitem_mask_start (f key : pf) (d e : dframe) rl cl rk ck : holds f d rl cl -> rl <> [] -> cl <> [] ->
    holds key e rk ck -> rk <> [] -> ck <> [] -> ncols e = 1 -> nrows e = nrows d -> dindex d = dindex e \/ NoDup (dindex e) ->
    exists base, list_sum base = nrows d /\ base <> [] /\ wf (fst (joined_mask d e)) /\ wf (snd (joined_mask d e)) /\ nrows (fst (joined_mask d e)) = nrows d
      /\ df_getitem_mask f key = do new <- broadcast_rows leqb heqb (mask_block truth) (cut_table base cl (fst (joined_mask d e))) (cut_table base ck (snd (joined_mask d e)));
                                 construct (mkpf new None (pcols f) None (pcl f)).
  Proof. intros Hf Hr Hc Hk Hrk Hck H1 Hn Hnd.
    destruct (@copartition_mask L H A leqb heqb leqb_ok heqb_ok fill sorted sorted_ok sorted_stable min_row min_col nparts mr mc np f key d e rl cl rk ck Hf Hr Hc Hk Hrk Hck)
      as (base & jc & lc & E & Hs & Hb & W1 & W2 & N1).
    exists base. repeat split; auto; try apply W1; try apply W2. unfold MaskModel.df_getitem_mask.
    rewrite (row_labels_holds Hf Hc), (row_labels_holds Hk Hck), (col_labels_holds Hk (or_introl Hrk)).
    unfold nrows in Hn. rewrite Hn, Nat.eqb_refl. unfold ncols in H1. rewrite H1. cbn [Nat.eqb negb].
    replace (negb (list_eqb leqb (dindex d) (dindex e)) && negb (unique leqb (dindex e))) with false.
    - rewrite E. cbn [rbind]. reflexivity.
    - symmetry. destruct Hnd as [->|Hnd]; [now rewrite (proj2 (list_eqb_spec leqb leqb_ok _ _) eq_refl)|].
      rewrite unique_nodup by assumption. apply andb_false_r. Qed.

  Lemma getitem_mask_ok (f key : pf) (d e : dframe) rl cl rk ck m m' : holds f d rl cl -> rl <> [] -> cl <> [] ->
    holds key e rk ck -> rk <> [] -> ck <> [] -> says e m -> nrows e = nrows d -> dindex d = dindex e \/ NoDup (dindex e) ->
    aligned leqb (dindex d) (dindex e) m = Some m' ->
    exists f' rl' cl', df_getitem_mask f key = Ok f' /\ holds f' (keep_rows (joined_marks d e m') (fst (joined_mask d e))) rl' cl' /\ rl' <> [] /\ cl' <> [].
  Proof. intros Hf Hr Hc Hk Hrk Hck Hs Hn Hnd Ea.
    destruct (getitem_mask_start Hf Hr Hc Hk Hrk Hck) as (base & Hb & Hbn & W1 & W2 & N1 & E); auto; [apply Hs|].
    assert (Lm : length m = nrows e).
    { destruct Hs as ([Ws _] & _ & Es). apply (f_equal (@length _)) in Es. rewrite !map_length in Es. unfold nrows. congruence. }
    destruct (@joined_says L H A leqb leqb_ok truth fill sorted sorted_ok sorted_stable min_row min_col nparts mr mc np d e m m') as [S LM]; auto; [apply Hf|].
    specialize (LM ltac:(congruence)).
    assert (Sc : list_sum ck = 1) by (destruct Hk as [(_ & _ & -> & _) _]; apply Hs).
    rewrite (@broadcast_ok L H A leqb heqb leqb_ok truth min_row min_col nparts mr mc np (fst (joined_mask d e)) (snd (joined_mask d e)) base cl ck (joined_marks d e m')) in E; auto; try congruence.
    cbn [rbind] in E.
    set (x := mkpf (cut_table base cl (fst (joined_mask d e))) None (pcols f) None (pcl f)).
    assert (HC : dcols (fst (joined_mask d e)) = dcols d) by (unfold MaskProofs.joined_mask; destruct (list_eqb leqb (dindex d) (dindex e)); reflexivity).
    assert (Hx : holds x (fst (joined_mask d e)) base cl).
    { destruct Hf as [(W & Hsr & Hsc & Hgr & Hli & Hlc & Crl & Ccl) [Hi Hcs]]. unfold holds, gridded, x. cbn [pgrid pindex pcols prl pcl]. unfold ncols in *. rewrite HC.
      repeat split; auto; try apply W1; try congruence; discriminate. }
    destruct (finish_rows (joined_marks d e m') Hx Hbn Hc) as (f' & rl' & cl' & E1 & E2 & E3 & E4); [congruence|].
    exists f', rl', cl'. rewrite E. auto. Qed.

  (** a row without a value raises *)
  Lemma getitem_mask_unalignable (f key : pf) (d e : dframe) rl cl rk ck m : holds f d rl cl -> rl <> [] -> cl <> [] ->
    holds key e rk ck -> rk <> [] -> ck <> [] -> ncols e = 1 -> length m = nrows e -> nrows e = nrows d -> dindex d = dindex e \/ NoDup (dindex e) ->
    aligned leqb (dindex d) (dindex e) m = None -> exists x, df_getitem_mask f key = Err x.
  Proof. intros Hf Hr Hc Hk Hrk Hck H1 Hm Hn Hnd Ea.
    destruct (getitem_mask_start Hf Hr Hc Hk Hrk Hck) as (base & Hb & Hbn & W1 & W2 & N1 & E); auto.
    rewrite E. clear E. unfold aligned in Ea. destruct (list_eqb leqb (dindex d) (dindex e)) eqn:El; [discriminate|].
    destruct (all_given_none _ _ _ _ Ea) as (x & I & G). rewrite given_position in G by (unfold nrows in Hm; exact Hm).
    destruct (position leqb x (dindex e)) as [q|] eqn:Eq; [apply (position_found leqb leqb_ok) in Eq; assert (q < length m) by (unfold nrows in Hm; rewrite Hm; apply nth_error_Some; congruence);
      apply nth_error_None in G; lia|].
    assert (Nx : ~ In x (dindex e)) by now apply (position_absent leqb leqb_ok).
    set (j := pick (dindex d) (sorted (dindex d))). assert (Ij : In x j).
    { apply (Permutation_in (l:=dindex d)); [symmetry; apply pick_perm_seq, sorted_ok|exact I]. }
    assert (Ej : list_eqb leqb (dindex e) j = false) by (apply not_true_iff_false; intros Ej%(list_eqb_spec leqb leqb_ok); rewrite <- Ej in Ij; now apply Nx).
    assert (E2 : snd (joined_mask d e) = pick_rows fill j (map (fun x => position leqb x (dindex e)) j) e).
    { unfold MaskProofs.joined_mask. rewrite El. cbn [snd MaskModel.left_join nth]. fold j. now rewrite Ej. }
    apply In_nth_error in Ij as (k & Ek).
    assert (Fk : nth_error (dcells (snd (joined_mask d e))) k = Some [fill]).
    { rewrite E2. cbn [pick_rows dcells]. rewrite !nth_error_map, Ek. cbn [option_map]. rewrite Eq. now rewrite H1. }
    assert (Lk : k < list_sum base).
    { rewrite Hb, <- N1. unfold MaskProofs.joined_mask. rewrite El. cbn [fst]. unfold nrows. cbn [pick_rows dindex]. fold j. apply nth_error_Some. congruence. }
    destruct (bounds_cover base (a:=0) (k:=k)) as (ri & Iri & Bk); [lia|].
    apply In_nth_error in Iri as (i & Ei).
    assert (Err_ : exists e0, broadcast_rows leqb heqb (mask_block truth) (cut_table base cl (fst (joined_mask d e))) (cut_table base ck (snd (joined_mask d e))) = Err e0).
    { unfold broadcast_rows. apply (@rmap_err _ _ _ (i, map (fun ci => block (fst (joined_mask d e)) ri ci) (bounds 0 cl))).
      - apply in_combine_seq. unfold cut_table. now rewrite nth_error_map, Ei.
      - cbn [fst snd]. rewrite (nth_bounds_rows (snd (joined_mask d e)) base ck i Ei). cbv beta iota.
        assert (Sc : list_sum ck = 1) by (destruct Hk as [(_ & _ & -> & _) _]; exact H1).
        rewrite (@one_row L H A leqb heqb leqb_ok min_row min_col nparts mr mc np); auto; [|rewrite E2; exact H1]. cbn [rbind].
        destruct cl as [|c cl]; [easy|]. cbn [bounds map]. eapply rmap_err; [now left|]. unfold mask_block.
        destruct (@truths_missing L H A truth fill truth_fill (iloc_rows (snd (joined_mask d e)) (fst ri) (snd ri))) as (x0 & X0).
        + cbn [iloc_rows dcells]. unfold slice. apply nth_error_In with (k - fst ri). rewrite nth_error_firstn2 by lia. rewrite nth_error_skipn2.
          now replace (fst ri + (k - fst ri)) with k by lia.
        + rewrite X0. cbn. eauto. }
    destruct Err_ as (e0 & ->). cbn. eauto. Qed.

  (** positions *)
  Variables known_l known_w : nat -> nat -> bool.
  Variable argsort : list Z -> list nat.
  Hypothesis argsort_ok : forall l, sorts l (argsort l).

  Lemma keep_rows_take m (d : dframe) : wf d -> length m = nrows d -> keep_rows m d = take2d (marked m) (seq 0 (ncols d)) d.
  Proof. intros W E. unfold keep_rows, take2d. f_equal.
    - now apply kept_pick.
    - now rewrite pick_all.
    - destruct W as [W1 W2]. rewrite kept_pick by (unfold nrows in E; congruence). symmetry. rewrite <- (map_id (pick (dcells d) (marked m))) at 2.
      apply map_ext_in. intros r I. apply in_pick in I as (p & _ & I%nth_error_In). rewrite Forall_forall in W2. now apply pick_all, W2. Qed.
  Lemma take_marked big (f : pf) (d : dframe) rl cl m : shows f d rl cl -> length m = nrows d ->
    exists f', take_2d_positional leqb heqb min_row min_col nparts known_l known_w argsort big (Some (IList (map Z.of_nat (true_from 0 m)))) None f = Ok f'
      /\ pf_to_pandas leqb heqb f' = Ok (keep_rows m d).
  Proof. intros S E. destruct (@take_2d_ok L H A leqb heqb leqb_ok heqb_ok min_row min_col nparts mr mc np known_l known_w argsort argsort_ok big f d rl cl
      (Some (IList (map Z.of_nat (true_from 0 m)))) None (marked m) (seq 0 (ncols d)) S) as (f' & E1 & E2 & _).
    - cbn. rewrite true_marked. repeat split; auto. rewrite <- E. apply marked_bound.
    - reflexivity.
    - right. split; [apply marked_nodup|apply seq_NoDup].
    - exists f'. split; [exact E1|]. rewrite E2. f_equal. symmetry. apply keep_rows_take; [apply S|exact E]. Qed.

  Lemma distribute_round (d : dframe) : wf d -> exists f, distribute min_row min_col nparts d = Ok f /\ pf_to_pandas leqb heqb f = Ok d.
  Proof. intros W. destruct (round_trip leqb heqb leqb_ok heqb_ok W np mr mc) as (f & E & R). unfold distribute. rewrite E. cbn [rbind]. eexists. split; [reflexivity|].
    rewrite <- R. unfold pf_to_pandas, to_pandas. cbn [pgrid pindex pcols]. destruct (create_pandas_df_from_partitions leqb heqb (fgrid f)) as [x|]; [|reflexivity]. cbn [rbind].
    destruct (df_empty x); [reflexivity|]. destruct (list_eqb leqb (dindex x) (findex f)); [|reflexivity]. cbn [rbind negb dcols]. now destruct (list_eqb heqb (dcols x) (fcols f)). Qed.
  Lemma none_true m : forall a, true_from a m = [] -> forall X (l : list X), kept m l = [].
  Proof. induction m as [|b m IH]; intros a E X [|x l]; try reflexivity. cbn in *. destruct b; [discriminate|]. now apply (IH (S a)). Qed.
  Lemma getitem_list_ok big (f : pf) (d : dframe) rl cl m : shows f d rl cl -> length m = nrows d ->
    exists f', df_getitem_list leqb heqb min_row min_col nparts known_l known_w argsort big m f = Ok f' /\ pf_to_pandas leqb heqb f' = Ok (keep_rows m d).
  Proof. intros S E. destruct (take_marked big m S E) as (f1 & E1 & E2). unfold df_getitem_list. destruct S as (Hh & Hr & Hc & Hi & Hcs).
    unfold row_labels. rewrite Hi. unfold nrows in E. rewrite E, Nat.eqb_refl. cbn [negb]. destruct (true_from 0 m) as [|p ps] eqn:T; [|eauto].
    unfold col_labels. rewrite Hcs. replace (keep_rows m d) with (mkdf [] (dcols d) [] : dframe) by (unfold keep_rows; now rewrite !(none_true _ _ T)).
    apply distribute_round. split; [reflexivity|constructor]. Qed.
End Mask.
