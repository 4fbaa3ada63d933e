(** Selecting rows with a mask. *)
From Coq Require Import Permutation.
From Verif Require Import Base Table ChunkModel ChunkSpec ChunkProofs GridModel GridSpec FrameSpec GridProofs GridProofs2 GridProofs3 GridProofs4 GridProofs5 SelSpec SelModel
  SelProofs SelProofs4 SelProofs5 JoinSpec JoinModel JoinProofs2 JoinProofs3 RemSpec RemModel RemProofs RemProofs2 SetModel MaskSpec MaskModel.

Lemma true_marked m : forall a, true_from a m = marked_from a m.
Proof. induction m as [|b m IH]; intros a; [reflexivity|]. rewrite marked_cons. cbn [true_from]. now rewrite !IH. Qed.

Lemma position_found {X} (eqb : X -> X -> bool) (eqb_ok : forall x y, eqb x y = true <-> x = y) x l p : position eqb x l = Some p -> nth_error l p = Some x.
Proof. revert p. induction l as [|y l IH]; intros p E; cbn in E; [discriminate|]. destruct (eqb x y) eqn:Exy.
  - injection E as <-. apply eqb_ok in Exy. now subst.
  - destruct (position eqb x l) as [q|]; [|discriminate]. injection E as <-. now apply IH. Qed.
Lemma position_absent {X} (eqb : X -> X -> bool) (eqb_ok : forall x y, eqb x y = true <-> x = y) x l : position eqb x l = None <-> ~ In x l.
Proof. induction l as [|y l IH]; cbn; [split; auto|]. destruct (eqb x y) eqn:E.
  - apply eqb_ok in E. subst. split; [discriminate|]. intros N. exfalso. apply N. now left.
  - destruct (position eqb x l) as [q|]; cbn.
    + split; [discriminate|]. intros N. exfalso. assert (~ In x l) by (intros I; apply N; now right). apply IH in H. discriminate.
    + split; [|reflexivity]. intros _ [->|I]; [rewrite (proj2 (eqb_ok x x) eq_refl) in E; discriminate|]. now apply IH. Qed.
Lemma given_position {X} (eqb : X -> X -> bool) x labels m : length m = length labels ->
  given eqb x labels m = match position eqb x labels with Some p => nth_error m p | None => None end.
Proof. revert m. induction labels as [|y l IH]; intros [|b m] E; try discriminate; [reflexivity|]. cbn. destruct (eqb x y); [reflexivity|]. injection E as E.
  rewrite (IH m E). now destruct (position eqb x l). Qed.
Lemma all_given_length {X} (eqb : X -> X -> bool) labels m idx m' : all_given eqb idx labels m = Some m' -> length m' = length idx.
Proof. revert m'. induction idx as [|x idx IH]; intros m' E; cbn in E; [now injection E as <-|].
  destruct (given eqb x labels m); [|discriminate]. destruct (all_given eqb idx labels m); [|discriminate]. injection E as <-. cbn. f_equal. now apply IH. Qed.
Lemma all_given_nth {X} (eqb : X -> X -> bool) labels m idx m' p x : all_given eqb idx labels m = Some m' -> nth_error idx p = Some x -> given eqb x labels m = nth_error m' p.
Proof. revert m' p. induction idx as [|y idx IH]; intros m' p E Ep; [now destruct p|]. cbn in E.
  destruct (given eqb y labels m) eqn:Ey; [|discriminate]. destruct (all_given eqb idx labels m); [|discriminate]. injection E as <-.
  destruct p; cbn in *; [now injection Ep as <-|]. now apply IH. Qed.
Lemma all_given_none {X} (eqb : X -> X -> bool) labels m idx : all_given eqb idx labels m = None -> exists x, In x idx /\ given eqb x labels m = None.
Proof. induction idx as [|y idx IH]; cbn; [discriminate|]. destruct (given eqb y labels m) eqn:Ey; [|intros _; exists y; auto].
  destruct (all_given eqb idx labels m); [discriminate|]. intros _. destruct (IH eq_refl) as (x & I & E). exists x; auto. Qed.
Lemma unique_nodup {X} (eqb : X -> X -> bool) (eqb_ok : forall x y, eqb x y = true <-> x = y) l : NoDup l -> unique eqb l = true.
Proof. induction 1 as [|x l N _ IH]; [reflexivity|]. cbn. rewrite IH, andb_true_r. apply negb_true_iff. apply not_true_iff_false. intros (y & I & E)%existsb_exists. apply eqb_ok in E. now subst. Qed.

(** what is kept after a reordering *)
Lemma kept_flat {X} m (l : list X) : kept m l = concat (map (fun p : bool * X => if fst p then [snd p] else []) (combine m l)).
Proof. revert l. induction m as [|b m IH]; intros [|x l]; try reflexivity. cbn. rewrite IH. now destruct b. Qed.
Lemma nth_error_combine2 {X Y} (a : list X) (b : list Y) p :
  nth_error (combine a b) p = match nth_error a p, nth_error b p with Some x, Some y => Some (x, y) | _, _ => None end.
Proof. revert b p. induction a as [|x a IH]; intros [|y b] [|p]; try reflexivity; cbn; [|apply IH]. now destruct (nth_error a p). Qed.
Lemma combine_pick {X Y} (a : list X) (b : list Y) ps : length a = length b -> Forall (fun p => p < length a) ps -> combine (pick a ps) (pick b ps) = pick (combine a b) ps.
Proof. intros E. induction 1 as [|p ps Hp _ IH]; [reflexivity|]. rewrite !pick_cons, nth_error_combine2.
  destruct (nth_error a p) eqn:Ea; [|apply nth_error_None in Ea; lia]. destruct (nth_error b p) eqn:Eb; [|apply nth_error_None in Eb; lia]. cbn [app combine]. now rewrite IH. Qed.
Lemma perm_concat_map {X Y} (h : X -> list Y) l l' : Permutation l l' -> Permutation (concat (map h l)) (concat (map h l')).
Proof. induction 1; cbn; auto.
  - now apply Permutation_app_head.
  - rewrite !app_assoc. apply Permutation_app_tail, Permutation_app_comm.
  - etransitivity; eauto. Qed.
Lemma kept_reordered {X} m (l : list X) ps : length m = length l -> Permutation ps (seq 0 (length l)) -> Permutation (kept (pick m ps) (pick l ps)) (kept m l).
Proof. intros E P. assert (F : Forall (fun p => p < length m) ps).
  { apply Forall_forall. intros p I. apply (Permutation_in _ P), in_seq in I. lia. }
  rewrite !kept_flat, combine_pick by auto. apply perm_concat_map, pick_perm_seq. rewrite combine_length, E, Nat.min_id. exact P. Qed.
Lemma kept_combine {X Y} m (a : list X) (b : list Y) : length a = length b -> combine (kept m a) (kept m b) = kept m (combine a b).
Proof. revert a b. induction m as [|t m IH]; intros [|x a] [|y b] E; try discriminate; try reflexivity. cbn. injection E as E. destruct t; cbn; now rewrite IH. Qed.

Section Mask.
  Context {L H A : Type}.
  Variable leqb : L -> L -> bool.
  Variable heqb : H -> H -> bool.
  Hypothesis leqb_ok : forall x y, leqb x y = true <-> x = y.
  Hypothesis heqb_ok : forall x y, heqb x y = true <-> x = y.
  Variable truth : A -> option bool.
  Variable fill : A.
  Hypothesis truth_fill : truth fill = None.
  Variable sorted : list L -> list nat.
  Hypothesis sorted_ok : forall ls, Permutation (sorted ls) (seq 0 (length ls)).
  Hypothesis sorted_stable : forall ls, pick ls (sorted ls) = ls -> sorted ls = seq 0 (length ls).
  Variables min_row min_col nparts : nat.
  Hypothesis mr : 0 < min_row.
  Hypothesis mc : 0 < min_col.
  Hypothesis np : 0 < nparts.
  Notation dframe := (df L H A).
  Notation pf := (@pframe L H A).
  Notation left_join := (left_join leqb sorted).

  Lemma sorted_bound ls : Forall (fun p => p < length ls) (sorted ls).
  Proof. apply Forall_forall. intros p I. apply (Permutation_in _ (sorted_ok ls)), in_seq in I. lia. Qed.
  Lemma sorted_length ls : length (sorted ls) = length ls.
  Proof. rewrite (Permutation_length (sorted_ok ls)). apply seq_length. Qed.

  Lemma left_join_well a b : joins_well left_join [a; b].
  Proof. unfold joins_well, join_ok. cbn [MaskModel.left_join fst snd length]. split; [reflexivity|].
    assert (PL : length (pick a (sorted a)) = length (sorted a)) by (apply pick_length, sorted_bound).
    assert (PN : forall k p, nth_error (sorted a) k = Some p -> p < length a /\ nth_error a p = nth_error (pick a (sorted a)) k).
    { intros k p E. split; [exact (proj1 (Forall_forall _ _) (sorted_bound a) p (nth_error_In _ _ E))|]. rewrite pick_nth_error by apply sorted_bound. now rewrite E. }
    intros [|[|i]] lab ix; cbn [nth_error]; [| |now destruct i].
    - intros [= <-] [= <-]. repeat split.
      + now rewrite map_length.
      + rewrite nth_error_map in H0. destruct (nth_error (sorted a) k) as [q|] eqn:E; [|discriminate]. injection H0 as ->. now apply PN in E.
      + rewrite nth_error_map in H0. destruct (nth_error (sorted a) k) as [q|] eqn:E; [|discriminate]. injection H0 as ->. now apply PN in E.
      + intros k x E. rewrite nth_error_map in E. destruct (nth_error (sorted a) k); discriminate.
      + intros E. f_equal. now apply sorted_stable.
    - intros [= <-] [= <-]. destruct (list_eqb leqb b (pick a (sorted a))) eqn:Eb.
      + apply (list_eqb_spec leqb leqb_ok) in Eb. rewrite <- Eb. rewrite map_length, seq_length. repeat split; auto.
        * rewrite nth_error_map in H0. destruct (nth_error (seq 0 (length b)) k) as [q|] eqn:E; [|discriminate]. injection H0 as ->. apply nth_error_In, in_seq in E. lia.
        * rewrite nth_error_map in H0. destruct (nth_error (seq 0 (length b)) k) as [q|] eqn:E; [|discriminate]. injection H0 as ->.
          assert (k < length b) by (rewrite <- (seq_length (length b) 0); apply nth_error_Some; congruence).
          rewrite (nth_error_nth' _ 0), seq_nth in E by (rewrite ?seq_length; auto). now injection E as <-.
        * intros k x E. rewrite nth_error_map in E. destruct (nth_error (seq 0 (length b)) k); discriminate.
      + rewrite map_length. split; [reflexivity|]. split; [|split].
        * intros k p E. rewrite nth_error_map in E. destruct (nth_error (pick a (sorted a)) k) as [x|] eqn:Ex; [|discriminate]. injection E as E.
          apply (position_found leqb leqb_ok) in E. split; [apply nth_error_Some; congruence|congruence].
        * intros k x E Ex. rewrite nth_error_map, Ex in E. injection E as E. now apply (position_absent leqb leqb_ok).
        * intros E. subst b. rewrite (proj2 (list_eqb_spec leqb leqb_ok _ _) eq_refl) in Eb. discriminate. Qed.

  (** a one-column table with these truth values *)
  Definition says (e : dframe) (m : list bool) : Prop := wf e /\ ncols e = 1 /\ map (map truth) (dcells e) = map (fun b => [Some b]) m.

  Lemma truths_ok (e : dframe) m : map (map truth) (dcells e) = map (fun b => [Some b]) m -> truths truth e = Ok m.
  Proof. unfold truths. generalize (nrows e =? 1). intros o. revert m. induction (dcells e) as [|r g IH]; intros [|b m] E; try discriminate; [reflexivity|].
    cbn [map] in E. injection E as Er E. destruct r as [|x [|y r]]; try discriminate. cbn in Er. injection Er as Er. cbn [rmap]. rewrite Er. cbn [rbind]. now rewrite (IH m E). Qed.
  Lemma truths_missing (e : dframe) : In [fill] (dcells e) -> exists x, truths truth e = Err x.
  Proof. unfold truths. generalize (nrows e =? 1). intros o I. induction (dcells e) as [|r g IH]; [easy|]. destruct I as [->|I].
    - cbn. rewrite truth_fill. cbn [rbind]. eauto.
    - destruct (IH I) as (x & E). cbn [rmap]. destruct (match r with [x] => _ | _ => _ end); cbn [rbind]; eauto. rewrite E. cbn. eauto. Qed.

  Lemma one_row (e : dframe) ck ri : wf e -> ck <> [] -> list_sum ck = 1 -> ncols e = 1 ->
    match map (fun ci => block e ri ci) (bounds 0 ck) with [] => Err IndexError | [o] => Ok o | _ => concat_axis leqb heqb true (map (fun ci => block e ri ci) (bounds 0 ck)) end
    = Ok (iloc_rows e (fst ri) (snd ri)).
  Proof. intros W Hc Hs H1. assert (E : Ok (block e ri (0, list_sum ck)) = Ok (iloc_rows e (fst ri) (snd ri)) :> res dframe).
    { f_equal. rewrite Hs, <- H1. unfold block, iloc_rows. cbn [fst snd]. unfold ncols. rewrite slice_full by lia. f_equal.
      destruct W as [_ W]. rewrite <- (map_id (slice (dcells e) (fst ri) (snd ri))) at 2. apply map_ext_in. intros r I. apply slice_full.
      rewrite Forall_forall in W. unfold ncols in W. rewrite (W r); auto. rewrite <- (firstn_skipn (fst ri) (dcells e)), in_app_iff. right.
      rewrite <- (firstn_skipn (snd ri - fst ri) (skipn (fst ri) (dcells e))), in_app_iff. now left. }
    rewrite <- E. destruct ck as [|c ck]; [easy|]. pose proof (concat_cols_blocks_bounds leqb heqb leqb_ok (d:=e) 0 (lens:=c :: ck) ri W Hc) as C. rewrite Nat.add_0_l in C.
    destruct ck as [|c' ck]; [|exact C]. replace (list_sum [c]) with c by (unfold list_sum; cbn; lia). reflexivity. Qed.

  Lemma nth_bounds_rows (e : dframe) base ck i ri : nth_error (bounds 0 base) i = Some ri ->
    nth_error (cut_table base ck e) i = Some (map (fun ci => block e ri ci) (bounds 0 ck)).
  Proof. intros E. unfold cut_table. now rewrite nth_error_map, E. Qed.

  Lemma broadcast_ok (d e : dframe) base cl ck m : wf d -> says e m -> ck <> [] -> list_sum ck = 1 ->
    list_sum base = nrows d -> length m = nrows d ->
    broadcast_rows leqb heqb (mask_block truth) (cut_table base cl d) (cut_table base ck e) = Ok (cut_table (piece_marks m base) cl (keep_rows m d)).
  Proof. intros Wd (We & He & Em) Hck Hsck Hs Hm. unfold broadcast_rows. rewrite <- cut_keep_rows by auto.
    assert (G : forall k l, (forall i ri, nth_error l i = Some ri -> nth_error (bounds 0 base) (k + i) = Some ri) ->
      rmap (fun ir => match nth_error (cut_table base ck e) (fst ir) with
                    | None => Err IndexError
                    | Some os => do o <- match os with [] => Err IndexError | [o] => Ok o | _ => concat_axis leqb heqb true os end;
                                 rmap (fun b => mask_block truth b o) (snd ir)
                    end) (combine (seq k (length l)) (map (fun ri => map (fun ci => block d ri ci) (bounds 0 cl)) l))
      = Ok (map (fun ri => map (fun ci => iloc_cols (keep_rows (slice m (fst ri) (snd ri)) (iloc_rows d (fst ri) (snd ri))) (fst ci) (snd ci)) (bounds 0 cl)) l)).
    { intros k l. revert k. induction l as [|ri l IH]; intros k Hl; [reflexivity|]. cbn [length seq map combine rmap fst snd].
      pose proof (Hl 0 ri eq_refl) as E0. rewrite Nat.add_0_r in E0. rewrite (nth_bounds_rows e base ck k E0).
      cbv beta iota. 
rewrite one_row by auto. cbn [rbind].
      assert (ET : truths truth (iloc_rows e (fst ri) (snd ri)) = Ok (slice m (fst ri) (snd ri))).
      { apply truths_ok. cbn [iloc_rows dcells]. now rewrite <- !slice_map, Em. }
      rewrite (rmap_map_ok _ _ (fun ci => iloc_cols (keep_rows (slice m (fst ri) (snd ri)) (iloc_rows d (fst ri) (snd ri))) (fst ci) (snd ci))).
      2:{ intros ci _. unfold mask_block. rewrite ET. cbn [rbind]. f_equal. unfold keep_rows, iloc_cols, iloc_rows, block. cbn [dindex dcols dcells]. f_equal. now rewrite kept_map. }
      cbn [rbind]. rewrite IH; [reflexivity|]. intros i r Ei. replace (S k + i) with (k + S i) by lia. now apply Hl. }
    unfold cut_table at 2. rewrite map_length. unfold cut_table at 2. apply (G 0 (bounds 0 base)). auto. Qed.

  (** the join of the labels, with what becomes of both frames *)
  Definition joined_mask (d e : dframe) : dframe * dframe :=
    if list_eqb leqb (dindex d) (dindex e) then (d, e)
    else let j := pick (dindex d) (sorted (dindex d)) in
         (pick_rows fill j (map Some (sorted (dindex d))) d,
          pick_rows fill j (nth 1 (snd (left_join [dindex d; dindex e])) []) e).

  Lemma copartition_mask (f key : pf) (d e : dframe) rl cl rk ck : holds f d rl cl -> rl <> [] -> cl <> [] ->
    holds key e rk ck -> rk <> [] -> ck <> [] ->
    exists base jc lc, copartition_rows leqb heqb fill left_join nparts min_row f [key]
      = Ok ([cut_table base cl (fst (joined_mask d e)); cut_table base ck (snd (joined_mask d e))], jc, lc)
      /\ list_sum base = nrows d /\ base <> [] /\ wf (fst (joined_mask d e)) /\ wf (snd (joined_mask d e))
      /\ nrows (fst (joined_mask d e)) = nrows d.
  Proof. intros Hf Hr Hc Hk Hrk Hck.
    destruct (join_index_objects leqb left_join [dindex d; dindex e]) as [joined ixs] eqn:EJ.
    destruct (@copartition_rows_ok L H A leqb heqb leqb_ok heqb_ok fill nparts min_row np mr left_join (mkslot f d rl cl) [mkslot key e rk ck] joined ixs)
      as (base & jc & lc & E & Hs & Hb & _).
    - constructor; [now apply row_rep_holds|]. constructor; [now apply row_rep_holds|constructor].
    - left. exact Hc.
    - apply left_join_well.
    - exact EJ.
    - cbn [sf so sd map length seq combine fst snd] in E. exists base, jc, lc.
      assert (Wd : wf d) by apply Hf. assert (We : wf e) by apply Hk.
      unfold join_index_objects in EJ. cbn [forallb] in EJ. rewrite andb_true_r in EJ. unfold joined_mask.
      destruct (list_eqb leqb (dindex d) (dindex e)) eqn:El; cbn [fst snd].
      + injection EJ as <- <-. cbn [nth] in E. apply (list_eqb_spec leqb leqb_ok) in El. rewrite El in E at 3. rewrite !pick_rows_id in E by assumption.
        split; [exact E|]. split; [exact Hs|]. repeat split; auto; try apply Wd; apply We.
      + assert (J : join_ok [dindex d; dindex e] joined ixs) by (pose proof (left_join_well (dindex d) (dindex e)) as J; unfold joins_well in J; rewrite EJ in J; exact J).
        cbn [MaskModel.left_join snd nth]. cbn [MaskModel.left_join] in EJ. injection EJ as <- <-. cbn [nth] in E.
        destruct J as [_ J]. pose proof (J 0 _ _ eq_refl eq_refl) as (J0 & _). pose proof (J 1 _ _ eq_refl eq_refl) as (J1 & _).
        assert (LJ : length (pick (dindex d) (sorted (dindex d))) = nrows d) by (rewrite pick_length by apply sorted_bound; apply sorted_length).
        split; [exact E|]. split; [now rewrite Hs|]. split; [exact Hb|]. split; [now apply pick_rows_wf|]. split; [now apply pick_rows_wf|exact LJ]. Qed.

  (** the mask of the joined frame *)
  Definition joined_marks (d e : dframe) (m' : list bool) : list bool :=
    if list_eqb leqb (dindex d) (dindex e) then m' else pick m' (sorted (dindex d)).

  Lemma joined_says (d e : dframe) m m' : wf d -> says e m -> length m = nrows e -> dindex d = dindex e \/ NoDup (dindex e) -> aligned leqb (dindex d) (dindex e) m = Some m' ->
    says (snd (joined_mask d e)) (joined_marks d e m') /\ (length m = nrows d -> length (joined_marks d e m') = nrows d).
  Proof. intros Wd (We & He & Em) Hm Hnd Ea. unfold aligned in Ea. unfold joined_mask, joined_marks.
    destruct (list_eqb leqb (dindex d) (dindex e)) eqn:El; cbn [snd].
    - injection Ea as <-. split; [repeat split; auto; apply We|auto].
    - assert (Lm := all_given_length _ _ _ _ Ea).
      assert (Fb : Forall (fun p => p < length m') (sorted (dindex d))) by (rewrite Lm; apply sorted_bound).
      split. 2:{ intros _. rewrite pick_length by exact Fb. apply sorted_length. }
      set (j := pick (dindex d) (sorted (dindex d))).
      assert (LIX : length (nth 1 (snd (left_join [dindex d; dindex e])) []) = length j).
      { destruct (left_join_well (dindex d) (dindex e)) as [_ J]. exact (proj1 (J 1 _ _ eq_refl eq_refl)). }
      split; [now apply pick_rows_wf|]. split; [exact He|]. cbn [pick_rows dcells MaskModel.left_join snd nth]. fold j.
      apply nth_error_ext. intros k. rewrite !nth_error_map. rewrite (@pick_nth_error _ m' (sorted (dindex d)) k Fb).
      destruct We as [We1 We2].
      assert (Row : forall p b, nth_error m p = Some b -> map truth (nth p (dcells e) (repeat fill (ncols e))) = [Some b]).
      { intros p b Ep. assert (E' : nth_error (map (map truth) (dcells e)) p = Some [Some b]) by (rewrite Em, nth_error_map, Ep; reflexivity).
        rewrite nth_error_map in E'. destruct (nth_error (dcells e) p) as [r|] eqn:Er; [|discriminate]. injection E' as E'. rewrite (nth_error_nth _ _ _ Er). exact E'. }
      assert (PJ : nth_error j k = match nth_error (sorted (dindex d)) k with Some p => nth_error (dindex d) p | None => None end).
      { unfold j. rewrite pick_nth_error by apply sorted_bound. reflexivity. }
      destruct (nth_error (sorted (dindex d)) k) as [p|] eqn:Ek.
      + assert (Hp : p < length (dindex d)) by exact (proj1 (Forall_forall _ _) (sorted_bound (dindex d)) p (nth_error_In _ _ Ek)).
        destruct (nth_error (dindex d) p) as [x|] eqn:Ex; [|apply nth_error_None in Ex; lia].
        pose proof (all_given_nth _ _ _ _ _ Ea Ex) as G. destruct (nth_error m' p) as [b|] eqn:Eb; [|apply nth_error_None in Eb; lia].
        rewrite given_position in G by (unfold nrows in Hm; exact Hm).
        destruct (list_eqb leqb (dindex e) j) eqn:Ej.
        * apply (list_eqb_spec leqb leqb_ok) in Ej. rewrite <- Ej in PJ. assert (Hk : k < length (dindex e)) by (apply nth_error_Some; congruence).
          rewrite nth_error_map, (nth_error_nth' (seq 0 (length (dindex e))) 0), seq_nth by (rewrite ?seq_length; auto). cbn [option_map plus]. f_equal. apply Row.
          (* the label x stands at k and at its position *)
          destruct (position leqb x (dindex e)) as [q|] eqn:Eq; [|discriminate].
          assert (q = k) as ->; [|exact G].
          apply (position_found leqb leqb_ok) in Eq. destruct Hnd as [Hnd|Hnd]; [rewrite Hnd, (proj2 (list_eqb_spec leqb leqb_ok _ _) eq_refl) in El; discriminate|].
          apply (proj1 (NoDup_nth_error (dindex e)) Hnd); [apply nth_error_Some; congruence|congruence].
        * rewrite nth_error_map, PJ. cbn [option_map]. f_equal. destruct (position leqb x (dindex e)) as [q|]; [|discriminate]. now apply Row.
      + cbn [option_map]. destruct (list_eqb leqb (dindex e) j) eqn:Ej.
        * apply (list_eqb_spec leqb leqb_ok) in Ej. apply nth_error_None in PJ. rewrite nth_error_map, (proj2 (nth_error_None _ _)); [reflexivity|]. rewrite seq_length, Ej. exact PJ.
        * now rewrite nth_error_map, PJ. Qed.
End Mask.
