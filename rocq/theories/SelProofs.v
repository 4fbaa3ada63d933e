From Verif Require Import Base Table ChunkModel ChunkSpec ChunkProofs GridModel GridSpec FrameSpec GridProofs GridProofs2 GridProofs3 SelSpec SelModel.

(** * pick *)
Section Pick.
  Context {X : Type}.
  Implicit Types l : list X.
  Lemma pick_nil l : pick l [] = [].
  Proof. reflexivity. Qed.
  Lemma pick_cons l p ps : pick l (p :: ps) = match nth_error l p with Some x => [x] | None => [] end ++ pick l ps.
  Proof. reflexivity. Qed.
  Lemma pick_app l ps qs : pick l (ps ++ qs) = pick l ps ++ pick l qs.
  Proof. unfold pick. now rewrite map_app, concat_app. Qed.
  Lemma pick_concat l gs : pick l (concat gs) = concat (map (pick l) gs).
  Proof. induction gs as [|g gs IH]; [reflexivity|]. cbn [concat map]. now rewrite pick_app, IH. Qed.
  Lemma pick_length l ps : Forall (fun p => p < length l) ps -> length (pick l ps) = length ps.
  Proof. induction 1 as [|p ps Hp _ IH]; [reflexivity|]. rewrite pick_cons, app_length, IH.
    destruct (nth_error l p) eqn:E; [reflexivity|]. apply nth_error_None in E. lia. Qed.
  Lemma pick_nth_error l ps i : Forall (fun p => p < length l) ps ->
    nth_error (pick l ps) i = match nth_error ps i with Some p => nth_error l p | None => None end.
  Proof. intros F; revert i; induction F as [|p ps Hp _ IH]; intros i; [now destruct i|].
    rewrite pick_cons. destruct (nth_error l p) eqn:E; [|apply nth_error_None in E; lia].
    destruct i as [|i]; cbn [nth_error app]; [auto|apply IH]. Qed.
  Lemma Forall_pick (P : X -> Prop) l ps : Forall P l -> Forall P (pick l ps).
  Proof. intros F. induction ps as [|p ps IH]; [constructor|]. rewrite pick_cons. apply Forall_app; split; [|apply IH].
    destruct (nth_error l p) eqn:E; [|constructor]. constructor; [|constructor].
    apply nth_error_In in E. rewrite Forall_forall in F. auto. Qed.
  Lemma nth_error_slice l a b i : i < b - a -> nth_error (slice l a b) i = nth_error l (a + i).
  Proof. intros Hi. unfold slice.
    assert (G : forall (m : list X) k i, i < k -> nth_error (firstn k m) i = nth_error m i).
    { clear. induction m as [|x m IH]; intros [|k] [|i] Hi; cbn; try lia; try reflexivity. apply IH; lia. }
    rewrite G by lia. clear. revert l; induction a as [|a IH]; intros [|x l]; cbn; try reflexivity. now destruct i. apply IH. Qed.
  Lemma pick_slice l a b ps : Forall (fun p => p < b - a) ps -> pick (slice l a b) ps = pick l (map (fun p => a + p) ps).
  Proof. induction 1 as [|p ps Hp _ IH]; [reflexivity|]. cbn [map]. rewrite !pick_cons, IH, nth_error_slice by lia. reflexivity. Qed.
  Lemma pick_seq l a n : a + n <= length l -> pick l (seq a n) = slice l a (a + n).
  Proof. revert a; induction n as [|n IH]; intros a Ha.
    - unfold slice. now replace (a + 0 - a) with 0 by lia.
    - cbn [seq]. rewrite pick_cons, IH by lia. destruct (nth_error l a) eqn:E; [|apply nth_error_None in E; lia].
      rewrite <- (slice_app l (a:=a) (b:=S a) (c:=a + S n)) by lia. f_equal; [symmetry; now apply slice_one|]. f_equal; lia. Qed.
  Lemma pick_all l n : length l = n -> pick l (seq 0 n) = l.
  Proof. intros <-. rewrite pick_seq by lia. apply slice_full. lia. Qed.
  Lemma slice_pick_mid l p r q : Forall (fun p => p < length l) (p ++ r ++ q) ->
    slice (pick l (p ++ r ++ q)) (length p) (length p + length r) = pick l r.
  Proof. intros F. rewrite !pick_app. apply Forall_app in F; destruct F as [F1 F]. apply Forall_app in F; destruct F as [F2 F3].
    apply pick_length in F1, F2. unfold slice. rewrite skipn_app, skipn_all2, F1, Nat.sub_diag by lia. cbn [app skipn].
    replace (length p + length r - length p) with (length (pick l r) + 0) by lia. rewrite firstn_app_2. cbn. apply app_nil_r. Qed.
End Pick.
Lemma pick_map {X Y} (f : X -> Y) l ps : pick (map f l) ps = map f (pick l ps).
  Proof. induction ps as [|p ps IH]; [reflexivity|]. rewrite !pick_cons, map_app, IH, nth_error_map.
    now destruct (nth_error l p). Qed.
Lemma pick_pick {X} (l : list X) ps qs : Forall (fun p => p < length l) ps -> pick (pick l ps) qs = pick l (pick ps qs).
Proof. intros F. induction qs as [|q qs IH]; [reflexivity|]. rewrite !pick_cons, pick_app, IH. f_equal.
  rewrite pick_nth_error by auto. destruct (nth_error ps q) as [p|]; [|reflexivity]. cbn. now rewrite app_nil_r. Qed.

(** * take2d *)
Section Take2d.
  Context {L H A : Type}.
  Notation dframe := (df L H A).
  Lemma take2d_nrows r c (d : dframe) : Forall (fun p => p < nrows d) r -> nrows (take2d r c d) = length r.
  Proof. intros F. unfold nrows. cbn. now apply pick_length. Qed.
  Lemma take2d_ncols r c (d : dframe) : Forall (fun p => p < ncols d) c -> ncols (take2d r c d) = length c.
  Proof. intros F. unfold ncols. cbn. now apply pick_length. Qed.
  Lemma wf_take2d r c (d : dframe) : wf d -> Forall (fun p => p < nrows d) r -> Forall (fun p => p < ncols d) c ->
    wf (take2d r c d).
  Proof. intros [W1 W2] Fr Fc. split; cbn.
    - rewrite map_length, !pick_length; auto. eapply Forall_impl; [|apply Fr]. cbn; unfold nrows; lia.
    - apply Forall_map, Forall_pick. eapply Forall_impl; [|apply W2]. cbn; intros row E. rewrite !pick_length; auto.
      eapply Forall_impl; [|apply Fc]. cbn; unfold ncols; lia. Qed.
  Lemma take2d_take2d r c r' c' (d : dframe) : wf d -> Forall (fun p => p < nrows d) r -> Forall (fun p => p < ncols d) c ->
    take2d r' c' (take2d r c d) = take2d (pick r r') (pick c c') d.
  Proof. intros [W1 W2] Fr Fc. apply df_eq; cbn; try (apply pick_pick; assumption).
    rewrite pick_map, map_map, pick_pick by (rewrite W1; assumption). apply map_ext_in; intros row Hin.
    apply pick_pick. assert (Hl : Forall (fun row => length row = length (dcols d)) (pick (dcells d) (pick r r'))) by (apply Forall_pick; auto).
    rewrite Forall_forall in Hl. rewrite Hl by auto. apply Fc. Qed.
  Lemma take2d_all (d : dframe) : wf d -> take2d (seq 0 (nrows d)) (seq 0 (ncols d)) d = d.
  Proof. intros [W1 W2]. apply df_eq; cbn; try (now apply pick_all).
    rewrite pick_all by auto. rewrite <- (map_id (dcells d)) at 2. apply map_ext_in; intros row Hin.
    rewrite Forall_forall in W2. apply pick_all. apply W2; auto. Qed.
  Lemma take2d_block ri ci r c (d : dframe) : wf d ->
    Forall (fun p => p < snd ri - fst ri) r -> Forall (fun p => p < snd ci - fst ci) c ->
    take2d r c (block d ri ci) = take2d (map (fun p => fst ri + p) r) (map (fun p => fst ci + p) c) d.
  Proof. intros W Fr Fc. apply df_eq; cbn; try (now apply pick_slice).
    rewrite pick_map, map_map, pick_slice by auto. apply map_ext; intros row. now apply pick_slice. Qed.

  Lemma map_bounds_groups {X Y} (g : nat * nat -> Y) (h : list X -> Y) groups : forall a,
    (forall pre r post, groups = pre ++ r :: post ->
       g (a + length (concat pre), a + length (concat pre) + length r) = h r) ->
    map g (bounds a (map (@length X) groups)) = map h groups.
  Proof. induction groups as [|r gs IH]; intros a G; [reflexivity|]. cbn [map bounds]. f_equal.
    - specialize (G [] r gs eq_refl). cbn in G. now replace (a + 0) with a in G by lia.
    - apply IH. intros pre r' post ->. specialize (G (r :: pre) r' post eq_refl). cbn [concat] in G.
      rewrite app_length in G. now replace (a + length r + length (concat pre)) with (a + (length r + length (concat pre))) by lia. Qed.

  Lemma cut_take2d R C (d : dframe) : wf d -> Forall (fun p => p < nrows d) (concat R) -> Forall (fun p => p < ncols d) (concat C) ->
    cut_table (map (@length nat) R) (map (@length nat) C) (take2d (concat R) (concat C) d)
    = map (fun r => map (fun c => take2d r c d) C) R.
  Proof. intros [W1 W2] FR FC. unfold cut_table. apply map_bounds_groups. intros pre r post ER.
    apply map_bounds_groups. intros pre' c post' EC. cbn [Nat.add].
    assert (EcR : concat R = concat pre ++ r ++ concat post) by (subst R; rewrite concat_app; reflexivity).
    assert (EcC : concat C = concat pre' ++ c ++ concat post') by (subst C; rewrite concat_app; reflexivity).
    rewrite EcR in *. rewrite EcC in *. apply df_eq; cbn [block take2d dindex dcols dcells fst snd]; try (now apply slice_pick_mid).
    rewrite slice_map, map_map, slice_pick_mid by (rewrite W1; assumption). apply map_ext_in; intros row Hin.
    apply slice_pick_mid.
    assert (Hl : Forall (fun row => length row = length (dcols d)) (pick (dcells d) r)) by (apply Forall_pick; auto).
    rewrite Forall_forall in Hl. rewrite Hl by auto. apply FC. Qed.
End Take2d.
