(** fillna, cumulative functions, clip and isin (C78). *)
From Verif Require Import Base Table GridSpec ChunkSpec ChunkModel ChunkProofs GridModel FrameSpec GridProofs GridProofs2 GridProofs3 GridProofs4 GridProofs5 SelProofs5
  RemSpec RemModel FilSpec FilModel FilProofs.

Lemma slice_incl {X} (l : list X) a b x : In x (slice l a b) -> In x l.
Proof. unfold slice. intros I. rewrite <- (firstn_skipn a l). apply in_app_iff. right. rewrite <- (firstn_skipn (b - a) (skipn a l)). apply in_app_iff. now left. Qed.

Lemma transp_ne {X} w (g : list (list X)) : 0 < w -> Forall (fun r => r <> []) g -> transp w g <> [].
Proof. intros Hw F. induction F as [|r g N _ IH]; [destruct w; [lia|discriminate]|]. rewrite transp_cons. destruct r; [easy|]. destruct (transp w g); [easy|]. discriminate. Qed.

Section Fails.
  Context {L H A L2 H2 B : Type}.
  Variables (leqb : L -> L -> bool) (heqb : H -> H -> bool).
  Variable g : df L H A -> res (df L2 H2 B).
  Hypothesis fails : forall t, exists e, g t = Err e.
  Lemma rmap_fails {X Y} (f : X -> res Y) l : l <> [] -> (forall x, In x l -> exists e, f x = Err e) -> exists e, rmap f l = Err e.
  Proof. destruct l as [|x l]; [easy|]. intros _ F. destruct (F x (or_introl eq_refl)) as (e & E). exists e. cbn [rmap]. now rewrite E. Qed.
  Lemma deploy_fails axis ns keep parts m lens manual : exists e, deploy_axis_func leqb heqb axis g ns keep parts m lens manual = Err e.
  Proof. unfold deploy_axis_func. destruct (concat_axis leqb heqb axis parts) as [t|e]; cbn [rbind]; eauto.
    destruct (fails t) as (e & ->). cbn. eauto. Qed.
  Lemma map_axis_fails nparts m (axis : bool) grid keep ns lens : grid <> [] -> Forall (fun r => r <> []) grid ->
    exists e, map_axis_partitions leqb heqb nparts m axis grid g keep ns lens = Err e.
  Proof. intros Ng Fg. unfold map_axis_partitions. destruct (keep && _); eauto.
    match goal with |- exists e, rbind (rmap ?f ?l) _ = _ => destruct (@rmap_fails _ _ f l) as (e & ->); [|intros; apply deploy_fails | cbn; eauto] end.
    destruct axis; auto. apply transp_ne; auto. destruct grid as [|r grid]; [easy|]. inversion Fg as [|? ? Nr Fr]; subst. destruct r; [easy|]. cbn. lia. Qed.
  Lemma map_partitions_fails dynamic cpus nparts mr mc grid : grid <> [] -> Forall (fun r => r <> []) grid ->
    exists e, map_partitions leqb heqb dynamic cpus nparts mr mc grid g = Err e.
  Proof. intros Ng Fg. unfold map_partitions. destruct dynamic; cbn [negb].
    - destruct grid as [|r grid]; [easy|]. destruct (_ =? 0); eauto. destruct (negb _ && _); [|now apply map_axis_fails].
      unfold map_partitions_joined_by_column. destruct (_ <? 1) eqn:E1; eauto.
      match goal with |- exists e, rbind (rmap ?f ?l) _ = _ => destruct (@rmap_fails _ _ f l) as (e & ->); [| |cbn; eauto] end.
      + intros Z. match type of Z with range_step 0 ?n ?c = [] => assert (X := @concat_slices_range _ (r :: grid) c ltac:(lia)) end.
        rewrite Z in X. discriminate X.
      + intros i I. match goal with |- exists e, rbind (rmap ?f ?l) _ = _ => destruct (@rmap_fails _ _ f l) as (e & ->); [|intros; apply deploy_fails | cbn; eauto] end.
        apply transp_ne; [inversion Fg as [|? ? Nr Fr]; subst; destruct r; [easy|]; cbn; lia|].
        apply Forall_forall. intros x Ix. rewrite Forall_forall in Fg. apply Fg. eapply slice_incl. exact Ix.
    - unfold base_map_partitions. apply rmap_fails; auto. intros r Ir. apply rmap_fails; [|intros; apply fails].
      rewrite Forall_forall in Fg. now apply Fg. Qed.
End Fails.

Section FillOk.
  Context {L H V : Type}.
  Variables (leqb : L -> L -> bool) (heqb : H -> H -> bool).
  Hypothesis leqb_ok : forall x y, leqb x y = true <-> x = y.
  Hypothesis heqb_ok : forall x y, heqb x y = true <-> x = y.
  Variables (dynamic : bool) (cpus nparts min_row min_col : nat).
  Hypothesis (nparts_pos : 0 < nparts) (min_row_pos : 0 < min_row) (min_col_pos : 0 < min_col).
  Notation cell := (option V).
  Notation pf := (@pframe L H cell).

  Lemma by_rows_cells (g : cell -> cell) (d : df L H cell) : wf d -> by_rows (fun _ => map g) d = cellwise (fun _ _ c => g c) (fun h => h) d.
  Proof. intros [W1 W2]. unfold by_rows, cellwise. rewrite map_id. f_equal. apply map2_ext_r. intros l r I.
    rewrite Forall_forall in W2. specialize (W2 r I). revert W2. generalize (dcols d). clear. induction r as [|c r IH]; intros [|h hs] E; try discriminate; auto.
    rewrite map2_cons. cbn [map]. rewrite (IH hs) by (cbn in E; lia). reflexivity. Qed.
  Lemma along_cells axis (g : cell -> cell) (d : df L H cell) : wf d -> along axis (map g) d = cellwise (fun _ _ c => g c) (fun h => h) d.
  Proof. intros W. destruct axis; cbn; [now apply by_rows_cells | exact (by_columns_cells leqb (fun _ => g) W)]. Qed.
  Lemma fill_column_cells items h (col : list cell) : fill_column heqb None items h col = map (fill_items heqb items h) col.
  Proof. unfold fill_column, fill_items. revert col. induction items as [|kv items IH]; intros col; cbn; [now rewrite map_id|].
    rewrite IH. destruct (heqb _ h); auto. cbn. now rewrite map_map. Qed.

  Lemma filter_items {X} (f : X -> H * cell -> X) (h : H) (hs : list H) items x : In h hs -> (forall x kv, heqb (fst kv) h = false -> f x kv = x) ->
    fold_left f (filter (fun kv => existsb (heqb (fst kv)) hs) items) x = fold_left f items x.
  Proof. intros I N. revert x. induction items as [|kv items IH]; intros x; cbn; auto. destruct (existsb (heqb (fst kv)) hs) eqn:E; cbn; [apply IH|].
    rewrite N; [apply IH|]. destruct (heqb (fst kv) h) eqn:E2; auto. assert (existsb (heqb (fst kv)) hs = true) by (apply existsb_exists; eauto). congruence. Qed.

  Lemma map2_ext_l {X Y Z} (f g : X -> Y -> Z) xs ys : (forall x y, In x xs -> f x y = g x y) -> map2 f xs ys = map2 g xs ys.
  Proof. intros E. unfold map2. apply map_ext_in. intros [x y] I. cbn. apply E. now apply in_combine_l in I. Qed.

  Lemma fill_block_dict is_dict axis limit items (t : df L H cell) :
    fill_block heqb is_dict axis limit (ByLabel items) t = pandas_fill heqb axis limit (ByLabel items) t.
  Proof. unfold fill_block. destruct is_dict; auto. unfold pandas_fill. destruct limit as [k|]; cbn [p_fillna]; destruct axis; auto; f_equal.
    - unfold by_columns. f_equal. f_equal. apply map2_ext_l. intros h col I. unfold fill_column. apply filter_items with (h := h); auto.
      intros x kv ->. reflexivity.
    - unfold cellwise. f_equal. apply map2_ext_r. intros l r _. apply map2_ext_l. intros h c I. unfold fill_items. apply filter_items with (h := h); auto.
      intros x kv ->. reflexivity. Qed.

  Lemma frame_map_ext {B} g g' (f : pf) : (forall t, g t = g' t) ->
    frame_map (B := B) leqb heqb dynamic cpus nparts min_row min_col g None f = frame_map leqb heqb dynamic cpus nparts min_row min_col g' None f.
  Proof. intros E. unfold frame_map. now rewrite (map_partitions_ext leqb heqb g g' E). Qed.
  Lemma fold_ext axis g g' (f : pf) : (forall t, g t = g' t) ->
    fold (B := cell) leqb heqb nparts min_row min_col axis g None None true f = fold leqb heqb nparts min_row min_col axis g' None None true f.
  Proof. intros E. unfold fold. now rewrite (map_axis_ext leqb heqb g g' E). Qed.

  Lemma cut_nonempty {B} rl cl (d : df L H B) : rl <> [] -> cl <> [] -> cut_table rl cl d <> [] /\ Forall (fun r => r <> []) (cut_table rl cl d).
  Proof. intros Nr Nc. split.
    - intros E. apply Nr. assert (X := cut_table_length rl cl d). rewrite E in X. destruct rl; auto. discriminate.
    - apply Forall_forall. intros r I. unfold cut_table in I. apply in_map_iff in I as (ri & <- & _). intros E. apply map_eq_nil in E.
      now apply bounds_nil_iff in E. Qed.

  Lemma along_ok axis (g : list cell -> list cell) (f : pf) d rl cl : shows f d rl cl -> (forall l, length (g l) = length l) ->
    exists f' rl' cl', fold leqb heqb nparts min_row min_col axis (fun t => Ok (along axis g t)) None None true f = Ok f' /\ shows f' (along axis g d) rl' cl'.
  Proof. intros S Lg. apply (@fold_ok L H cell leqb heqb leqb_ok heqb_ok nparts min_row min_col nparts_pos min_row_pos min_col_pos cell axis (along axis g) f d rl cl S).
    - destruct axis; cbn; [apply by_rows_rw | apply by_columns_cw]; auto.
    - destruct axis; reflexivity.
    - destruct axis; reflexivity. Qed.

  Theorem qc_fillna_ok is_dict axis limit w (f : pf) d rl cl : shows f d rl cl ->
    match p_fillna heqb axis limit w d with
    | Ok D => exists f' rl' cl', qc_fillna leqb heqb dynamic cpus nparts min_row min_col is_dict axis limit w f = Ok f' /\ shows f' D rl' cl'
    | Err _ => exists e, qc_fillna leqb heqb dynamic cpus nparts min_row min_col is_dict axis limit w f = Err e
    end.
  Proof. intros S. assert (W : wf d) by apply S.
    destruct w as [v|items| |]; cbn [p_fillna]; unfold qc_fillna; cbn [orb].
    - destruct limit as [k|].
      + apply (along_ok axis _ S). intros. apply fill_line_length.
      + change (fill_line None (Some v)) with (map (@filled V (Some v))). rewrite (along_cells axis (filled (Some v)) W). apply (@map_ok L H cell leqb heqb leqb_ok heqb_ok nparts min_row min_col nparts_pos min_row_pos min_col_pos cell (fun _ _ c => filled (Some v) c) dynamic cpus f d rl cl S).
    - destruct limit as [k|].
      + rewrite (fold_ext _ _ _ _ (fill_block_dict is_dict axis (Some k) items)). unfold pandas_fill. cbn [p_fillna]. destruct axis.
        * destruct S as (((_ & _ & _ & Gr & _) & _) & Nr & Nc & _). unfold fold. rewrite Gr. destruct (cut_nonempty d Nr Nc) as (C1 & C2).
          destruct (@map_axis_fails L H cell L H cell leqb heqb (fun _ => Err NotImplementedErr) ltac:(eauto) nparts min_col true (cut_table rl cl d) true None None C1 C2) as (e & E).
          rewrite E. cbn. eauto.
        * apply (@fold_ok L H cell leqb heqb leqb_ok heqb_ok nparts min_row min_col nparts_pos min_row_pos min_col_pos cell false (by_columns (fill_column heqb (Some k) items)) f d rl cl S); auto.
          apply by_columns_cw. intros. apply fill_column_length.
      + rewrite (frame_map_ext _ _ _ (fill_block_dict is_dict axis None items)). unfold pandas_fill. destruct axis.
        * destruct S as (((_ & _ & _ & Gr & _) & _) & Nr & Nc & _). unfold frame_map. rewrite Gr. destruct (cut_nonempty d Nr Nc) as (C1 & C2).
          destruct (@map_partitions_fails L H cell L H cell leqb heqb (fun _ => Err NotImplementedErr) ltac:(eauto) dynamic cpus nparts min_row min_col (cut_table rl cl d) C1 C2) as (e & E).
          rewrite E. cbn. eauto.
        * assert (X : by_columns (fill_column heqb None items) d = cellwise (fun _ h c => fill_items heqb items h c) (fun h => h) d).
          { rewrite <- (by_columns_cells leqb (fill_items heqb items) W). unfold by_columns. f_equal. f_equal. apply map2_ext_r. intros h col _. apply fill_column_cells. }
          rewrite X. apply (@map_ok L H cell leqb heqb leqb_ok heqb_ok nparts min_row min_col nparts_pos min_row_pos min_col_pos cell (fun _ h c => fill_items heqb items h c) dynamic cpus f d rl cl S).
    - destruct limit; apply (along_ok axis _ S); intros; apply forward_length.
    - destruct limit; apply (along_ok axis _ S); intros; apply backward_length. Qed.

  Theorem qc_isin_ok veqb w (f : pf) d rl cl : shows f d rl cl ->
    match p_isin leqb heqb veqb w d with
    | Ok D => exists f' rl' cl', qc_isin leqb heqb veqb dynamic cpus nparts min_row min_col w f = Ok f' /\ shows f' D rl' cl'
    | Err _ => exists e, qc_isin leqb heqb veqb dynamic cpus nparts min_row min_col w f = Err e
    end.
  Proof. intros S.
    assert (Yes : forall g, exists f' rl' cl', frame_map leqb heqb dynamic cpus nparts min_row min_col (fun t => Ok (cellwise g (fun h => h) t)) None f = Ok f' /\ shows f' (cellwise (B := bool) g (fun h => h) d) rl' cl').
    { intros g. apply (@map_ok L H cell leqb heqb leqb_ok heqb_ok nparts min_row min_col nparts_pos min_row_pos min_col_pos bool g dynamic cpus f d rl cl S). }
    assert (No : exists e, frame_map (B := bool) leqb heqb dynamic cpus nparts min_row min_col (fun _ => Err ValueError) None f = Err e).
    { destruct S as (((_ & _ & _ & Gr & _) & _) & Nr & Nc & _). unfold frame_map. rewrite Gr. destruct (cut_nonempty d Nr Nc) as (C1 & C2).
      destruct (@map_partitions_fails L H cell L H bool leqb heqb (fun _ => Err ValueError) ltac:(eauto) dynamic cpus nparts min_row min_col (cut_table rl cl d) C1 C2) as (e & E).
      rewrite E. cbn. eauto. }
    unfold qc_isin. destruct w as [vs|vs|s|v]; unfold p_isin.
    - apply Yes.
    - apply Yes.
    - destruct (distinct leqb (map fst s)); [apply Yes | exact No].
    - destruct (distinct leqb (dindex v) && distinct heqb (dcols v)); [apply Yes | exact No]. Qed.

  Variable trim : cell -> cell -> cell -> cell.
  Lemma clip_line_length lo up l : length (clip_line trim lo up l) = length l.
  Proof. unfold clip_line. rewrite map2_length, seq_length. lia. Qed.
  Lemma clip_line_scalar lo up l : is_list lo = false -> is_list up = false ->
    clip_line trim lo up l = map (trim (bound_at lo 0) (bound_at up 0)) l.
  Proof. intros Hl Hu. unfold clip_line. assert (E : forall i, bound_at lo i = bound_at lo 0 /\ bound_at up i = bound_at up 0) by (intros; destruct lo, up; try discriminate; auto).
    generalize 0 at 1. induction l as [|c l IH]; intros k; [reflexivity|]. cbn [length seq]. rewrite map2_cons, IH. destruct (E k) as (-> & ->). reflexivity. Qed.
  Lemma api_clip_ok (axis : bool) (lo up : @bound V) (f : pf) d rl cl : shows f d rl cl ->
    (forall vs, lo = Each vs -> ~ In None vs) -> (forall vs, up = Each vs -> ~ In None vs) ->
    (forall vs, lo = Each vs \/ up = Each vs -> length vs = if axis then ncols d else nrows d) ->
    exists f' rl' cl', api_clip leqb heqb dynamic cpus nparts min_row min_col trim axis lo up (if axis then ncols d else nrows d) f = Ok f'
      /\ shows f' (p_clip trim axis lo up d) rl' cl'.
  Proof. intros S Nl Nu Fi. assert (W : wf d) by apply S. unfold api_clip, p_clip.
    assert (D : forall b : @bound V, (forall vs, b = Each vs -> ~ In None vs) -> is_list (drop_nan b) = is_list b /\ (forall i : nat, bound_at (drop_nan b) i = bound_at b i) /\ (is_list b = true -> drop_nan b = b)).
    { intros [|[v|]|vs] Nb; cbn; auto; try (repeat split; auto; discriminate).
      replace (existsb (fun v => negb (valid v)) vs) with false; [repeat split; auto; intros; reflexivity|].
      symmetry. apply not_true_iff_false. intros X. apply existsb_exists in X as ([x|] & I & E); [discriminate|]. now apply (Nb vs eq_refl). }
    destruct (D lo Nl) as (D1 & D2 & D3). destruct (D up Nu) as (D4 & D5 & D6).
    assert (CL : forall l, clip_line trim (drop_nan lo) (drop_nan up) l = clip_line trim lo up l).
    { intros l. unfold clip_line. apply map2_ext_r. intros i c _. now rewrite D2, D5. }
    rewrite D1, D4. destruct (is_list lo || is_list up) eqn:E.
    - assert (Fl : fits (if axis then ncols d else nrows d) (drop_nan lo) = true).
      { destruct lo as [|v|vs]; auto; [destruct v; auto|]. rewrite D3 by reflexivity. cbn. apply Nat.eqb_eq. apply Fi. auto. }
      assert (Fu : fits (if axis then ncols d else nrows d) (drop_nan up) = true).
      { destruct up as [|v|vs]; auto; [destruct v; auto|]. rewrite D6 by reflexivity. cbn. apply Nat.eqb_eq. apply Fi. auto. }
      rewrite Fl, Fu. cbn [andb].
      rewrite (fold_ext axis _ (fun t => Ok (along axis (clip_line trim lo up) t))).
      { apply (along_ok axis _ S). intros. apply clip_line_length. }
      intros t. f_equal. unfold p_clip, along. destruct axis; [unfold by_rows; f_equal | unfold by_columns; f_equal; f_equal]; apply map2_ext_r; intros; apply CL.
    - apply orb_false_iff in E as (E1 & E2).
      assert (X : along axis (clip_line trim lo up) d = cellwise (fun _ _ c => trim (bound_at lo 0) (bound_at up 0) c) (fun h => h) d).
      { rewrite <- (along_cells axis (trim (bound_at lo 0) (bound_at up 0)) W). unfold along. destruct axis; [unfold by_rows; f_equal | unfold by_columns; f_equal; f_equal]; apply map2_ext_r; intros; now apply clip_line_scalar. }
      rewrite X, D2, D5. apply (@map_ok L H cell leqb heqb leqb_ok heqb_ok nparts min_row min_col nparts_pos min_row_pos min_col_pos cell (fun _ _ c => trim (bound_at lo 0) (bound_at up 0) c) dynamic cpus f d rl cl S). Qed.
End FillOk.
