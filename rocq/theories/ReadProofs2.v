From Coq Require Import ZArith.
From Verif Require Import Base Table ChunkSpec ChunkModel ChunkProofs GridModel FrameSpec GridProofs GridProofs2 GridProofs3 GridProofs5 ReadSpec ReadModel ReadProofs.

Lemma slices_bounds {X} (l : list X) : forall lens acc,
  map (fun iv => slice l (fst iv) (snd iv)) (bounds acc lens) = cut lens (skipn acc l).
Proof. induction lens as [|n ns IH]; intros acc; [reflexivity|]. cbn [bounds map cut fst snd]. unfold slice at 1.
  replace (acc + n - acc) with n by lia. f_equal. rewrite IH. f_equal. now rewrite skipn_skipn'. Qed.
Lemma slices_of_concat {X} (ls : list (list X)) :
  map (fun iv => slice (concat ls) (fst iv) (snd iv)) (bounds 0 (map (@length X) ls)) = ls.
Proof. rewrite slices_bounds. cbn [skipn]. apply cut_concat. Qed.

(** Intervals of a fixed step are the bounds of their clipped widths. *)
Lemma step_bounds n c : 0 < c ->
  map (fun iv => (fst iv, Nat.min (snd iv) n)) (map (fun i => (i, i + c)) (range_step 0 n c))
  = bounds 0 (map (fun i => Nat.min c (n - i)) (range_step 0 n c)).
Proof. intros Hc. rewrite range_step_0. set (m := nchunks n c).
  assert (Hm : forall k, k < m -> k * c < n) by (intros; now apply nchunks_tight).
  assert (Cv : n <= m * c) by now apply nchunks_cover.
  rewrite !map_map. cbn [fst snd].
  enough (G : forall j s, s + j = m -> map (fun k => (k * c, Nat.min (k * c + c) n)) (seq s j)
                  = bounds (s * c) (map (fun k => Nat.min c (n - k * c)) (seq s j))) by (apply (G m 0); lia).
  induction j as [|j IH]; intros s E; [reflexivity|]. cbn [seq map bounds]. pose proof (Hm s ltac:(lia)).
  f_equal; [f_equal; lia|]. destruct j as [|j]; [reflexivity|]. rewrite IH by lia. f_equal.
  pose proof (Hm (S s) ltac:(lia)). cbn in *. lia. Qed.

Lemma block_clip {L H A} (d : df L H A) ri ci : wf d -> block d ri (fst ci, Nat.min (snd ci) (ncols d)) = block d ri ci.
Proof. intros [_ W]. unfold block. cbn [fst snd]. apply df_eq; cbn [dindex dcols dcells]; [reflexivity|symmetry; apply slice_clip|].
  assert (Fs : Forall (fun r => length r = length (dcols d)) (slice (dcells d) (fst ri) (snd ri))) by now apply Forall_slice.
  apply map_ext_in. intros r Hr. rewrite Forall_forall in Fs. rewrite (slice_clip r (fst ci) (snd ci)). unfold ncols. now rewrite (Fs r Hr). Qed.

Lemma round_pos a b : 0 < b -> b <= a -> 0 < py_round_div a b.
Proof. intros Hb Hab. unfold py_round_div. assert (0 < a / b) by (apply Nat.div_str_pos; lia).
  destruct (2 * (a mod b) <? b); [lia|]. destruct (b <? 2 * (a mod b)); [lia|]. destruct (Nat.even (a / b)); lia. Qed.

Lemma build_columns_ok nparts mincol n k : 0 < nparts -> 0 < n ->
  match k with Some k => 0 < k <= nparts | None => True end ->
  exists parts widths, build_columns nparts mincol n k = Ok (parts, widths)
    /\ widths <> [] /\ parts <> [] /\ list_sum widths = n /\ length widths <= nparts
    /\ map (fun iv => (fst iv, Nat.min (snd iv) n)) parts = bounds 0 widths.
Proof. intros Hn Hp Hk. unfold build_columns. destruct (Nat.eqb_spec n 0); [lia|].
  match goal with |- context [rbind ?x _] => assert (B : exists b, x = Ok b) end.
  { destruct k as [k|]; [|eauto]. destruct (Nat.eqb_spec k 0); [lia|]. cbv zeta.
    pose proof (@round_pos nparts k ltac:(lia) ltac:(lia)). destruct (Nat.eqb_spec (py_round_div nparts k) 0); [lia|eauto]. }
  destruct B as (b & ->). cbn [rbind].
  destruct (@compute_chunksize_ok n nparts (Nat.max 1 b)) as (c & -> & Hc & Hcn & _); try lia. cbn [rbind].
  assert (We : map (fun iv => length (slice (seq 0 n) (fst iv) (snd iv))) (map (fun i => (i, i + c)) (range_step 0 n c))
             = map (fun i => Nat.min c (n - i)) (range_step 0 n c)).
  { rewrite map_map. apply map_ext. intros i. cbn [fst snd]. rewrite slice_length, seq_length. lia. }
  assert (Nn : range_step 0 n c <> []).
  { intros E. apply (f_equal (@length nat)) in E. rewrite range_step_length in E. cbn in E. pose proof (@nchunks_cover n c ltac:(lia)). rewrite E in *. lia. }
  eexists _, _. split; [reflexivity|]. rewrite We.
  split; [intros E; apply map_eq_nil in E; auto|]. split; [intros E; apply map_eq_nil in E; auto|].
  split; [rewrite <- reported_lengths_eq by lia; apply reported_lengths_sum; lia|].
  split; [|apply step_bounds; lia].
  rewrite map_length, range_step_length. destruct (Nat.le_gt_cases (nchunks n c) nparts); [assumption|].
  pose proof (@nchunks_tight n c nparts ltac:(lia) ltac:(lia)). lia. Qed.

Section Parquet.
  Context {L H A : Type}.
  Variable leqb : L -> L -> bool.
  Variable heqb : H -> H -> bool.
  Hypothesis leqb_ok : forall x y, leqb x y = true <-> x = y.
  Hypothesis heqb_ok : forall x y, heqb x y = true <-> x = y.
  Notation dframe := (df L H A).


  (** Splitting one block by rows. *)
  Lemma split_block (D : dframe) a len ci k m lens : wf D -> a + len <= nrows D -> 0 < k -> 0 < m -> k <> 1 ->
    get_length_list len k m = Ok lens ->
    deploy_axis_func leqb heqb false (fun d => Ok d) k false [block D (a, a + len) ci] m None false
    = Ok (map (fun ri => block D ri ci) (bounds a lens)).
  Proof. intros W Ha Hk Hm Hk1 G. unfold deploy_axis_func.
    pose proof (@concat_rows_blocks _ _ _ leqb heqb heqb_ok D a [len] ci W ltac:(discriminate)) as C. cbn [bounds map] in C. lsum. rewrite Nat.add_0_r in C. rewrite C. cbn [rbind].
    replace (if k =? 1 then None else if false then None else if negb (k =? length [block D (a, a + len) ci]) || negb false then None else _) with (@None (list nat))
      by (destruct (k =? 1); [reflexivity|]; cbn; now rewrite orb_true_r).
    rewrite split_eff; auto using wf_block. cbn [axis_size]. unfold eff_lens. destruct (Nat.eqb_spec k 1); [easy|].
    assert (Nr : nrows (block D (a, a + len) ci) = len) by (unfold nrows in *; cbn; rewrite slice_length; lia).
    rewrite Nr, G. f_equal. rewrite <- (bounds_shift a), map_map. apply map_ext_in. intros iv Hiv.
    pose proof (bounds_within 0 lens) as Fw. rewrite Forall_forall in Fw. specialize (Fw iv Hiv).
    destruct (@get_length_list_ok len k m Hk Hm) as (l' & G' & _ & Sl). rewrite G in G'. injection G' as <-.
    unfold iloc_rows, block. cbn [fst snd dindex dcols dcells]. rewrite <- slice_map, slice_slice by lia. rewrite !slice_map. f_equal.
    rewrite slice_slice by lia. reflexivity. Qed.

  Lemma normalize_rows_ok (D : dframe) cl minrow splits remainder : wf D -> 0 < minrow -> 0 < splits -> cl <> [] ->
    forall rl i a, a + list_sum rl <= nrows D ->
    exists rl', normalize_rows leqb heqb minrow splits remainder i
        (combine rl (map (fun ri => map (fun ci => block D ri ci) (bounds 0 cl)) (bounds a rl)))
      = Ok (map (fun ri => map (fun ci => block D ri ci) (bounds 0 cl)) (bounds a rl'), rl')
      /\ list_sum rl' = list_sum rl /\ length rl <= length rl'.
  Proof. intros W Hm Hs Hcl. induction rl as [|len rl IH]; intros i a Ha; [exists []; cbn; auto|].
    lsum. destruct (IH (S i) (a + len)) as (rl2 & E2 & S2 & L2); [lia|]. cbn [bounds map combine normalize_rows].
    set (k := if i <? remainder then splits + 1 else splits). assert (Hk : 0 < k) by (unfold k; destruct (i <? remainder); lia).
    destruct (Nat.eqb_spec k 1) as [K|K].
    - cbn [rbind]. rewrite E2. cbn [rbind fst snd]. exists (len :: rl2). lsum. cbn [length]. repeat split; lia.
    - destruct (@get_length_list_ok len k minrow Hk Hm) as (lens & G & Ll & Sl).
      rewrite (rmap_map_ok _ _ (fun ci => map (fun ri => block D ri ci) (bounds a lens))) by (intros; apply split_block; auto; lia).
      cbn [rbind]. rewrite G. cbn [rbind]. rewrite E2. cbn [rbind fst snd].
      exists (lens ++ rl2). rewrite bounds_app, map_app, Sl.
      split; [|rewrite list_sum_app, app_length; cbn [length]; lia]. f_equal. f_equal. f_equal.
      rewrite <- Ll, <- (bounds_length a lens).
      exact (transp_fun (fun ci ri => block D ri ci) (bounds 0 cl) (bounds a lens)). Qed.

  Lemma cut_table_nil rl cl (D : dframe) : rl <> [] -> cut_table rl cl D <> [].
  Proof. destruct rl; [easy|discriminate]. Qed.

  Lemma normalize_ok (D : dframe) nparts minrow mincol rl cl : wf D -> 0 < nparts -> 0 < minrow -> 0 < mincol ->
    rl <> [] -> cl <> [] -> list_sum rl = nrows D -> list_sum cl = ncols D ->
    exists rl' cl', normalize_partitioning leqb heqb nparts minrow mincol (cut_table rl cl D) (Some rl) cl
        = Ok (cut_table rl' cl' D, Some rl', cl')
      /\ rl' <> [] /\ cl' <> [] /\ list_sum rl' = nrows D /\ list_sum cl' = ncols D.
  Proof. intros W Hn Hr Hc Rne Cne Sr Sc. unfold normalize_partitioning.
    destruct (cut_table rl cl D) eqn:Eg; [exfalso; exact (@cut_table_nil rl cl D Rne Eg)|]. cbv beta iota zeta. rewrite <- Eg. clear Eg.
    set (desired := Nat.max 1 (Nat.min (list_sum rl / minrow) nparts)).
    assert (R : exists rl', (if 3 * length (cut_table rl cl D) <? 2 * desired
        then do r <- normalize_rows leqb heqb minrow (desired / length (cut_table rl cl D)) (desired mod length (cut_table rl cl D)) 0 (combine rl (cut_table rl cl D));
             Ok (fst r, Some (snd r))
        else Ok (cut_table rl cl D, Some rl)) = Ok (cut_table rl' cl D, Some rl') /\ rl' <> [] /\ list_sum rl' = nrows D).
    { destruct (Nat.ltb_spec (3 * length (cut_table rl cl D)) (2 * desired)) as [Lt|Ge]; [|exists rl; auto].
      rewrite cut_table_length in *. destruct (@normalize_rows_ok D cl minrow (desired / length rl) (desired mod length rl) W Hr ltac:(apply Nat.div_str_pos; destruct rl; [easy|cbn in *; lia]) Cne rl 0 0 ltac:(lia)) as (rl' & E & S' & L').
      unfold cut_table at 1. rewrite E. cbn [rbind fst snd]. exists rl'. split; [reflexivity|]. split; [|lia]. destruct rl'; [|discriminate]. destruct rl; [easy|cbn in L'; lia]. }
    destruct R as (rl' & -> & Rne' & Sr'). cbn [rbind fst snd].
    rewrite cut_table_width by assumption. set (dc := Nat.max 1 (Nat.min (list_sum cl / mincol) nparts)).
    destruct (Nat.ltb_spec (3 * dc) (2 * length cl)) as [Lt|Ge]; [|exists rl', cl; repeat split; auto].
    assert (Hdc : 0 < dc) by (unfold dc; lia).
    destruct (@get_length_list_ok (ncols D) dc mincol Hdc Hc) as (cl' & G & Lc & Scl).
    rewrite Sc, G. unfold cut_table at 1.
    rewrite (rmap_map_ok _ _ (fun ri => map (fun ci => block D ri ci) (bounds 0 cl'))).
    - cbn [rbind]. exists rl', cl'. repeat split; auto. intros ->; rewrite <- Lc in Hdc; inversion Hdc.
    - intros ri _.
      pose proof (@deploy_row_wise_at _ _ _ _ _ _ leqb heqb leqb_ok (fun d => Ok d) D D W eq_refl (fun a b => eq_refl) cl ri dc mincol false None false W Cne Sc Hdc Hc) as X.
      rewrite X. f_equal. f_equal. f_equal. unfold deploy_lens. rewrite orb_true_r. cbn [negb].
      replace (if dc =? 1 then None else None) with (@None (list nat)) by (destruct (dc =? 1); reflexivity).
      unfold eff_lens. destruct (Nat.eqb_spec dc 1) as [E|E]; [|now rewrite G]. rewrite E in G. rewrite get_length_list_one in G by assumption. now injection G as <-.
  Qed.
End Parquet.
