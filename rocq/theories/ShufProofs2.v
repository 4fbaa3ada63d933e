From Verif Require Import Base Table ChunkModel ChunkSpec ChunkProofs GridModel GridSpec FrameSpec
  GridProofs GridProofs2 GridProofs3 GridProofs5 ShufSpec ShufModel ShufProofs.
From Coq Require Import Permutation Sorted.

(* ---------------- rows of tables ---------------- *)
Section Rows.
  Context {L H A : Type}.
  Notation dframe := (df L H A).

  Lemma rows_of_of_rows (c : list H) (rs : list (@row L A)) : rows_of (of_rows c rs) = rs.
  Proof. unfold rows_of, of_rows; cbn. induction rs as [|[l r] rs IH]; cbn; [reflexivity|]. now rewrite IH. Qed.

  Lemma of_rows_rows_of (d : dframe) : wf d -> of_rows (dcols d) (rows_of d) = d.
  Proof.
    intros [W _]. apply df_eq; cbn; [| reflexivity |]; unfold rows_of.
    - clear -W. revert W. generalize (dcells d). induction (dindex d) as [|x l IH]; intros [|y m] E; cbn in *;
        try discriminate; [reflexivity|]. f_equal. apply IH. lia.
    - clear -W. revert W. generalize (dcells d). induction (dindex d) as [|x l IH]; intros [|y m] E; cbn in *;
        try discriminate; [reflexivity|]. f_equal. apply IH. lia.
  Qed.

  Lemma wf_of_rows (c : list H) (rs : list (@row L A)) :
    Forall (fun r => length (snd r) = length c) rs -> wf (of_rows c rs).
  Proof. intros F. split; cbn; [now rewrite !map_length|]. now apply Forall_map. Qed.

  Lemma rows_of_forall (d : dframe) : wf d -> Forall (fun r => length (snd r) = length (dcols d)) (rows_of d).
  Proof.
    intros [W F]. unfold rows_of. revert W F. generalize (dindex d). induction (dcells d) as [|r rs IH]; intros [|l ls] W F;
      cbn; constructor; inversion F; subst; auto.
  Qed.

  Lemma rows_of_length (d : dframe) : wf d -> length (rows_of d) = nrows d.
  Proof. intros [W _]. unfold rows_of, row. rewrite combine_length, W. apply Nat.min_id. Qed.

  Lemma combine_firstn {X Y} (l : list X) (m : list Y) n : combine (firstn n l) (firstn n m) = firstn n (combine l m).
  Proof. revert m n. induction l as [|x l IH]; intros m [|n]; cbn; auto. destruct m; cbn; [reflexivity|]. now rewrite IH. Qed.
  Lemma combine_slice {X Y} (l : list X) (m : list Y) a b : combine (slice l a b) (slice m a b) = slice (combine l m) a b.
  Proof.
    unfold slice. rewrite combine_firstn. f_equal. revert m a. induction l as [|x l IH]; intros m [|a]; cbn; auto.
    - destruct m; [now rewrite combine_nil|]. apply IH.
  Qed.

  Lemma rows_of_iloc (d : dframe) a b : rows_of (iloc_rows d a b) = slice (rows_of d) a b.
  Proof. apply combine_slice. Qed.

  Lemma concat_rows_iloc (d : dframe) rl : wf d -> list_sum rl = nrows d ->
    concat (map (fun ri => rows_of (iloc_rows d (fst ri) (snd ri))) (bounds 0 rl)) = rows_of d.
  Proof.
    intros W E. erewrite map_ext by (intros; apply rows_of_iloc). rewrite concat_bounds.
    rewrite slice_full; [reflexivity|]. rewrite rows_of_length by assumption. lia.
  Qed.

  Variable heqb : H -> H -> bool.
  Hypothesis heqb_ok : forall x y, heqb x y = true <-> x = y.

  Lemma concatenate_rows_of (c : list H) (ds : list dframe) : ds <> [] -> Forall (fun d => wf d /\ dcols d = c) ds ->
    concatenate heqb ds = Ok (of_rows c (concat (map rows_of ds))).
  Proof.
    intros Hne F. destruct ds as [|d ds]; [easy|]. unfold concatenate.
    replace (forallb _ (d :: ds)) with true.
    - f_equal. apply df_eq; cbn [dindex dcols dcells of_rows].
      + clear Hne. induction F as [|e es [[W _] _] _ IH]; [reflexivity|]. cbn [map concat]. rewrite map_app. f_equal; [|exact IH].
        unfold rows_of. clear -W. revert W. generalize (dcells e). induction (dindex e); intros [|y m] E; cbn in *;
          try discriminate; [reflexivity|]. f_equal. apply IHl. lia.
      + inversion F; subst. tauto.
      + clear Hne. induction F as [|e es [[W _] _] _ IH]; [reflexivity|]. cbn [map concat]. rewrite map_app. f_equal; [|exact IH].
        unfold rows_of. clear -W. revert W. generalize (dcells e). induction (dindex e); intros [|y m] E; cbn in *;
          try discriminate; [reflexivity|]. f_equal. apply IHl. lia.
    - symmetry. apply forallb_forall. intros e He. rewrite Forall_forall in F.
      destruct (F e He) as [_ ->]. destruct (F d (or_introl eq_refl)) as [_ ->]. now apply list_eqb_refl.
  Qed.
End Rows.

(* ---------------- running a function on a joined line of blocks ---------------- *)
Section Deploy.
  Context {L H A : Type}.
  Notation dframe := (df L H A).
  Variable leqb : L -> L -> bool.
  Variable heqb : H -> H -> bool.

  Lemma deploy_whole (axis : bool) (func : dframe -> res dframe) k (keep : bool) blocks m d0 out :
    concat_axis leqb heqb axis blocks = Ok d0 -> func d0 = Ok out -> wf out -> 0 < k -> 0 < m ->
    exists lens,
      deploy_axis_func leqb heqb axis func k keep blocks m None false
      = Ok (map (fun iv => if axis then iloc_cols out (fst iv) (snd iv) else iloc_rows out (fst iv) (snd iv))
                (bounds 0 lens))
      /\ list_sum lens = axis_size axis out /\ length lens = k
      /\ (keep = true -> k = length blocks -> list_sum (map (axis_size axis) blocks) = axis_size axis out ->
          lens = map (axis_size axis) blocks).
  Proof.
    intros E1 E2 W Hk Hm. unfold deploy_axis_func. rewrite E1. cbn [rbind]. rewrite E2. cbn [rbind].
    exists (deploy_lens (axis_size axis out) k m keep (map (axis_size axis) blocks) None false).
    destruct (@deploy_lens_ok (axis_size axis out) k m keep (map (axis_size axis) blocks) None false Hk Hm) as (G1 & G2 & G3 & _);
      [discriminate|].
    split; [|repeat split; auto].
    - rewrite split_eff by assumption. unfold deploy_lens. now rewrite map_length.
    - intros Hkeep Hlen Hsum. apply G3; auto. now rewrite map_length.
  Qed.

  Lemma deploy_fails (axis : bool) (func : dframe -> res dframe) k (keep : bool) blocks m d0 outs :
    concat_axis leqb heqb axis blocks = Ok d0 ->
    deploy_axis_func leqb heqb axis func k keep blocks m None false = Ok outs -> exists out, func d0 = Ok out.
  Proof.
    intros E1. unfold deploy_axis_func. rewrite E1. cbn [rbind]. destruct (func d0); cbn; [eauto|discriminate].
  Qed.

  Lemma apply_joined_ok min_row (final : dframe -> res dframe) blocks d0 :
    concat_axis leqb heqb false blocks = Ok d0 -> (forall out, final d0 = Ok out -> wf out) -> 0 < min_row ->
    apply_joined leqb heqb min_row final blocks = final d0.
  Proof.
    intros E1 W Hm. unfold apply_joined. destruct (final d0) as [out|e] eqn:E2.
    - destruct (@deploy_whole false final 1 true blocks min_row d0 out E1 E2 (W out eq_refl) ltac:(lia) Hm)
        as (lens & -> & Hs & Hl & _). cbn [rbind]. destruct lens as [|n [|? ?]]; try discriminate. cbn [bounds map fst snd].
      lsum. assert (n = nrows out) as -> by (unfold axis_size in Hs; lia). cbn [Nat.add]. f_equal. apply iloc_rows_full. now apply W.
    - unfold deploy_axis_func. rewrite E1. cbn [rbind]. rewrite E2. reflexivity.
  Qed.
End Deploy.

(* ---------------- pivots ---------------- *)
Section Pivots.
  Context {K : Type}.
  Variable quantiles : nat -> nat -> list (option K).

  Lemma pivot_loop_spec keys ideal : forall infos ngroups infos' n,
    pivot_loop quantiles keys ideal infos ngroups = (infos', n) ->
    ngroups = prod (map (fun ci : @info K => S (length (snd ci))) infos) ->
    n = prod (map (fun ci : @info K => S (length (snd ci))) infos') /\
    (exists more, infos' = infos ++ more
       /\ Forall (fun ci => In (fst ci) keys /\ (snd ci = [] \/ exists j, snd ci = quantiles (fst ci) j)) more
       /\ (infos = [] -> keys <> [] -> more <> [])).
  Proof.
    induction keys as [|i keys IH]; intros infos ngroups infos' n E G; cbn [pivot_loop] in E.
    - injection E as <- <-. split; [exact G|]. exists []. rewrite app_nil_r. repeat split; auto. 
    - destruct ((ideal / ngroups <? 2) && negb (length infos =? 0)) eqn:C.
      + injection E as <- <-. split; [exact G|]. exists []. rewrite app_nil_r. repeat split; auto.
        intros ->. cbn in C. rewrite andb_false_r in C. discriminate.
      + apply IH in E.
        * destruct E as (E1 & more & -> & F & _). split; [exact E1|].
          exists ((i, pick_pivots quantiles i (ideal / ngroups)) :: more). split; [now rewrite <- app_assoc|].
          split; [|discriminate]. constructor.
          -- cbn [fst snd]. split; [now left|]. unfold pick_pivots. destruct (_ <? 2); eauto.
          -- eapply Forall_impl; [|exact F]. cbn. intros; tauto.
        * rewrite map_app. cbn [map snd].
          generalize (S (length (pick_pivots quantiles i (ideal / ngroups)))).
          rewrite G. clear. intros m. unfold prod. induction infos as [|a l IH]; cbn; [lia|]. cbn in IH. rewrite <- IH. lia.
  Qed.

  Lemma prod_with_pivots (infos : list (@info K)) :
    prod (map (fun ci : @info K => S (length (snd ci))) infos) = nbins infos.
  Proof.
    unfold nbins, sizes, with_pivots, prod. induction infos as [|[i p] l IH]; cbn; [reflexivity|].
    destruct p as [|x p]; cbn [length Nat.eqb negb]; cbn; rewrite IH; lia.
  Qed.

  Lemma pivot_fn_spec nkeys ideal infos n : pivot_fn quantiles nkeys ideal = (infos, n) ->
    n = nbins infos
    /\ Forall (fun ci => fst ci < nkeys /\ (snd ci = [] \/ exists j, snd ci = quantiles (fst ci) j)) infos
    /\ (0 < nkeys -> infos <> []).
  Proof.
    intros E. apply pivot_loop_spec in E; [|reflexivity]. destruct E as (E1 & more & -> & F & Ne). cbn [app] in *.
    rewrite prod_with_pivots in E1. repeat split; auto.
    - eapply Forall_impl; [|exact F]. cbn. intros ci [I ?]. apply in_seq in I. split; [lia|assumption].
    - intros P. apply Ne; auto. destruct nkeys; [lia|discriminate].
  Qed.

  Lemma pivot_fn_one ideal : pivot_fn quantiles 1 ideal
    = ([(0, pick_pivots quantiles 0 ideal)], S (length (pick_pivots quantiles 0 ideal))).
  Proof. unfold pivot_fn. cbn [seq pivot_loop]. rewrite andb_false_r, Nat.div_1_r. cbn [app]. now rewrite Nat.mul_1_l. Qed.
End Pivots.
