From Verif Require Import Base Table ChunkModel ChunkSpec ChunkProofs GridModel GridSpec FrameSpec
  GridProofs GridProofs2 GridProofs3 GridProofs5 ShufSpec ShufModel ShufProofs ShufProofs2 ShufProofs3.
From Coq Require Import Permutation Sorted.

Lemma cut_bounds a lens rl : map (fun r => r) (cut lens (bounds a rl))
  = map (fun p => bounds (fst p) (snd p)) (combine (map fst (bounds a (map (@list_sum) (cut lens rl)))) (cut lens rl)).
Proof.
  rewrite map_id. revert a rl. induction lens as [|n lens IH]; intros a rl; [reflexivity|].
  cbn [cut map bounds combine fst snd]. f_equal.
  - clear IH. revert a rl. induction n; intros a rl; [reflexivity|]. destruct rl; [reflexivity|].
    cbn [firstn bounds]. now rewrite IHn.
  - rewrite <- IH. f_equal. clear IH. revert a rl. induction n; intros a rl; cbn [skipn firstn].
    + lsum. now rewrite Nat.add_0_r.
    + destruct rl as [|x rl]; [now cbn|]. cbn [bounds skipn]. rewrite IHn. f_equal. lsum. lia.
Qed.

Lemma sum_cut lens l : list_sum lens = length l -> list_sum (map list_sum (cut lens l)) = list_sum l.
Proof.
  intros E. rewrite <- (concat_cut_exact lens l E) at 2. generalize (cut lens l). clear.
  induction l as [|x l IH]; cbn; [reflexivity|]. lsum. rewrite list_sum_app, IH. reflexivity.
Qed.

Lemma cut_ne {X} lens (l : list X) : list_sum lens = length l -> Forall (fun n => 0 < n) lens -> Forall (fun x => x <> []) (cut lens l).
Proof.
  revert l. induction lens as [|n lens IH]; intros l E F; [constructor|]. inversion F; subst. cbn in E |- *. lsum. constructor.
  - destruct n; [lia|]. destruct l; [cbn in *; lsum; lia|discriminate].
  - apply IH; [|assumption]. rewrite skipn_length. lia.
Qed.

Lemma transp_one_row {X} (l : list X) : transp (length l) [l] = map (fun x => [x]) l.
Proof. pose proof (transp_fun (fun (_ : unit) (x : X) => x) [tt] l) as E. cbn [map] in E. now rewrite map_id in E. Qed.

(** Every grouping of the row partitions the code makes keeps their order and has no empty group. *)
Definition grouping {X} (l : list X) (groups : list (list X)) : Prop :=
  concat groups = l /\ Forall (fun g => g <> []) groups.

Lemma sections_grouping {X} n (l : list X) : 0 < n -> n <= length l -> length l mod n = 0 ->
  grouping l (np_split_sections n l).
Proof.
  intros Hn Hl Hm. unfold np_split_sections. set (s := length l / n).
  assert (Es : n * s = length l) by (unfold s; pose proof (Nat.div_mod (length l) n); lia).
  assert (0 < s) by (destruct s; lia).
  split.
  - assert (G : forall k, concat (map (fun i => slice l (i * s) (S i * s)) (seq 0 k)) = firstn (k * s) l).
    { induction k; [reflexivity|]. rewrite seq_S, map_app, concat_app, IHk. cbn [map concat Nat.add]. rewrite app_nil_r.
      replace (S k * s) with (k * s + s) by (cbn; lia). rewrite firstn_add. f_equal. unfold slice. f_equal. lia. }
    rewrite G, Es. apply firstn_all.
  - apply Forall_map. apply Forall_forall. intros i Hi E. apply in_seq in Hi. apply (f_equal (@length _)) in E.
    rewrite slice_length in E. cbn in E. nia.
Qed.

Lemma steps_grouping {X} s (l : list X) : 0 < s -> grouping l (np_split_steps s l).
Proof.
  intros Hs. unfold np_split_steps. split.
  - rewrite range_step_0, map_map.
    assert (G : forall k, concat (map (fun i => slice l (i * s) (i * s + s)) (seq 0 k)) = firstn (k * s) l).
    { induction k; [reflexivity|]. rewrite seq_S, map_app, concat_app, IHk. cbn [map concat Nat.add]. rewrite app_nil_r.
      replace (S k * s) with (k * s + s) by (cbn; lia). rewrite firstn_add. f_equal. unfold slice. f_equal. lia. }
    rewrite G. apply firstn_all2. unfold nchunks.
    pose proof (Nat.div_mod (length l) s). destruct (Nat.eqb_spec (length l mod s) 0); [nia|].
    pose proof (Nat.mod_upper_bound (length l) s). nia.
  - rewrite range_step_0, map_map. apply Forall_map. apply Forall_forall. intros i Hi E. apply in_seq in Hi.
    apply (f_equal (@length _)) in E. rewrite slice_length in E. cbn [length] in E. unfold nchunks in Hi.
    pose proof (Nat.div_mod (length l) s). destruct (Nat.eqb_spec (length l mod s) 0); nia.
Qed.

Lemma round_div_pos a b : 0 < b -> b <= a -> 0 < py_round_div a b.
Proof.
  intros Hb Hab. unfold py_round_div. assert (1 <= a / b) by (apply Nat.div_le_lower_bound; lia).
  destruct (2 * _ <? b); [lia|]. destruct (b <? _); [lia|]. destruct (Nat.even _); lia.
Qed.

Section Ranges.
  Context {L H A K : Type}.
  Notation dframe := (df L H A).
  Notation pf := (@pframe L H A).
  Notation row := (@row L A).
  Variable leqb : L -> L -> bool.
  Variable heqb : H -> H -> bool.
  Hypothesis leqb_ok : forall x y, leqb x y = true <-> x = y.
  Hypothesis heqb_ok : forall x y, heqb x y = true <-> x = y.

  Lemma join_groups_ok (d : dframe) rl cl groups : wf d -> list_sum rl = nrows d -> list_sum cl = ncols d ->
    rl <> [] -> cl <> [] -> grouping (cut_table rl cl d) groups ->
    exists rl', join_groups leqb heqb groups = Ok (cut_table rl' cl d) /\ list_sum rl' = nrows d /\ rl' <> [].
  Proof.
    intros W Hr Hc Hrn Hcn [G1 G2]. set (lens := map (@length _) groups).
    assert (Gs : groups = cut lens (cut_table rl cl d)) by (rewrite <- G1; symmetry; apply cut_concat).
    assert (Sl : list_sum lens = length rl).
    { unfold lens. rewrite <- map_length_concat, G1. apply cut_table_length. }
    assert (Pl : Forall (fun n => 0 < n) lens).
    { unfold lens. apply Forall_map. eapply Forall_impl; [|exact G2]. cbn. intros [|] ?; cbn; [easy|lia]. }
    exists (map list_sum (cut lens rl)). split; [|split].
    - rewrite Gs. unfold cut_table at 1. rewrite cut_map.
      rewrite <- (map_id (cut lens (bounds 0 rl))), cut_bounds, map_map. unfold join_groups, cut_table.
      pose proof (@cut_ne _ _ _ Sl Pl) as Ne. revert Ne. set (bc := bounds 0 cl). clearbody bc. generalize (cut lens rl). generalize 0. clear -W heqb_ok.
      intros a rls. revert a. induction rls as [|r rls IH]; intros a Ne; [reflexivity|]. inversion Ne; subst.
      cbn [map bounds combine fst snd rmap].
      rewrite (@grid_width_map _ _ _ _ (length bc)).
      2:{ now rewrite bounds_nil_iff. }
      2:{ intros. now rewrite map_length. }
      rewrite transp_fun.
      rewrite (@rmap_map_ok _ _ _ (concat_axis leqb heqb false) _ (fun ci => block d (a, a + list_sum r) ci)).
      2:{ intros ci _. now apply concat_rows_blocks. }
      cbn [rbind]. rewrite IH by assumption. reflexivity.
    - now rewrite sum_cut.
    - destruct lens as [|n lens]; [|discriminate]. cbn in Sl. destruct rl; [easy|discriminate].
  Qed.

  (* ---------------- one block row, one block column ---------------- *)
  Section Whole.
    Variable func : dframe -> res dframe.
    Variable d : dframe.
    Hypothesis W : wf d.
    Hypothesis func_wf : forall out, func d = Ok out -> wf out.

    Lemma full_axis_one_row nparts min_row min_col nc (f : pf) cl : 0 < min_col -> cl <> [] ->
      gridded f d [nrows d] cl -> 
      match func d with
      | Err e => apply_full_axis leqb heqb nparts min_row min_col true func None nc true None f = Err e
      | Ok out => (nc = None \/ nc = Some (dcols out)) ->
          exists f' cl', apply_full_axis leqb heqb nparts min_row min_col true func None nc true None f = Ok f'
            /\ pgrid f' = cut_table [nrows out] cl' out /\ list_sum cl' = ncols out /\ cl' <> []
            /\ pindex f' = None /\ pcols f' = nc /\ prl f' = None /\ (pcl f' = None \/ pcl f' = Some cl')
            /\ (ncols out = ncols d -> cl' = cl)
      end.
    Proof.
      intros Hm Hcn (_ & _ & Hc & Hg & Hi & Hcc & Hrl & Hcl).
      assert (E1 : concat_axis leqb heqb true (map (fun ci => block d (0, nrows d) ci) (bounds 0 cl)) = Ok d).
      { rewrite concat_cols_blocks_bounds by assumption. cbn [Nat.add]. rewrite Hc, block_cols_full by assumption.
        cbn [fst snd]. now rewrite iloc_rows_full. }
      unfold apply_full_axis, map_axis_partitions. rewrite Hg. unfold cut_table at 1 2. cbn [andb bounds map grid_width Nat.add rmap].
      rewrite map_length, bounds_length. destruct (func d) as [out|e] eqn:Ef.
      - intros Hnc. specialize (func_wf eq_refl).
        destruct (@deploy_whole L H A leqb heqb true func (length cl) true
                    (map (fun ci => block d (0, nrows d) ci) (bounds 0 cl)) min_col d out E1 Ef func_wf) as (lens & -> & S1 & S2 & S3);
          [destruct cl; [easy|cbn; lia]|assumption|]. cbn [rbind rmap]. unfold axis_size in S1.
        assert (Eg : [map (fun iv => iloc_cols out (fst iv) (snd iv)) (bounds 0 lens)] = cut_table [nrows out] lens out).
        { unfold cut_table. cbn [bounds map Nat.add]. f_equal. apply map_ext. intros ci. symmetry. now apply block_rows_full. }
        rewrite Eg. cbn [negb].
        assert (Hold : map (axis_size true) (map (fun ci => block d (0, nrows d) ci) (bounds 0 cl)) = cl).
        { rewrite map_map. cbn [axis_size]. unfold ncols in *. cbn.
          rewrite <- (@bounds_sizes (length (dcols d)) 0 cl) at 2 by lia.
          apply map_ext. intros iv. now rewrite slice_length. }
        rewrite Hold, map_length, bounds_length in S3. unfold axis_size in S3.
        assert (Hl : ncols out = ncols d -> lens = cl) by (intros; apply S3; [reflexivity|reflexivity|congruence]).
        set (cols := match pcl f with Some _ => _ | None => _ end).
        assert (Hcols : cols = None \/ cols = Some lens).
        { unfold cols. destruct (pcl f) as [l|]; [|auto]. destruct nc as [c|]; [|auto].
          destruct Hcl as [Hcl|Hcl]; [discriminate|]. injection Hcl as ->.
          destruct (Nat.eqb_spec (length c) (list_sum cl)) as [El|]; cbn [andb]; [|auto].
          destruct (forallb _ cl); [|auto]. right. rewrite Hl; [reflexivity|].
          destruct Hnc as [|Hnc]; [discriminate|]. injection Hnc as ->. unfold ncols in *. congruence. }
        exists (mkpf (cut_table [nrows out] lens out) None nc None cols), lens.
        split.
        { unfold construct, validate_axes_lengths. cbn [prl pindex pcl pcols andb].
          replace (match cols with Some _ => _ | None => _ end) with true.
          - reflexivity.
          - destruct Hcols as [-> | ->]; [reflexivity|]. destruct Hnc as [-> | ->]; [reflexivity|].
            destruct (dcols out) eqn:Ed; [reflexivity|]. symmetry. apply orb_true_iff. right. apply Nat.eqb_eq.
            unfold ncols in S1. rewrite Ed in S1. exact S1. }
        cbn [pgrid pindex pcols prl pcl]. repeat split; auto.
        intros ->. destruct cl; [easy|discriminate].
      - unfold cut_table. cbn [andb bounds map grid_width Nat.add rmap]. unfold deploy_axis_func. rewrite E1. cbn [rbind]. rewrite Ef. reflexivity.
    Qed.

    Lemma full_axis_one_column nparts min_row min_col (f : pf) rl : 0 < min_row -> rl <> [] ->
      gridded f d rl [ncols d] ->
      match func d with
      | Err e => apply_full_axis leqb heqb nparts min_row min_col false func None None true None f = Err e
      | Ok out =>
          exists rl', apply_full_axis leqb heqb nparts min_row min_col false func None None true None f
                      = Ok (mkpf (cut_table rl' [ncols out] out) None None None None)
            /\ list_sum rl' = nrows out /\ rl' <> []
      end.
    Proof.
      intros Hm Hrn (_ & Hr & _ & Hg & Hi & Hcc & Hrl & Hcl).
      assert (E1 : concat_axis leqb heqb false (map (fun ri => block d ri (0, ncols d)) (bounds 0 rl)) = Ok d).
      { rewrite concat_rows_blocks by assumption. cbn [Nat.add]. rewrite Hr, block_rows_full by assumption.
        cbn [fst snd]. now rewrite iloc_cols_full. }
      assert (Et : transp (grid_width (cut_table rl [ncols d] d)) (cut_table rl [ncols d] d)
                   = [map (fun ri => block d ri (0, ncols d)) (bounds 0 rl)]).
      { rewrite cut_table_width by assumption. unfold cut_table. cbn [bounds map Nat.add length].
        exact (transp_fun (fun ri ci => block d ri ci) (bounds 0 rl) [(0, ncols d)]). }
      unfold apply_full_axis, map_axis_partitions. rewrite Hg, Et, cut_table_length. cbn [andb rmap].
      destruct (func d) as [out|e] eqn:Ef.
      - specialize (func_wf eq_refl).
        destruct (@deploy_whole L H A leqb heqb false func (length rl) true
                    (map (fun ri => block d ri (0, ncols d)) (bounds 0 rl)) min_row d out E1 Ef func_wf) as (lens & -> & S1 & S2 & S3);
          [destruct rl; [easy|cbn; lia]|assumption|]. cbn [rbind]. unfold axis_size in S1.
        assert (Ln : lens <> []) by (intros ->; destruct rl; [easy|discriminate]).
        exists lens. split; [|auto].
        replace (transp _ _) with (cut_table lens [ncols out] out); [now destruct (prl f)|].
        cbn [grid_width]. unfold cut_table. cbn [bounds map Nat.add]. rewrite transp_one_row.
        rewrite map_map. apply map_ext. intros ri. f_equal. now apply block_cols_full.
      - unfold deploy_axis_func. rewrite E1. cbn [rbind]. rewrite Ef. reflexivity.
    Qed.

    Lemma combine_ok nparts min_row min_col (f : pf) rl cl : 0 < min_row -> rl <> [] -> cl <> [] ->
      gridded f d rl cl ->
      match func d with
      | Err e => combine_and_apply leqb heqb nparts min_row min_col func f = Err e
      | Ok out =>
          exists rl', combine_and_apply leqb heqb nparts min_row min_col func f
                      = Ok (mkpf (cut_table rl' [ncols out] out) None None None None)
            /\ list_sum rl' = nrows out /\ rl' <> []
      end.
    Proof.
      intros Hm Hrn Hcn G. pose proof G as (_ & Hr & Hc & Hg & Hi & Hcc & Hrl & Hcl). unfold combine_and_apply.
      assert (M : exists m rl1, (if 1 <? grid_width (pgrid f)
             then do g <- rmap (fun r => do d <- concat_axis leqb heqb true r; Ok [d]) (pgrid f);
                  construct (mkpf g (pindex f) (pcols f) (prl f)
                              (match pcols f with Some c => Some [length c] | None => None end))
             else Ok f) = Ok m /\ gridded m d rl1 [ncols d] /\ rl1 <> []).
      { rewrite Hg, cut_table_width by assumption. destruct (Nat.ltb_spec 1 (length cl)) as [Hw|Hw].
        - unfold cut_table at 1.
          rewrite (@rmap_map_ok _ _ _ _ _ (fun ri => map (fun ci => block d ri ci) (bounds 0 [ncols d]))).
          2:{ intros ri _. rewrite concat_cols_blocks_bounds by assumption. cbn [rbind bounds map Nat.add]. now rewrite Hc. }
          cbn [rbind]. change (map _ (bounds 0 rl)) with (cut_table rl [ncols d] d).
          set (m0 := mkpf _ _ _ _ _).
          assert (G0 : gridded m0 d rl [ncols d]).
          { unfold m0, gridded. cbn [pgrid pindex pcols prl pcl]. repeat split; auto; try apply W.
            - lsum. lia.
            - destruct (pcols f) as [c|]; [|auto]. right. now rewrite (Hcc c eq_refl). }
          unfold construct. rewrite (gridded_validate G0).
          destruct (filter_empties_gridded false G0 Hrn ltac:(discriminate)) as (rl' & cl' & G1 & _ & _ & G4).
          exists (filter_empties false m0), rl'. split; [reflexivity|].
          assert (cl' = [ncols d]) as ->.
          { destruct G4 as [G4|[G4|G4]]; [tauto|tauto|]. destruct G4 as (_ & P & _ & -> & _).
            unfold nonzero. cbn. now destruct (ncols d). }
          split; [exact G1|].
          assert (X : rl' <> [] /\ [ncols d] <> []).
          { apply (@gridded_ne _ _ _ _ _ rl [ncols d] _ _ G1 Hrn ltac:(discriminate)). destruct G4 as [G4|[G4|G4]]; tauto. }
          tauto.
        - exists f, rl. split; [reflexivity|]. split; [|assumption].
          assert (cl = [ncols d]) as <- by (apply one_len; [destruct cl; [easy|cbn in *; lia]|assumption]). exact G. }
      destruct M as (m & rl1 & -> & Gm & R1). cbn [rbind].
      now apply full_axis_one_column with (rl := rl1).
    Qed.
  End Whole.
End Ranges.
