From Verif Require Import Base Table ChunkModel ChunkSpec ChunkProofs GridModel GridSpec FrameSpec
  GridProofs GridProofs2 GridProofs3 GridProofs5 ShufSpec ShufModel ShufProofs ShufProofs2.
From Coq Require Import Permutation Sorted.

Lemma map_slice_bounds {X} (l : list X) lens a :
  map (fun iv => slice l (fst iv) (snd iv)) (bounds a lens) = cut lens (skipn a l).
Proof.
  revert a. induction lens as [|n lens IH]; intros a; [reflexivity|]. cbn [bounds map cut fst snd]. f_equal.
  - unfold slice. f_equal. lia.
  - rewrite IH, skipn_skipn'. reflexivity.
Qed.

Lemma rmap_inv {X Y} (f : X -> res Y) l ys : rmap f l = Ok ys -> Forall2 (fun x y => f x = Ok y) l ys.
Proof.
  revert ys. induction l as [|x l IH]; cbn; intros ys E.
  - injection E as <-. constructor.
  - destruct (f x) eqn:Ex; cbn in E; [|discriminate]. destruct (rmap f l) eqn:El; cbn in E; [|discriminate].
    injection E as <-. constructor; auto.
Qed.
Lemma rmap_all {X Y} (f : X -> res Y) l : (forall x, In x l -> exists y, f x = Ok y) -> exists ys, rmap f l = Ok ys.
Proof.
  induction l as [|x l IH]; cbn; intros E; [eauto|]. destruct (E x) as (y & ->); [auto|].
  destruct IH as (ys & ->); [auto|]. cbn. eauto.
Qed.
Lemma forall2_map_l {X Y Z} (P : Y -> Z -> Prop) (h : X -> Y) l zs :
  Forall2 P (map h l) zs <-> Forall2 (fun x z => P (h x) z) l zs.
Proof.
  split.
  - revert zs. induction l as [|x l IH]; cbn; intros zs F; inversion F; subst; constructor; auto.
  - induction 1; cbn; constructor; auto.
Qed.

(* ---------------- frames with one column of blocks ---------------- *)
Section Columns.
  Context {L H A : Type}.
  Notation dframe := (df L H A).

  Lemma iloc_rows_of_rows (c : list H) (rs : list (@row L A)) a b : iloc_rows (of_rows c rs) a b = of_rows c (slice rs a b).
  Proof. unfold iloc_rows, of_rows. cbn. now rewrite !slice_map. Qed.

  Lemma column_grid (c : list H) (outs : list dframe) : Forall (fun o => wf o /\ dcols o = c) outs ->
    let D := of_rows c (concat (map rows_of outs)) in
    map (fun o => [o]) outs = cut_table (map (@nrows L H A) outs) [length c] D /\ wf D
    /\ list_sum (map (@nrows L H A) outs) = nrows D.
  Proof.
    intros F D.
    assert (WD : wf D).
    { apply wf_of_rows. apply Forall_concat. apply Forall_map. eapply Forall_impl; [|exact F].
      cbn. intros o [W <-]. now apply rows_of_forall. }
    assert (LEN : map (@nrows L H A) outs = map (@length _) (map (@rows_of L H A) outs)).
    { rewrite map_map. apply map_ext_in. intros o Ho. rewrite Forall_forall in F. destruct (F o Ho) as [W _].
      now rewrite rows_of_length. }
    split; [|split; [exact WD|]].
    - unfold cut_table. cbn [bounds map Nat.add]. change (length c) with (ncols D).
      rewrite (map_ext _ (fun ri => [of_rows c (slice (concat (map rows_of outs)) (fst ri) (snd ri))])).
      + rewrite <- (map_map (fun ri => slice (concat (map rows_of outs)) (fst ri) (snd ri)) (fun rs => [of_rows c rs])).
        rewrite map_slice_bounds, LEN. cbn [skipn]. rewrite cut_concat, map_map.
        apply map_ext_in. intros o Ho. rewrite Forall_forall in F. destruct (F o Ho) as [W <-].
        now rewrite of_rows_rows_of.
      + intros ri. rewrite block_cols_full by assumption. unfold D. now rewrite iloc_rows_of_rows.
    - rewrite LEN. unfold D, nrows, of_rows. cbn [dindex]. now rewrite map_length, map_length_concat.
  Qed.

  Lemma construct_plain (g : list (list dframe)) : construct (mkpf g None None None None) = Ok (mkpf g None None None None).
  Proof. reflexivity. Qed.
End Columns.

Section Shuffle.
  Context {L H A K : Type}.
  Notation dframe := (df L H A).
  Notation pf := (@pframe L H A).
  Notation row := (@row L A).
  Variable leqb : L -> L -> bool.
  Variable heqb : H -> H -> bool.
  Hypothesis leqb_ok : forall x y, leqb x y = true <-> x = y.
  Hypothesis heqb_ok : forall x y, heqb x y = true <-> x = y.
  Variable kle : K -> K -> bool.
  Hypothesis kle_total : total_preorder kle.
  Variable raw_na : nat -> row -> bool.
  Variable kval : nat -> row -> option K.
  Variable numeric : nat -> bool.
  Variable quantiles : nat -> nat -> list (option K).
  Hypothesis quantiles_ok : forall i n, ascends kle (quantiles i n).

  Notation split_rows := (split_rows kle raw_na kval numeric).
  Notation split_partition := (split_partition leqb heqb kle raw_na kval numeric).
  Notation bin := (bin kle raw_na kval numeric).
  Notation is_na := (is_na raw_na).

  (* ---------------- one table, cut anyhow ---------------- *)
  Section Table.
    Variable d : dframe.
    Variable rl cl : list nat.
    Hypothesis W : wf d.
    Hypothesis sum_rl : list_sum rl = nrows d.
    Hypothesis sum_cl : list_sum cl = ncols d.
    Hypothesis rl_ne : rl <> [].
    Hypothesis cl_ne : cl <> [].

    Definition parts : list (list row) := map (fun ri => rows_of (iloc_rows d (fst ri) (snd ri))) (bounds 0 rl).
    Lemma concat_parts : concat parts = rows_of d.
    Proof. apply concat_rows_iloc; assumption. Qed.

    Lemma row_of_blocks ri : concat_axis leqb heqb true (map (fun ci => block d ri ci) (bounds 0 cl))
      = Ok (iloc_rows d (fst ri) (snd ri)).
    Proof.
      rewrite concat_cols_blocks_bounds by assumption. cbn [Nat.add]. rewrite sum_cl. now rewrite block_cols_full.
    Qed.

    Section Infos.
      Variable infos : list (@info K).
      Variable ascending cr na_first : bool.
      Hypothesis many : 1 < nbins infos.
      Notation B := (bin infos ascending cr na_first).
      Notation N := (is_na infos).
      Notation n := (nbins infos).

      Lemma split_all split : rmap (split_partition infos ascending cr na_first) (cut_table rl cl d) = Ok split ->
        split = map (fun p => map (fun k => of_rows (dcols d) (share B N k p)) (seq 0 n)) parts.
      Proof.
        intros E. apply rmap_inv in E. unfold cut_table, parts in *. rewrite forall2_map_l in E. rewrite map_map.
        clear rl_ne sum_rl. induction E as [|ri g ris gs E _ IH]; cbn [map]; [reflexivity|]. rewrite <- IH. f_equal.
        unfold ShufModel.split_partition in E. rewrite row_of_blocks in E. cbn [rbind] in E.
        destruct (split_rows infos ascending cr na_first (rows_of (iloc_rows d (fst ri) (snd ri)))) eqn:S;
          cbn [rbind] in E; [|discriminate].
        injection E as <-. apply split_rows_ok in S; [|assumption]. subst. now rewrite map_map.
      Qed.

      Lemma split_total : length (with_pivots infos) = 1 ->
        exists split, rmap (split_partition infos ascending cr na_first) (cut_table rl cl d) = Ok split.
      Proof.
        intros Hone. apply rmap_all. intros g Hg. unfold cut_table in Hg. apply in_map_iff in Hg.
        destruct Hg as (ri & <- & _). unfold ShufModel.split_partition. rewrite row_of_blocks. cbn [rbind].
        edestruct (@split_rows_single L A K kle raw_na kval numeric infos ascending cr na_first) as (gs & ->);
          [assumption|assumption|]. cbn. eauto.
      Qed.

      Definition binned : list dframe := map (fun k => of_rows (dcols d) (whole B N parts k)) (seq 0 n).

      Lemma part_rows p : In p parts -> Forall (fun r => length (snd r) = length (dcols d)) p.
      Proof.
        unfold parts. intros Hp. apply in_map_iff in Hp. destruct Hp as (ri & <- & _).
        apply (@rows_of_forall L H A (iloc_rows d (fst ri) (snd ri))). now apply wf_iloc_rows.
      Qed.
      Lemma share_rows k p : In p parts -> Forall (fun r : row => length (snd r) = length (dcols d)) (share B N k p).
      Proof.
        intros Hp. apply part_rows in Hp. rewrite Forall_forall in *. intros r Hr. apply Hp.
        unfold share in Hr. apply in_app_iff in Hr. rewrite !filter_In in Hr. tauto.
      Qed.
      Lemma whole_rows k : Forall (fun r : row => length (snd r) = length (dcols d)) (whole B N parts k).
      Proof.
        unfold whole. apply Forall_concat. apply Forall_map. apply Forall_forall. intros p Hp. now apply share_rows.
      Qed.

      Lemma parts_ne : parts <> [].
      Proof. unfold parts. destruct rl; [easy|]. discriminate. Qed.

      Lemma join_bin k :
        concat_axis leqb heqb false (map (fun p => of_rows (dcols d) (share B N k p)) parts)
        = Ok (of_rows (dcols d) (whole B N parts k)).
      Proof.
        unfold concat_axis. pose proof parts_ne as NE.
        destruct (map (fun p => of_rows (dcols d) (share B N k p)) parts) as [|x xs] eqn:E.
        { destruct parts; [easy|discriminate]. }
        rewrite <- E. clear x xs E.
        rewrite (@concatenate_rows_of L H A heqb heqb_ok (dcols d)).
        - f_equal. f_equal. unfold whole. rewrite map_map. f_equal. apply map_ext. intros p. now rewrite rows_of_of_rows.
        - destruct parts; [easy|discriminate].
        - apply Forall_map. apply Forall_forall. intros p Hp. split; [|reflexivity]. apply wf_of_rows. now apply share_rows.
      Qed.

      Lemma binned_wf : Forall (fun b => wf b /\ dcols b = dcols d) binned.
      Proof.
        unfold binned. apply Forall_map. apply Forall_forall. intros k _. split; [|reflexivity].
        apply wf_of_rows, whole_rows.
      Qed.

      Lemma binned_rows : map rows_of binned = map (whole B N parts) (seq 0 n).
      Proof. unfold binned. rewrite map_map. apply map_ext. intros. apply rows_of_of_rows. Qed.

      Lemma binned_gathers (same_key : row -> row -> bool) :
        (forall r s, same_key r s = true -> B s = B r /\ N s = N r) -> gathers same_key d binned.
      Proof.
        intros SK. split; [exact binned_wf|]. split; [|split].
        - rewrite binned_rows, <- concat_parts. apply whole_perm. intros; now apply bin_lt.
        - intros b r Hb Hr. unfold binned in Hb. apply in_map_iff in Hb. destruct Hb as (k & <- & Hk).
          rewrite rows_of_of_rows in *. rewrite (@whole_filter row B N n) with (x := r).
          + apply in_whole in Hr. rewrite Hr, Nat.eqb_refl. now rewrite concat_parts.
          + intros; now apply bin_lt.
          + intros s Hs. now apply SK.
        - intros i j bi bj r s Hi Hj Hr Hs E. unfold binned in *.
          assert (F : forall i bi r, nth_error (map (fun k => of_rows (dcols d) (whole B N parts k)) (seq 0 n)) i = Some bi ->
                      In r (rows_of bi) -> B r = i).
          { clear. intros i bi r Hi Hr. rewrite nth_error_map in Hi.
            destruct (nth_error (seq 0 n) i) as [k|] eqn:Ek; [|discriminate]. cbn in Hi. injection Hi as <-.
            rewrite rows_of_of_rows in Hr. apply in_whole in Hr. subst k.
            assert (i < n) by (rewrite <- (seq_length n 0); apply nth_error_Some; congruence).
            apply (nth_error_nth _ _ 0) in Ek. rewrite seq_nth in Ek by assumption. lia. }
          rewrite <- (F i bi r Hi Hr), <- (F j bj s Hj Hs). now destruct (SK r s E).
      Qed.

      Variable min_row : nat.
      Hypothesis min_row_pos : 0 < min_row.
      Variable final : dframe -> res dframe.
      Hypothesis final_wf : forall b out, wf b -> dcols b = dcols d -> final b = Ok out -> wf out.

      Lemma bins_applied split g :
        rmap (split_partition infos ascending cr na_first) (cut_table rl cl d) = Ok split ->
        rmap (fun col => do o <- apply_joined leqb heqb min_row final col; Ok [o]) (transp n split) = Ok g ->
        exists outs, g = map (fun o => [o]) outs /\ Forall2 (fun b o => final b = Ok o) binned outs.
      Proof.
        intros E1 E2. apply split_all in E1. subst split.
        assert (T := @transp_fun (list row) nat dframe (fun p k => of_rows (dcols d) (share B N k p)) parts (seq 0 n)).
        rewrite seq_length in T. rewrite T in E2. clear T.
        apply rmap_inv in E2. rewrite forall2_map_l in E2. unfold binned. setoid_rewrite forall2_map_l.
        induction E2 as [|k o ks os E _ IH]; [exists []; split; constructor|].
        destruct IH as (outs & -> & F).
        rewrite (@apply_joined_ok L H A leqb heqb min_row final _ _ (join_bin k)) in E; [|
          intros out; apply final_wf; [apply wf_of_rows, whole_rows|reflexivity]|assumption].
        destruct (final _) as [out|] eqn:Ef in E; cbn in E; [|discriminate]. injection E as <-.
        exists (out :: outs). split; [reflexivity|]. constructor; assumption.
      Qed.

      Lemma bins_total split :
        rmap (split_partition infos ascending cr na_first) (cut_table rl cl d) = Ok split ->
        (forall b, wf b -> dcols b = dcols d -> exists out, final b = Ok out) ->
        exists g, rmap (fun col => do o <- apply_joined leqb heqb min_row final col; Ok [o]) (transp n split) = Ok g.
      Proof.
        intros E1 TOT. apply split_all in E1. subst split.
        assert (T := @transp_fun (list row) nat dframe (fun p k => of_rows (dcols d) (share B N k p)) parts (seq 0 n)).
        rewrite seq_length in T. rewrite T. clear T.
        apply rmap_all. intros col Hc. apply in_map_iff in Hc. destruct Hc as (k & <- & _).
        rewrite (@apply_joined_ok L H A leqb heqb min_row final _ _ (join_bin k)); [|
          intros out; apply final_wf; [apply wf_of_rows, whole_rows|reflexivity]|assumption].
        destruct (TOT (of_rows (dcols d) (whole B N parts k))) as (out & ->);
          [apply wf_of_rows, whole_rows|reflexivity|]. cbn. eauto.
      Qed.
    End Infos.
  End Table.
End Shuffle.
