From Verif Require Import Base Table ChunkModel ChunkSpec ChunkProofs GridModel GridSpec FrameSpec
  GridProofs GridProofs2 GridProofs3 GridProofs5 ShufSpec ShufModel ShufProofs ShufProofs2 ShufProofs3 ShufProofs4.
From Coq Require Import Permutation Sorted.

Section Pivots.
  Context {K : Type}.
  Variable quantiles : nat -> nat -> list (option K).

  Lemma prod_pos ns : Forall (fun n => 0 < n) ns -> 0 < prod ns.
  Proof. induction 1; [cbn; lia|]. apply Nat.mul_pos_pos; assumption. Qed.
  Lemma prod_app a b : prod (a ++ b) = prod a * prod b.
  Proof. unfold prod. induction a as [|x a IH]; cbn; [lia|]. rewrite IH. lia. Qed.

  Lemma pivot_fn_many nkeys ideal infos n : pivot_fn quantiles nkeys ideal = (infos, n) ->
    0 < nkeys -> 2 <= ideal -> quantiles 0 ideal <> [] -> 1 < n.
  Proof.
    intros E Hk Hi Hq. unfold pivot_fn in E. destruct nkeys as [|k]; [lia|]. cbn [seq pivot_loop] in E.
    rewrite Nat.div_1_r, andb_false_r in E. cbn [app] in E. unfold pick_pivots in E.
    destruct (Nat.ltb_spec ideal 2) as [|_]; [lia|]. apply pivot_loop_spec in E.
    - destruct E as (-> & more & -> & _). rewrite map_app, prod_app. cbn [map snd].
      assert (0 < prod (map (fun ci : @info K => S (length (snd ci))) more)).
      { apply prod_pos. apply Forall_map. apply Forall_forall. intros; lia. }
      cbn. destruct (quantiles 0 ideal); [easy|]. cbn [length]. nia.
    - cbn. lia.
  Qed.
End Pivots.

Section Ranges.
  Context {L H A K : Type}.
  Notation dframe := (df L H A).
  Notation pf := (@pframe L H A).
  Notation row := (@row L A).
  Variable leqb : L -> L -> bool.
  Variable heqb : H -> H -> bool.
  Hypothesis leqb_ok : forall x y, leqb x y = true <-> x = y.
  Hypothesis heqb_ok : forall x y, heqb x y = true <-> x = y.
  Variable kle : K -> K -> bool.
  Hypothesis kle_total : total_preorder kle.
  Variable raw_na : nat -> row -> bool.
  Variable kval : nat -> row -> option K.
  Variable numeric : nat -> bool.
  Variable quantiles : nat -> nat -> list (option K).
  Hypothesis quantiles_ok : forall i n, ascends kle (quantiles i n).
  Hypothesis quantiles_ne : forall n, 2 <= n -> quantiles 0 n <> [].

  Notation range_partitioning := (range_partitioning leqb heqb kle raw_na kval numeric quantiles).
  Notation shuffle_partitions := (shuffle_partitions leqb heqb kle raw_na kval numeric quantiles).
  Notation binned := (binned kle raw_na kval numeric).
  Notation bin := (bin kle raw_na kval numeric).
  Notation is_na := (is_na raw_na).

  (** how the rows are spread: all in one piece, or by the pivots picked *)
  Definition spread (nkeys : nat) (ascending cr na_first : bool) (d : dframe) (bins : list dframe) : Prop :=
    bins = [d] \/
    exists rl infos, bins = binned d rl infos ascending cr na_first /\ 1 < nbins infos
      /\ list_sum rl = nrows d /\ rl <> []
      /\ Forall (fun ci => fst ci < nkeys /\ ascends kle (snd ci)) infos
      /\ (exists p more, infos = (0, p) :: more /\ p <> [] /\ (nkeys = 1 -> more = [])).

  Lemma pivot_fn_first nkeys ideal infos n : pivot_fn quantiles nkeys ideal = (infos, n) ->
    0 < nkeys -> 2 <= ideal -> exists more, infos = (0, quantiles 0 ideal) :: more.
  Proof.
    intros E Hk Hi. unfold pivot_fn in E. destruct nkeys as [|k]; [lia|]. cbn [seq pivot_loop] in E.
    rewrite Nat.div_1_r, andb_false_r in E. cbn [app] in E. unfold pick_pivots in E.
    destruct (Nat.ltb_spec ideal 2) as [|_]; [lia|]. apply pivot_loop_spec in E; [|cbn; lia].
    destruct E as (_ & more & -> & _). cbn [app]. eauto.
  Qed.

  Section Frame.
    Variable d : dframe.
    Variable c' : list H.
    Variable final : dframe -> res dframe.
    Hypothesis W : wf d.
    Hypothesis final_wf : forall b out, wf b -> dcols b = dcols d -> final b = Ok out -> wf out /\ dcols out = c'.
    Variable nkeys : nat.
    Variable ascending cr na_first : bool.
    Variable min_row min_col : nat.
    Hypothesis min_row_pos : 0 < min_row.
    Hypothesis min_col_pos : 0 < min_col.
    Hypothesis nkeys_pos : 0 < nkeys.

    Definition whole_table (outs : list dframe) : dframe := of_rows c' (concat (map rows_of outs)).

    Lemma outs_wf bins outs : Forall (fun b => wf b /\ dcols b = dcols d) bins ->
      Forall2 (fun b o => final b = Ok o) bins outs -> Forall (fun o => wf o /\ dcols o = c') outs.
    Proof.
      intros F G. induction G as [|b o bins outs E G IH]; [constructor|]. inversion F as [|? ? [Wb Db] F']; subst.
      constructor; [eauto|auto].
    Qed.

    Lemma spread_wf bins : spread nkeys ascending cr na_first d bins ->
      Forall (fun b => wf b /\ dcols b = dcols d) bins.
    Proof.
      intros [-> | (rl & infos & -> & N & Hr & Hn & _)]; [repeat constructor; apply W|].
      apply binned_wf; assumption.
    Qed.

    Lemma shuffle_ok ideal rl cl g : 2 <= ideal -> rl <> [] -> cl <> [] -> list_sum rl = nrows d -> list_sum cl = ncols d ->
      shuffle_partitions min_row min_col nkeys ideal ascending cr na_first final (cut_table rl cl d) = Ok g ->
      exists bins outs, spread nkeys ascending cr na_first d bins /\ Forall2 (fun b o => final b = Ok o) bins outs
        /\ g = map (fun o => [o]) outs /\ outs <> [].
    Proof.
      intros Hi Hrn Hcn Hr Hc E. unfold ShufModel.shuffle_partitions in E.
      destruct (pivot_fn quantiles nkeys ideal) as [infos n] eqn:Ep.
      pose proof (@pivot_fn_many _ quantiles _ _ _ _ Ep nkeys_pos Hi (quantiles_ne Hi)) as Hn.
      destruct (@pivot_fn_first _ _ _ _ Ep nkeys_pos Hi) as (more & Hinf).
      destruct (@pivot_fn_spec _ quantiles _ _ _ _ Ep) as (-> & Hin & _).
      destruct (Nat.ltb_spec 1 (nbins infos)) as [_|]; [|lia].
      destruct (rmap _ (cut_table rl cl d)) as [split|] eqn:Es; cbn [rbind] in E; [|discriminate].
      destruct (@bins_applied L H A K leqb heqb leqb_ok heqb_ok kle raw_na kval numeric d rl cl W Hr Hc Hrn Hcn
                  infos ascending cr na_first Hn min_row min_row_pos final) with (split := split) (g := g) as (outs & -> & F); auto.
      { intros b out Wb Db Eb. now destruct (final_wf Wb Db Eb). }
      exists (binned d rl infos ascending cr na_first), outs. split; [|split; [exact F|split; [reflexivity|]]].
      - right. exists rl, infos. repeat split; auto.
        + eapply Forall_impl; [|exact Hin]. cbn. intros ci [? [-> | (j & ->)]]; split; auto. constructor.
        + exists (quantiles 0 ideal), more. split; [assumption|]. split; [auto|]. intros Hk.
          rewrite Hk, pivot_fn_one in Ep. injection Ep as Ep _. rewrite <- Ep in Hinf. now injection Hinf.
      - intros ->. inversion F as [E0|]. symmetry in E0. apply map_eq_nil in E0.
        assert (length (seq 0 (nbins infos)) = 0) by now rewrite E0. rewrite seq_length in *. lia.
    Qed.

    Lemma shuffle_total ideal rl cl : nkeys = 1 -> 2 <= ideal -> rl <> [] -> cl <> [] ->
      list_sum rl = nrows d -> list_sum cl = ncols d ->
      (forall b, wf b -> dcols b = dcols d -> exists out, final b = Ok out) ->
      exists g, shuffle_partitions min_row min_col nkeys ideal ascending cr na_first final (cut_table rl cl d) = Ok g.
    Proof.
      intros Hk Hi Hrn Hcn Hr Hc TOT. unfold ShufModel.shuffle_partitions. rewrite Hk, pivot_fn_one.
      assert (Hp : pick_pivots quantiles 0 ideal <> []).
      { unfold pick_pivots. destruct (Nat.ltb_spec ideal 2); [lia|]. now apply quantiles_ne. }
      set (p := pick_pivots quantiles 0 ideal) in *. set (infos := [(0, p)]).
      assert (Hw : with_pivots infos = infos) by (unfold infos, with_pivots; cbn; now destruct p).
      assert (Hn : nbins infos = S (length p)).
      { unfold nbins, sizes. rewrite Hw. unfold infos. cbn. lia. }
      assert (Hn1 : 1 < nbins infos) by (rewrite Hn; destruct p; [easy|cbn; lia]).
      rewrite <- Hn. destruct (Nat.ltb_spec 1 (nbins infos)) as [_|]; [|lia].
      destruct (@split_total L H A K leqb heqb leqb_ok kle raw_na kval numeric d rl cl W Hc Hcn
                  infos ascending cr na_first Hn1) as (split & Es); [now rewrite Hw|]. rewrite Es. cbn [rbind].
      eapply (@bins_total L H A K leqb heqb leqb_ok heqb_ok kle raw_na kval numeric d rl cl W Hr Hc Hrn Hcn
                  infos ascending cr na_first Hn1 min_row min_row_pos final); auto.
      intros b out Wb Db Eb. now destruct (final_wf Wb Db Eb).
    Qed.

    Variable nparts : nat.
    Hypothesis nparts_many : 2 <= nparts.
    Variable over preserve : bool.
    Hypothesis preserve_ok : preserve = true -> c' = dcols d.
    Variable f : pf.
    Variable rl cl : list nat.
    Hypothesis F : holds f d rl cl.
    Hypothesis rl_ne : rl <> [].
    Hypothesis cl_ne : cl <> [].
    Notation run := (range_partitioning nparts min_row min_col over nkeys ascending cr na_first preserve final f).

    Lemma finish_ok ideal rl1 f' : 2 <= ideal -> rl1 <> [] -> list_sum rl1 = nrows d ->
      (do g <- shuffle_partitions min_row min_col nkeys ideal ascending cr na_first final (cut_table rl1 cl d);
       do r <- construct (mkpf g None None None None);
       Ok (if preserve then mkpf (pgrid r) (pindex r) (pcols f) (prl r)
                   (match pcols f with Some c => Some [length c] | None => pcl r end)
           else r)) = Ok f' ->
      exists bins outs rl' cl', spread nkeys ascending cr na_first d bins
        /\ Forall2 (fun b o => final b = Ok o) bins outs
        /\ holds f' (whole_table outs) rl' cl' /\ rl' <> [] /\ cl' <> [].
    Proof.
      intros Hi Hr1 Hs E. destruct F as ((_ & _ & Hc & _) & _ & Hpc).
      destruct (shuffle_partitions _ _ _ _ _ _ _ _ _) as [g|] eqn:Eg; cbn [rbind] in E; [|discriminate].
      apply shuffle_ok in Eg; auto. destruct Eg as (bins & outs & S & F2 & -> & On).
      exists bins, outs, (map (@nrows L H A) outs), [length c']. split; [exact S|]. split; [exact F2|].
      destruct (@column_grid L H A c' outs (outs_wf (spread_wf S) F2)) as (G1 & G2 & G3).
      cbn in E. injection E as <-. split.
      - apply holds_intro.
        + exact G2.
        + exact G3.
        + unfold whole_table, ncols, of_rows. cbn. lsum. lia.
        + unfold whole_table. rewrite <- G1. now destruct preserve.
        + left. now destruct preserve.
        + destruct preserve; [|now left]. cbn [pcols]. unfold whole_table, of_rows. cbn [dcols]. rewrite preserve_ok by reflexivity. exact Hpc.
        + left. now destruct preserve.
        + destruct preserve; [|now left]. cbn [pcl]. rewrite preserve_ok by reflexivity.
          destruct Hpc as [-> | ->]; auto.
      - split; [|discriminate]. destruct outs; [easy|discriminate].
    Qed.

    Lemma finish_total ideal rl1 : nkeys = 1 -> 2 <= ideal -> rl1 <> [] -> list_sum rl1 = nrows d ->
      (forall b, wf b -> dcols b = dcols d -> exists out, final b = Ok out) -> exists f',
      (do g <- shuffle_partitions min_row min_col nkeys ideal ascending cr na_first final (cut_table rl1 cl d);
       do r <- construct (mkpf g None None None None);
       Ok (if preserve then mkpf (pgrid r) (pindex r) (pcols f) (prl r)
                   (match pcols f with Some c => Some [length c] | None => pcl r end)
           else r)) = Ok f'.
    Proof.
      intros Hk Hi Hr1 Hs TOT. destruct F as ((_ & _ & Hc & _) & _ & Hpc).
      destruct (@shuffle_total ideal rl1 cl) as (g & ->); auto. cbn. eauto.
    Qed.

    Lemma whole_result : match final d with
      | Err _ => True
      | Ok out => forall f' rl' cl', holds f' out rl' cl' -> rl' <> [] -> cl' <> [] ->
          exists bins outs rl' cl', spread nkeys ascending cr na_first d bins
            /\ Forall2 (fun b o => final b = Ok o) bins outs
            /\ holds f' (whole_table outs) rl' cl' /\ rl' <> [] /\ cl' <> []
      end.
    Proof.
      destruct (final d) as [out|] eqn:Ef; [|exact I]. intros f' rl' cl' Hh Hr Hc.
      destruct (final_wf W eq_refl Ef) as [Wo Co].
      exists [d], [out], rl', cl'. split; [now left|]. split; [repeat constructor; exact Ef|].
      split; [|auto]. unfold whole_table. cbn [map concat]. rewrite app_nil_r, <- Co. now rewrite of_rows_rows_of.
    Qed.

    Lemma range_ok : 
      (forall f', run = Ok f' -> exists bins outs rl' cl', spread nkeys ascending cr na_first d bins
        /\ Forall2 (fun b o => final b = Ok o) bins outs
        /\ holds f' (whole_table outs) rl' cl' /\ rl' <> [] /\ cl' <> [])
      /\ (nkeys = 1 -> (forall b, wf b -> dcols b = dcols d -> exists out, final b = Ok out) -> exists f', run = Ok f').
    Proof.
      pose proof whole_result as WR. destruct F as (G & Hpi & Hpc). pose proof G as (_ & Hr & Hc & Hg & _).
      assert (Hlen : length (pgrid f) = length rl) by (rewrite Hg; apply cut_table_length).
      unfold ShufModel.range_partitioning. rewrite Hlen.
      destruct (Nat.eqb_spec (length rl) 1) as [One|Many].
      - assert (Erl : rl = [nrows d]) by (apply one_len; assumption). rewrite Erl in G.
        pose proof (@full_axis_one_row L H A leqb heqb leqb_ok final d W
                      (fun out E => proj1 (final_wf W eq_refl E)) nparts min_row min_col
                      (if preserve then pcols f else None) f cl min_col_pos cl_ne G) as X.
        destruct (final d) as [out|e] eqn:Ef.
        + destruct (final_wf W eq_refl Ef) as [Wo Co].
          destruct X as (f1 & cl1 & -> & X1 & X2 & X3 & X4 & X5 & X6 & X7 & X8).
          { destruct preserve; [|now left]. rewrite Co, preserve_ok by reflexivity. exact Hpc. }
          cbn [rbind]. split; [|eauto]. intros f' E. injection E as <-.
          apply WR with (rl' := [nrows out]) (cl' := cl1); [|discriminate|assumption].
          apply holds_intro.
          * exact Wo.
          * lsum. lia.
          * exact X2.
          * now destruct preserve.
          * left. now destruct preserve.
          * destruct preserve; cbn [pcols]; [|rewrite X5; now left]. rewrite X5, Co, preserve_ok by reflexivity. exact Hpc.
          * left. now destruct preserve.
          * destruct preserve; cbn [pcl]; [|exact X7].
            rewrite X8; [apply G|]. unfold ncols. now rewrite Co, preserve_ok.
        + rewrite X. cbn. split; [discriminate|]. intros _ TOT. destruct (TOT d W eq_refl). congruence.
      - assert (Ml : 2 <= length rl) by (destruct rl; [easy|cbn in *; lia]).
        rewrite (gridded_row_lengths G cl_ne), Hr, Hg.
        set (ideal' := py_round_div (nrows d) min_row).
        destruct over.
        2:{ split.
          - intros f'. apply finish_ok; auto. lia.
          - intros Hk TOT. apply finish_total; auto. lia. }
        destruct ((nrows d <? min_row) || (ideal' <? 2)) eqn:Eb.
        + pose proof (@combine_ok L H A leqb heqb leqb_ok heqb_ok final d W
                      (fun out E => proj1 (final_wf W eq_refl E)) nparts min_row min_col f rl cl min_row_pos rl_ne cl_ne G) as X.
          destruct (final d) as [out|e] eqn:Ef.
          * destruct (final_wf W eq_refl Ef) as [Wo Co]. destruct X as (rl1 & -> & X1 & X2).
            split; [|eauto]. intros f' E. injection E as <-.
            apply WR with (rl' := rl1) (cl' := [ncols out]); [|assumption|discriminate].
            apply holds_intro; cbn; auto. lsum. lia.
          * rewrite X. split; [discriminate|]. intros _ TOT. destruct (TOT d W eq_refl). congruence.
        + apply orb_false_iff in Eb. destruct Eb as [_ Eb]. apply Nat.ltb_ge in Eb.
          destruct (Nat.ltb_spec ideal' (length rl)) as [Lt|Ge].
          * edestruct (@join_groups_ok L H A leqb heqb heqb_ok d rl cl
              (if length rl mod ideal' =? 0 then np_split_sections ideal' (cut_table rl cl d)
               else np_split_steps (py_round_div (length rl) ideal') (cut_table rl cl d)))
              as (rl1 & -> & J2 & J3); auto.
            { destruct (Nat.eqb_spec (length rl mod ideal') 0).
              - apply sections_grouping; rewrite ?cut_table_length; lia.
              - apply steps_grouping. apply round_div_pos; lia. }
            cbn [rbind]. split.
            -- intros f'. now apply finish_ok.
            -- intros Hk TOT. now apply finish_total.
          * split.
            -- intros f'. now apply finish_ok.
            -- intros Hk TOT. now apply finish_total.
    Qed.
  End Frame.
End Ranges.
