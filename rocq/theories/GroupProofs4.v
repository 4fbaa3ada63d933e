(** From mapped blocks to the grid of the result. *)
From Verif Require Import Base Table ChunkModel ChunkSpec ChunkProofs GridSpec FrameSpec GridModel GridProofs SelModel GroupSpec GroupModel GroupProofs GroupProofs2 GroupProofs3.
Open Scope nat_scope.

Lemma map2_self_map {X Y Z} (f : X -> Y -> Z) (g : X -> Y) l : map2 f l (map g l) = map (fun x => f x (g x)) l.
Proof. induction l as [|x l IH]; cbn; auto. rewrite map2_cons. now rewrite IH. Qed.

Section Assemble.
  Context {L H A : Type}.
  Notation dframe := (df L H A).
  Notation key := (list A).
  Variable heqb : H -> H -> bool.
  Hypothesis heqb_ok : forall x y, heqb x y = true <-> x = y.
  Variable aeqb : A -> A -> bool.
  Hypothesis aeqb_ok : forall x y, aeqb x y = true <-> x = y.
  Variable na : A -> bool.
  Variable nan : A.
  Variable kle : key -> key -> bool.
  Hypothesis kle_total : forall x y, kle x y = true \/ kle y x = true.
  Hypothesis kle_trans : forall x y z, kle x y = true -> kle y z = true -> kle x z = true.
  Hypothesis kle_anti : forall x y, kle x y = true -> kle y x = true -> x = y.
  Notation keqb := (keqb aeqb).
  Notation keys_of := (keys_of aeqb na kle).
  Notation pick := (pick aeqb).
  Notation grouped_map := (grouped_map aeqb na kle).
  Notation groupby := (groupby aeqb na kle).
  Notation pair_eqb := (pair_eqb heqb).
  Notation reduce_part := (reduce_part heqb aeqb na kle).

  Lemma pair_eqb_ok x y : pair_eqb x y = true <-> x = y.
  Proof. unfold pair_eqb, GroupModel.pair_eqb. rewrite andb_true_iff, Nat.eqb_eq, heqb_ok. destruct x, y; cbn.
    split; [intros [-> ->]; auto|intros [= -> ->]; auto]. Qed.

  Variable im : impl (A:=A).
  Variable agg : list A -> A.
  Hypothesis law : impl_law im agg.
  Variables sort dropna : bool.

  (** one column of blocks *)
  Section Pieces.
    Context {P : Type}.
    Variable ps : list P.
    Variable fk : P -> list key.
    Variable fi : P -> list L.
    Variable fr : P -> list (list A).
    Variable cols : list H.
    Hypothesis ne : ps <> [].
    Hypothesis lens : forall p, In p ps -> length (fk p) = length (fr p).
    Hypothesis widths : forall p, In p ps -> Forall (fun r => length r = length cols) (fr p).

    Lemma concat_pieces :
      concat_axis keqb pair_eqb false
        (map (fun p => grouped_map im sort dropna (fk p) (mkdf (fi p) cols (fr p))) ps)
      = Ok (mkdf (concat (map (fun p => keys_of sort dropna (fk p)) ps))
                 (list_prod (itags im) cols)
                 (concat (map (fun p => map (row_of aeqb im fk fr (length cols) p) (keys_of sort dropna (fk p))) ps))).
    Proof.
      unfold concat_axis. set (l := map _ ps). assert (El : l = map (fun p => grouped_map im sort dropna (fk p) (mkdf (fi p) cols (fr p))) ps) by reflexivity.
      clearbody l. destruct l as [|b0 bs] eqn:E0; [destruct ps; easy|].
      unfold concatenate.
      assert (Ec : dcols b0 = list_prod (itags im) cols) by (destruct ps; [easy|]; injection El as -> _; reflexivity).
      replace (forallb _ _) with true.
      2:{ symmetry. apply forallb_forall. intros e He. rewrite El in He. apply in_map_iff in He as (p & <- & _).
          rewrite Ec. apply list_eqb_refl. apply pair_eqb_ok. }
      f_equal. rewrite El, !map_map, Ec. reflexivity.
    Qed.

    Lemma reduce_pieces as_index size drop names j idx :
      (iplain im = true \/ keys_of sort dropna (concat (map fk ps)) <> []) ->
      reduce_part im sort dropna as_index size drop names j
        (mkdf (concat (map (fun p => keys_of sort dropna (fk p)) ps))
              (list_prod (itags im) cols)
              (concat (map (fun p => map (row_of aeqb im fk fr (length cols) p) (keys_of sort dropna (fk p))) ps)))
      = Ok (let g := groupby agg sort dropna (concat (map fk ps)) (mkdf (L:=L) idx cols (concat (map fr ps))) in
            if as_index then keyed g else handle_as_index heqb size drop names j g).
    Proof.
      intros Hne. unfold reduce_part, GroupModel.reduce_part. cbn [dindex dcols dcells].
      assert (Ek : keys_of sort dropna (concat (map (fun p => keys_of sort dropna (fk p)) ps)) = keys_of sort dropna (concat (map fk ps))).
      { rewrite <- map_map. now apply keys_of_concat. }
      rewrite Ek.
      replace (map (fun k => map (ired im) _) (keys_of sort dropna (concat (map fk ps))))
        with (map (fun k => map (sum_at aeqb nan im ps fk fr k) (list_prod (itags im) (seq 0 (length cols))))
                  (keys_of sort dropna (concat (map fk ps)))).
      2:{ apply map_ext_in. intros k Hk. rewrite <- (@sums_row A aeqb aeqb_ok na nan kle P im sort dropna ps fk fr (length cols) widths k Hk).
          unfold ncols. cbn [dcols]. rewrite !prod_length, seq_length. reflexivity. }
      rewrite (@finish_ok L H A heqb heqb_ok aeqb aeqb_ok na nan kle P im agg law sort dropna ps fk fr (length cols) lens widths cols idx eq_refl Hne).
      cbn [rbind]. unfold keyed. destruct as_index; reflexivity.
    Qed.
  End Pieces.

  (** all columns of blocks *)
  Section Columns.
    Variable d : dframe.
    Variables rl cl : list nat.
    Variable KS : list key.
    Variable Pr : H -> bool.
    Hypothesis W : wf d.
    Hypothesis rl_ne : rl <> [].
    Hypothesis cl_ne : cl <> [].
    Hypothesis rl_sum : list_sum rl = nrows d.
    Hypothesis cl_sum : list_sum cl = ncols d.
    Hypothesis KS_len : length KS = nrows d.
    Let out := keys_of sort dropna KS.
    Hypothesis some_key : iplain im = true \/ out <> [].

    Definition aggs (k : key) : list A := map agg (transp (ncols d) (pick k KS (dcells d))).

    Lemma rows_len : Forall (fun r => length r = ncols d) (dcells d).
    Proof. exact (proj2 W). Qed.
    Lemma picked_len k : Forall (fun r => length r = ncols d) (pick k KS (dcells d)).
    Proof. apply Forall_forall. intros r Hr. apply pick_in in Hr. pose proof rows_len as F. rewrite Forall_forall in F. auto. Qed.
    Lemma aggs_len k : length (aggs k) = ncols d.
    Proof. unfold aggs. rewrite map_length. apply transp_length. apply picked_len. Qed.

    Definition part_of (ci : nat * nat) : part (K:=key) (H:=H) (A:=A) :=
      (filter Pr (slice (dcols d) (fst ci) (snd ci)),
       fun k => keepl Pr (slice (dcols d) (fst ci) (snd ci)) (slice (aggs k) (fst ci) (snd ci))).
    Definition fr_of (ci ri : nat * nat) : list (list A) :=
      map (keepl Pr (slice (dcols d) (fst ci) (snd ci)))
          (map (fun r => slice r (fst ci) (snd ci)) (slice (dcells d) (fst ri) (snd ri))).

    Lemma block_group ci idx :
      groupby agg sort dropna KS
        (mkdf (L:=L) idx (filter Pr (slice (dcols d) (fst ci) (snd ci)))
              (map (keepl Pr (slice (dcols d) (fst ci) (snd ci))) (map (fun r => slice r (fst ci) (snd ci)) (dcells d))))
      = table out out (part_of ci).
    Proof.
      unfold groupby, GroupSpec.groupby, table, part_of. cbn [dindex dcols dcells fst snd]. fold out. f_equal.
      apply map_ext_in. intros k Hk. unfold ncols at 1. cbn [dcols]. rewrite !(pick_map aeqb).
      assert (E : Forall (fun r => length r = length (slice (dcols d) (fst ci) (snd ci)))
                (map (fun r => slice r (fst ci) (snd ci)) (pick k KS (dcells d)))).
      { apply Forall_map. eapply Forall_impl; [|apply picked_len]. cbn. intros r Hr. now rewrite !slice_length, Hr. }
      rewrite (transp_keep Pr _ E), <- keepl_mapr. f_equal. rewrite slice_length.
      change (length (dcols d)) with (ncols d).
      replace (Nat.min (snd ci - fst ci) (ncols d - fst ci)) with (Nat.min (snd ci - fst ci) (ncols d - fst ci)) by reflexivity.
      rewrite transp_map_slice. unfold aggs. now rewrite slice_map.
    Qed.

    Lemma keys_concat : concat (map (fun ri => slice KS (fst ri) (snd ri)) (bounds 0 rl)) = KS.
    Proof. rewrite concat_bounds. cbn [Nat.add]. apply slice_full. lia. Qed.
    Lemma rows_concat ci : concat (map (fr_of ci) (bounds 0 rl))
      = map (keepl Pr (slice (dcols d) (fst ci) (snd ci))) (map (fun r => slice r (fst ci) (snd ci)) (dcells d)).
    Proof. rewrite <- (concat_bounds (dcells d)) with (acc := 0) (lens := rl) at 1 || idtac.
      transitivity (map (keepl Pr (slice (dcols d) (fst ci) (snd ci))) (map (fun r => slice r (fst ci) (snd ci))
         (concat (map (fun ri => slice (dcells d) (fst ri) (snd ri)) (bounds 0 rl))))).
      - rewrite !concat_map, !map_map. reflexivity.
      - do 2 f_equal. rewrite concat_bounds. cbn [Nat.add]. apply slice_full. rewrite rl_sum. destruct W as [W1 _].
        unfold nrows. lia. Qed.

    Variables as_index size drop : bool.
    Variable names : list H.
    Hypothesis size_one : as_index = false -> size = true -> length cl = 1.
    Hypothesis names_out : as_index = false -> size = false -> drop = true -> forall h, In h names -> Pr h = false.
    Hypothesis keys_names : as_index = false -> size || drop = true -> Forall (fun k => length k = length names) KS.

    Definition given (j : nat) : bool := negb as_index && (size || ((j =? 0) && drop)).
    Definition final_part (jc : nat * (nat * nat)) : part (K:=key) (H:=H) (A:=A) :=
      ((if given (fst jc) then names else []) ++ fst (part_of (snd jc)),
       fun k => (if given (fst jc) then k else []) ++ snd (part_of (snd jc)) k).
    Definition labels : list (rlabel A) := if as_index then map Key out else map Pos (seq 0 (length out)).

    Lemma out_in k : In k out -> In k KS.
    Proof. intros Hk. now apply keys_of_in in Hk. Qed.

    Lemma keepl_all {X Y} (p : X -> bool) (c : list X) (l : list Y) : (forall h, In h c -> p h = true) -> length c = length l ->
      keepl p c l = l.
    Proof. unfold keepl. revert l. induction c as [|x c IH]; intros [|y l] E El; try discriminate; cbn; auto.
      rewrite E by now left. cbn. rewrite IH; auto. intros; apply E; now right. Qed.

    Lemma finalize_ok jc :
      (let g := table out out (part_of (snd jc)) in
       if as_index then keyed g else handle_as_index heqb size drop names (fst jc) g)
      = table labels out (final_part jc).
    Proof.
      destruct jc as [j ci]. cbn [fst snd]. unfold labels, final_part, given. cbn [fst snd]. unfold table.
      destruct as_index eqn:Ea.
      - cbn. reflexivity.
      - unfold handle_as_index. cbn [dindex dcols dcells negb andb]. unfold nrows. cbn [dindex].
        destruct size eqn:Es; cbn [orb].
        + f_equal. apply map2_self_map.
        + destruct (j =? 0) eqn:Ej; cbn [negb orb andb]; [|reflexivity].
          destruct drop eqn:Ed; cbn [negb]; [|reflexivity].
          assert (Ins : forall h, In h names -> negb (inb heqb h (fst (part_of ci))) = true).
          { intros h Hh. apply negb_true_iff. apply not_true_iff_false. intros E. unfold inb in E.
            apply existsb_exists in E as (x & Hx & E). apply heqb_ok in E. subst x.
            unfold part_of in Hx. cbn in Hx. apply filter_In in Hx as [_ Hx]. rewrite names_out in Hx; auto. discriminate. }
          rewrite filter_all by exact Ins. f_equal. rewrite map2_self_map. apply map_ext_in. intros k Hk.
          rewrite keepl_all; auto. specialize (keys_names eq_refl eq_refl). rewrite Forall_forall in keys_names.
          symmetry. apply keys_names. now apply out_in.
    Qed.

    Lemma part_fits ci : fits out (part_of ci).
    Proof. intros k Hk. unfold part_of. cbn [fst snd]. apply keepl_length. rewrite !slice_length, aggs_len. reflexivity. Qed.
    Lemma final_fits jc : fits out (final_part jc).
    Proof. intros k Hk. unfold final_part. cbn [fst snd]. rewrite !app_length, (part_fits (snd jc) k Hk). f_equal.
      destruct (given (fst jc)) eqn:E; auto.
      assert (E2 : as_index = false /\ size || drop = true).
      { unfold given in E. destruct as_index, size, drop, (fst jc =? 0); cbn in *; auto. }
      destruct E2 as [E1 E2]. specialize (keys_names E1 E2). rewrite Forall_forall in keys_names. apply keys_names. now apply out_in. Qed.

    Definition jcs := combine (seq 0 (length cl)) (bounds 0 cl).

    Lemma whole_group : groupby agg sort dropna KS (keep_cols Pr d) = table out out (filter Pr (dcols d), fun k => keepl Pr (dcols d) (aggs k)).
    Proof.
      unfold groupby, GroupSpec.groupby, table, keep_cols. cbn [dindex dcols dcells fst snd]. fold out. f_equal.
      apply map_ext_in. intros k Hk. unfold ncols at 1. cbn [dcols]. rewrite !(pick_map aeqb).
      rewrite (transp_keep Pr _ (picked_len k)), <- keepl_mapr. reflexivity.
    Qed.

    Lemma hcat_final :
      table labels out (hcat (map final_part jcs))
      = let g := groupby agg sort dropna KS (keep_cols Pr d) in
        if as_index then keyed g else numbered (if size || drop then names else []) g.
    Proof.
      rewrite whole_group.
      set (some := negb as_index && (size || drop)).
      assert (E : exists pre prek, hcat (map final_part jcs) = (pre ++ filter Pr (dcols d), prek) /\
        pre = (if some then names else []) /\
        (forall k, prek k = (if some then k else []) ++ keepl Pr (dcols d) (aggs k))).
      { exists (if some then names else []), (snd (hcat (map final_part jcs))).
        assert (G : exists c0 cs, jcs = (0, c0) :: cs /\ (forall jc, In jc cs -> fst jc <> 0) /\ bounds 0 cl = c0 :: map snd cs /\ (length cl = 1 -> cs = [])).
        { unfold jcs. destruct cl as [|c cl']; [easy|]. cbn [length seq bounds combine].
          eexists _, _. split; [reflexivity|]. split; [|split].
          - intros (j & c') Hjc. apply in_combine_l in Hjc. cbn. apply in_seq in Hjc. lia.
          - f_equal. generalize (0 + c). clear. generalize 1. induction cl' as [|n ns IH]; intros a b; cbn; auto. f_equal. apply IH.
          - cbn. destruct cl'; [reflexivity|discriminate]. }
        destruct G as (c0 & cs & Ej & Hcs & Eb & E1).
        assert (Hrest : forall jc, In jc cs -> given (fst jc) = false).
        { intros jc Hjc. unfold given. destruct as_index eqn:Ea; auto. cbn [negb andb].
          destruct size eqn:Es; [rewrite (E1 (size_one eq_refl eq_refl)) in Hjc; easy|].
          cbn [orb]. apply Hcs in Hjc. apply Nat.eqb_neq in Hjc. now rewrite Hjc. }
        assert (H0 : given 0 = some) by (unfold given, some; cbn; reflexivity).
        assert (Hh : map fst (map final_part cs) = map (fun ci => filter Pr (slice (dcols d) (fst ci) (snd ci))) (map snd cs)).
        { rewrite !map_map. apply map_ext_in. intros jc Hjc. unfold final_part. cbn [fst]. now rewrite (Hrest jc Hjc). }
        assert (Hk : forall k, map (fun f => snd f k) (map final_part cs)
          = map (fun ci => keepl Pr (slice (dcols d) (fst ci) (snd ci)) (slice (aggs k) (fst ci) (snd ci))) (map snd cs)).
        { intros k. rewrite !map_map. apply map_ext_in. intros jc Hjc. unfold final_part. cbn [fst snd]. now rewrite (Hrest jc Hjc). }
        split; [|split; [reflexivity|]].
        - unfold hcat. cbn [snd]. f_equal. rewrite Ej. cbn [map concat]. unfold final_part at 1. cbn [fst snd].
          rewrite H0, Hh, <- app_assoc. f_equal.
          rewrite <- (concat_filter_bounds Pr (dcols d) cl cl_sum), Eb. reflexivity.
        - intros k. unfold hcat. cbn [snd]. rewrite Ej. cbn [map concat]. unfold final_part at 1. cbn [fst snd].
          rewrite H0, Hk, <- app_assoc. f_equal.
          rewrite <- (concat_keepl_bounds Pr (dcols d) (aggs k)) with (lens := cl); [|now rewrite aggs_len|exact cl_sum].
          rewrite Eb. reflexivity. }
      destruct E as (pre & prek & -> & -> & Hk). unfold table. cbn [fst snd].
      unfold labels, some in *. destruct as_index eqn:Ea; cbn [negb andb] in *.
      - unfold keyed. cbn [dindex dcols dcells app]. f_equal. apply map_ext. exact Hk.
      - unfold numbered, nrows. cbn [dindex dcols dcells]. f_equal. rewrite map2_self_map. apply map_ext_in. intros k Hin.
        rewrite Hk. destruct (size || drop) eqn:Esd; [|reflexivity]. destruct names as [|n ns] eqn:En; [|reflexivity].
        specialize (keys_names eq_refl eq_refl). rewrite Forall_forall in keys_names. specialize (keys_names k (out_in k Hin)).
        destruct k; [reflexivity|discriminate].
    Qed.

    Lemma deploy_column nsplits m jc : 0 < nsplits -> 0 < m ->
      deploy_axis_func keqb pair_eqb false (reduce_part im sort dropna as_index size drop names (fst jc)) nsplits false
        (map (fun ri => grouped_map im sort dropna (slice KS (fst ri) (snd ri)) (keep_cols Pr (block d ri (snd jc)))) (bounds 0 rl))
        m None false
      = Ok (map (fun iv => iloc_rows (table labels out (final_part jc)) (fst iv) (snd iv))
                (bounds 0 (eff_lens (length out) nsplits m None))).
    Proof.
      intros Hn Hm. unfold deploy_axis_func.
      assert (Ne : bounds 0 rl <> []) by (intros E; now apply bounds_nil_iff in E).
      change (map (fun ri => grouped_map im sort dropna (slice KS (fst ri) (snd ri)) (keep_cols Pr (block d ri (snd jc)))) (bounds 0 rl))
        with (map (fun ri => grouped_map im sort dropna (slice KS (fst ri) (snd ri))
                     (mkdf (slice (dindex d) (fst ri) (snd ri)) (filter Pr (slice (dcols d) (fst (snd jc)) (snd (snd jc)))) (fr_of (snd jc) ri))) (bounds 0 rl)).
      assert (Lens : forall ri, In ri (bounds 0 rl) -> length (slice KS (fst ri) (snd ri)) = length (fr_of (snd jc) ri)).
      { intros ri _. unfold fr_of. rewrite !map_length, !slice_length. destruct W as [W1 _]. unfold nrows in *. now rewrite W1, KS_len. }
      assert (Wid : forall ri, In ri (bounds 0 rl) -> Forall (fun r => length r = length (filter Pr (slice (dcols d) (fst (snd jc)) (snd (snd jc))))) (fr_of (snd jc) ri)).
      { intros ri _. unfold fr_of. rewrite map_map. apply Forall_map. apply Forall_slice. eapply Forall_impl; [|exact rows_len].
        cbn. intros r Hr. apply keepl_length. rewrite !slice_length. now rewrite Hr. }
      rewrite (@concat_pieces (nat * nat) (bounds 0 rl) (fun ri => slice KS (fst ri) (snd ri)) (fun ri => slice (dindex d) (fst ri) (snd ri)) (fr_of (snd jc)) _ Ne) by assumption.
      cbn [rbind].
      rewrite (@reduce_pieces (nat * nat) (bounds 0 rl) (fun ri => slice KS (fst ri) (snd ri)) (fr_of (snd jc)) _ Lens Wid as_index size drop names (fst jc) (dindex d))
        by (rewrite keys_concat; exact some_key).
      cbn [rbind]. rewrite keys_concat, rows_concat, block_group.
      pose proof (finalize_ok jc) as Ef. cbv zeta in Ef. rewrite Ef. clear Ef.
      assert (Wt : wf (table labels out (final_part jc))).
      { split; cbn [dindex dcols dcells table].
        - rewrite map_length. unfold labels. destruct as_index; rewrite map_length, ?seq_length; reflexivity.
        - apply Forall_map, Forall_forall. intros k Hk. now apply final_fits. }
      assert (Hl : nrows (table labels out (final_part jc)) = length out).
      { unfold nrows, labels. cbn. destruct as_index; rewrite map_length, ?seq_length; reflexivity. }
      replace (if nsplits =? 1 then None else _) with (@None (list nat)).
      2:{ destruct (nsplits =? 1); auto. rewrite orb_true_r. reflexivity. }
      rewrite split_eff by assumption. cbn [axis_size]. rewrite Hl. reflexivity.
    Qed.
  End Columns.
End Assemble.
