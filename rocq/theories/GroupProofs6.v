(** The whole of a groupby by partial aggregation. *)
From Verif Require Import Base Table ChunkModel ChunkSpec ChunkProofs GridSpec FrameSpec GridModel GridProofs GridProofs2 GridProofs3 GridProofs4 GridProofs5 SelModel SelProofs2 GroupSpec GroupModel GroupProofs GroupProofs2 GroupProofs3 GroupProofs4 GroupProofs5.
Open Scope nat_scope.

Section Whole.
  Context {L H A : Type}.
  Notation dframe := (df L H A).
  Notation pf := (@pframe L H A).
  Notation key := (list A).
  Variable leqb : L -> L -> bool.
  Hypothesis leqb_ok : forall x y, leqb x y = true <-> x = y.
  Variable heqb : H -> H -> bool.
  Hypothesis heqb_ok : forall x y, heqb x y = true <-> x = y.
  Variable aeqb : A -> A -> bool.
  Hypothesis aeqb_ok : forall x y, aeqb x y = true <-> x = y.
  Variable na : A -> bool.
  Variable nan : A.
  Variable kle : key -> key -> bool.
  Hypothesis kle_total : forall x y, kle x y = true \/ kle y x = true.
  Hypothesis kle_trans : forall x y z, kle x y = true -> kle y z = true -> kle x z = true.
  Hypothesis kle_anti : forall x y, kle x y = true -> kle y x = true -> x = y.
  Notation keqb := (keqb aeqb).
  Notation keys_of := (keys_of aeqb na kle).
  Notation grouped_map := (grouped_map aeqb na kle).
  Notation groupby := (groupby aeqb na kle).
  Notation pair_eqb := (pair_eqb heqb).
  Notation reduce_part := (reduce_part heqb aeqb na kle).
  Notation grid_reduce := (grid_reduce leqb heqb aeqb na nan kle).
  Notation groupby_reduce := (groupby_reduce leqb heqb aeqb na nan kle).
  Notation map_part := (map_part leqb heqb aeqb na nan kle).

  Variable im : impl (A:=A).
  Variable agg : list A -> A.
  Hypothesis law : impl_law im agg.
  Variables sort dropna as_index : bool.

  Definition reduce_tail nsplits m size drop names (mapped : list (list (df key (nat * H) A))) :=
    let columns := transp (grid_width mapped) mapped in
    do blocks <-
      rmap (fun ic : nat * list (df key (nat * H) A) =>
              deploy_axis_func keqb pair_eqb false (reduce_part im sort dropna as_index size drop names (fst ic))
                nsplits false (snd ic) m None false)
           (combine (seq 0 (length columns)) columns);
    Ok (transp (grid_width blocks) blocks).

  Definition answer (names : list H) (g : df key H A) : df (rlabel A) H A := if as_index then keyed g else numbered names g.

  Lemma wf_answer names ks (d : dframe) : (as_index = false -> names <> [] -> Forall (fun k => length k = length names) ks) -> wf d -> length ks = nrows d ->
    wf (answer names (groupby agg sort dropna ks d)).
  Proof.
    intros Hk [W1 W2] El.
    assert (Ew : forall k, length (map agg (transp (ncols d) (pick aeqb k ks (dcells d)))) = ncols d).
    { intros k. rewrite map_length. apply transp_length. apply Forall_forall. intros r Hr. apply pick_in in Hr. rewrite Forall_forall in W2. auto. }
    unfold answer. destruct as_index.
    - split; cbn; [now rewrite !map_length|]. apply Forall_map, Forall_forall. intros k _. apply Ew.
    - split; cbn; unfold nrows; cbn.
      + now rewrite map2_self_map, !map_length, seq_length.
      + rewrite map2_self_map. apply Forall_map, Forall_forall. intros k Hin. destruct names as [|n ns] eqn:En; [apply Ew|].
        rewrite !app_length, Ew. f_equal. specialize (Hk eq_refl ltac:(discriminate)). rewrite Forall_forall in Hk. apply Hk.
        now apply keys_of_in in Hin.
  Qed.

  Lemma tail_ok nsplits m size drop names (d : dframe) rl cl KS Pr :
    0 < nsplits -> 0 < m -> wf d -> rl <> [] -> cl <> [] -> list_sum rl = nrows d -> list_sum cl = ncols d -> length KS = nrows d ->
    (iplain im = true \/ keys_of sort dropna KS <> []) ->
    (as_index = false -> size = true -> length cl = 1) ->
    (as_index = false -> size = false -> drop = true -> forall h, In h names -> Pr h = false) ->
    (as_index = false -> size || drop = true -> Forall (fun k => length k = length names) KS) ->
    exists rl' cl', rl' <> [] /\ cl' <> []
      /\ (let g := answer (if size || drop then names else []) (groupby agg sort dropna KS (keep_cols Pr d)) in
          wf g /\ list_sum rl' = nrows g /\ list_sum cl' = ncols g /\
          reduce_tail nsplits m size drop names
            (map (fun ri => map (fun ci => grouped_map im sort dropna (slice KS (fst ri) (snd ri)) (keep_cols Pr (block d ri ci))) (bounds 0 cl)) (bounds 0 rl))
          = Ok (cut_table rl' cl' g)).
  Proof.
    intros Hn Hm W Hrl Hcl Hr Hc HK Hs H1 H2 H3.
    set (out := keys_of sort dropna KS).
    set (rl' := eff_lens (length out) nsplits m None).
    assert (S : list_sum rl' = length out /\ length rl' = nsplits).
    { apply eff_lens_sum; auto. intros l E. discriminate. }
    destruct S as [S1 S2].
    set (fp := final_part aeqb agg d KS Pr as_index size drop names).
    set (fs := map fp (jcs cl)).
    exists rl', (map (fun f => length (fst f)) fs).
    assert (J : length (jcs cl) = length cl) by (unfold jcs; rewrite combine_length, seq_length, bounds_length; lia).
    split; [intros E; rewrite E in S2; cbn in S2; lia|].
    split. { intros E. apply map_eq_nil in E. unfold fs in E. apply map_eq_nil in E. rewrite E in J. destruct cl; [easy|discriminate]. }
    pose proof (@hcat_final L H A aeqb aeqb_ok na nan kle im agg sort dropna d rl cl KS Pr W Hcl Hr Hc HK as_index size drop names H1 H2 H3) as Eh.
    cbv zeta in Eh. unfold answer. fold fp in Eh. fold fs in Eh. rewrite <- Eh. cbv zeta. clear Eh.
    set (lab := labels aeqb na kle sort dropna KS as_index).
    assert (Ll : length lab = length out) by (unfold lab, labels; destruct as_index; rewrite map_length, ?seq_length; reflexivity).
    assert (F : Forall (fits out) fs).
    { apply Forall_map, Forall_forall. intros jc _. unfold fp.
      apply (@final_fits L H A aeqb aeqb_ok na kle agg sort dropna d cl KS Pr W as_index size drop names H1 H2 H3 jc). }
    split; [|split; [|split]].
    - split; cbn; [now rewrite map_length|]. apply Forall_map, Forall_forall. intros k Hk.
      clear - F Hk. induction fs as [|f fs' IH]; cbn; auto. inversion_clear F. rewrite !app_length, IH; auto.
    - unfold nrows. cbn. now rewrite Ll.
    - unfold ncols. cbn. generalize fs. clear. induction fs as [|f fs IH]; cbn; auto. lsum. rewrite app_length. now rewrite IH.
    - fold out. rewrite (cut_hcat lab rl' F).
      unfold reduce_tail. rewrite grid_width_map by (intros E; now apply bounds_nil_iff in E). rewrite transp_fun.
      rewrite map_length, combine_seq_map, bounds_length. fold (jcs cl).
      rewrite (rmap_map_ok _ _ (fun jc => map (fun iv => iloc_rows (table lab out (fp jc)) (fst iv) (snd iv)) (bounds 0 rl'))).
      + cbn [rbind]. f_equal. rewrite grid_width_map by (intros E; rewrite E in J; destruct cl; [easy|discriminate]).
        rewrite transp_fun. apply map_ext. intros ri. unfold fs. now rewrite map_map.
      + intros jc _. cbn [fst snd].
        apply (@deploy_column L H A heqb heqb_ok aeqb aeqb_ok na nan kle kle_total kle_trans kle_anti im agg law sort dropna d rl cl KS Pr W Hrl Hr Hc HK Hs
                 as_index size drop names H1 H2 H3 nsplits m jc Hn Hm).
  Qed.

  Lemma construct_grid (g : df (rlabel A) H A) rl cl : wf g -> rl <> [] -> cl <> [] -> list_sum rl = nrows g -> list_sum cl = ncols g ->
    exists r rl' cl', construct (mkpf (cut_table rl cl g) None None None None) = Ok r /\ holds r g rl' cl' /\ rl' <> [] /\ cl' <> [].
  Proof.
    intros W Hr Hc Sr Sc.
    assert (G : gridded (mkpf (cut_table rl cl g) None None None None) g rl cl) by (repeat split; cbn; auto; try easy; apply W).
    destruct (construct_gridded G Hr Hc) as (f' & rl' & cl' & E & G' & N1 & N2 & I1 & I2).
    exists f', rl', cl'. repeat split; auto; try apply G'; try (left; assumption).
  Qed.

  Lemma other_row_ok (b : dframe) cl ri : wf b -> cl <> [] -> list_sum cl = ncols b ->
    other_row leqb (map (fun ci => block b ri ci) (bounds 0 cl)) = Ok (iloc_rows b (fst ri) (snd ri)).
  Proof.
    intros W Hc Hs.
    assert (E : concat_axis leqb heqb true (map (fun ci => block b ri ci) (bounds 0 cl)) = Ok (iloc_rows b (fst ri) (snd ri))).
    { rewrite (@concat_cols_blocks_bounds L H A leqb heqb leqb_ok b 0 cl ri W Hc). cbn [Nat.add]. rewrite Hs. now rewrite block_cols_full. }
    destruct cl as [|c [|c2 cl]]; [easy| |].
    - cbn [bounds map other_row Nat.add]. replace c with (ncols b) by (revert Hs; lsum; cbn; lia). now rewrite block_cols_full.
    - exact E.
  Qed.

  (** blocks of the frame and of the frame of keys in the same row of blocks *)
  Lemma mapped_frame bk selection (d b : dframe) rl cl clb (res_of : nat * nat -> nat * nat -> df key (nat * H) A) :
    wf b -> clb <> [] -> list_sum clb = ncols b ->
    (forall ri ci, In ci (bounds 0 cl) -> map_part bk im sort dropna selection (block d ri ci) (Some (iloc_rows b (fst ri) (snd ri))) = Ok (res_of ri ci)) ->
    rmap (fun pr : list dframe * list dframe =>
            do o <- other_row leqb (snd pr);
            rmap (fun part => map_part bk im sort dropna selection part (Some o)) (fst pr))
         (combine (cut_table rl cl d) (cut_table rl clb b))
    = Ok (map (fun ri => map (res_of ri) (bounds 0 cl)) (bounds 0 rl)).
  Proof.
    intros W Hc Hs E. unfold cut_table. rewrite combine_map_same. apply rmap_map_ok. intros ri _. cbn [fst snd].
    rewrite other_row_ok by auto. cbn [rbind]. apply rmap_map_ok. intros ci Hci. now apply E.
  Qed.
End Whole.

Section Final.
  Context {L H A : Type}.
  Notation dframe := (df L H A).
  Notation pf := (@pframe L H A).
  Notation key := (list A).
  Variable leqb : L -> L -> bool.
  Hypothesis leqb_ok : forall x y, leqb x y = true <-> x = y.
  Variable heqb : H -> H -> bool.
  Hypothesis heqb_ok : forall x y, heqb x y = true <-> x = y.
  Variable aeqb : A -> A -> bool.
  Hypothesis aeqb_ok : forall x y, aeqb x y = true <-> x = y.
  Variable na : A -> bool.
  Variable nan : A.
  Variable kle : key -> key -> bool.
  Hypothesis kle_total : forall x y, kle x y = true \/ kle y x = true.
  Hypothesis kle_trans : forall x y z, kle x y = true -> kle y z = true -> kle x z = true.
  Hypothesis kle_anti : forall x y, kle x y = true -> kle y x = true -> x = y.
  Notation keys_of := (keys_of aeqb na kle).
  Notation groupby := (groupby aeqb na kle).
  Notation groupby_reduce := (groupby_reduce leqb heqb aeqb na nan kle).

  Variable im : impl (A:=A).
  Variable agg : list A -> A.
  Hypothesis law : impl_law im agg.
  Variables nparts min_row : nat.
  Hypothesis nparts_pos : 0 < nparts.
  Hypothesis min_row_pos : 0 < min_row.
  Variables sort dropna as_index : bool.

  Lemma first_row_names (b : pf) s rl clb : holds b s rl clb -> rl <> [] ->
    match pgrid b with row :: _ => concat (map dcols row) | [] => [] end = dcols s.
  Proof.
    intros [(W & Hr & Hc & Hg & _) _] Hne. rewrite Hg. unfold cut_table. destruct rl as [|r rl]; [easy|].
    cbn [bounds map]. rewrite map_map. cbn [block dcols].
    transitivity (concat (map (fun ci => slice (dcols s) (fst ci) (snd ci)) (bounds 0 clb))); [reflexivity|].
    rewrite concat_bounds. cbn [Nat.add]. rewrite Hc. now apply slice_full.
  Qed.

  Lemma cut_table_length rl cl (d : dframe) : length (cut_table rl cl d) = length rl.
  Proof. unfold cut_table. now rewrite map_length, bounds_length. Qed.

  Lemma keep_all (d : dframe) : wf d -> keep_cols (chosen heqb None []) d = d.
  Proof. intros [W1 W2]. destruct d as [i c r]. unfold keep_cols. cbn [dindex dcols dcells] in *. f_equal.
    - apply filter_all. reflexivity.
    - rewrite <- map_id. apply map_ext_in. intros x Hx. apply keepl_all; [reflexivity|]. rewrite Forall_forall in W2. symmetry. now apply W2. Qed.

  (** grouping on columns of the frame itself *)
  Lemma groupby_own (f b : pf) (d : dframe) by_ rl cl clb :
    holds f d rl cl -> holds b (columns_at heqb by_ d) rl clb -> rl <> [] -> cl <> [] -> clb <> [] ->
    NoDup (dcols d) -> NoDup by_ -> incl by_ (dcols d) ->
    (iplain im = true \/ keys_of true dropna (row_keys heqb by_ d) <> []) ->
    exists r rl' cl',
      groupby_reduce nparts min_row (ByFrame true) im sort dropna as_index None f (Some b) = Ok r
      /\ holds r (answer as_index by_ (groupby agg true dropna (row_keys heqb by_ d) (without heqb by_ d))) rl' cl'
      /\ rl' <> [] /\ cl' <> [].
  Proof.
    intros Hf Hb Hr Hc Hcb Nd Nb I Hk.
    pose proof Hf as [(W & Sr & Sc & Gf & _) _]. pose proof Hb as [(Wb & Srb & Scb & Gb & _) _].
    unfold groupby_reduce, GroupModel.groupby_reduce. rewrite (first_row_names Hb Hr).
    cbn [rbind]. rewrite Gf, Gb, !cut_table_length, Nat.eqb_refl.
    unfold grid_reduce. rewrite !cut_table_length, Nat.eqb_refl. cbn [negb].
    erewrite (@mapped_frame L H A leqb leqb_ok heqb aeqb aeqb_ok na nan kle im true dropna (ByFrame true) None d (columns_at heqb by_ d) rl cl clb).
    2: exact Wb. 2: exact Hcb. 2: exact Scb.
    2:{ intros ri ci _. apply (@map_part_own L H A leqb leqb_ok heqb heqb_ok aeqb na nan kle im true dropna None d by_ ri ci W Nd Nb I). intros; discriminate. }
    cbn [rbind].
    destruct (@tail_ok L H A heqb heqb_ok aeqb aeqb_ok na nan kle kle_total kle_trans kle_anti im agg law true dropna as_index
      (Nat.min (length rl) nparts) min_row false true by_ d rl cl (row_keys heqb by_ d) (chosen heqb None by_))
      as (rl' & cl' & N1 & N2 & E); auto.
    - destruct rl; [easy|]. cbn [length]. lia.
    - unfold row_keys. rewrite map_length. destruct W as [W1 _]. exact W1.
    - intros; discriminate.
    - intros _ _ _ h Hh. cbn. apply negb_false_iff. now apply (inb_in heqb heqb_ok).
    - intros _ _. apply Forall_map. destruct W as [_ W2]. eapply Forall_impl; [|exact W2]. cbn. intros r Er.
      apply (key_of_length heqb heqb_ok); auto.
    - cbv zeta in E. destruct E as (W' & S1 & S2 & E). unfold reduce_tail in E. cbn [fst snd dcols columns_at] in *.
      change (keep_cols (chosen heqb None by_) d) with (without heqb by_ d) in *. cbn [orb] in *.
      rewrite E. cbn [rbind].
      destruct (construct_grid W' N1 N2 S1 S2) as (r & rl2 & cl2 & Ec & Hh & N3 & N4).
      exists r, rl2, cl2. auto.
  Qed.

  (** grouping on a Series with the same labels *)
  Lemma groupby_series (f b : pf) (d s : dframe) rl cl clb :
    holds f d rl cl -> holds b s rl clb -> rl <> [] -> cl <> [] -> clb <> [] ->
    ncols s = 1 -> dindex s = dindex d ->
    (iplain im = true \/ keys_of true dropna (dcells s) <> []) ->
    exists r rl' cl',
      groupby_reduce nparts min_row (ByFrame false) im sort dropna as_index None f (Some b) = Ok r
      /\ holds r (answer as_index [] (groupby agg true dropna (dcells s) d)) rl' cl'
      /\ rl' <> [] /\ cl' <> [].
  Proof.
    intros Hf Hb Hr Hc Hcb E1 Ei Hk.
    pose proof Hf as [(W & Sr & Sc & Gf & _) _]. pose proof Hb as [(Wb & Srb & Scb & Gb & _) _].
    unfold groupby_reduce, GroupModel.groupby_reduce. rewrite (first_row_names Hb Hr).
    cbn [rbind]. rewrite Gf, Gb, !cut_table_length, Nat.eqb_refl.
    unfold grid_reduce. rewrite !cut_table_length, Nat.eqb_refl. cbn [negb].
    erewrite (@mapped_frame L H A leqb leqb_ok heqb aeqb aeqb_ok na nan kle im true dropna (ByFrame false) None d s rl cl clb).
    2: exact Wb. 2: exact Hcb. 2: exact Scb.
    2:{ intros ri ci _. apply (@map_part_series L H A leqb leqb_ok heqb aeqb na nan kle im true dropna d s ri ci E1 Ei). }
    cbn [rbind].
    destruct (@tail_ok L H A heqb heqb_ok aeqb aeqb_ok na nan kle kle_total kle_trans kle_anti im agg law true dropna as_index
      (Nat.min (length rl) nparts) min_row false false (dcols s) d rl cl (dcells s) (chosen heqb None []))
      as (rl' & cl' & N1 & N2 & E); auto; try (intros; discriminate).
    - destruct rl; [easy|]. cbn [length]. lia.
    - destruct Wb as [W1 _]. unfold nrows. now rewrite W1, Ei.
    - cbv zeta in E. destruct E as (W' & S1 & S2 & E). unfold reduce_tail in E. cbn [orb] in *.
      rewrite (keep_all W) in *. rewrite E. cbn [rbind].
      destruct (construct_grid W' N1 N2 S1 S2) as (r & rl2 & cl2 & Ec & Hh & N3 & N4).
      exists r, rl2, cl2. auto.
  Qed.

  (** grouping on an index level *)
  Lemma groupby_level lkey (f : pf) (d : dframe) rl cl :
    holds f d rl cl -> rl <> [] -> cl <> [] -> pindex f = Some (dindex d) -> pcols f = Some (dcols d) ->
    0 < nrows d -> 0 < ncols d ->
    (iplain im = true \/ keys_of sort dropna (map lkey (dindex d)) <> []) ->
    exists r rl' cl',
      groupby_reduce nparts min_row (ByLevel lkey) im sort dropna as_index None f None = Ok r
      /\ holds r (answer as_index [] (groupby agg sort dropna (map lkey (dindex d)) d)) rl' cl'
      /\ rl' <> [] /\ cl' <> [].
  Proof.
    intros Hf Hr Hc Hi Hcc Pr Pc Hk.
    pose proof Hf as [(W & _) _].
    unfold groupby_reduce, GroupModel.groupby_reduce.
    destruct (filter_empties_holds false Hf Hr Hc) as (rl0 & cl0 & Hf0 & Hr0 & Hc0 & I1 & I2 & _).
    destruct (propagate_ok (Some false) (proj1 Hf0) Hr0 Hc0 (eq_trans I1 Hi) (eq_trans I2 Hcc)) as (rl1 & cl1 & Sr & Sc & Ep).
    rewrite Ep. cbn [rbind].
    replace (relabel (Some false) (dindex d) (dcols d) d) with d by (destruct d; reflexivity).
    assert (N1 : rl1 <> []) by (intros ->; revert Sr; lsum; lia).
    assert (N2 : cl1 <> []) by (intros ->; revert Sc; lsum; lia).
    unfold grid_reduce. rewrite !cut_table_length.
    replace (rmap _ (cut_table rl1 cl1 d)) with (Ok (map (fun ri => map (fun ci =>
       grouped_map aeqb na kle im sort dropna (slice (map lkey (dindex d)) (fst ri) (snd ri)) (keep_cols (chosen heqb None []) (block d ri ci))) (bounds 0 cl1)) (bounds 0 rl1))).
    2:{ symmetry. unfold cut_table. apply rmap_map_ok. intros ri _. apply rmap_map_ok. intros ci _. apply map_part_level. }
    cbn [rbind].
    destruct (@tail_ok L H A heqb heqb_ok aeqb aeqb_ok na nan kle kle_total kle_trans kle_anti im agg law sort dropna as_index
      (Nat.min (length rl1) nparts) min_row false false [] d rl1 cl1 (map lkey (dindex d)) (chosen heqb None []))
      as (rl' & cl' & N3 & N4 & E); auto; try (intros; discriminate).
    - destruct rl1; [easy|]. cbn [length]. lia.
    - now rewrite map_length.
    - cbv zeta in E. destruct E as (W' & S1 & S2 & E). unfold reduce_tail in E. cbn [orb] in *.
      rewrite (keep_all W) in *. rewrite E. cbn [rbind].
      destruct (construct_grid W' N3 N4 S1 S2) as (r & rl2 & cl2 & Ec & Hh & N5 & N6).
      exists r, rl2, cl2. auto.
  Qed.

  Lemma skipn_bounds j acc cl : skipn j (bounds acc cl) = bounds (acc + list_sum (firstn j cl)) (skipn j cl).
  Proof. revert acc j. induction cl as [|c cl IH]; intros acc [|j]; cbn [skipn firstn bounds]; auto.
    - now rewrite Nat.add_0_r.
    - rewrite IH. f_equal. lsum. lia. Qed.

  Lemma skipn_nth (l : list nat) j : j < length l -> skipn j l = nth j l 0 :: skipn (S j) l.
  Proof. revert j. induction l as [|c l IH]; intros [|j] D; cbn in *; try lia; auto. apply IH. lia. Qed.

  Lemma keepl_self {X} (p : X -> bool) c : keepl p c c = filter p c.
  Proof. unfold keepl. induction c as [|x c IH]; cbn; auto. destruct (p x); cbn; now rewrite IH. Qed.

  (** [size]: only the block with the first column is looked at *)
  Lemma groupby_first (f b : pf) (d : dframe) by_ s rl cl clb :
    holds f d rl cl -> holds b (columns_at heqb by_ d) rl clb -> rl <> [] -> cl <> [] -> clb <> [] ->
    NoDup (dcols d) -> NoDup by_ -> incl by_ (dcols d) -> nth_error (dcols d) 0 = Some s ->
    (iplain im = true \/ keys_of true dropna (row_keys heqb by_ d) <> []) ->
    exists r rl' cl',
      groupby_reduce nparts min_row (ByFrame true) im sort dropna as_index (Some s) f (Some b) = Ok r
      /\ holds r (answer as_index by_ (groupby agg true dropna (row_keys heqb by_ d) (keep_cols (heqb s) d))) rl' cl'
      /\ rl' <> [] /\ cl' <> [].
  Proof.
    intros Hf Hb Hr Hc Hcb Nd Nb I Hs Hk.
    pose proof Hf as [(W & Sr & Sc & Gf & _) _]. pose proof Hb as [(Wb & Srb & Scb & Gb & _) _].
    assert (P : 0 < list_sum cl) by (rewrite Sc; unfold ncols; destruct (dcols d); [discriminate|cbn; lia]).
    destruct (@digitize_spec cl 0 P) as [D1 D2]. set (j := digitize cl 0) in *. set (w := nth j cl 0) in *.
    assert (Hw : w <= ncols d).
    { rewrite <- Sc. rewrite <- (firstn_skipn j cl), list_sum_app. unfold w.
      rewrite <- (firstn_skipn j cl) at 1. rewrite app_nth2; rewrite firstn_length; [|lia].
      replace (j - Nat.min j (length cl)) with 0 by lia. destruct (skipn j cl); cbn [nth]; [lia|]. lsum. lia. }
    set (d' := iloc_cols d 0 w).
    assert (W' : wf d').
    { destruct W as [W1 W2]. split; cbn; [now rewrite map_length|]. apply Forall_map. eapply Forall_impl; [|exact W2]. cbn. intros r Er. now rewrite !slice_length, Er. }
    assert (Eg : map (fun row => firstn 1 (skipn j row)) (cut_table rl cl d) = cut_table rl [w] d').
    { unfold cut_table. rewrite map_map. apply map_ext. intros ri. rewrite skipn_map, firstn_map.
      rewrite skipn_bounds.
      assert (E : skipn j cl = w :: skipn (S j) cl).
      { now apply skipn_nth. }
      rewrite E. cbn [bounds firstn map]. replace (list_sum (firstn j cl)) with 0 by lia. cbn [Nat.add].
      f_equal. unfold block, d', iloc_cols. cbn [dindex dcols dcells fst snd]. f_equal.
      - unfold slice. cbn [skipn]. rewrite Nat.sub_0_r, firstn_firstn. now rewrite Nat.min_id.
      - rewrite slice_map, map_map. apply map_ext. intros r. unfold slice. cbn [skipn]. rewrite Nat.sub_0_r, firstn_firstn. now rewrite Nat.min_id. }
    assert (Ns : In s (slice (dcols d) 0 w)).
    { unfold slice. cbn [skipn]. rewrite Nat.sub_0_r. destruct (dcols d) as [|x l]; [discriminate|]. injection Hs as ->. destruct w; [lia|]. now left. }
    assert (Ek : keep_cols (heqb s) d' = keep_cols (heqb s) d).
    { unfold keep_cols, d'. cbn [iloc_cols dindex dcols dcells]. f_equal.
      - rewrite <- !keepl_self. apply (keepl_slice heqb heqb_ok); auto.
      - rewrite map_map. apply map_ext_in. intros r Hin. apply (keepl_slice heqb heqb_ok); auto. destruct W as [_ W2]. rewrite Forall_forall in W2. symmetry. now apply W2. }
    unfold groupby_reduce, GroupModel.groupby_reduce. rewrite (first_row_names Hb Hr).
    cbn [rbind]. rewrite (gridded_column_widths (proj1 Hf) Hr), Gf, Gb, !cut_table_length, Nat.eqb_refl.
    fold j. rewrite Eg.
    unfold grid_reduce. rewrite !cut_table_length, Nat.eqb_refl. cbn [negb].
    erewrite (@mapped_frame L H A leqb leqb_ok heqb aeqb aeqb_ok na nan kle im true dropna (ByFrame true) (Some s) d' (columns_at heqb by_ d) rl [w] clb
      (fun ri ci => grouped_map aeqb na kle im true dropna (slice (row_keys heqb by_ d) (fst ri) (snd ri)) (keep_cols (chosen heqb (Some s) by_) (block d' ri ci)))).
    2: exact Wb. 2: exact Hcb. 2: exact Scb.
    2:{ intros ri ci Hci. cbn in Hci. destruct Hci as [<-|[]].
        assert (Eb : block d' ri (0, w) = block d ri (0, w)).
        { unfold block, d', iloc_cols. cbn [dindex dcols dcells fst snd]. f_equal.
          - unfold slice. cbn [skipn]. rewrite Nat.sub_0_r, firstn_firstn. now rewrite Nat.min_id.
          - rewrite slice_map, map_map. apply map_ext. intros r. unfold slice. cbn [skipn]. rewrite Nat.sub_0_r, firstn_firstn. now rewrite Nat.min_id. }
        rewrite Eb.
        rewrite (@map_part_own L H A leqb leqb_ok heqb heqb_ok aeqb na nan kle im true dropna (Some s) d by_ ri (0, w) W Nd Nb I)
          by (cbn [fst snd]; intros s' [= <-]; exact Ns).
        reflexivity. }
    cbn [rbind].
    destruct (@tail_ok L H A heqb heqb_ok aeqb aeqb_ok na nan kle kle_total kle_trans kle_anti im agg law true dropna as_index
      (Nat.min (length rl) nparts) min_row true true by_ d' rl [w] (row_keys heqb by_ d) (chosen heqb (Some s) by_))
      as (rl' & cl' & N1 & N2 & E); auto; try (intros; discriminate).
    - destruct rl; [easy|]. cbn [length]. lia.
    - unfold ncols, d'. cbn [iloc_cols dcols]. rewrite slice_length. unfold ncols in Hw. lsum. lia.
    - unfold row_keys. rewrite map_length. destruct W as [W1 _]. exact W1.
    - intros _ _. apply Forall_map. destruct W as [_ W2]. eapply Forall_impl; [|exact W2]. cbn. intros r Er.
      apply (key_of_length heqb heqb_ok); auto.
    - cbv zeta in E. destruct E as (Wg & S1 & S2 & E). unfold reduce_tail in E. cbn [fst snd dcols columns_at] in *.
      change (chosen heqb (Some s) by_) with (heqb s) in *. cbn [orb] in *. rewrite Ek in *.
      rewrite E. cbn [rbind].
      destruct (construct_grid Wg N1 N2 S1 S2) as (r & rl2 & cl2 & Ec & Hh & N3 & N4).
      exists r, rl2, cl2. auto.
  Qed.
End Final.
