From Coq Require Import ZArith.
From Verif Require Import Base Table ChunkSpec ChunkModel ChunkProofs GridModel FrameSpec GridProofs GridProofs2 GridProofs3 GridProofs5 ReadSpec ReadModel ReadProofs ReadProofs2.

(** * The rows a partition reads *)

Lemma concat_slice {X} (l : list (list X)) s e :
  concat (slice l s e) = flat_map (fun g => nth g l []) (seq s (e - s)).
Proof. unfold slice. generalize (e - s) as k. intros k. revert l s. induction k as [|k IH]; intros l s; [reflexivity|].
  cbn [seq flat_map]. rewrite <- IH. destruct (Nat.lt_ge_cases s (length l)) as [Hs|Hs].
  - destruct (nth_split l [] Hs) as (l1 & l2 & E & Ll). set (x := nth s l []) in *. clearbody x. subst l s.
    assert (E1 : skipn (length l1) (l1 ++ x :: l2) = x :: l2) by (rewrite skipn_app, skipn_all, Nat.sub_diag; reflexivity).
    assert (E2 : skipn (S (length l1)) (l1 ++ x :: l2) = l2).
    { rewrite skipn_app, skipn_all2 by lia. replace (S (length l1) - length l1) with 1 by lia. reflexivity. }
    rewrite E1, E2. reflexivity.
  - rewrite nth_overflow by assumption. rewrite !skipn_all2 by lia. now rewrite !firstn_nil. Qed.

Lemma flat_map_map {X Y Z} (f : X -> Y) (g : Y -> list Z) l : flat_map g (map f l) = flat_map (fun x => g (f x)) l.
Proof. induction l; cbn; congruence. Qed.
Lemma flat_map_ext_in {X Y} (f g : X -> list Y) l : (forall x, In x l -> f x = g x) -> flat_map f l = flat_map g l.
Proof. induction l as [|x l IH]; cbn; intros E; [reflexivity|]. rewrite E, IH by auto. reflexivity. Qed.
Lemma flat_map_concat_list {X Y} (f : X -> list Y) ls : flat_map f (concat ls) = concat (map (flat_map f) ls).
Proof. induction ls; cbn; [reflexivity|]. now rewrite flat_map_app, IHls. Qed.
Lemma flat_map_flat_map {X Y Z} (f : X -> list Y) (g : Y -> list Z) l : flat_map g (flat_map f l) = flat_map (fun x => flat_map g (f x)) l.
Proof. induction l; cbn; [reflexivity|]. now rewrite flat_map_app, IHl. Qed.

Section Rows.
  Context {X : Type}.
  Variable files : list (list (list X)).
  Definition group (fg : nat * nat) : list X := nth (snd fg) (nth (fst fg) files []) [].

  Lemma groups_rows_from : forall rest pre, files = pre ++ rest ->
    flat_map group (groups_from (length pre) (map (@length _) rest)) = concat (concat rest).
  Proof. induction rest as [|f rest IH]; intros pre E; [reflexivity|]. cbn [map groups_from concat].
    rewrite flat_map_app, concat_app. f_equal.
    - rewrite flat_map_map. rewrite <- (slice_full f (le_n (length f))) at 2. rewrite concat_slice, Nat.sub_0_r.
      apply flat_map_ext_in. intros g _. unfold group. cbn [fst snd]. f_equal. rewrite E, app_nth2, Nat.sub_diag by lia. reflexivity.
    - specialize (IH (pre ++ [f])). rewrite app_length in IH. cbn in IH. replace (length pre + 1) with (S (length pre)) in IH by lia.
      apply IH. rewrite E, <- app_assoc. reflexivity. Qed.
  Lemma groups_rows : flat_map group (all_groups (map (@length _) files)) = concat (concat files).
  Proof. exact (@groups_rows_from files [] eq_refl). Qed.
  Lemma request_rows file start stop : concat (slice (nth file files []) start stop) = flat_map group (named (file, start, stop)).
  Proof. rewrite concat_slice. cbn [named]. rewrite flat_map_map. reflexivity. Qed.
End Rows.

Section Parquet.
  Context {L H A : Type}.
  Variable leqb : L -> L -> bool.
  Variable heqb : H -> H -> bool.
  Hypothesis leqb_ok : forall x y, leqb x y = true <-> x = y.
  Hypothesis heqb_ok : forall x y, heqb x y = true <-> x = y.
  Notation dframe := (df L H A).
  Variable cols : list H.
  Variable files : @dataset L A.

  Definition part_rows (requests : list (nat * nat * nat)) : list (L * list A) := flat_map (group files) (flat_map named requests).

  Lemma parse_ok requests ci : requests <> [] ->
    parse heqb cols files requests ci
    = Ok (mkdf (map fst (part_rows requests)) (slice cols (fst ci) (snd ci))
               (map (fun x => slice (snd x) (fst ci) (snd ci)) (part_rows requests))).
  Proof. intros Ne. unfold parse, concatenate.
    destruct (map (fun r => read_row_group_chunk cols files r ci) requests) as [|d ds] eqn:E; [apply map_eq_nil in E; easy|].
    assert (Dc : forall r, dcols (read_row_group_chunk cols files r ci) = slice cols (fst ci) (snd ci)) by now intros [[? ?] ?].
    assert (Hd : dcols d = slice cols (fst ci) (snd ci)).
    { destruct requests as [|r rs]; [easy|]. cbn in E. injection E as <- _. apply Dc. }
    rewrite <- E. clear E. rewrite Hd.
    replace (forallb _ _) with true.
    2:{ symmetry. apply forallb_forall. intros e He. apply in_map_iff in He as (r & <- & _). rewrite Dc. now apply list_eqb_refl. }
    rewrite !map_map. f_equal. unfold part_rows. rewrite flat_map_flat_map.
    assert (Hr : forall r, dindex (read_row_group_chunk cols files r ci) = map fst (flat_map (group files) (named r))
             /\ dcells (read_row_group_chunk cols files r ci) = map (fun x => slice (snd x) (fst ci) (snd ci)) (flat_map (group files) (named r))).
    { intros [[f s] e]. cbn [read_row_group_chunk dindex dcells]. now rewrite request_rows. }
    apply df_eq; cbn [dindex dcols dcells]; [|reflexivity|].
    - rewrite flat_map_concat_map, concat_map, map_map. f_equal. apply map_ext. intros r. apply Hr.
    - rewrite flat_map_concat_map, concat_map, map_map. f_equal. apply map_ext. intros r. apply Hr. Qed.

  Lemma bounds_map_nth lens : forall acc, length (bounds acc lens) = length lens.
  Proof. intros; apply bounds_length. Qed.

  (** The grid that is read is the dataset cut where the partitions end. *)
  Lemma call_deploy_ok parts ivs widths :
    Forall (fun p => p <> []) parts -> concat (map part_rows parts) = concat (concat files) ->
    Forall (fun r => length (snd r) = length cols) (concat (concat files)) ->
    ivs <> [] -> map (fun iv => (fst iv, Nat.min (snd iv) (length cols))) ivs = bounds 0 widths ->
    call_deploy heqb cols files parts ivs
    = Ok (cut_table (map (fun p => length (part_rows p)) parts) widths (dataset_table cols files)).
  Proof. intros Ne Rows Rect Ine Iv. unfold call_deploy. destruct ivs as [|iv0 ivs'] eqn:Ei; [easy|]. rewrite <- Ei in *. clear Ei.
    set (D := dataset_table cols files). assert (W : wf D).
    { split; cbn; [now rewrite !map_length|]. apply Forall_map. exact Rect. }
    assert (Bl : forall p ci ri, p <> [] -> slice (concat (concat files)) (fst ri) (snd ri) = part_rows p ->
        parse heqb cols files p ci = Ok (block D ri (fst ci, Nat.min (snd ci) (length cols)))).
    { intros p ci ri Pn Hs. rewrite parse_ok by assumption. f_equal.
      change (length cols) with (ncols D). rewrite block_clip by assumption. unfold block, D, dataset_table. cbn [dindex dcols dcells].
      rewrite <- Hs. rewrite !slice_map, map_map. reflexivity. }
    unfold cut_table. rewrite <- Iv.
    assert (G : forall ps acc, Forall (fun p => p <> []) ps ->
        Forall (fun rp => slice (concat (concat files)) (fst (fst rp)) (snd (fst rp)) = part_rows (snd rp))
               (combine (bounds acc (map (fun p => length (part_rows p)) ps)) ps) ->
        rmap (fun requests => rmap (parse heqb cols files requests) ivs) ps
        = Ok (map (fun ri => map (fun ci => block D ri ci) (map (fun iv => (fst iv, Nat.min (snd iv) (length cols))) ivs))
                  (bounds acc (map (fun p => length (part_rows p)) ps)))).
    { induction ps as [|p ps IH]; intros acc Fn Fr; [reflexivity|]. cbn [rmap map bounds combine] in *.
      inversion Fn; inversion Fr; subst. erewrite rmap_ok; [|intros; apply Bl; eauto]. cbn [rbind].
      rewrite (IH (acc + length (part_rows p))) by assumption. cbn [rbind]. do 2 f_equal. now rewrite map_map. }
    apply (G parts 0 Ne). rewrite <- Rows.
    pose proof (slices_of_concat (map part_rows parts)) as Sc. rewrite map_map in Sc.
    revert Sc. generalize (concat (map part_rows parts)) as all. intros all.
    generalize 0 as acc. clear. induction parts as [|p ps IH]; intros acc Sc; [constructor|].
    cbn [map bounds combine] in *. injection Sc as E1 E2. constructor; [exact E1|]. apply IH. exact E2. Qed.

  Lemma first_blocks_index rl cl (D : dframe) : cl <> [] -> wf D -> list_sum rl = nrows D ->
    concat (map (fun row => match row with b :: _ => dindex b | [] => [] end) (cut_table rl cl D)) = dindex D.
  Proof. intros Hc W Hs. unfold cut_table. rewrite map_map. destruct cl as [|c cl]; [easy|]. cbn [bounds map].
    change (concat (map (fun x => slice (dindex D) (fst x) (snd x)) (bounds 0 rl)) = dindex D).
    rewrite slices_bounds. cbn [skipn]. now apply concat_cut_exact. Qed.
  Lemma first_blocks_lens rl cl (D : dframe) : cl <> [] -> wf D -> list_sum rl = nrows D ->
    map (fun row => match row with b :: _ => nrows b | [] => 0 end) (cut_table rl cl D) = rl.
  Proof. intros Hc W Hs. unfold cut_table. rewrite map_map. destruct cl as [|c cl]; [easy|]. cbn [bounds map].
    change (map (fun x => length (slice (dindex D) (fst x) (snd x))) (bounds 0 rl) = rl).
    rewrite <- (map_map (fun x => slice (dindex D) (fst x) (snd x)) (@length L)), slices_bounds. cbn [skipn]. apply cut_lengths. unfold nrows in Hs. lia. Qed.

  Lemma read_parquet_ok nparts minrow mincol : 0 < nparts -> 0 < minrow -> 0 < mincol ->
    Forall (fun r => length (snd r) = length cols) (concat (concat files)) ->
    cols <> [] -> concat files <> [] ->
    exists f rl cl, read_parquet leqb heqb cols files nparts minrow mincol = Ok f
      /\ holds f (dataset_table cols files) rl cl /\ pindex f <> None /\ pcols f <> None.
  Proof. intros Hn Hr Hc Rect Cne Fne. unfold read_parquet.
    set (D := dataset_table cols files). assert (W : wf D).
    { split; cbn; [now rewrite !map_length|]. apply Forall_map. exact Rect. }
    destruct (@determine_ok nparts (map (@length _) files) Hn) as (parts & -> & Cov & Lp & Pn & _). cbn [rbind].
    assert (Tot : 0 < list_sum (map (@length _) files)).
    { rewrite <- map_length_concat. destruct (concat files); [easy|cbn; lia]. }
    assert (Pp : 0 < length parts <= nparts) by lia.
    destruct (@build_columns_ok nparts mincol (length cols) (Some (length parts)) Hn) as (ivs & widths & -> & Wn & In & Sw & Lw & Iv);
      [destruct cols; [easy|cbn; lia]|exact Pp|]. cbn [rbind fst snd].
    assert (Rows : concat (map part_rows parts) = concat (concat files)).
    { rewrite <- groups_rows, <- Cov, flat_map_concat_list, map_map. reflexivity. }
    rewrite (@call_deploy_ok parts ivs widths) by assumption. cbn [rbind].
    set (rl := map (fun p => length (part_rows p)) parts). fold D.
    assert (Sr : list_sum rl = nrows D).
    { unfold rl. rewrite <- (map_map part_rows (@length _)), <- map_length_concat, Rows. unfold nrows, D. cbn. now rewrite map_length. }
    assert (Rn : rl <> []) by (unfold rl; destruct parts; [cbn in Pp; lia|discriminate]).
    destruct (cut_table rl widths D) eqn:Eg; [exfalso; exact (@cut_table_nil _ _ _ rl widths D Rn Eg)|]. cbv beta iota zeta. rewrite <- Eg. clear Eg.
    rewrite first_blocks_index, first_blocks_lens by assumption.
    destruct (@normalize_ok _ _ _ leqb heqb leqb_ok heqb_ok D nparts minrow mincol rl widths W Hn Hr Hc Rn Wn Sr Sw) as (rl' & cl' & -> & Rn' & Cn' & Sr' & Sc').
    cbn [rbind].
    assert (Hd : holds (mkpf (cut_table rl' cl' D) (Some (dindex D)) (Some cols) (Some rl') (Some cl')) D rl' cl')
      by (apply holds_intro; auto).
    destruct (@construct_gridded _ _ _ _ D rl' cl' (proj1 Hd) Rn' Cn') as (f' & rl2 & cl2 & -> & G & _ & _ & Pi & Pc).
    exists f', rl2, cl2. split; [reflexivity|]. split; [|rewrite Pi, Pc; cbn; split; discriminate].
    split; [exact G|]. rewrite Pi, Pc. cbn. auto. Qed.

  Lemma read_parquet_table nparts minrow mincol : 0 < nparts -> 0 < minrow -> 0 < mincol ->
    Forall (fun r => length (snd r) = length cols) (concat (concat files)) ->
    cols = [] \/ concat files <> [] ->
    exists f, read_parquet leqb heqb cols files nparts minrow mincol = Ok f
      /\ pf_to_pandas leqb heqb f = Ok (dataset_table cols files)
      /\ (cols <> [] -> exists rl cl, holds f (dataset_table cols files) rl cl).
  Proof. intros Hn Hr Hc Rect Hne. destruct cols as [|c0 cs] eqn:Ec.
    - unfold read_parquet. destruct (@determine_ok nparts (map (@length _) files) Hn) as (parts & -> & _). cbn.
      eexists. split; [reflexivity|]. split.
      + unfold pf_to_pandas. cbn. f_equal. unfold df_of_labels, dataset_table. f_equal.
        revert Rect. generalize (concat (concat files)) as rows. clear. induction rows as [|[l r] rows IH]; intros F; [reflexivity|].
        inversion F; subst. destruct r; [|discriminate]. cbn. f_equal. now apply IH.
      + easy.
    - rewrite <- Ec in *. destruct Hne as [Hne|Hne]; [subst; easy|].
      destruct (@read_parquet_ok nparts minrow mincol Hn Hr Hc Rect ltac:(subst; discriminate) Hne) as (f & rl & cl & E & Hd & Pi & Pc).
      exists f. split; [exact E|]. split; [|eauto]. eapply pf_to_pandas_holds; eauto. Qed.
End Parquet.
